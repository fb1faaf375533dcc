(** Learning the structure and the parameters. *)
From Verif Require Import MemoryModel MemorySpec MemoryProofs MemoryProofs2.

Lemma wp_size_of l ns es m k h : own m k h -> net_at l ns es ∈ m -> wp (size_of (PTo l)) (fun n h' => n = length ns /\ own m k h') h.
Proof. intros H Hi. unfold size_of. step wp_network_of as [-> H1]; [exact H|exact Hi|]. apply wp_ret. cbn. by rewrite fmap_length. Qed.
Lemma wp_add_root l ns es roots m k h :
  own (net_at l ns es :: nblock ns ++ m) k h -> wired ns es -> Forall (fun i => i < length ns) roots ->
  wp (add_root (PTo l) roots) (fun _ h' => exists r es', wired (ns ++ [r]) es' /\ own (net_at l (ns ++ [r]) es' :: nblock (ns ++ [r]) ++ m) k h') h.
Proof.
  intros H W B. unfold add_root. eapply wp_bind; [eapply calm_scratch; exact H|]. intros [] h1 H1.
  eapply wp_bind; [eapply wp_use_network; [exact H1|inm| |exact W]|].
  { intros x Hx. apply elem_of_list_further, elem_of_app. left. by apply nblock_in. }
  intros [] h2 H2. step wp_new as (r & -> & H3); [exact H2|].
  eapply wp_bind.
  - apply (wp_collect _ (fun es' h => wired (ns ++ [r]) es' /\ own ((r, ONode) :: net_at l ns es :: nblock ns ++ m) k h) roots []); [split; [constructor|done]|].
    intros i bs h4 Hi [W4 H4]. rewrite Forall_forall in B. destruct (lookup_lt_is_Some_2 ns i (B i Hi)) as [x Hx].
    step wp_find_node as [-> H5]; [exact H4|inm|exact Hx|].
    eapply wp_bind; [eapply wp_touch; [exact H5|]|].
    { do 2 apply elem_of_list_further. apply elem_of_app. left. apply nblock_in. by eapply elem_of_list_lookup_2. }
    intros [] h6 H6. eapply wp_bind; [eapply wp_touch; [exact H6|inm]|]. intros [] h7 H7. apply wp_ret. split; [|done].
    apply Forall_app. split; [done|]. apply Forall_singleton. cbn. split; [exists r|exists x]; (split; [|done]); apply elem_of_app.
    + right. inm.
    + left. by eapply elem_of_list_lookup_2.
  - intros es' h4 [[W4 H4] _]. cbn [app] in *. step wp_network_of as [-> H5]; [exact H4|inm|]. cbn [fst snd].
    eapply wp_mono; [eapply (wp_assign _ l); [exact H5|apply Permutation_swap]|]. intros [] h6 H6.
    exists r, (es ++ es'). split; [apply Forall_app; split; [by apply wired_mono|done]|].
    eapply own_perm; [exact H6|]. unfold net_at. rewrite nblock_app, fmap_app. cbn [nblock fmap list_fmap]. perm.
Qed.
Lemma wp_learner_net b l m k h : own m k h -> (b, OLearner (PTo l)) ∈ m -> wp (learner_net (PTo b)) (fun p h' => p = PTo l /\ own m k h') h.
Proof. intros H Hi. unfold learner_net. step wp_deref as [-> H1]; [exact H|exact Hi|]. done. Qed.
Lemma wp_learn_structure b l d v root save r m k h :
  own (net_at l [] [] :: m) k h -> (b, OLearner (PTo l)) ∈ m -> readable d v m -> proper v r ->
  wp (learn_structure (PTo b) (PTo d) root save r)
    (fun _ h' => exists ns es, length ns = v + (if root then 1 else 0) /\ wired ns es /\ own (net_at l ns es :: nblock ns ++ m) k h') h.
Proof.
  intros H Hb R (P1 & P2 & P3). unfold learn_structure.
  step wp_learner_net as [-> H1]; [exact H|inm|].
  step wp_new as (t & -> & H2); [exact H1|].
  eapply wp_bind; [eapply wp_touch; [exact H2|inm]|]. intros [] h3 H3.
  pose proof R as (rr & a & c & ca & R1 & _).
  step wp_dataset_of as [-> H4]; [exact H3|inm|]. cbn [fst snd].
  eapply wp_bind; [eapply (wp_add_nodes l [] [] v ((t, OTimer) :: m)); eapply own_perm; [exact H4|perm]|].
  intros [] h5 (ns & L & H5). cbn [app] in H5.
  assert (Rd : readable d v (nblock ns ++ (t, OTimer) :: m)) by (eapply readable_sub; [|exact R]; intros z Hz; inm).
  assert (Nd : nodes_in ns (nblock ns ++ (t, OTimer) :: m)) by (by eapply nodes_block).
  eapply wp_bind; [eapply wp_set_edges; [exact H5|reflexivity|constructor|rewrite L; exact P1]|].
  intros [] h6 (es6 & W6 & H6).
  eapply wp_bind; [by eapply wp_level_zero|]. intros [] h7 (es7 & W7 & H7).
  eapply wp_bind.
  { apply (wp_each_same _ (fun h => exists es, wired ns es /\ own (net_at l ns es :: nblock ns ++ (t, OTimer) :: m) k h)); [by exists es7|].
    intros vs h8 _ (es8 & W8 & H8). by eapply wp_search. }
  intros [] h8 (es8 & W8 & H8).
  assert (Use : forall es h, wired ns es -> own (net_at l ns es :: nblock ns ++ (t, OTimer) :: m) k h ->
    wp (use_network (PTo l)) (fun _ => own (net_at l ns es :: nblock ns ++ (t, OTimer) :: m) k) h).
  { intros es h9 W9 H9. eapply wp_use_network; [exact H9|inm| |exact W9]. eapply nodes_sub; [|exact Nd]. intros z Hz. by apply elem_of_list_further. }
  eapply wp_bind; [by apply Use|]. intros [] h9 H9.
  eapply wp_bind; [eapply wp_set_edges; [exact H9|reflexivity|exact W8|rewrite L; exact P2]|]. intros [] h10 (es10 & W10 & H10).
  step wp_size_of as [-> H11]; [exact H10|inm|].
  eapply wp_bind; [apply (wp_repeat _ _ _ _ H11); intros; by apply calm_matrix|]. intros [] h12 H12.
  eapply wp_bind; [by apply Use|]. intros [] h13 H13.
  eapply wp_bind; [eapply wp_touch; [exact H13|inm]|]. intros [] h14 H14.
  eapply (wp_bind _ _ (fun _ h' => exists ns' es, length ns' = v + (if root then 1 else 0) /\ wired ns' es /\ own (net_at l ns' es :: nblock ns' ++ (t, OTimer) :: m) k h')).
  { destruct root; [|exists ns, es10; split_and!; [lia|done|done]].
    eapply wp_mono; [eapply wp_add_root; [exact H14|exact W10|rewrite L; exact P3]|].
    intros [] h15 (x & es' & W15 & H15). exists (ns ++ [x]), es'. rewrite app_length. cbn [length]. split_and!; [lia|done|done]. }
  intros [] h15 (ns' & es & L' & W15 & H15).
  step wp_size_of as [-> H16]; [exact H15|inm|].
  eapply (wp_bind _ _ (fun _ => own (net_at l ns' es :: nblock ns' ++ (t, OTimer) :: m) k)).
  { destruct save; [|done]. eapply wp_bind; [eapply wp_use_network; [exact H16|inm| |exact W15]|].
    { intros z Hz. apply elem_of_list_further, elem_of_app. left. by apply nblock_in. }
    intros [] h17 H17. destruct (r_topo r); [|done]. by apply calm_matrix. }
  intros [] h17 H17. eapply wp_bind; [eapply wp_touch; [exact H17|inm]|]. intros [] h18 H18.
  eapply wp_mono; [eapply (wp_delete_plain _ t OTimer (net_at l ns' es :: nblock ns' ++ m)); [exact H18|perm|done|done]|].
  intros [] h19 H19. exists ns', es. done.
Qed.
Lemma wp_compare l ns es ref m k h :
  own m k h -> net_at l ns es ∈ m -> nodes_in ns m -> wired ns es -> proper_reference ref ->
  wp (compare false (PTo l) ref) (fun _ => own m k) h.
Proof.
  intros H Hi Hn W P. destruct ref as [[n lst]|]; [|done]. unfold compare, new_network.
  step wp_new as (x & -> & H1); [exact H|].
  eapply wp_bind; [eapply (wp_add_nodes x [] [] n m); exact H1|]. intros [] h2 (ns2 & L2 & H2). cbn [app] in H2.
  eapply wp_bind; [eapply wp_set_edges; [exact H2|reflexivity|constructor|rewrite L2; exact P]|]. intros [] h3 (es3 & W3 & H3).
  eapply wp_bind; [eapply wp_use_network; [exact H3|inm| |exact W]|].
  { eapply nodes_sub; [|exact Hn]. intros z Hz. inm. }
  intros [] h4 H4. eapply wp_bind; [by apply calm_matrix|]. intros [] h5 H5.
  eapply wp_bind; [eapply wp_use_network; [exact H5|inm| |exact W3]|].
  { intros z Hz. apply elem_of_list_further, elem_of_app. left. by apply nblock_in. }
  intros [] h6 H6. eapply wp_delete_network; [exact H6|reflexivity].
Qed.
Lemma wp_delete_learner b l ns es m m' k h :
  own m' k h -> m' ≡ₚ (b, OLearner (PTo l)) :: net_at l ns es :: nblock ns ++ m -> wp (delete_learner false (PTo b)) (fun _ => own m k) h.
Proof.
  intros H E. eapply own_perm in H; [|exact E]. unfold delete_learner. step wp_victim as [-> H1]; [exact H|inm|]. cbn beta iota.
  eapply wp_bind; [eapply (wp_delete_network l ns es ((b, OLearner (PTo l)) :: m)); [exact H1|perm]|].
  intros [] h2 H2. eapply wp_release; [exact H2|reflexivity].
Qed.

Lemma with_parents_S n parents : with_parents (S n) parents = with_parents n parents + (if parents n then 1 else 0).
Proof.
  unfold with_parents. rewrite seq_S, filter_app, app_length. cbn. f_equal. destruct (parents n) eqn:E.
  - by rewrite decide_True.
  - by rewrite decide_False.
Qed.
Lemma wp_params_net b l m k h : own m k h -> (b, OParams (PTo l)) ∈ m -> wp (params_net (PTo b)) (fun p h' => p = PTo l /\ own m k h') h.
Proof. intros H Hi. unfold params_net. step wp_deref as [-> H1]; [exact H|exact Hi|]. done. Qed.
Lemma wp_learn_parameters b l ns es d v save parents m k h :
  own m k h -> (b, OParams (PTo l)) ∈ m -> net_at l ns es ∈ m -> nodes_in ns m -> readable d v m -> length ns = v \/ length ns = v + 1 ->
  wp (learn_parameters (PTo b) (PTo d) save parents) (fun _ => own m (KTimer :: saved_arrays save (length ns) parents ++ k)) h.
Proof.
  intros H Hb Hi Hn R L. unfold learn_parameters.
  step wp_params_net as [-> H1]; [exact H|exact Hb|].
  step wp_new as (t & -> & H2); [exact H1|].
  eapply wp_bind; [eapply wp_touch; [exact H2|inm]|]. intros [] h3 H3.
  pose proof R as (rr & a & c & ca & R1 & _).
  step wp_dataset_of as [-> H4]; [exact H3|inm|]. cbn beta iota.
  assert (Rd : readable d v ((t, OTimer) :: m)) by (eapply readable_sub; [|exact R]; intros z Hz; inm).
  assert (Nd : nodes_in ns ((t, OTimer) :: m)) by (eapply nodes_sub; [|exact Hn]; intros z Hz; inm).
  eapply wp_bind.
  { apply (wp_each_same _ (own ((t, OTimer) :: m) k)); [exact H4|].
    intros i h5 Hi5%elem_of_seq H5. destruct (lookup_lt_is_Some_2 ns i) as [x Hx]; [lia|].
    step wp_find_node as [-> H6]; [exact H5|inm|exact Hx|].
    eapply wp_bind; [eapply wp_touch; [exact H6|apply Nd; by eapply elem_of_list_lookup_2]|]. intros [] h7 H7.
    destruct (parents i); [|by eapply wp_read_columns].
    apply wp_repeat; [exact H7|]. intros h8 H8. eapply wp_bind; [by eapply wp_read_columns|]. intros [] h9 H9. by apply calm_scratch. }
  intros [] h5 H5. step wp_size_of as [-> H6]; [exact H5|inm|].
  eapply (wp_bind _ _ (fun _ => own ((t, OTimer) :: m) k)).
  { case_bool_decide; [done|]. destruct (lookup_lt_is_Some_2 ns v) as [x Hx]; [lia|].
    step wp_find_node as [-> H7]; [exact H6|inm|exact Hx|]. eapply wp_touch; [exact H7|apply Nd; by eapply elem_of_list_lookup_2]. }
  intros [] h7 H7. eapply wp_bind; [eapply wp_touch; [exact H7|inm]|]. intros [] h8 H8.
  apply own_forget in H8. cbn [kind_of] in H8. unfold saved_arrays. destruct save; [|exact H8].
  eapply wp_mono.
  - apply (wp_each_seq _ (fun i => own m (replicate (with_parents i parents) KInts ++ KTimer :: k))).
    + exact H8.
    + intros i h9 Hi9 H9. destruct (lookup_lt_is_Some_2 ns i) as [x Hx]; [lia|].
      step wp_find_node as [-> H10]; [exact H9|exact Hi|exact Hx|].
      eapply wp_bind; [eapply wp_touch; [exact H10|apply Hn; by eapply elem_of_list_lookup_2]|]. intros [] h11 H11.
      rewrite with_parents_S. destruct (parents i).
      * step wp_new_ints as (q & -> & H12); [exact H11|]. eapply wp_mono; [eapply wp_touch; [exact H12|inm]|].
        intros [] h13 H13. apply own_forget in H13. cbn [kind_of] in H13. rewrite Nat.add_1_r. cbn [replicate app]. exact H13.
      * rewrite Nat.add_0_r. exact H11.
  - cbn [Nat.add]. intros [] h9 H9. eapply own_kinds; [exact H9|]. perm.
Qed.
