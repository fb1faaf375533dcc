(** Datasets, networks, tests and the search own what they use and give back what they take. *)
From Verif Require Import MemoryModel MemorySpec MemoryProofs.

(** ** Datasets *)
Lemma wp_skip m k h : own m k h -> wp (ret tt) (fun _ => own m k) h.
Proof. done. Qed.
Definition training (d r v a : nat) (ra : list nat) (c : nat) (ca : list nat) : list (nat * object) :=
  (d, ODataset r v (PTo a) (PTo c)) :: matrix a ra ++ matrix c ca.
Definition readable (d v : nat) (m : list (nat * object)) : Prop :=
  exists r a c ca, (d, ODataset r v a (PTo c)) ∈ m /\ (c, OPointers (PTo <$> ca)) ∈ m /\ forall l, l ∈ ca -> (l, OInts) ∈ m.
Lemma readable_sub d v m m' : m ⊆ m' -> readable d v m -> readable d v m'.
Proof. intros S (r & a & c & ca & H1 & H2 & H3). exists r, a, c, ca. split_and!; [by apply S..|]. intros l Hl. by apply S, H3. Qed.
Lemma training_readable d r v a ra c ca m : readable d v (training d r v a ra c ca ++ m).
Proof.
  exists r, (PTo a), c, ca. unfold training. split_and!; [inm|unfold matrix; inm|].
  intros l Hl. apply elem_of_app. left. apply elem_of_list_further, elem_of_app. right. by apply matrix_rows.
Qed.
Lemma wp_dataset_of d r v a c m k h : own m k h -> (d, ODataset r v a c) ∈ m -> wp (dataset_of (PTo d)) (fun x h' => x = (r, v, a, c) /\ own m k h') h.
Proof. intros H Hi. unfold dataset_of. step wp_deref as [-> H1]; [exact H|exact Hi|]. done. Qed.
Lemma wp_read_columns d v m k h : own m k h -> readable d v m -> wp (read_columns (PTo d)) (fun _ => own m k) h.
Proof.
  intros H (r & a & c & ca & H1 & H2 & H3). unfold read_columns. step wp_dataset_of as [-> H4]; [exact H|exact H1|].
  cbn beta iota. by eapply wp_touch_rows.
Qed.
Lemma wp_load_training d r v r0 v0 m k h :
  own ((d, ODataset r0 v0 PNull PNull) :: m) k h ->
  wp (load_training (PTo d) r v) (fun _ h' => exists a ra c ca, length ra = r /\ length ca = v /\ own (training d r v a ra c ca ++ m) k h') h.
Proof.
  intros H. unfold load_training. step wp_dataset_of as [-> H1]; [exact H|inm|]. cbn beta iota.
  eapply wp_bind; [eapply wp_assign; [exact H1|apply Permutation_refl]|]. intros [] h2 H2.
  unfold vector_to_array. eapply wp_bind.
  { step wp_dataset_of as [-> H3]; [exact H2|inm|]. cbn beta iota.
    step wp_new_rows as (a & ra & -> & La & H4); [exact H3|].
    eapply wp_bind; [eapply (wp_touch_rows a ra); [exact H4|unfold matrix; inm|]|].
    { intros l Hl. apply elem_of_app. left. by apply matrix_rows. }
    intros [] h5 H5. eapply wp_mono; [eapply (wp_assign _ d); [exact H5|symmetry; apply Permutation_middle]|].
    intros [] h6 H6. instantiate (1 := fun _ h' => exists a ra, length ra = r /\ own ((d, ODataset r v (PTo a) PNull) :: matrix a ra ++ m) k h').
    exists a, ra. done. }
  intros [] h3 (a & ra & La & H3). unfold row_to_column.
  step wp_dataset_of as [-> H4]; [exact H3|inm|]. cbn beta iota.
  step wp_new_rows as (c & ca & -> & Lc & H5); [exact H4|].
  eapply wp_bind; [instantiate (1 := fun _ => own (matrix c ca ++ (d, ODataset r v (PTo a) PNull) :: matrix a ra ++ m) k)|].
  { case_bool_decide; [done|]. eapply (wp_touch_rows a ra); [exact H5|unfold matrix; inm|].
    intros l Hl. apply elem_of_app. right. apply elem_of_list_further, elem_of_app. left. by apply matrix_rows. }
  intros [] h6 H6. eapply wp_bind; [eapply (wp_touch_rows c ca); [exact H6|unfold matrix; inm|]|].
  { intros l Hl. apply elem_of_app. left. by apply matrix_rows. }
  intros [] h7 H7. eapply wp_mono; [eapply (wp_assign _ d); [exact H7|symmetry; apply Permutation_middle]|].
  intros [] h8 H8. exists a, ra, c, ca. split_and!; [done..|]. eapply own_perm; [exact H8|]. unfold training. perm.
Qed.
Lemma wp_load_testing d r r0 v a c m k h :
  own ((d, ODataset r0 v a c) :: m) k h -> wp (load_testing (PTo d) r) (fun _ => own ((d, ODataset r v a c) :: m) k) h.
Proof.
  intros H. unfold load_testing. step wp_dataset_of as [-> H1]; [exact H|inm|]. cbn beta iota.
  eapply wp_assign; [exact H1|reflexivity].
Qed.
Lemma wp_delete_training d r v a ra c ca m m' k h :
  own m' k h -> m' ≡ₚ training d r v a ra c ca ++ m -> length ra = r -> length ca = v -> wp (delete_dataset (PTo d)) (fun _ => own m k) h.
Proof.
  intros H E La Lc. eapply own_perm in H; [|exact E]. unfold delete_dataset.
  step wp_victim as [-> H1]; [exact H|unfold training; inm|]. cbn beta iota.
  rewrite !bool_decide_false by done. eapply wp_bind.
  { eapply wp_bind; [eapply (wp_delete_rows a ra r ((d, ODataset r v (PTo a) (PTo c)) :: matrix c ca ++ m)); [exact H1|unfold training; perm|done]|].
    intros [] h2 H2. eapply wp_delete_array; [exact H2|reflexivity|done]. }
  intros [] h2 H2. eapply wp_bind.
  { eapply wp_bind; [eapply (wp_delete_rows c ca v ((d, ODataset r v (PTo a) (PTo c)) :: m)); [exact H2|perm|done]|].
    intros [] h3 H3. eapply wp_delete_array; [exact H3|reflexivity|done]. }
  intros [] h3 H3. eapply wp_release; [exact H3|reflexivity].
Qed.
Lemma wp_delete_testing d r v m m' k h :
  own m' k h -> m' ≡ₚ (d, ODataset r v PNull PNull) :: m -> wp (delete_dataset (PTo d)) (fun _ => own m k) h.
Proof.
  intros H E. eapply own_perm in H; [|exact E]. unfold delete_dataset.
  step wp_victim as [-> H1]; [exact H|inm|]. cbn beta iota. rewrite !bool_decide_true by done.
  eapply wp_bind; [eapply wp_skip; exact H1|]. intros [] h2 H2. eapply wp_bind; [eapply wp_skip; exact H2|].
  intros [] h3 H3. eapply wp_release; [exact H3|reflexivity].
Qed.

(** ** Networks *)
Definition nblock (ns : list nat) : list (nat * object) := (fun l => (l, ONode)) <$> ns.
Lemma nblock_app a b : nblock (a ++ b) = nblock a ++ nblock b.
Proof. apply fmap_app. Qed.
Lemma nblock_in l ls : l ∈ ls -> (l, ONode) ∈ nblock ls.
Proof. intros H. by apply (elem_of_list_fmap_1 (fun l => (l, ONode))). Qed.
Definition wired (ns : list nat) (es : list edge) : Prop :=
  Forall (fun e => (exists l, l ∈ ns /\ e_node1 e = PTo l) /\ (exists l, l ∈ ns /\ e_node2 e = PTo l)) es.
Definition net_at (l : nat) (ns : list nat) (es : list edge) : nat * object := (l, ONetwork (PTo <$> ns) es).
Definition nodes_in (ns : list nat) (m : list (nat * object)) : Prop := forall l, l ∈ ns -> (l, ONode) ∈ m.
Lemma wired_mono ns ns' es : wired ns es -> wired (ns ++ ns') es.
Proof.
  intros H. eapply Forall_impl; [exact H|]. cbn. intros e [(l1 & ? & ?) (l2 & ? & ?)].
  split; [exists l1|exists l2]; (split; [apply elem_of_app; by left|done]).
Qed.
Lemma nodes_block ns m m' : m ≡ₚ nblock ns ++ m' -> nodes_in ns m.
Proof. intros E l Hl. rewrite E. apply elem_of_app. left. by apply nblock_in. Qed.
Lemma nodes_sub ns m m' : m ⊆ m' -> nodes_in ns m -> nodes_in ns m'.
Proof. intros S H l Hl. by apply S, H. Qed.
Lemma wp_network_of l ns es m k h : own m k h -> net_at l ns es ∈ m -> wp (network_of (PTo l)) (fun x h' => x = (PTo <$> ns, es) /\ own m k h') h.
Proof. intros H Hi. unfold network_of. step wp_deref as [-> H1]; [exact H|exact Hi|]. done. Qed.
Lemma wp_add_nodes l ns es n m k h :
  own (net_at l ns es :: nblock ns ++ m) k h ->
  wp (add_nodes (PTo l) n) (fun _ h' => exists ns', length ns' = n /\ own (net_at l (ns ++ ns') es :: nblock (ns ++ ns') ++ m) k h') h.
Proof.
  intros H. unfold add_nodes. eapply wp_mono.
  - apply (wp_each_seq _ (fun i h => exists ns', length ns' = i /\ own (net_at l (ns ++ ns') es :: nblock (ns ++ ns') ++ m) k h)).
    + exists []. rewrite app_nil_r. done.
    + intros i h1 Hi (ns' & L & H1). step wp_new as (x & -> & H2); [exact H1|].
      step wp_network_of as [-> H3]; [exact H2|inm|]. cbn [fst snd].
      eapply wp_mono; [eapply (wp_assign _ l); [exact H3|apply Permutation_swap]|].
      intros [] h4 H4. exists (ns' ++ [x]). rewrite app_length. cbn [length]. split; [lia|].
      rewrite (assoc_L (++) ns), nblock_app. eapply own_perm; [exact H4|]. unfold net_at. rewrite (fmap_app PTo (ns ++ ns')). cbn [nblock fmap list_fmap]. perm.
  - cbn. done.
Qed.
Lemma wp_use_network l ns es m k h :
  own m k h -> net_at l ns es ∈ m -> nodes_in ns m -> wired ns es -> wp (use_network (PTo l)) (fun _ => own m k) h.
Proof.
  intros H Hi Hn W. unfold use_network. step wp_network_of as [-> H1]; [exact H|exact Hi|]. cbn [fst snd].
  eapply wp_bind; [apply (wp_touch_all ns m k _ (fun _ => ONode)); [exact H1|exact Hn]|]. intros [] h2 H2.
  apply wp_each_same; [done|]. intros e h3 He H3. unfold wired in W. rewrite Forall_forall in W. destruct (W e He) as [(a & Ha & ->) (b & Hb & ->)].
  eapply wp_bind; [eapply wp_touch; [exact H3|by apply Hn]|]. intros [] h4 H4. eapply wp_touch; [exact H4|by apply Hn].
Qed.
Lemma wp_find_node l ns es i x m k h :
  own m k h -> net_at l ns es ∈ m -> ns !! i = Some x -> wp (find_node (PTo l) i) (fun p h' => p = PTo x /\ own m k h') h.
Proof.
  intros H Hi Hx. unfold find_node. step wp_network_of as [-> H1]; [exact H|exact Hi|]. cbn [fst].
  rewrite list_lookup_fmap, Hx. cbn. done.
Qed.
Lemma wp_set_edges l ns es keep lst m m' k h :
  own m' k h -> m' ≡ₚ net_at l ns es :: m -> wired ns es -> below_all (length ns) lst ->
  wp (set_edges (PTo l) keep lst) (fun _ h' => exists es', wired ns es' /\ own (net_at l ns es' :: m) k h') h.
Proof.
  intros H E W B. eapply own_perm in H; [|exact E]. clear E m'. unfold set_edges.
  step wp_network_of as [-> H1]; [exact H|inm|]. cbn [fst snd].
  eapply wp_bind.
  - apply (wp_collect _ (fun es' h => wired ns es' /\ own (net_at l ns es :: m) k h) lst []); [split; [constructor|done]|].
    intros [a b] bs h2 Hab [W2 H2]. unfold below_all in B. rewrite Forall_forall in B. destruct (B _ Hab) as [Ba Bb]. cbn [fst snd] in *.
    destruct (lookup_lt_is_Some_2 ns a Ba) as [x Hx]. destruct (lookup_lt_is_Some_2 ns b Bb) as [y Hy].
    step wp_find_node as [-> H3]; [exact H2|inm|exact Hx|].
    step wp_find_node as [-> H4]; [exact H3|inm|exact Hy|].
    apply wp_ret. split; [|done]. apply Forall_app. split; [done|]. apply Forall_singleton. cbn.
    split; [exists x|exists y]; (split; [eapply elem_of_list_lookup_2; eassumption|done]).
  - intros es' h2 [[W2 H2] _]. cbn [app] in *. eapply wp_mono; [eapply wp_assign; [exact H2|apply Permutation_refl]|].
    intros [] h3 H3. eexists. split; [|exact H3]. apply Forall_app. split; [|done].
    unfold wired in W. rewrite Forall_forall in W. apply Forall_forall. intros e ([i e'] & -> & [_ He]%elem_of_list_filter)%elem_of_list_fmap.
    apply W. apply elem_of_lookup_imap in He as (j & e1 & [= -> ->] & He). by eapply elem_of_list_lookup_2.
Qed.
Lemma wp_delete_network l ns es m m' k h :
  own m' k h -> m' ≡ₚ net_at l ns es :: nblock ns ++ m -> wp (delete_network false (PTo l)) (fun _ => own m k) h.
Proof.
  intros H E. eapply own_perm in H; [|exact E]. unfold delete_network.
  step wp_victim as [-> H1]; [exact H|unfold net_at; inm|]. cbn beta iota. unfold net_at in H1.
  eapply wp_bind.
  - instantiate (1 := fun _ => own ((l, ONetwork (PTo <$> ns) es) :: m) k).
    generalize (ONetwork (PTo <$> ns) es) as o, H1. clear. intros o. revert h0. induction ns as [|n ns IH]; intros h H; [done|].
    cbn [fmap list_fmap each]. apply (wp_bind _ _ (fun _ => own ((l, o) :: nblock ns ++ m) k)); [|intros [] h1 H1; apply IH; exact H1].
    unfold delete_node. step wp_victim as [-> H2]; [exact H|cbn [nblock fmap list_fmap]; inm|]. cbn beta iota.
    eapply wp_release; [exact H2|]. cbn [nblock fmap list_fmap app]. apply Permutation_swap.
  - intros [] h2 H2. eapply wp_release; [exact H2|reflexivity].
Qed.

(** ** Tests *)
Definition table_object (t : table_kind) (ps : list ptr) : object := match t with TwoWay => OCounts2 ps | ThreeWay _ => OCounts3 ps | Grouped _ => OGroup ps end.
Lemma wp_new_table t m k h :
  own m k h -> wp (new_table t) (fun p h' => exists l ls, p = PTo l /\ length ls = array_count t /\ own ((l, table_object t (PTo <$> ls)) :: block ls ++ m) k h') h.
Proof.
  intros H. unfold new_table. step wp_collect_ints as (ls & -> & L & H1); [exact H|]. rewrite seq_length in L.
  eapply wp_mono; [eapply wp_new; exact H1|]. intros p h2 (l & -> & H2). exists l, ls. done.
Qed.
Lemma arrays_table t ps : arrays_of (table_object t ps) = Some ps.
Proof. by destruct t. Qed.
Lemma wp_use_table l t ls m k h :
  own m k h -> (l, table_object t (PTo <$> ls)) ∈ m -> (forall x, x ∈ ls -> (x, OInts) ∈ m) -> wp (use_table (PTo l)) (fun _ => own m k) h.
Proof.
  intros H Hi Hl. unfold use_table. step wp_deref as [-> H1]; [exact H|exact Hi|]. rewrite arrays_table.
  by apply (wp_touch_all _ _ _ _ (fun _ => OInts)).
Qed.
Lemma wp_delete_table l t ls m m' k h :
  own m' k h -> m' ≡ₚ (l, table_object t (PTo <$> ls)) :: block ls ++ m -> wp (delete_table (PTo l)) (fun _ => own m k) h.
Proof.
  intros H E. eapply own_perm in H; [|exact E]. unfold delete_table.
  step wp_victim as [-> H1]; [exact H|inm|]. cbn beta iota. rewrite arrays_table.
  eapply wp_bind; [eapply (wp_delete_block ls ((l, table_object t (PTo <$> ls)) :: m)); [exact H1|perm]|].
  intros [] h2 H2. eapply wp_release; [exact H2|reflexivity].
Qed.
Lemma kinds_block ls : kinds (block ls) = replicate (length ls) KInts.
Proof. unfold kinds, block. rewrite <-list_fmap_compose. induction ls; cbn; [done|]. by f_equal. Qed.
Lemma wp_compute t f g x d v m k h :
  own m k h -> (x, OTest (PTo d)) ∈ m -> readable d v m -> wp (compute t f g (PTo x)) (fun _ => own m k) h.
Proof.
  intros H Hi R. unfold compute. step wp_deref as [-> H1]; [exact H|exact Hi|]. cbn beta iota.
  pose proof R as (r1 & a & c & ca & R1 & _).
  step wp_dataset_of as [-> H2]; [exact H1|exact R1|].
  step wp_new_table as (l & ls & -> & L & H3); [exact H2|].
  eapply wp_bind; [eapply wp_read_columns; [exact H3|]|].
  { eapply readable_sub; [|exact R]. intros y Hy. inm. }
  intros [] h4 H4.
  assert (U : forall h, own ((l, table_object t (PTo <$> ls)) :: block ls ++ m) k h -> wp (use_table (PTo l)) (fun _ => own ((l, table_object t (PTo <$> ls)) :: block ls ++ m) k) h).
  { intros h5 H5. eapply wp_use_table; [exact H5|inm|]. intros y Hy. apply elem_of_list_further, elem_of_app. left. by apply block_in. }
  eapply wp_bind; [apply U, H4|]. intros [] h5 H5.
  eapply wp_bind; [instantiate (1 := fun _ => own ((l, table_object t (PTo <$> ls)) :: block ls ++ m) k)|].
  { destruct t; [done..|]. eapply wp_bind; [eapply calm_scratch; exact H5|]. intros [] h6 H6.
    eapply wp_bind; [eapply calm_scratch; exact H6|]. intros [] h7 H7. apply wp_repeat; [exact H7|].
    intros h8 H8. eapply wp_bind; [eapply calm_scratch; exact H8|]. intros [] h9 H9. apply U, H9. }
  intros [] h6 H6.
  assert (D : lost (t, f) = [] ->
    wp (note_test t f ;; delete_table (PTo l)) (fun _ => own m k) h6).
  { intros E. eapply wp_bind; [eapply (wp_note t f [] ((l, table_object t (PTo <$> ls)) :: block ls ++ m)); [exact H6|done|by rewrite E]|]. intros [] h7 H7.
    eapply wp_delete_table; [exact H7|reflexivity]. }
  assert (N : lost (t, f) = kind_of (table_object t (PTo <$> ls)) :: replicate (length ls) KInts ->
    wp (note_test t f ;; ret tt) (fun _ => own m k) h6).
  { intros E. eapply wp_bind; [eapply (wp_note t f ((l, table_object t (PTo <$> ls)) :: block ls) m); [exact H6|perm|]|done].
    rewrite E. unfold kinds. cbn. constructor. fold (kinds (block ls)). by rewrite kinds_block. }
  rewrite L in N. destruct t as [|[]|], f; first [exact (D eq_refl) | exact (N eq_refl)].
Qed.
Lemma wp_ci_test t f g d v m k h : own m k h -> readable d v m -> wp (ci_test t f g (PTo d)) (fun _ => own m k) h.
Proof.
  intros H R. unfold ci_test. step wp_new as (x & -> & H1); [exact H|].
  eapply wp_bind; [eapply wp_compute; [exact H1|inm|]|].
  { eapply readable_sub; [|exact R]. intros y Hy. inm. }
  intros [] h2 H2. eapply wp_delete_plain; [exact H2|reflexivity|done|done].
Qed.

(** ** The search *)
Definition gen (e : edge) : list (nat * object) :=
  match e_stage e, e_cg e with SNode1, PTo l | SNode2, PTo l => [(l, OChoices)] | _, _ => [] end.
Definition good (e : edge) : Prop := match e_stage e with SNode1 | SNode2 => exists l, e_cg e = PTo l | _ => True end.
Definition same_ends (e e' : edge) : Prop := e_node1 e' = e_node1 e /\ e_node2 e' = e_node2 e.
Lemma wp_edge_at l ns es i e m k h : own m k h -> net_at l ns es ∈ m -> es !! i = Some e -> wp (edge_at (PTo l) i) (fun e' h' => e' = e /\ own m k h') h.
Proof. intros H Hi He. unfold edge_at. step wp_network_of as [-> H1]; [exact H|exact Hi|]. cbn [snd]. by apply wp_at. Qed.
Lemma wp_set_edge l ns es i e m m' k h : own m' k h -> m' ≡ₚ net_at l ns es :: m -> wp (set_edge (PTo l) i e) (fun _ => own (net_at l ns (<[i := e]> es) :: m) k) h.
Proof. intros H E. unfold set_edge. step wp_network_of as [-> H1]; [exact H|rewrite E; inm|]. cbn [fst snd]. eapply wp_assign; [exact H1|exact E]. Qed.
Lemma wp_start l ns es i e s m k h :
  own (net_at l ns es :: m) k h -> es !! i = Some e ->
  wp (start (PTo l) i s) (fun _ h' => exists g, own (net_at l ns (<[i := with_choices e (PTo g) s]> es) :: (g, OChoices) :: m) k h') h.
Proof.
  intros H He. unfold start. step wp_new as (g & -> & H1); [exact H|].
  step wp_edge_at as [-> H2]; [exact H1|inm|exact He|].
  eapply wp_mono; [eapply wp_set_edge; [exact H2|apply Permutation_swap]|]. intros [] h3 H3. by exists g.
Qed.
Lemma wp_stop l ns es i e g m k h :
  own (net_at l ns es :: (g, OChoices) :: m) k h -> es !! i = Some e -> e_cg e = PTo g ->
  wp (stop (PTo l) i) (fun _ => own (net_at l ns (<[i := with_choices e PNull (e_stage e)]> es) :: m) k) h.
Proof.
  intros H He Hg. unfold stop. step wp_edge_at as [-> H1]; [exact H|inm|exact He|]. rewrite Hg.
  eapply wp_bind; [eapply wp_delete_plain; [exact H1|apply Permutation_swap|done|done]|]. intros [] h2 H2.
  eapply wp_set_edge; [exact H2|reflexivity].
Qed.
Lemma wp_testing l ns es i e g d v a m k h :
  own (net_at l ns es :: (g, OChoices) :: m) k h -> es !! i = Some e -> e_cg e = PTo g ->
  wired ns es -> nodes_in ns m -> readable d v m ->
  wp (testing (PTo l) (PTo d) i a) (fun _ => own (net_at l ns es :: (g, OChoices) :: m) k) h.
Proof.
  intros H He Hg W Hn R. unfold testing. step wp_edge_at as [-> H1]; [exact H|inm|exact He|]. rewrite Hg.
  eapply wp_bind; [eapply wp_touch; [exact H1|inm]|]. intros [] h2 H2.
  unfold wired in W. rewrite Forall_lookup in W. destruct (W i e He) as [(x & Hx & ->) (y & Hy & ->)].
  eapply wp_bind; [eapply wp_touch; [exact H2|do 2 apply elem_of_list_further; by apply Hn]|]. intros [] h3 H3.
  eapply wp_bind; [eapply wp_touch; [exact H3|do 2 apply elem_of_list_further; by apply Hn]|]. intros [] h4 H4.
  destruct (a_some a); [|done]. eapply wp_ci_test; [exact H4|]. eapply readable_sub; [|exact R]. intros z Hz. inm.
Qed.
Lemma wired_insert ns es i e e' : wired ns es -> es !! i = Some e -> same_ends e e' -> wired ns (<[i := e']> es).
Proof.
  intros W He [E1 E2]. apply Forall_insert; [done|]. unfold wired in W. rewrite Forall_lookup in W. rewrite E1, E2. by apply (W i).
Qed.
Definition checked (l : nat) (ns : list nat) (es : list edge) (i : nat) (e : edge) (m : list (nat * object)) (k : list kind) (again : bool) (h : heap) : Prop :=
  exists e', same_ends e e' /\ if again then good e' /\ own (net_at l ns (<[i := e']> es) :: gen e' ++ m) k h else own (net_at l ns (<[i := e']> es) :: m) k h.
Lemma wp_check_edge l ns es i e d v a m k h :
  own (net_at l ns es :: gen e ++ m) k h -> es !! i = Some e -> good e -> wired ns es -> nodes_in ns m -> readable d v m ->
  wp (check_edge (PTo l) (PTo d) i a) (checked l ns es i e m k) h.
Proof.
  intros H He Hgood W Hn R. unfold check_edge. cbv zeta.
  set (go := (testing (PTo l) (PTo d) i a ;; _)).
  set (give_up := (e0 <- edge_at (PTo l) i; set_edge (PTo l) i (with_mark e0 false) ;; ret false)).
  assert (Li : i < length es) by (by eapply lookup_lt_Some).
  assert (Go : forall e1 g h, same_ends e e1 -> e_cg e1 = PTo g -> (e_stage e1 = SNode1 \/ e_stage e1 = SNode2) ->
    own (net_at l ns (<[i := e1]> es) :: (g, OChoices) :: m) k h -> wp go (checked l ns es i e m k) h).
  { intros e1 g h1 S1 Hg Hs H1. unfold go.
    assert (L1 : forall e2, <[i := e2]> es !! i = Some e2) by (intros; by apply list_lookup_insert).
    eapply wp_bind; [eapply wp_testing; [exact H1|apply L1|exact Hg|by eapply wired_insert|exact Hn|exact R]|]. intros [] h2 H2.
    assert (Stop : forall h, own (net_at l ns (<[i := e1]> es) :: (g, OChoices) :: m) k h ->
      wp (stop (PTo l) i) (fun _ => own (net_at l ns (<[i := with_choices e1 PNull (e_stage e1)]> es) :: m) k) h).
    { intros h3 H3. eapply wp_mono; [eapply wp_stop; [exact H3|apply L1|exact Hg]|]. intros [] h4 H4. by rewrite list_insert_insert in H4. }
    destruct (a_some a && a_indep a).
    { eapply wp_bind; [apply Stop, H2|]. intros [] h3 H3. step wp_edge_at as [-> H4]; [exact H3|inm|apply L1|].
      eapply wp_bind; [eapply wp_set_edge; [exact H4|reflexivity]|]. intros [] h5 H5. apply wp_ret. rewrite list_insert_insert in H5.
      eexists. split; [|exact H5]. split; apply S1. }
    destruct (negb (a_finish a)).
    { apply wp_ret. exists e1. split; [done|]. split.
      - unfold good. rewrite Hg. destruct Hs as [-> | ->]; eauto.
      - unfold gen. rewrite Hg. destruct Hs as [-> | ->]; done. }
    step wp_edge_at as [-> H3]; [exact H2|inm|apply L1|].
    destruct Hs as [Hs|Hs]; rewrite Hs.
    - eapply wp_bind; [apply Stop, H3|]. intros [] h4 H4. step wp_edge_at as [-> H5]; [exact H4|inm|apply L1|].
      eapply wp_bind; [eapply wp_set_edge; [exact H5|reflexivity]|]. intros [] h6 H6. apply wp_ret. rewrite list_insert_insert in H6.
      eexists. split; [|split; [|exact H6]]; [split; apply S1|done].
    - eapply wp_bind; [apply Stop, H3|]. intros [] h4 H4. step wp_edge_at as [-> H5]; [exact H4|inm|apply L1|].
      eapply wp_bind; [eapply wp_set_edge; [exact H5|reflexivity]|]. intros [] h6 H6. apply wp_ret. rewrite list_insert_insert in H6.
      eexists. split; [|exact H6]. split; apply S1. }
  assert (Up : forall h, own (net_at l ns es :: m) k h -> wp give_up (checked l ns es i e m k) h).
  { intros h1 H1. unfold give_up. step wp_edge_at as [-> H2]; [exact H1|inm|exact He|].
    eapply wp_bind; [eapply wp_set_edge; [exact H2|reflexivity]|]. intros [] h3 H3. apply wp_ret. eexists. split; [|exact H3]. done. }
  assert (St : forall s h, (s = SNode1 \/ s = SNode2) -> own (net_at l ns es :: m) k h -> wp (start (PTo l) i s ;; go) (checked l ns es i e m k) h).
  { intros s h1 Hs H1. eapply wp_bind; [eapply wp_start; [exact H1|exact He]|]. intros [] h2 (g & H2).
    eapply Go; [| | |exact H2]; done. }
  clearbody go give_up.
  step wp_edge_at as [-> H1]; [exact H|inm|exact He|].
  pose proof W as W'. unfold wired in W'. rewrite Forall_lookup in W'. destruct (W' i e He) as [(x & Hx & E1) (y & Hy & E2)]. rewrite E1, E2.
  eapply wp_bind; [eapply wp_touch; [exact H1|apply elem_of_list_further, elem_of_app; right; by apply Hn]|]. intros [] h2 H2.
  eapply wp_bind; [eapply wp_touch; [exact H2|apply elem_of_list_further, elem_of_app; right; by apply Hn]|]. intros [] h3 H3.
  unfold gen in H3. unfold good in Hgood. destruct (e_stage e) eqn:Es.
  - destruct (a_first a); [apply St; [by left|exact H3]|]. destruct (a_second a); [apply St; [by right|exact H3]|]. apply Up, H3.
  - destruct Hgood as [g Hg]. rewrite Hg in H3. eapply (Go e g); [done|done|by left|]. rewrite list_insert_id by done. exact H3.
  - destruct (a_second a); [apply St; [by right|exact H3]|]. apply Up, H3.
  - destruct Hgood as [g Hg]. rewrite Hg in H3. eapply (Go e g); [done|done|by right|]. rewrite list_insert_id by done. exact H3.
Qed.

Definition gens (es : list edge) (i : nat) : list (nat * object) := match es !! i with Some e => gen e | None => [] end.
Lemma bind_take {A B} `{EqDecision A} (g : A -> list B) i (l : list A) :
  NoDup l -> i ∈ l -> l ≫= g ≡ₚ g i ++ (filter (fun j => j <> i) l ≫= g).
Proof.
  induction l as [|x l IH]; intros Hn Hi; [by apply elem_of_nil in Hi|]. apply NoDup_cons in Hn as [Hx Hn]. cbn [mbind list_bind].
  apply elem_of_cons in Hi as [-> |Hi].
  - rewrite filter_cons_False by naive_solver.
    replace (filter (fun j => j <> x) l) with l; [done|]. symmetry. clear -Hx. induction l as [|y l IH]; [done|].
    rewrite filter_cons_True; [|intros ->; apply Hx; inm]. f_equal. apply IH. intros H. apply Hx. inm.
  - rewrite filter_cons_True by (intros ->; done). cbn [mbind list_bind]. rewrite (IH Hn Hi).
    rewrite !(assoc_L (++)), (Permutation_app_comm (g x)). done.
Qed.
Lemma bind_same {A B} (f g : A -> list B) (l : list A) : (forall x, x ∈ l -> f x = g x) -> l ≫= f = l ≫= g.
Proof. induction l as [|x l IH]; intros H; [done|]. cbn. rewrite (H x) by inm. f_equal. apply IH. intros y Hy. apply H. inm. Qed.
Lemma wp_visits l ns d v vs pending es m k h :
  own (net_at l ns es :: (pending ≫= gens es) ++ m) k h -> NoDup pending ->
  (forall i, i ∈ pending -> exists e, es !! i = Some e /\ good e) -> wired ns es -> nodes_in ns m -> readable d v m ->
  wp (visits (PTo l) (PTo d) vs pending) (fun _ h' => exists es', wired ns es' /\ own (net_at l ns es' :: m) k h') h.
Proof.
  revert pending es h. induction vs as [|[i a] vs IH]; intros pending es h H Hd Hp W Hn R; cbn [visits].
  - case_bool_decide as E; [|done]. subst. apply wp_ret. exists es. done.
  - case_bool_decide as E; [|done]. destruct (Hp i E) as (e & He & Hg).
    set (rest := filter (fun j => j <> i) pending).
    assert (Hr : forall j, j ∈ rest -> j <> i /\ j ∈ pending) by (intros j Hj; by apply elem_of_list_filter in Hj).
    assert (Hg' : forall e' j, j ∈ rest -> gens (<[i := e']> es) j = gens es j).
    { intros e' j Hj. unfold gens. rewrite list_lookup_insert_ne; [done|]. apply Hr in Hj as [? _]. done. }
    eapply wp_bind.
    { eapply (wp_check_edge l ns es i e d v a ((rest ≫= gens es) ++ m)); [|exact He|exact Hg|exact W| |].
      - eapply own_perm; [exact H|]. rewrite (bind_take (gens es) i pending Hd E). fold rest. unfold gens at 1. rewrite He. perm.
      - eapply nodes_sub; [|exact Hn]. intros z Hz. inm.
      - eapply readable_sub; [|exact R]. intros z Hz. inm. }
    intros again h1 (e' & S1 & H1).
    assert (L : i < length es) by (by eapply lookup_lt_Some).
    assert (W1 : wired ns (<[i := e']> es)) by (by eapply wired_insert).
    destruct again.
    + destruct H1 as [G1 H1]. eapply IH; [|done| |exact W1|exact Hn|exact R].
      * eapply own_perm; [exact H1|]. rewrite (bind_take (gens (<[i := e']> es)) i pending Hd E). fold rest.
        rewrite (bind_same (gens (<[i := e']> es)) (gens es) rest) by (intros; by apply Hg').
        unfold gens at 2. rewrite list_lookup_insert by done. perm.
      * intros j Hj. destruct (decide (j = i)) as [-> |Hne]; [exists e'; by rewrite list_lookup_insert|].
        rewrite list_lookup_insert_ne by done. by apply Hp.
    + eapply IH; [| | |exact W1|exact Hn|exact R].
      * eapply own_perm; [exact H1|]. fold rest. rewrite (bind_same (gens (<[i := e']> es)) (gens es) rest) by (intros; by apply Hg'). perm.
      * by apply NoDup_filter.
      * intros j Hj. apply Hr in Hj as [Hne Hj]. rewrite list_lookup_insert_ne by done. by apply Hp.
Qed.
Lemma wired_filter ns es (P : edge -> Prop) `{forall e, Decision (P e)} : wired ns es -> wired ns (filter P es).
Proof. intros W. unfold wired in *. rewrite Forall_forall in W. apply Forall_forall. intros e [_ He]%elem_of_list_filter. by apply W. Qed.
Lemma wp_remove_marked l ns es m k h :
  own (net_at l ns es :: m) k h -> wired ns es -> wp (remove_marked (PTo l)) (fun _ h' => exists es', wired ns es' /\ own (net_at l ns es' :: m) k h') h.
Proof.
  intros H W. unfold remove_marked. step wp_network_of as [-> H1]; [exact H|inm|]. cbn [fst snd].
  eapply wp_mono; [eapply wp_assign; [exact H1|apply Permutation_refl]|]. intros [] h2 H2. eexists. split; [|exact H2]. by apply wired_filter.
Qed.
Lemma wp_search l ns es d v vs m k h :
  own (net_at l ns es :: m) k h -> wired ns es -> nodes_in ns m -> readable d v m ->
  wp (search_at_depth (PTo l) (PTo d) vs) (fun _ h' => exists es', wired ns es' /\ own (net_at l ns es' :: m) k h') h.
Proof.
  intros H W Hn R. unfold search_at_depth. step wp_network_of as [-> H1]; [exact H|inm|]. cbn [fst snd].
  eapply wp_bind; [eapply wp_assign; [exact H1|apply Permutation_refl]|]. intros [] h2 H2.
  set (es1 := (fun e => with_choices e (e_cg e) SNo) <$> es) in *.
  assert (W1 : wired ns es1). { unfold wired, es1. apply Forall_fmap. exact W. }
  eapply wp_bind; [eapply (wp_visits l ns d v vs (seq 0 (length es)) es1 m k)|].
  - eapply own_perm; [exact H2|]. replace (seq 0 (length es) ≫= gens es1) with (@nil (nat * object)); [done|].
    rewrite (bind_same _ (fun _ => []) (seq 0 (length es))); [by induction (seq 0 (length es))|].
    intros i _. unfold gens, es1. rewrite list_lookup_fmap. by destruct (es !! i).
  - apply NoDup_seq.
  - intros i Hi%elem_of_seq. destruct (lookup_lt_is_Some_2 es i) as [e He]; [lia|]. exists (with_choices e (e_cg e) SNo).
    unfold es1. by rewrite list_lookup_fmap, He.
  - done.
  - done.
  - done.
  - intros [] h3 (es2 & W2 & H3). by apply (wp_remove_marked l ns es2).
Qed.
Lemma wp_level_zero l ns es d v zero m k h :
  own (net_at l ns es :: m) k h -> wired ns es -> nodes_in ns m -> readable d v m ->
  wp (level_zero (PTo l) (PTo d) zero) (fun _ h' => exists es', wired ns es' /\ own (net_at l ns es' :: m) k h') h.
Proof.
  intros H W Hn R. unfold level_zero. step wp_network_of as [-> H1]; [exact H|inm|]. cbn [fst snd].
  eapply wp_bind.
  - apply (wp_each_same _ (fun h => exists es1, length es1 = length es /\ wired ns es1 /\ own (net_at l ns es1 :: m) k h)).
    + by exists es.
    + intros i h2 Hi%elem_of_seq (es1 & L & W1 & H2). destruct (lookup_lt_is_Some_2 es1 i) as [e He]; [lia|].
      step wp_edge_at as [-> H3]; [exact H2|inm|exact He|].
      pose proof W1 as W'. unfold wired in W'. rewrite Forall_lookup in W'. destruct (W' i e He) as [(x & Hx & E1) (y & Hy & E2)]. rewrite E1, E2.
      eapply wp_bind; [eapply wp_touch; [exact H3|apply elem_of_list_further; by apply Hn]|]. intros [] h4 H4.
      eapply wp_bind; [eapply wp_touch; [exact H4|apply elem_of_list_further; by apply Hn]|]. intros [] h5 H5.
      eapply wp_bind; [eapply wp_ci_test; [exact H5|eapply readable_sub; [|exact R]; intros z Hz; inm]|]. intros [] h6 H6.
      step wp_edge_at as [-> H7]; [exact H6|inm|exact He|].
      eapply wp_mono; [eapply wp_set_edge; [exact H7|reflexivity]|]. intros [] h8 H8.
      eexists. split; [|split; [|exact H8]]; [by rewrite insert_length|]. eapply wired_insert; [exact W1|exact He|]. by destruct (snd (zero i)).
  - intros [] h2 (es1 & L & W1 & H2). by apply (wp_remove_marked l ns es1).
Qed.
