(** The five jobs. *)
From Verif Require Import MemoryModel MemorySpec MemoryProofs MemoryProofs2 MemoryProofs3 MemoryProofs4 MemoryProofs5.

Lemma leaves_wp (job : prog unit) (g : heap -> list kind) :
  wp job (fun _ h => kinds (h_live h) ≡ₚ g h) nothing -> leaves job g.
Proof. done. Qed.
Lemma own_end k h : own [] k h -> kinds (h_live h) ≡ₚ k ++ lost_tables h.
Proof. intros (x & E & _ & Ek). rewrite app_nil_r in E. unfold kinds in *. by rewrite E. Qed.
Lemma wp_new_dataset v m k h :
  own m k h -> wp (new_dataset v) (fun p h' => exists d, p = PTo d /\ own ((d, ODataset 0 v PNull PNull) :: m) k h') h.
Proof. intros H. by apply wp_new. Qed.
Lemma wp_new_network m k h : own m k h -> wp new_network (fun p h' => exists l, p = PTo l /\ own (net_at l [] [] :: m) k h') h.
Proof. intros H. by apply wp_new. Qed.
Lemma nodes_mem ns m : nblock ns ⊆ m -> nodes_in ns m.
Proof. intros S l Hl. apply S. by apply nblock_in. Qed.

(** ** Programs that make no test *)
Definition steady {A} (p : prog A) : Prop := forall h, match p h with Done _ h' => h_tests h' = h_tests h | Fault f => f <> Unfinished end.
Lemma steady_ret {A} (a : A) : steady (ret a). Proof. done. Qed.
Lemma steady_fail {A} f : f <> Unfinished -> steady (@fail A f). Proof. intros H h. exact H. Qed.
Lemma steady_bind {A B} (p : prog A) (k : A -> prog B) : steady p -> (forall a, steady (k a)) -> steady (bind p k).
Proof.
  intros Hp Hk h. unfold bind. specialize (Hp h). destruct (p h) as [a h'|]; [|done]. specialize (Hk a h'). destruct (k a h'); [congruence|done].
Qed.
Lemma steady_each {A} (l : list A) f : (forall a, steady (f a)) -> steady (each l f).
Proof. intros H. induction l; [by apply steady_ret|]. by apply steady_bind. Qed.
Lemma steady_collect {A B} (l : list A) (f : A -> prog B) : (forall a, steady (f a)) -> steady (collect l f).
Proof. intros H. induction l; [by apply steady_ret|]. apply steady_bind; [done|]. intros b. apply steady_bind; [done|]. intros bs. by apply steady_ret. Qed.
Lemma steady_repeat n p : steady p -> steady (repeat_prog n p).
Proof. intros H. induction n; [by apply steady_ret|]. by apply steady_bind. Qed.
Lemma steady_new o : steady (new o). Proof. done. Qed.
Lemma steady_deref p : steady (deref p). Proof. intros h. destruct p; cbn; [done..|]. by destruct (find_object _ _). Qed.
Lemma steady_victim p : steady (victim p). Proof. intros h. destruct p; cbn; [done..|]. by destruct (find_object _ _). Qed.
Lemma steady_release p : steady (release p). Proof. intros h. destruct p; cbn; [done..|]. by destruct (find_object _ _). Qed.
Lemma steady_assign p o : steady (assign p o).
Proof. unfold assign. apply steady_bind; [apply steady_deref|]. intros _ h. by destruct p. Qed.
Lemma steady_at {A} (l : list A) i : steady (at_index l i). Proof. unfold at_index. by destruct (l !! i). Qed.
Ltac steadily :=
  repeat first
    [ apply steady_ret | match goal with |- steady (bind _ _) => apply steady_bind; [|intros ?] end | apply steady_each; intros ? | apply steady_collect; intros ? | apply steady_repeat
    | apply steady_new | apply steady_deref | apply steady_victim | apply steady_release | apply steady_assign | apply steady_at
    | apply steady_fail; discriminate | assumption
    | match goal with |- steady (match ?x with _ => _ end) => destruct x end
    | progress cbv beta iota
    | match goal with |- steady ?p => let f := (match p with ?f _ _ _ _ _ _ => f | ?f _ _ _ _ _ => f | ?f _ _ _ _ => f | ?f _ _ _ => f | ?f _ _ => f | ?f _ => f | ?f => f end) in unfold f end ].
Lemma steady_heaviest inside l best w : steady (heaviest inside l best w).
Proof. revert best w. induction l as [|[s x] l IH]; intros best w; cbn [heaviest]; [apply steady_ret|]. steadily; apply IH. Qed.
Lemma steady_grow fuel k l inside ch : steady (grow fuel k l inside ch).
Proof.
  revert inside ch. induction fuel as [|f IH]; intros inside ch; cbn [grow]; case_bool_decide; [by apply steady_fail|apply steady_ret| |apply steady_ret].
  apply steady_bind; [apply steady_heaviest|intros s]. steadily. apply IH.
Qed.
Lemma steady_new_tree net t : steady (new_tree net t).
Proof. unfold new_tree. repeat (apply steady_bind; [first [apply steady_grow|steadily]|intros ?]). steadily. Qed.
Lemma steady_new_engine net d t : steady (new_engine net d t).
Proof. unfold new_engine. repeat (apply steady_bind; [first [apply steady_new_tree|steadily]|intros ?]). steadily. Qed.
Lemma steady_infer strict k es rows t qs : steady (job_infer strict k es rows t qs).
Proof. unfold job_infer. repeat (apply steady_bind; [first [apply steady_new_engine|steadily]|intros ?]). steadily. Qed.
Lemma steady_sample strict k es libsvm samples parents : steady (job_sample strict k es libsvm samples parents).
Proof. unfold job_sample. repeat (apply steady_bind; [steadily|intros ?]). destruct libsvm; steadily. Qed.

Lemma run_structure rows vars save r ref :
  proper vars r -> proper_reference ref ->
  leaves (job_structure false rows vars save r ref) (fun h => KLearner :: lost_tables h).
Proof.
  intros P R. apply leaves_wp. unfold job_structure. pose proof own_start as H0.
  step wp_new_dataset as (d & -> & H1); [exact H0|].
  step wp_load_training as (a & ra & c & ca & La & Lc & H2); [exact H1|].
  step wp_new_network as (l & -> & H3); [exact H2|].
  step wp_new as (b & -> & H4); [exact H3|].
  eapply wp_bind; [eapply (wp_learn_structure b l d vars false save r ((b, OLearner (PTo l)) :: training d rows vars a ra c ca ++ []));
    [eapply own_perm; [exact H4|perm]|inm| |exact P]|].
  { eapply readable_sub; [|apply training_readable]. intros z Hz. apply elem_of_list_further. exact Hz. }
  intros [] h5 (ns & es & Ln & W & H5).
  eapply wp_bind; [eapply (wp_delete_training d rows vars a ra c ca (net_at l ns es :: nblock ns ++ [(b, OLearner (PTo l))])); [exact H5|perm|done|done]|].
  intros [] h6 H6.
  eapply wp_bind; [eapply wp_compare; [exact H6|inm|apply nodes_mem; intros z Hz; inm|exact W|exact R]|].
  intros [] h7 H7.
  eapply wp_mono; [eapply wp_delete_network; [exact H7|apply Permutation_refl]|]. intros [] h8 H8.
  apply own_forget in H8. apply own_end in H8. exact H8.
Qed.
Lemma run_learn rows vars save_struct save_param r ref parents :
  proper vars r -> proper_reference ref ->
  leaves (job_learn false rows vars save_struct save_param r ref parents)
    (fun h => [KLearner; KParams; KTimer] ++ saved_arrays save_param vars parents ++ lost_tables h).
Proof.
  intros P R. apply leaves_wp. unfold job_learn. pose proof own_start as H0.
  step wp_new_dataset as (d & -> & H1); [exact H0|].
  step wp_load_training as (a & ra & c & ca & La & Lc & H2); [exact H1|].
  step wp_new_network as (l & -> & H3); [exact H2|].
  step wp_new as (b & -> & H4); [exact H3|].
  eapply wp_bind; [eapply (wp_learn_structure b l d vars false save_struct r ((b, OLearner (PTo l)) :: training d rows vars a ra c ca ++ []));
    [eapply own_perm; [exact H4|perm]|inm| |exact P]|].
  { eapply readable_sub; [|apply training_readable]. intros z Hz. apply elem_of_list_further. exact Hz. }
  intros [] h5 (ns & es & Ln & W & H5).
  eapply wp_bind; [eapply wp_compare; [exact H5|inm|apply nodes_mem; intros z Hz; inm|exact W|exact R]|].
  intros [] h6 H6.
  step wp_new as (bp & -> & H7); [exact H6|].
  eapply wp_bind; [eapply (wp_learn_parameters bp l ns es d vars); [exact H7|inm|inm| | |lia]|].
  { apply nodes_mem. intros z Hz. inm. }
  { eapply readable_sub; [|apply training_readable]. intros z Hz. do 2 apply elem_of_list_further. apply elem_of_app. right. apply elem_of_list_further. exact Hz. }
  intros [] h8 H8.
  eapply wp_bind; [eapply (wp_delete_training d rows vars a ra c ca (net_at l ns es :: nblock ns ++ [(b, OLearner (PTo l)); (bp, OParams (PTo l))])); [exact H8|perm|done|done]|].
  intros [] h9 H9.
  eapply wp_mono; [eapply wp_delete_network; [exact H9|apply Permutation_refl]|]. intros [] h10 H10.
  apply own_forget, own_forget in H10. apply own_end in H10. rewrite H10. rewrite Ln, Nat.add_0_r. cbn [kind_of]. perm.
Qed.
Lemma wp_fixed_network n es m k h :
  own m k h -> below_all n es ->
  wp (network <- new_network; add_nodes network n ;; set_edges network (fun _ => true) es ;; ret network)
    (fun p h' => exists l ns es', p = PTo l /\ length ns = n /\ wired ns es' /\ own (net_at l ns es' :: nblock ns ++ m) k h') h.
Proof.
  intros H B. step wp_new_network as (l & -> & H1); [exact H|].
  step (wp_add_nodes l [] [] n m) as (ns & L & H2); [exact H1|]. rewrite app_nil_l in H2.
  eapply wp_bind; [eapply (wp_set_edges l ns [] _ es); [exact H2|apply Permutation_refl|constructor|by rewrite L]|].
  intros [] h3 (es' & W & H3). apply wp_ret. exists l, ns, es'. done.
Qed.
Lemma bind_assoc {A B C} (p : prog A) (f : A -> prog B) (g : B -> prog C) h : bind p (fun a => bind (f a) g) h = bind (bind p f) g h.
Proof. unfold bind. by destruct (p h). Qed.
Lemma wp_fixed {B} n es (k : ptr -> prog B) Q h :
  wp (bind (network <- new_network; add_nodes network n ;; set_edges network (fun _ => true) es ;; ret network) k) Q h ->
  wp (network <- new_network; add_nodes network n ;; set_edges network (fun _ => true) es ;; k network) Q h.
Proof.
  unfold wp, bind, ret. destruct (new_network h) as [p h1|]; [|done]. destruct (add_nodes p n h1) as [[] h2|]; [|done].
  by destruct (set_edges p (fun _ => true) es h2) as [[] h3|].
Qed.
Lemma wp_steady {A} (p : prog A) Q : steady p -> wp p Q nothing -> exists a h, p nothing = Done a h /\ lost_tables h = [] /\ Q a h.
Proof.
  intros S W. unfold wp in W. specialize (S nothing). destruct (p nothing) as [a h|f]; [|done].
  exists a, h. split_and!; [done| |done]. unfold lost_tables. by rewrite S.
Qed.
Lemma run_infer n es rows t qs :
  below_all n es -> linked t -> exists h, job_infer false n es rows t qs nothing = Done tt h /\ kinds (h_live h) ≡ₚ index_arrays qs.
Proof.
  intros B Lk. destruct (wp_steady (job_infer false n es rows t qs) (fun _ h => own [] (index_arrays qs) h)) as ([] & h & E & L0 & O).
  - apply steady_infer.
  - unfold job_infer. apply wp_fixed. step wp_fixed_network as (l & ns & es' & -> & Ln & W & H1); [exact own_start|exact B|].
    assert (Hn : forall x m, nodes_in ns (x ++ net_at l ns es' :: nblock ns ++ m)).
    { intros x m. apply nodes_mem. intros z Hz. inm. }
    eapply wp_bind; [eapply wp_use_network; [exact H1|inm|apply (Hn [])|exact W]|]. intros [] h2 H2.
    step wp_new_dataset as (d & -> & H3); [exact H2|].
    step wp_load_testing as H4; [exact H3|].
    eapply wp_bind; [eapply (wp_new_engine l ns es' d n t); [exact H4|inm|apply (Hn [_])|exact W|exact Lk|do 3 eexists; inm]|].
    intros ? h5 (e & tr & cb & sb & cobjs & sobjs & -> & WL & H5).
    eapply wp_bind; [eapply (wp_delete_testing d rows n (engine e l tr cb sb cobjs sobjs ++ net_at l ns es' :: nblock ns ++ [])); [exact H5|perm]|].
    intros [] h6 H6.
    eapply wp_bind; [eapply wp_predict; [exact H6| |exact WL|inm|apply Hn|exact W]|].
    { intros z Hz. apply elem_of_app. by left. }
    intros [] h7 H7.
    eapply wp_bind; [eapply wp_delete_engine; [exact H7|apply Permutation_refl|exact WL]|]. intros [] h8 H8.
    eapply wp_mono; [eapply wp_delete_network; [exact H8|apply Permutation_refl]|]. intros [] h9 H9. by rewrite app_nil_r in H9.
  - exists h. split; [done|]. apply own_end in O. by rewrite L0, app_nil_r in O.
Qed.
Lemma run_classify rows vars test_rows save_struct save_param r ref parents t qs :
  proper vars r -> proper_reference ref -> linked t ->
  leaves (job_classify false rows vars test_rows save_struct save_param r ref parents t qs)
    (fun h => [KTimer] ++ saved_arrays save_param (vars + 1) parents ++ index_arrays qs ++ lost_tables h).
Proof.
  intros P R Lk. apply leaves_wp. unfold job_classify. pose proof own_start as H0.
  step wp_new_dataset as (d & -> & H1); [exact H0|].
  step wp_load_training as (a & ra & c & ca & La & Lc & H2); [exact H1|].
  step wp_dataset_of as [-> H2']; [exact H2|unfold training; inm|].
  step wp_new_dataset as (d2 & -> & H2a); [exact H2'|].
  step wp_load_testing as H2b; [exact H2a|].
  step wp_new_network as (l & -> & H3); [exact H2b|].
  step wp_new as (b & -> & H4); [exact H3|].
  set (te := (d2, ODataset test_rows vars PNull PNull)) in *.
  eapply wp_bind; [eapply (wp_learn_structure b l d vars true save_struct r ((b, OLearner (PTo l)) :: te :: training d rows vars a ra c ca ++ []));
    [eapply own_perm; [exact H4|perm]|inm| |exact P]|].
  { eapply readable_sub; [|apply training_readable]. intros z Hz. do 2 apply elem_of_list_further. exact Hz. }
  intros [] y5 (ns & es & Ln & W & H5).
  assert (Hn : forall x m, nodes_in ns (x ++ net_at l ns es :: nblock ns ++ m)).
  { intros x m. apply nodes_mem. intros z Hz. inm. }
  eapply wp_bind; [eapply wp_compare; [exact H5|inm|apply (Hn [])|exact W|exact R]|].
  intros [] y6 H6.
  step wp_new as (bp & -> & H7); [exact H6|].
  eapply wp_bind; [eapply (wp_learn_parameters bp l ns es d vars); [exact H7|inm|inm|apply (Hn [_])| |lia]|].
  { eapply readable_sub; [|apply training_readable]. intros z Hz. do 2 apply elem_of_list_further. apply elem_of_app. right. do 2 apply elem_of_list_further. exact Hz. }
  intros [] y8 H8.
  eapply wp_bind; [eapply (wp_delete_training d rows vars a ra c ca (te :: net_at l ns es :: nblock ns ++ [(b, OLearner (PTo l)); (bp, OParams (PTo l))])); [exact H8|perm|done|done]|].
  intros [] y9 H9.
  eapply wp_bind; [eapply (wp_new_engine l ns es d2 vars t); [exact H9|inm|apply (Hn [_])|exact W|exact Lk|do 3 eexists; unfold te; inm]|].
  intros ? y10 (e & tr & cb & sb & cobjs & sobjs & -> & WL & H10).
  eapply wp_bind; [eapply (wp_delete_testing d2 test_rows vars (engine e l tr cb sb cobjs sobjs ++ net_at l ns es :: nblock ns ++ [(b, OLearner (PTo l)); (bp, OParams (PTo l))])); [exact H10|fold te; perm]|].
  intros [] y11 H11.
  eapply wp_bind; [eapply wp_predict; [exact H11| |exact WL|inm|apply Hn|exact W]|].
  { intros z Hz. apply elem_of_app. by left. }
  intros [] y12 H12.
  eapply wp_bind; [eapply wp_delete_engine; [exact H12|apply Permutation_refl|exact WL]|]. intros [] y13 H13.
  eapply wp_bind; [eapply (wp_delete_learner b l ns es [(bp, OParams (PTo l))]); [exact H13|perm]|]. intros [] y14 H14.
  eapply wp_mono; [eapply wp_delete_plain; [exact H14|apply Permutation_refl|done|done]|]. intros [] y15 H15.
  apply own_end in H15. rewrite H15, Ln. perm.
Qed.
Lemma wp_generate g l ns es samples parents m k h :
  own m k h -> (g, OSamples (PTo l)) ∈ m -> net_at l ns es ∈ m -> nodes_in ns m -> wired ns es ->
  wp (generate (PTo g) samples parents) (fun _ => own m k) h.
Proof.
  intros H Hg Hi Hn W. unfold generate. step wp_deref as [-> H1]; [exact H|exact Hg|]. cbn beta iota.
  step wp_size_of as [-> H2]; [exact H1|exact Hi|].
  eapply wp_bind; [apply (wp_each_same _ (own m k)); [exact H2|]|].
  { intros i y3 Hx%elem_of_seq H3. destruct (lookup_lt_is_Some_2 ns i) as [x Ex]; [lia|].
    step wp_find_node as [-> H4]; [exact H3|exact Hi|exact Ex|].
    eapply wp_bind; [eapply wp_touch; [exact H4|apply Hn; by eapply elem_of_list_lookup_2]|]. intros [] y5 H5.
    destruct (parents i); [by apply calm_scratch|done]. }
  intros [] y3 H3. apply (wp_repeat _ _ _ _ H3). intros y4 H4.
  eapply wp_bind; [by apply calm_matrix|]. intros [] y5 H5.
  eapply wp_bind; [by eapply wp_use_network|]. intros [] y6 H6.
  apply wp_each_same; [done|]. intros i y7 _ H7. destruct (parents i); [by apply calm_scratch|done].
Qed.
Lemma run_sample n es libsvm samples parents :
  below_all n es -> exists h, job_sample false n es libsvm samples parents nothing = Done tt h /\ h_live h = [].
Proof.
  intros B. destruct (wp_steady (job_sample false n es libsvm samples parents) (fun _ h => own [] [] h)) as ([] & h & E & L0 & O).
  - apply steady_sample.
  - unfold job_sample. apply wp_fixed. step wp_fixed_network as (l & ns & es' & -> & Ln & W & H1); [exact own_start|exact B|].
    assert (Hn : forall x m, nodes_in ns (x ++ net_at l ns es' :: nblock ns ++ m)).
    { intros x m. apply nodes_mem. intros z Hz. inm. }
    step wp_new as (g & -> & H2); [exact H1|].
    eapply wp_bind; [eapply wp_generate; [exact H2|inm|inm|apply (Hn [_])|exact W]|]. intros [] y3 H3.
    eapply wp_bind; [eapply wp_use_network; [exact H3|inm|apply (Hn [_])|exact W]|]. intros [] y4 H4.
    eapply wp_bind; [eapply wp_delete_plain; [exact H4|apply Permutation_refl|done|done]|]. intros [] y5 H5.
    destruct libsvm; [eapply wp_delete_network; [exact H5|apply Permutation_refl]|].
    eapply wp_bind; [eapply wp_use_network; [exact H5|inm|apply (Hn [])|exact W]|]. intros [] y6 H6.
    step wp_new_dataset as (d & -> & H7); [exact H6|].
    step wp_load_testing as H8; [exact H7|].
    eapply wp_bind; [eapply wp_use_network; [exact H8|inm|apply (Hn [_])|exact W]|]. intros [] y9 H9.
    eapply wp_bind; [eapply (wp_delete_network l ns es' [(d, ODataset samples n PNull PNull)]); [exact H9|perm]|]. intros [] y10 H10.
    step wp_dataset_of as [-> H11]; [exact H10|inm|].
    eapply wp_delete_testing; [exact H11|apply Permutation_refl].
  - exists h. split; [done|]. apply own_end in O. rewrite L0 in O. apply Permutation_nil_r in O. unfold kinds in O. by apply fmap_nil_inv in O.
Qed.
