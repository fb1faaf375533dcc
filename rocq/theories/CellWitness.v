(** Concrete data for the witnesses in Properties_Cell.v. *)
From Verif Require Import CellModel CellSpec CellTheorems.
From Verif Require Export LearnWitness.
Local Open Scope nat_scope.

Lemma tabulated_check D ds : length (co_cols D) = length ds ->
  forallb (fun vc : nat * list nat => bool_decide (length (snd vc) = co_rows D) && forallb (fun x => bool_decide (x < fst vc)) (snd vc)) (zip ds (co_cols D)) = true -> tabulated D ds.
Proof.
  intros Hl H. split; [done|]. intros v col d Hv Hd. rewrite forallb_forall in H. specialize (H (d, col)). rewrite <-elem_of_list_In, andb_true_iff, bool_decide_eq_true in H. destruct H as [H1 H2].
  - apply elem_of_list_lookup. exists v. apply lookup_zip_with_Some. exists d, col. done.
  - split; [done|]. rewrite forallb_forall in H2. apply Forall_forall. intros x Hx. specialize (H2 x). rewrite <-elem_of_list_In, bool_decide_eq_true in H2. by apply H2.
Qed.
Lemma rows5_tabulated : tabulated rows5 [2;2;2;3].
Proof. apply tabulated_check; vm_compute; reflexivity. Qed.
Lemma rows5_tables : tabulated rows5 [2;2;2;3] /\ tally rows5 [2;2;2;3] [0;1;2;3] = [0;0;0;0;0;0; 0;0;1;0;0;1; 1;0;0;0;0;0; 0;0;1;0;1;0] /\
  counts3d rows5 2 3 2 3 [2;2] [0;1] = Ok (mkC3 4 [0;0;0;0;0;0; 0;0;1;0;0;1; 1;0;0;0;0;0; 0;0;1;0;1;0] [0;0;1;1;1;0;1;1] [0;0;0;0;0;2;1;0;0;0;1;1] [0;2;1;2]).
Proof. split; [exact rows5_tabulated|]. split; vm_compute; reflexivity. Qed.
Lemma rows5_group : Forall (fun zs => length zs = 1) [[0];[1]] /\ is_ok (counts3d_group rows5 2 3 2 3 [2;2] [0;1] 2) = true.
Proof. split; [repeat constructor|vm_compute; reflexivity]. Qed.
(** A test with and a test without degrees of freedom. *)
Definition few_df (ts : list gterm) (df : nat) : bool := bool_decide (df <= 1).
Lemma rows5_decisions : degrees rows5 [2;2;2;3] 2 3 [0] = 2 /\ degrees rows5 [2;2;2;3] 2 3 [1] = 1 /\ degrees rows5 [2;2;2;3] 0 1 [2;3] = 0 /\
  independence_result few_df rows5 [2;2;2;3] 2 3 [0] 1 = Ok (mkCI false 0) /\ independence_result few_df rows5 [2;2;2;3] 2 3 [1] 1 = Ok (mkCI true 0) /\
  independence_result few_df rows5 [2;2;2;3] 2 3 [0;1] 2 = Ok (mkCI true 1).
Proof. split_and!; vm_compute; reflexivity. Qed.
Lemma few_df_zero : forall ts, Forall balanced ts -> few_df ts 0 = true.
Proof. done. Qed.
Definition eleven : columns := mkCols (replicate 11 [0;1]) 2 11.
Definition nine_sets : list (list nat) := (fun v => [v]) <$> seq 2 9.
Lemma nine_tests : exists D ds x y zss, tabulated D ds /\ NoDup zss /\ Forall (fun zs => length zs = 1 /\ x ∉ zs /\ y ∉ zs) zss /\ forall accept,
  Forall (fun zs => exists r, independence_result accept D ds x y zs 1 = Ok r) zss /\ independence_result accept D ds x y (concat zss) (length zss) = Err OutOfBounds.
Proof.
  exists eleven, (replicate 11 2), 0, 1, nine_sets. assert (tabulated eleven (replicate 11 2)) as HT by (apply tabulated_check; vm_compute; reflexivity).
  assert (Forall (Forall (fun v => v < 11)) nine_sets) as Hk by (repeat (constructor; [repeat constructor; lia|]); constructor).
  split; [done|]. split; [apply (bool_decide_unpack _); vm_compute; exact I|]. split; [apply (bool_decide_unpack _); vm_compute; exact I|]. intros accept. split.
  - eapply Forall_impl; [exact Hk|]. intros zs Hzs. destruct (single_decision eleven (replicate 11 2) HT 0 1 2 2 eq_refl eq_refl accept zs 1) as (f & E & _); [exact Hzs|lia|]. by eexists.
  - rewrite (group_decision eleven (replicate 11 2) HT 0 1 2 2 eq_refl eq_refl accept 1); [done|lia| |cbn; lia|exact Hk]. apply (bool_decide_unpack _); vm_compute; exact I.
Qed.
