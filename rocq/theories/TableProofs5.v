(** Statements in the form used by Properties_Table.v, and concrete tables. *)
From Verif Require Export TableProofs4.
Local Open Scope Qc_scope.

(** *** Concrete tables used as witnesses *)
Definition exdom (v : nat) : nat := match v with 1%nat => 3%nat | _ => 2%nat end.
Lemma exdom_pos v : (0 < exdom v)%nat.
Proof. destruct v as [|[|v]]; cbn; lia. Qed.
Definition q (n d : nat) : Qc := Q2Qc (QArith_base.Qmake (Z.of_nat n) (Pos.of_nat d)).
(** three variables in the order 2,0,1 with sizes 2,2,3 *)
Definition exT : ptable :=
  mkPT [2;0;1]%nat [q 1 2; q 1 3; q 1 4; 0; q 2 1; q 3 1; q 1 5; 0; q 7 1; q 1 6; q 5 1; q 4 1]
       [2;2;3]%nat [6;3;1]%nat 3%nat 12%nat.
(** two variables in the order 1,2 *)
Definition exS : ptable :=
  mkPT [1;2]%nat [q 1 2; 0; q 3 1; q 1 4; q 5 1; q 1 6] [3;2]%nat [2;1]%nat 2%nat 6%nat.
(** a separator table over the trailing variables 0,1 of [exT] *)
Definition exSep : ptable :=
  mkPT [0;1]%nat [q 1 2; 0; q 3 1; q 1 4; q 5 1; q 1 6] [2;3]%nat [3;1]%nat 2%nat 6%nat.
Definition ex1 : ptable := mkPT [0]%nat [q 2 1; q 3 1] [2]%nat [1]%nat 1%nat 2%nat.
Definition exScalar : ptable := mkPT [] [q 5 1] [] [] 0%nat 1%nat.
Definition exP01 : ptable := mkPT [0;2]%nat [q 1 1; q 2 1; q 3 1; q 4 1] [2;2]%nat [2;1]%nat 2%nat 4%nat.
Definition exP10 : ptable := mkPT [2;0]%nat [q 1 1; q 2 1; q 3 1; q 4 1] [2;2]%nat [2;1]%nat 2%nat 4%nat.

Ltac wf_concrete :=
  constructor; try reflexivity; apply (bool_decide_unpack _); vm_compute; exact I.
Lemma exT_wf : wf exdom exT. Proof. wf_concrete. Qed.
Lemma exS_wf : wf exdom exS. Proof. wf_concrete. Qed.
Lemma exSep_wf : wf exdom exSep. Proof. wf_concrete. Qed.
Lemma ex1_wf : wf exdom ex1. Proof. wf_concrete. Qed.
Lemma exScalar_wf : wf exdom exScalar. Proof. wf_concrete. Qed.
Lemma exP01_wf : wf exdom exP01. Proof. wf_concrete. Qed.
Lemma exP10_wf : wf exdom exP10. Proof. wf_concrete. Qed.

(** *** Index arithmetic for arbitrary domain sizes *)
Lemma index_roundtrip dims :
  dims ≠ [] -> Forall (fun d => 0 < d)%nat dims ->
  exists cum, construct_cum_levels (length dims) dims = Ok cum /\
    (forall cfg, in_range dims cfg -> exists k,
       get_index_nv cfg (length dims) cum = Ok k /\ (k < prod_list dims)%nat /\
       get_config_nv k (length dims) cum = Ok cfg) /\
    (forall k, (k < prod_list dims)%nat -> exists cfg,
       get_config_nv k (length dims) cum = Ok cfg /\ in_range dims cfg /\
       get_index_nv cfg (length dims) cum = Ok k) /\
    (forall cfg cfg' k, in_range dims cfg -> in_range dims cfg' ->
       get_index_nv cfg (length dims) cum = Ok k -> get_index_nv cfg' (length dims) cum = Ok k ->
       cfg = cfg').
Proof.
  intros Hne Hpos. exists (strides dims). split_and!.
  - by apply construct_cum_levels_spec.
  - intros cfg Hr. exists (lex_index dims cfg). split_and!.
    + apply get_index_spec. by apply in_range_length.
    + by apply lex_index_lt.
    + by apply config_loop_spec.
  - intros k Hk. rewrite <-configs_length in Hk. apply lookup_lt_is_Some in Hk as [cfg Hc].
    apply configs_lookup in Hc as [Hr <-]. exists cfg. split_and!; [by apply config_loop_spec|done|].
    apply get_index_spec. by apply in_range_length.
  - intros c c' k Hr Hr' H1 H2. rewrite get_index_spec in H1, H2 by (by apply in_range_length).
    apply lex_index_inj with (dims := dims); [done|done|congruence].
Qed.

Section s.
Context (dom : nat -> nat) (dom_pos : forall v, (0 < dom v)%nat).
Set Default Proof Using "All".
Notation wf := (wf dom).
Notation valid := (valid dom).
Notation sumv := (sumv dom).

Lemma table_slots T :
  wf T ->
  (forall a, valid a -> exists k, get_index T (a <$> pt_vars T) = Ok k /\ (k < pt_size T)%nat /\
      get_config T k = Ok (a <$> pt_vars T) /\ pt_pots T !! k = Some (tval T a)) /\
  (forall k, (k < pt_size T)%nat -> exists a, valid a /\ get_config T k = Ok (a <$> pt_vars T) /\
      get_index T (a <$> pt_vars T) = Ok k).
Proof.
  intros HT. split.
  - intros a Ha. exists (lex_index (pt_dims T) (a <$> pt_vars T)). split_and!.
    + by apply (get_index_ok dom dom_pos).
    + by apply (lex_index_lt_size dom dom_pos).
    + by apply (get_config_spec dom dom_pos).
    + by apply (tval_lookup dom dom_pos).
  - intros k Hk. destruct (slot_asg dom dom_pos T k HT Hk) as (a & Ha & Hi & Hc). exists a.
    split_and!; try done. by rewrite (get_index_ok dom dom_pos), Hi.
Qed.

Lemma marginalization_full T ws es :
  wf T -> pt_vars T ≡ₚ ws ++ es ->
  exists T', table_marginalization T ws (dom <$> ws) = Ok T' /\ wf T' /\ pt_vars T' = ws /\
    (forall a, valid a -> tval T' a = sumv es (tval T) a) /\
    (forall a, valid a -> sumv ws (tval T') a = sumv (pt_vars T) (tval T) a).
Proof.
  intros HT Hp. destruct (table_marginalization_spec dom dom_pos T ws es HT Hp) as (T' & H1 & H2 & H3 & H4).
  exists T'. split_and!; try done. intros a Ha. rewrite <-H3.
  by apply (total_mass_marginal dom dom_pos T T' ws es).
Qed.

Lemma fast_agrees T S ws :
  wf T -> wf S -> pt_vars T = ws ++ pt_vars S ->
  exists M M', table_marginalization_fast T S = Ok M /\
    table_marginalization T (pt_vars S) (pt_dims S) = Ok M' /\
    pt_vars M = pt_vars M' /\ forall a, valid a -> tval M a = tval M' a /\ tval M a = sumv ws (tval T) a.
Proof.
  intros HT HS E.
  destruct (table_marginalization_fast_spec dom dom_pos T S ws HT HS E) as (M & H1 & H2 & H3 & H4).
  destruct (table_marginalization_spec dom dom_pos T (pt_vars S) ws) as (M' & G1 & G2 & G3 & G4); [done| |].
  { rewrite E. apply Permutation_app_comm. }
  exists M, M'. rewrite (wf_dims _ _ HS). split_and!; try done; [congruence|].
  intros a Ha. rewrite H4, G4 by done. done.
Qed.

Lemma normalize_full T a0 :
  wf T -> valid a0 -> sumv (pt_vars T) (tval T) a0 ≠ 0 ->
  exists T', table_normalize T = Ok T' /\ wf T' /\ pt_vars T' = pt_vars T /\
    (forall a, valid a -> tval T' a = tval T a / sumv (pt_vars T) (tval T) a0) /\
    (forall a, valid a -> sumv (pt_vars T) (tval T') a = 1).
Proof.
  intros HT Ha0 HZ. destruct (table_normalize_spec dom dom_pos T a0 HT Ha0 HZ) as (T' & H1 & H2 & H3 & H4).
  exists T'. split_and!; try done. intros a Ha. rewrite <-H3 at 1.
  apply (normalized_sums_to_one dom dom_pos T T' (sumv (pt_vars T) (tval T) a0)); try done.
  by apply (sumv_total_indep dom dom_pos).
Qed.

Lemma normalize_cpt_full T v vs :
  wf T -> pt_vars T = v :: vs ->
  exists T', table_normalize_cpt T = Ok T' /\ wf T' /\ pt_vars T' = pt_vars T /\
    forall a, valid a ->
      let z := qsum (seq 0 (dom v)) (fun x => tval T (upd a v x)) in
      let z' := qsum (seq 0 (dom v)) (fun x => tval T' (upd a v x)) in
      (0 < z -> (forall x, (x < dom v)%nat -> tval T' (upd a v x) = tval T (upd a v x) / z) /\ z' = 1) /\
      (z <= 0 -> forall x, (x < dom v)%nat -> tval T' (upd a v x) = tval T (upd a v x)).
Proof.
  intros HT E. destruct (table_normalize_cpt_spec dom dom_pos T v vs HT E) as (T' & H1 & H2 & H3 & H4).
  exists T'. split_and!; try done. intros a Ha z z'.
  assert (forall x, (x < dom v)%nat -> tval T' (upd a v x) = if bool_decide (0 < z) then tval T (upd a v x) / z else tval T (upd a v x)) as Hx.
  { intros x Hx. rewrite H4 by (by apply valid_upd).
    assert (qsum (seq 0 (dom v)) (fun y => tval T (upd (upd a v x) v y)) = z) as ->; [|done].
    apply qsum_ext. intros y _. apply tval_proper. intros w. unfold upd. repeat case_bool_decide; congruence. }
  split.
  - intros Hz. assert (forall x, (x < dom v)%nat -> tval T' (upd a v x) = tval T (upd a v x) / z) as Hx'.
    { intros x Hlt. rewrite Hx by done. by rewrite bool_decide_true. }
    split; [done|]. unfold z'.
    rewrite (qsum_ext _ _ (fun x => / z * tval T (upd a v x))).
    + rewrite qsum_scal. fold z. rewrite Qcmult_comm. apply Qcmult_inv_r. intros Hz0. rewrite Hz0 in Hz. by apply Qclt_not_le in Hz.
    + intros x Hin. apply elem_of_seq in Hin. rewrite Hx' by lia. unfold Qcdiv. ring.
  - intros Hz x Hlt. rewrite Hx by done. rewrite bool_decide_false; [done|]. by apply Qcle_not_lt.
Qed.
End s.

(** *** Refutations for the general products *)
Lemma product_scalar_left :
  exists T S P S' a, wf exdom T /\ wf exdom S /\ pt_vars T = [] /\ valid exdom a /\
    table_multiplication_two T S = Ok (P, S') /\ tval P a ≠ tval T a * tval S a /\
    tval P a = tval S a * tval S a.
Proof.
  destruct (table_multiplication_two exScalar ex1) as [[P S']|e] eqn:E; [|by vm_compute in E].
  exists exScalar, ex1, P, S', (fun _ => 0%nat).
  split_and!; [apply exScalar_wf|apply ex1_wf|done|intros v; apply exdom_pos|done| |];
    vm_compute in E; injection E as <- <-; vm_compute; congruence.
Qed.
Lemma product_scalar_right :
  exists T S P S' a, wf exdom T /\ wf exdom S /\ pt_vars S = [] /\ valid exdom a /\
    table_multiplication_two T S = Ok (P, S') /\ tval P a ≠ tval T a * tval S a.
Proof.
  destruct (table_multiplication_two ex1 exScalar) as [[P S']|e] eqn:E; [|by vm_compute in E].
  exists ex1, exScalar, P, S', (fun _ => 0%nat).
  split_and!; [apply ex1_wf|apply exScalar_wf|done|intros v; apply exdom_pos|done|];
    vm_compute in E; injection E as <- <-; vm_compute; congruence.
Qed.
Lemma product_same_scope :
  exists T S P S' a, wf exdom T /\ wf exdom S /\ pt_vars S ≡ₚ pt_vars T /\ pt_vars S ≠ [] /\ valid exdom a /\
    table_multiplication_two T S = Ok (P, S') /\ tval P a ≠ tval T a * tval S a.
Proof.
  destruct (table_multiplication_two exP01 exP10) as [[P S']|e] eqn:E; [|by vm_compute in E].
  exists exP01, exP10, P, S', (fun v => if decide (v = 0%nat) then 1%nat else 0%nat).
  split_and!; [apply exP01_wf|apply exP10_wf|apply perm_swap|done| |done|].
  - intros v. destruct (decide (v = 0%nat)) as [->|]; [vm_compute; lia|apply exdom_pos].
  - vm_compute in E; injection E as <- <-; vm_compute; congruence.
Qed.
