(** Property theorems C01-C07 (factor tables).  [wf dom T]: T is a table with one entry per
    configuration of its (distinct) variables, [dom v] being the number of values of
    variable [v].  [tval T a]: the entry of T at assignment [a].  [valid dom a]: every
    variable has a value in range.  [sumv dom vs F a]: the sum of [F] over all values of the
    variables [vs], the others as in [a]. *)
From Verif Require Import TableProofs5.
Local Open Scope Qc_scope.

(** ** C01 *)
(** Index arithmetic, for any vector of positive domain sizes. *)
Theorem C01_index_bijection :
  forall dims, dims ≠ [] -> Forall (fun d => 0 < d)%nat dims ->
  exists cum, construct_cum_levels (length dims) dims = Ok cum /\
    (forall cfg, in_range dims cfg -> exists k,
       get_index_nv cfg (length dims) cum = Ok k /\ (k < prod_list dims)%nat /\
       get_config_nv k (length dims) cum = Ok cfg) /\
    (forall k, (k < prod_list dims)%nat -> exists cfg,
       get_config_nv k (length dims) cum = Ok cfg /\ in_range dims cfg /\
       get_index_nv cfg (length dims) cum = Ok k) /\
    (forall cfg cfg' k, in_range dims cfg -> in_range dims cfg' ->
       get_index_nv cfg (length dims) cum = Ok k -> get_index_nv cfg' (length dims) cum = Ok k ->
       cfg = cfg').
Proof. exact index_roundtrip. Qed.
Print Assumptions C01_index_bijection.
Example C01_index_bijection_witness : [2;3;4]%nat ≠ [] /\ Forall (fun d => 0 < d)%nat [2;3;4]%nat.
Proof. split; [done|]. repeat constructor. Qed.

(** The same for the methods of a table; the entry found is the one [tval] speaks about. *)
Theorem C01_table_slots :
  forall dom, (forall v, (0 < dom v)%nat) -> forall T, wf dom T ->
  (forall a, valid dom a -> exists k, get_index T (a <$> pt_vars T) = Ok k /\ (k < pt_size T)%nat /\
      get_config T k = Ok (a <$> pt_vars T) /\ pt_pots T !! k = Some (tval T a)) /\
  (forall k, (k < pt_size T)%nat -> exists a, valid dom a /\ get_config T k = Ok (a <$> pt_vars T) /\
      get_index T (a <$> pt_vars T) = Ok k).
Proof. exact table_slots. Qed.
Print Assumptions C01_table_slots.
Example C01_table_slots_witness : (forall v, (0 < exdom v)%nat) /\ wf exdom exT.
Proof. exact (conj exdom_pos exT_wf). Qed.

(** ** C02 *)
Theorem C02_conditioning :
  forall dom, (forall v, (0 < dom v)%nat) -> forall T v x,
  wf dom T -> v ∈ pt_vars T -> (x < dom v)%nat ->
  exists T', table_reduction T v x = Ok T' /\ wf dom T' /\ pt_vars T' = filter (fun w => w ≠ v) (pt_vars T) /\
    forall a, valid dom a -> tval T' a = tval T (upd a v x).
Proof. exact table_reduction_spec. Qed.
Print Assumptions C02_conditioning.
Example C02_conditioning_witness : wf exdom exT /\ (0 ∈ pt_vars exT)%nat /\ (1 < exdom 0)%nat.
Proof. split_and!; [exact exT_wf|right; left|exact (le_n _)]. Qed.

(** A variable that is not in the factor: the code indexes outside its scratch row. *)
Theorem C02_conditioning_absent_variable :
  forall dom, (forall v, (0 < dom v)%nat) -> forall T v x,
  wf dom T -> v ∉ pt_vars T -> table_reduction T v x = Err OutOfBounds.
Proof. exact table_reduction_absent. Qed.
Print Assumptions C02_conditioning_absent_variable.
Example C02_conditioning_absent_variable_witness : wf exdom exT /\ 5%nat ∉ pt_vars exT.
Proof. split; [exact exT_wf|]. apply (bool_decide_unpack _). vm_compute. exact I. Qed.

(** A value out of range is turned into impossible evidence: the zero table. *)
Theorem C02_conditioning_out_of_range :
  forall dom, (forall v, (0 < dom v)%nat) -> forall T v x,
  wf dom T -> v ∈ pt_vars T -> (dom v <= x)%nat ->
  exists T', table_reduction T v x = Ok T' /\ wf dom T' /\ pt_vars T' = filter (fun w => w ≠ v) (pt_vars T) /\
    forall a, valid dom a -> tval T' a = 0.
Proof. exact table_reduction_out_of_range. Qed.
Print Assumptions C02_conditioning_out_of_range.
Example C02_conditioning_out_of_range_witness : wf exdom exT /\ (0 ∈ pt_vars exT)%nat /\ (exdom 0 <= 2)%nat.
Proof. split_and!; [exact exT_wf|right; left|exact (le_n _)]. Qed.

(** The look-ups used for complete evidence. *)
Theorem C02_lookup_entry :
  forall dom, (forall v, (0 < dom v)%nat) -> forall T evidence,
  wf dom T -> (forall v, v ∈ pt_vars T -> (v < length evidence)%nat) ->
  pt_vars T ≠ [] -> valid dom (asg_of_list evidence) ->
  get_reduced_potential T evidence = Ok (tval T (asg_of_list evidence)).
Proof. exact get_reduced_potential_spec. Qed.
Print Assumptions C02_lookup_entry.
Theorem C02_lookup_first_variable :
  forall dom, (forall v, (0 < dom v)%nat) -> forall T v vs evidence rlen,
  wf dom T -> pt_vars T = v :: vs -> rlen = dom v ->
  (forall u, u ∈ vs -> (u < length evidence)%nat) -> valid dom (asg_of_list evidence) ->
  exists r, get_reduced_potentials T rlen evidence = Ok r /\ length r = dom v /\
    forall x, (x < dom v)%nat -> r !! x = Some (tval T (upd (asg_of_list evidence) v x)).
Proof. exact get_reduced_potentials_spec. Qed.
Print Assumptions C02_lookup_first_variable.
Example C02_lookup_witness : wf exdom exT /\ pt_vars exT = [2;0;1]%nat /\
  (forall v, v ∈ pt_vars exT -> (v < length [1;2;0])%nat) /\ valid exdom (asg_of_list [1;2;0]%nat).
Proof.
  split_and!; [exact exT_wf|reflexivity| |].
  - intros v Hv. repeat (apply elem_of_cons in Hv as [->|Hv]; [cbn; lia|]). by apply elem_of_nil in Hv.
  - intros [|[|[|v]]]; vm_compute; lia.
Qed.

(** ** C03 *)
Theorem C03_marginalisation :
  forall dom, (forall v, (0 < dom v)%nat) -> forall T ws es,
  wf dom T -> pt_vars T ≡ₚ ws ++ es ->
  exists T', table_marginalization T ws (dom <$> ws) = Ok T' /\ wf dom T' /\ pt_vars T' = ws /\
    (forall a, valid dom a -> tval T' a = sumv dom es (tval T) a) /\
    (forall a, valid dom a -> sumv dom ws (tval T') a = sumv dom (pt_vars T) (tval T) a).
Proof. exact marginalization_full. Qed.
Print Assumptions C03_marginalisation.
Example C03_marginalisation_witness : wf exdom exT /\ pt_vars exT ≡ₚ [1;2]%nat ++ [0]%nat.
Proof. split; [exact exT_wf|]. apply (bool_decide_unpack _). vm_compute. exact I. Qed.

Theorem C03_sum_out_one_variable :
  forall dom, (forall v, (0 < dom v)%nat) -> forall T v,
  wf dom T -> v ∈ pt_vars T ->
  exists T', table_marginalization_one T v = Ok T' /\ wf dom T' /\ pt_vars T' = filter (fun w => w ≠ v) (pt_vars T) /\
    forall a, valid dom a -> tval T' a = qsum (seq 0 (dom v)) (fun x => tval T (upd a v x)).
Proof. exact table_marginalization_one_spec. Qed.
Print Assumptions C03_sum_out_one_variable.
Theorem C03_sum_out_one_variable_general :
  forall dom, (forall v, (0 < dom v)%nat) -> forall T v,
  wf dom T -> v ∈ pt_vars T ->
  exists T', table_marginalization_ext T v = Ok T' /\ wf dom T' /\ pt_vars T' = filter (fun w => w ≠ v) (pt_vars T) /\
    forall a, valid dom a -> tval T' a = qsum (seq 0 (dom v)) (fun x => tval T (upd a v x)).
Proof. exact table_marginalization_ext_spec. Qed.
Print Assumptions C03_sum_out_one_variable_general.
Example C03_sum_out_witness : wf exdom exT /\ (0 ∈ pt_vars exT)%nat.
Proof. split; [exact exT_wf|right; left]. Qed.

Theorem C03_keep_first_variable :
  forall dom, (forall v, (0 < dom v)%nat) -> forall T v vs,
  wf dom T -> pt_vars T = v :: vs ->
  exists T', table_marginalization_simplified T = Ok T' /\ wf dom T' /\ pt_vars T' = [v] /\
    forall a, valid dom a -> tval T' a = sumv dom vs (tval T) a.
Proof. exact table_marginalization_simplified_spec. Qed.
Print Assumptions C03_keep_first_variable.
Example C03_keep_first_variable_witness : wf exdom exT /\ pt_vars exT = 2%nat :: [0;1]%nat.
Proof. exact (conj exT_wf eq_refl). Qed.

Theorem C03_fast_variant_agrees :
  forall dom, (forall v, (0 < dom v)%nat) -> forall T S ws,
  wf dom T -> wf dom S -> pt_vars T = ws ++ pt_vars S ->
  exists M M', table_marginalization_fast T S = Ok M /\
    table_marginalization T (pt_vars S) (pt_dims S) = Ok M' /\
    pt_vars M = pt_vars M' /\
    forall a, valid dom a -> tval M a = tval M' a /\ tval M a = sumv dom ws (tval T) a.
Proof. exact fast_agrees. Qed.
Print Assumptions C03_fast_variant_agrees.
Example C03_fast_variant_agrees_witness :
  wf exdom exT /\ wf exdom exSep /\ pt_vars exT = [2]%nat ++ pt_vars exSep.
Proof. exact (conj exT_wf (conj exSep_wf eq_refl)). Qed.

(** ** C04 *)
Theorem C04_multiplication :
  forall dom, (forall v, (0 < dom v)%nat) -> forall T S,
  wf dom T -> wf dom S -> (forall v, v ∈ pt_vars S -> v ∈ pt_vars T) ->
  exists T', table_multiplication T S = Ok T' /\ wf dom T' /\ pt_vars T' = pt_vars T /\
    forall a, valid dom a -> tval T' a = tval T a * tval S a.
Proof. exact table_multiplication_spec. Qed.
Print Assumptions C04_multiplication.
Example C04_multiplication_witness :
  wf exdom exT /\ wf exdom exS /\ forall v, v ∈ pt_vars exS -> v ∈ pt_vars exT.
Proof.
  split_and!; [exact exT_wf|exact exS_wf|]. intros v Hv.
  repeat (apply elem_of_cons in Hv as [->|Hv]; [apply (bool_decide_unpack _); vm_compute; exact I|]).
  by apply elem_of_nil in Hv.
Qed.

Theorem C04_extension :
  forall dom, (forall v, (0 < dom v)%nat) -> forall T ws,
  wf dom T -> NoDup ws -> ws ≠ [] -> (forall v, v ∈ pt_vars T -> v ∈ ws) ->
  exists T', table_extension T ws (dom <$> ws) = Ok T' /\ wf dom T' /\ pt_vars T' = ws /\
    forall a, valid dom a -> tval T' a = tval T a.
Proof. exact table_extension_spec. Qed.
Print Assumptions C04_extension.
Example C04_extension_witness :
  wf exdom exS /\ NoDup [2;0;1]%nat /\ forall v, v ∈ pt_vars exS -> v ∈ [2;0;1]%nat.
Proof. destruct C04_multiplication_witness as (H1 & H2 & H3). exact (conj H2 (conj (wf_nodup _ _ H1) H3)). Qed.

Theorem C04_division :
  forall dom, (forall v, (0 < dom v)%nat) -> forall T S,
  wf dom T -> wf dom S -> pt_vars T = pt_vars S ->
  exists T', table_division T S = Ok T' /\ wf dom T' /\ pt_vars T' = pt_vars T /\
    forall a, valid dom a -> tval T' a = if bool_decide (tval S a = 0) then 0 else tval T a / tval S a.
Proof. exact table_division_spec. Qed.
Print Assumptions C04_division.
Example C04_division_witness : wf exdom exP01 /\ wf exdom exP01 /\ pt_vars exP01 = pt_vars exP01.
Proof. exact (conj exP01_wf (conj exP01_wf eq_refl)). Qed.

Theorem C04_fast_multiplication :
  forall dom, (forall v, (0 < dom v)%nat) -> forall T S ws,
  wf dom T -> wf dom S -> pt_vars T = ws ++ pt_vars S ->
  exists T', table_multiplication_fast T S = Ok T' /\ wf dom T' /\ pt_vars T' = pt_vars T /\
    forall a, valid dom a -> tval T' a = tval T a * tval S a.
Proof. exact table_multiplication_fast_spec. Qed.
Print Assumptions C04_fast_multiplication.

(** ** C05 *)
Theorem C05_reorganisation :
  forall dom, (forall v, (0 < dom v)%nat) -> forall T R,
  wf dom T -> wf dom R -> pt_vars T ≡ₚ pt_vars R ->
  exists T', table_reorganization T R = Ok T' /\ wf dom T' /\ pt_vars T' = pt_vars R /\
    forall a, valid dom a -> tval T' a = tval T a.
Proof. exact table_reorganization_spec. Qed.
Print Assumptions C05_reorganisation.
Example C05_reorganisation_witness : wf exdom exP01 /\ wf exdom exP10 /\ pt_vars exP01 ≡ₚ pt_vars exP10.
Proof. exact (conj exP01_wf (conj exP10_wf (perm_swap _ _ _))). Qed.

Theorem C05_move_to_tail :
  forall dom, (forall v, (0 < dom v)%nat) -> forall T common,
  wf dom T -> pt_vars T ≠ [] -> common `sublist_of` pt_vars T ->
  exists T', table_reorganize_tail T common = Ok T' /\ wf dom T' /\
    pt_vars T' = filter (fun v => v ∉ common) (pt_vars T) ++ common /\
    forall a, valid dom a -> tval T' a = tval T a.
Proof. exact table_reorganize_tail_spec. Qed.
Print Assumptions C05_move_to_tail.
Example C05_move_to_tail_witness : wf exdom exT /\ pt_vars exT ≠ [] /\ [2;1]%nat `sublist_of` pt_vars exT.
Proof. split_and!; [exact exT_wf|done|]. apply sublist_skip, sublist_cons, sublist_skip, sublist_nil. Qed.

(** Position of an entry modulo the size of the trailing block = position in that block. *)
Theorem C05_modulo_addresses_separator :
  forall dom, (forall v, (0 < dom v)%nat) -> forall ws vs a, valid dom a ->
  (lex_index (dom <$> ws ++ vs) (a <$> ws ++ vs) mod prod_list (dom <$> vs))%nat
  = lex_index (dom <$> vs) (a <$> vs).
Proof. exact tail_mod. Qed.
Print Assumptions C05_modulo_addresses_separator.

(** ** C06 *)
Theorem C06_normalise :
  forall dom, (forall v, (0 < dom v)%nat) -> forall T a0,
  wf dom T -> valid dom a0 -> sumv dom (pt_vars T) (tval T) a0 ≠ 0 ->
  exists T', table_normalize T = Ok T' /\ wf dom T' /\ pt_vars T' = pt_vars T /\
    (forall a, valid dom a -> tval T' a = tval T a / sumv dom (pt_vars T) (tval T) a0) /\
    (forall a, valid dom a -> sumv dom (pt_vars T) (tval T') a = 1).
Proof. exact normalize_full. Qed.
Print Assumptions C06_normalise.
Example C06_normalise_witness :
  wf exdom exT /\ valid exdom (fun _ => 0%nat) /\ sumv exdom (pt_vars exT) (tval exT) (fun _ => 0%nat) ≠ 0.
Proof. split_and!; [exact exT_wf|intros v; apply exdom_pos|]. vm_compute. congruence. Qed.

Theorem C06_normalise_zero_mass :
  forall dom, (forall v, (0 < dom v)%nat) -> forall T a0,
  wf dom T -> valid dom a0 -> sumv dom (pt_vars T) (tval T) a0 = 0 -> table_normalize T = Err DivZero.
Proof. exact table_normalize_zero. Qed.
Print Assumptions C06_normalise_zero_mass.
Example C06_normalise_zero_mass_witness :
  wf exdom (fresh exdom [1;2]%nat) /\ sumv exdom [1;2]%nat (tval (fresh exdom [1;2]%nat)) (fun _ => 0%nat) = 0.
Proof.
  split; [|vm_compute; reflexivity]. apply wf_fresh; [exact exdom_pos|].
  apply (bool_decide_unpack _). vm_compute. exact I.
Qed.

Theorem C06_normalise_conditional :
  forall dom, (forall v, (0 < dom v)%nat) -> forall T v vs,
  wf dom T -> pt_vars T = v :: vs ->
  exists T', table_normalize_cpt T = Ok T' /\ wf dom T' /\ pt_vars T' = pt_vars T /\
    forall a, valid dom a ->
      let z := qsum (seq 0 (dom v)) (fun x => tval T (upd a v x)) in
      let z' := qsum (seq 0 (dom v)) (fun x => tval T' (upd a v x)) in
      (0 < z -> (forall x, (x < dom v)%nat -> tval T' (upd a v x) = tval T (upd a v x) / z) /\ z' = 1) /\
      (z <= 0 -> forall x, (x < dom v)%nat -> tval T' (upd a v x) = tval T (upd a v x)).
Proof. exact normalize_cpt_full. Qed.
Print Assumptions C06_normalise_conditional.
Example C06_normalise_conditional_witness : wf exdom exT /\ pt_vars exT = 2%nat :: [0;1]%nat.
Proof. exact (conj exT_wf eq_refl). Qed.

(** ** C07 *)
(** Missing: the property asks for every pair of factors; this covers two factors with at least
    one variable each whose scopes, if equal as sets, are listed in the same order.
    The code is wrong on the remaining pairs (next three theorems). *)
Theorem C07_general_product_partial :
  forall dom, (forall v, (0 < dom v)%nat) -> forall T S,
  wf dom T -> wf dom S -> pt_vars T ≠ [] -> pt_vars S ≠ [] ->
  (pt_vars T ≡ₚ pt_vars S -> pt_vars T = pt_vars S) ->
  exists P S', table_multiplication_two T S = Ok (P, S') /\ wf dom P /\
    (forall v, v ∈ pt_vars P <-> v ∈ pt_vars T \/ v ∈ pt_vars S) /\
    forall a, valid dom a -> tval P a = tval T a * tval S a.
Proof. exact table_multiplication_two_spec. Qed.
Print Assumptions C07_general_product_partial.
Example C07_general_product_partial_witness :
  wf exdom exS /\ wf exdom exSep /\ pt_vars exS ≠ [] /\ pt_vars exSep ≠ [] /\
  (pt_vars exS ≡ₚ pt_vars exSep -> pt_vars exS = pt_vars exSep).
Proof.
  split_and!; [exact exS_wf|exact exSep_wf|done|done|]. intros H.
  apply (bool_decide_pack _) in H. vm_compute in H. destruct H.
Qed.

Theorem C07_single_variable_product :
  forall dom, (forall v, (0 < dom v)%nat) -> forall T S v,
  wf dom T -> wf dom S -> pt_vars S = [v] -> v ∈ pt_vars T ->
  exists P, table_multiplication_one T S = Ok P /\ wf dom P /\ pt_vars P = pt_vars T /\
    forall a, valid dom a -> tval P a = tval T a * tval S a.
Proof. exact table_multiplication_one_spec. Qed.
Print Assumptions C07_single_variable_product.
Example C07_single_variable_product_witness :
  wf exdom exT /\ wf exdom ex1 /\ pt_vars ex1 = [0]%nat /\ (0 ∈ pt_vars exT)%nat.
Proof. split_and!; [exact exT_wf|exact ex1_wf|reflexivity|right; left]. Qed.

(** Left operand a scalar: the right operand is squared. *)
Theorem C07_product_scalar_left_refuted :
  exists T S P S' a, wf exdom T /\ wf exdom S /\ pt_vars T = [] /\ valid exdom a /\
    table_multiplication_two T S = Ok (P, S') /\ tval P a ≠ tval T a * tval S a /\
    tval P a = tval S a * tval S a.
Proof. exact product_scalar_left. Qed.
Print Assumptions C07_product_scalar_left_refuted.
(** Right operand a scalar: it is ignored. *)
Theorem C07_product_scalar_right_refuted :
  exists T S P S' a, wf exdom T /\ wf exdom S /\ pt_vars S = [] /\ valid exdom a /\
    table_multiplication_two T S = Ok (P, S') /\ tval P a ≠ tval T a * tval S a.
Proof. exact product_scalar_right. Qed.
Print Assumptions C07_product_scalar_right_refuted.
(** Same variables in another order: entries of different configurations are multiplied. *)
Theorem C07_product_same_scope_refuted :
  exists T S P S' a, wf exdom T /\ wf exdom S /\ pt_vars S ≡ₚ pt_vars T /\ pt_vars S ≠ [] /\ valid exdom a /\
    table_multiplication_two T S = Ok (P, S') /\ tval P a ≠ tval T a * tval S a.
Proof. exact product_same_scope. Qed.
Print Assumptions C07_product_same_scope_refuted.
