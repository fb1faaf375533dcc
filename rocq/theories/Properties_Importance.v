(** C63: the importance function and the scores of a factor. *)
From Verif Require Import ImportanceSpec ImportanceProofs TableProofs5.
Local Open Scope Qc_scope.

(** Missing in all of C63: the array has to be sized by the caller, because no constructor does it
    (last theorem). *)
(** Resetting: every number becomes one over the number of values of the first variable, and each
    column adds up to one. *)
Theorem C63_uniform_partial : forall dom, (forall v, (0 < dom v)%nat) -> forall f v vs,
  wf dom (ft_base f) -> pt_vars (ft_base f) = v :: vs -> sized (ft_base f) (ft_icpt f) ->
  exists f', uniform_distribution f = Ok f' /\ ft_base f' = ft_base f /\ ft_scores f' = ft_scores f /\ sized (ft_base f) (ft_icpt f') /\
    (forall a, valid dom a -> entry (ft_base f) (ft_icpt f') a = 1 / qn (dom v)) /\
    column_sums_one dom (ft_base f) v (ft_icpt f').
Proof. exact uniform_full. Qed.
Print Assumptions C63_uniform_partial.
(** Normalising the importance function, and the scores, column by column. *)
Theorem C63_normalise_partial : forall dom, (forall v, (0 < dom v)%nat) -> forall f v vs,
  wf dom (ft_base f) -> pt_vars (ft_base f) = v :: vs -> sized (ft_base f) (ft_icpt f) ->
  exists f', normalize_icpt f = Ok f' /\ ft_base f' = ft_base f /\ ft_scores f' = ft_scores f /\
    sized (ft_base f) (ft_icpt f') /\ columns_scaled dom (ft_base f) v (ft_icpt f) (ft_icpt f').
Proof. exact normalize_icpt_full. Qed.
Print Assumptions C63_normalise_partial.
Theorem C63_normalise_scores_partial : forall dom, (forall v, (0 < dom v)%nat) -> forall f v vs,
  wf dom (ft_base f) -> pt_vars (ft_base f) = v :: vs -> sized (ft_base f) (ft_scores f) ->
  exists f', normalize_scores f = Ok f' /\ ft_base f' = ft_base f /\ ft_icpt f' = ft_icpt f /\
    sized (ft_base f) (ft_scores f') /\ columns_scaled dom (ft_base f) v (ft_scores f) (ft_scores f').
Proof. exact normalize_scores_full. Qed.
Print Assumptions C63_normalise_scores_partial.
(** Reading: the column selected by the values of the other variables. *)
Theorem C63_lookup_partial : forall dom, (forall v, (0 < dom v)%nat) -> forall f v vs evidence rlen,
  wf dom (ft_base f) -> pt_vars (ft_base f) = v :: vs -> sized (ft_base f) (ft_icpt f) -> rlen = dom v ->
  (forall u, u ∈ vs -> (u < length evidence)%nat) -> valid dom (asg_of_list evidence) ->
  exists r, get_reduced_icpt_potentials f rlen evidence = Ok r /\ length r = dom v /\
    forall x, (x < dom v)%nat -> r !! x = Some (entry (ft_base f) (ft_icpt f) (upd (asg_of_list evidence) v x)).
Proof. exact reduced_icpt_full. Qed.
Print Assumptions C63_lookup_partial.
(** Summing out everything but the first variable: the sums are added to the caller's numbers. *)
Theorem C63_sum_out_partial : forall dom, (forall v, (0 < dom v)%nat) -> forall f v vs result,
  wf dom (ft_base f) -> pt_vars (ft_base f) = v :: vs -> vs <> [] -> sized (ft_base f) (ft_icpt f) -> length result = dom v ->
  exists r, get_marginalized_probabilities f result = Ok r /\ length r = dom v /\
    forall a, valid dom a -> r !! a v = Some (default 0 (result !! a v) + sumv dom vs (entry (ft_base f) (ft_icpt f)) a).
Proof. exact marginalized_full. Qed.
Print Assumptions C63_sum_out_partial.
Example C63_sized_witness : (forall v, (0 < exdom v)%nat) /\ wf exdom exT /\ pt_vars exT = [2;0;1]%nat /\
  let f := mkFT exT (pt_pots exT) (pt_pots exT) in sized exT (ft_icpt f) /\ sized exT (ft_scores f) /\ pt_size exT = 12%nat /\
  valid exdom (asg_of_list [1;2;0]%nat).
Proof.
  split_and!; [exact exdom_pos|exact exT_wf|reflexivity|].
  cbv zeta. split_and!; [reflexivity|reflexivity|reflexivity|].
  intros v. unfold asg_of_list. destruct v as [|[|[|v]]]; vm_compute; lia.
Qed.

(** The entry for a full case together with its position in the factor. *)
Theorem C63_position : forall dom, (forall v, (0 < dom v)%nat) -> forall T evidence,
  wf dom T -> (forall v, v ∈ pt_vars T -> (v < length evidence)%nat) -> pt_vars T <> [] -> valid dom (asg_of_list evidence) ->
  exists k, get_reduced_index_and_potential T evidence = Ok (k, tval T (asg_of_list evidence)) /\
    get_config T k = Ok (asg_of_list evidence <$> pt_vars T).
Proof. exact index_and_potential_full. Qed.
Print Assumptions C63_position.
Example C63_position_witness : exists k, get_reduced_index_and_potential exT [1;2;0]%nat = Ok (k, tval exT (asg_of_list [1;2;0]%nat)) /\ k <> 0%nat.
Proof. eexists. split; [vm_compute; reflexivity|discriminate]. Qed.

(** No constructor sizes the arrays: resetting the importance function of a factor as it was
    constructed writes outside the array, whatever the factor. *)
Theorem C63_constructed_refuted : forall dom, (forall v, (0 < dom v)%nat) -> forall t,
  wf dom t -> pt_vars t <> [] -> uniform_distribution (constructed t) = Err OutOfBounds.
Proof. exact uniform_constructed. Qed.
Print Assumptions C63_constructed_refuted.
