(** Concrete cases for the variants of message passing: the tree of JTWitness.v with evidence about
    the variable in the separator. *)
From Verif Require Import MessageModel JTSpec ParProofs SchedProofs JTTheorems JTWitness.
Local Open Scope nat_scope.

Definition two_evidence : list (nat * nat) := [(2, 0); (3, 1)].
Lemma two_evidence_ok : evidence_in_range jt_net two_evidence /\ NoDup (fst <$> two_evidence) /\ evidence_weight jt_net jt_pts two_evidence <> 0%Qc.
Proof.
  split_and!; [|apply (bool_decide_unpack _); vm_compute; exact I|apply (bool_decide_unpack _); vm_compute; exact I].
  intros v x Hin _. apply elem_of_cons in Hin as [[= -> ->]|Hin]; [vm_compute; lia|]. apply elem_of_list_singleton in Hin as [= -> ->]. vm_compute. lia.
Qed.
Lemma jt_levels_count : length (jt_levels jt_tree) = 3.
Proof. reflexivity. Qed.
(** The marginal of [q], or nothing. *)
Definition marginal_by (p : passing) (drop : bool) (E : list (nat * nat)) (q : nat) : outcome (list Qc) :=
  st ← propagate_by p drop seq_sched jt_tree E (jt_backup jt_tree); t ← calculate_marginal jt_tree st q; Ok (pt_pots t).
Lemma recursive_run : get [] (marginal_by (Recursive 3) false two_evidence 0) = (posterior jt_net jt_pts two_evidence 0 <$> seq 0 2) /\
  get [] (marginal_by LevelByLevel true two_evidence 0) = (posterior jt_net jt_pts two_evidence 0 <$> seq 0 2) /\
  get [] (marginal_by Plain false two_evidence 2) = [1%Qc; 0%Qc].
Proof. split_and!; apply (bool_decide_unpack _); vm_compute; exact I. Qed.
(** With the variable removed from the tables, asking for it ends the program. *)
Lemma removed_run : marginal_by Plain true two_evidence 2 = Err Exit1.
Proof. vm_compute. reflexivity. Qed.
(** Two values for one variable: the first counts when the variable is removed from the tables. *)
Lemma contradiction_run : propagate_by Shortcut false seq_sched jt_tree [(2, 0); (2, 1)] (jt_backup jt_tree) = Err DivZero /\ get [] (marginal_by Shortcut true [(2, 0); (2, 1)] 0) = (posterior jt_net jt_pts [(2, 0)] 0 <$> seq 0 2).
Proof. split; [vm_compute; reflexivity|apply (bool_decide_unpack _); vm_compute; exact I]. Qed.
