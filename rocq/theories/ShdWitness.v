(** A concrete comparison: the true DAG 0 -> 1 -> 3 <- 2. *)
From Verif Require Import PCModel PCSpec PCWitness OrientModel DSepSpec DSepTheorems GraphWitness EssentialSpec ShdTheorems DSepWitness.
Local Open Scope nat_scope.

Lemma shd_true_fresh : fresh_dag shd_true.
Proof. destruct shd_pattern_hyps as (_ & _ & _ & ? & ? & ? & ? & ? & _). done. Qed.
Lemma shd_pat_mixed : mixed_graph shd_pat.
Proof.
  split; [apply shd_pat_single|]. intros e He. repeat (apply elem_of_cons in He as [->|He]; [cbn; split_and!; try done; lia|]). by apply elem_of_nil in He.
Qed.
Lemma shd_true_single_extra T1 t : get_topo_ord shd_true = Ok (T1, t) -> single_extra (compelled (length (nt_nodes shd_true)) (arcs_of shd_true)) shd_true t.
Proof. intros _. apply shd_true_two. Qed.
Lemma arcs_range x y : (x, y) ∈ directed_pairs (nt_edges shd_true) -> x < y /\ y < 4.
Proof. change (directed_pairs (nt_edges shd_true)) with [(0, 1); (1, 3); (2, 3)]. rewrite !elem_of_cons, elem_of_nil. intros [[= -> ->]|[[= -> ->]|[[= -> ->]|[]]]]; lia. Qed.
Definition shd_ind := dsep_of 4 (arcs_of shd_true).
Lemma shd_run : dsep_oracle shd_ind 4 (arcs_of shd_true) /\ decides (lone_test shd_ind) shd_ind 4 1 /\ (forall v, length (dag_parents 4 (arcs_of shd_true) v) < 4) /\
  exists N, run_pc (lone_test shd_ind) 4 false (fun _ => false) = Ok N /\ arrows (Ok N) = Some [(0, 1, false); (1, 3, true); (2, 3, true)] /\ get_shd shd_true N = Ok 0.
Proof.
  split; [apply (dsep_of_oracle 4 (directed_pairs (nt_edges shd_true))), arcs_range|]. split; [apply lone_decides|]. split; [intros [|[|[|[|v]]]]; cbv; lia|].
  eexists. split; [vm_compute; reflexivity|]. split; [vm_compute; reflexivity|]. vm_compute; reflexivity.
Qed.
