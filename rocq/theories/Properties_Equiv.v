(** C74: learned parameters on Markov equivalent structures (ParameterLearning.cpp, JunctionTree.cpp).

    Vocabulary.  DSepSpec.v: [markov_equivalent g h] - the same adjacencies and the same v-structures.
    EssentialSpec.v: [arcs_of N] - the directed edges of a network.  JTSpec.v: [joint ts a] - the
    probability of the assignment a; [posterior], [evidence_in_range], [evidence_weight],
    [weakly_connected].  LearnSpec.v: [complete N D], [doms_positive].  LikelihoodSpec.v: [likelihood].
    Models: LearnModel.v [learn_params]; JTModel.v [jt_build], [query_probs]. *)
From Verif Require Import LearnModel LearnSpec LikelihoodSpec EssentialSpec JTSpec JTWitness LearnWitness LikelihoodWitness EquivTheorems EquivWitness.
Local Open Scope nat_scope.

(** Without smoothing, two equivalent structures get the same distribution. *)
Theorem C74_distribution : forall N1 N2, netinv N1 -> netinv N2 -> doms_positive N1 -> domain_sizes N1 = domain_sizes N2 -> markov_equivalent (arcs_of N1) (arcs_of N2) ->
  forall D, complete N1 D -> co_vars D = net_size N1 -> forall coin1 coin2 ts1 ts2, learn_params N1 D 0 coin1 [] = Ok ts1 -> learn_params N2 D 0 coin2 [] = Ok ts2 ->
  (forall a, valid (net_dom N1) a -> joint ts1 a = joint ts2 a) /\ likelihood D ts1 = likelihood D ts2 /\
  forall E q x, evidence_in_range N1 E -> x < net_dom N1 q -> posterior N1 ts1 E q x = posterior N2 ts2 E q x.
Proof. exact class_distribution. Qed.
Print Assumptions C74_distribution.
Example C74_distribution_witness : netinv down_net /\ netinv up_net /\ markov_equivalent (arcs_of down_net) (arcs_of up_net) /\
  (doms_positive down_net /\ 0 < net_size down_net /\ domain_sizes down_net = domain_sizes up_net /\ complete down_net rows8 /\ co_vars rows8 = net_size down_net) /\
  learn_params down_net rows8 0 (fun _ _ => 0) [] = Ok down8 /\ learn_params up_net rows8 0 (fun _ _ => 0) [] = Ok up8 /\ pt_vars <$> down8 = [[0]; [1; 0]; [2; 1]] /\ pt_vars <$> up8 = [[0; 1]; [1; 2]; [2]].
Proof. exact (conj down_inv (conj up_inv (conj chain_equivalent (conj rows8_hyps (conj down8_learn (conj up8_learn (conj (proj1 (proj2 tables8)) (proj1 (proj2 (proj2 tables8)))))))))). Qed.

(** Exact inference gives the same answers, whatever the junction trees. *)
Theorem C74_answers : forall N1 N2, netinv N1 -> netinv N2 -> doms_positive N1 -> 0 < net_size N1 -> domain_sizes N1 = domain_sizes N2 -> markov_equivalent (arcs_of N1) (arcs_of N2) -> weakly_connected N1 ->
  forall D, complete N1 D -> co_vars D = net_size N1 -> forall coin1 coin2 ts1 ts2, learn_params N1 D 0 coin1 [] = Ok ts1 -> learn_params N2 D 0 coin2 [] = Ok ts2 ->
  forall o1 o2, valid_order o1 -> valid_order o2 -> exists T1 T2, jt_build o1 N1 ts1 = Ok T1 /\ jt_build o2 N2 ts2 = Ok T2 /\
  forall sch1 sch2 E, valid_scheduler sch1 -> valid_scheduler sch2 -> evidence_in_range N1 E -> evidence_weight N1 ts1 E <> 0%Qc ->
    exists ps, query_probs sch1 T1 E (jt_backup T1) = Ok (jt_backup T1, ps) /\ query_probs sch2 T2 E (jt_backup T2) = Ok (jt_backup T2, ps).
Proof. exact class_answers. Qed.
Print Assumptions C74_answers.
Example C74_answers_witness : weakly_connected down_net /\ evidence_weight down_net down8 [(2, 0)] = frac 1 2.
Proof. exact (conj down_connected (proj2 (proj2 (proj2 (proj2 tables8))))). Qed.

(** Equivalence cannot be weakened to equal adjacencies. *)
Theorem C74_adjacencies_refuted : exists ts1 ts2 a, (forall x y, adjacent (arcs_of down_net) x y <-> adjacent (arcs_of meet_net) x y) /\
  learn_params down_net rows8 0 (fun _ _ => 0) [] = Ok ts1 /\ learn_params meet_net rows8 0 (fun _ _ => 0) [] = Ok ts2 /\ joint ts1 a <> joint ts2 a.
Proof. exact adjacency_refutes. Qed.
Print Assumptions C74_adjacencies_refuted.

(** With smoothing the direction of an edge changes the distribution: 2/9 against 1/6. *)
Theorem C74_smoothed_refuted : exists N1 N2 D k coin ts1 ts2 a, netinv N1 /\ netinv N2 /\ doms_positive N1 /\ domain_sizes N1 = domain_sizes N2 /\ markov_equivalent (arcs_of N1) (arcs_of N2) /\ complete N1 D /\ co_vars D = net_size N1 /\ (0 < k)%Z /\
  learn_params N1 D k coin [] = Ok ts1 /\ learn_params N2 D k coin [] = Ok ts2 /\ valid (net_dom N1) a /\ joint ts1 a = frac 2 9 /\ joint ts2 a = frac 1 6.
Proof. exact smoothing_refutes. Qed.
Print Assumptions C74_smoothed_refuted.

(** And without smoothing learning can fail for one of two equivalent structures only. *)
Theorem C74_failure_refuted : exists N1 N2 D coin ts1, netinv N1 /\ netinv N2 /\ doms_positive N1 /\ domain_sizes N1 = domain_sizes N2 /\ markov_equivalent (arcs_of N1) (arcs_of N2) /\ complete N1 D /\ co_vars D = net_size N1 /\
  learn_params N1 D 0 coin [] = Ok ts1 /\ learn_params N2 D 0 coin [] = Err DivZero.
Proof. exact failure_refutes. Qed.
Print Assumptions C74_failure_refuted.
