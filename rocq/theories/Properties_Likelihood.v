(** C73: learned parameters are the ones that make the data most probable (ParameterLearning.cpp).

    Vocabulary.  LikelihoodSpec.v: [likelihood D ts] - the probability of all rows of the data, drawn
    independently from the joint distribution of the tables ts; [imagined k ts] - the probability of
    observing every combination of values of a node and of its parents k more times.
    SampleSpec.v: [distributions N ts] - one table per node, with non-negative entries that sum to
    one for every choice of the parents' values.  LearnSpec.v: [complete N D] - the data give every
    node a value in every row; [doms_positive].
    Model (LearnModel.v): [learn_params N D alpha coin pts]. *)
From Verif Require Import LearnModel LearnSpec SampleSpec LikelihoodSpec JTWitness LearnWitness LikelihoodProofs LikelihoodWitness.
Local Open Scope nat_scope.

(** Without smoothing: no other conditional distributions make the data as probable. *)
Theorem C73_likeliest : forall N, netinv N -> doms_positive N -> forall D, complete N D -> co_vars D = net_size N -> forall coin ts, learn_params N D 0 coin [] = Ok ts ->
  distributions N ts /\ (0 < likelihood D ts)%Qc /\ forall qs, distributions N qs -> (likelihood D qs <= likelihood D ts)%Qc /\
  (likelihood D qs = likelihood D ts -> forall x q t a, qs !! x = Some q -> ts !! x = Some t -> valid (net_dom N) a -> tval q a = tval t a).
Proof. exact learned_likeliest. Qed.
Print Assumptions C73_likeliest.
Example C73_likeliest_witness : netinv arrow_net /\ doms_positive arrow_net /\ complete arrow_net rows6 /\ co_vars rows6 = net_size arrow_net /\
  learn_params arrow_net rows6 0 (fun _ _ => 0) [] = Ok plain6 /\ likelihood rows6 plain6 = frac 1 729 /\ distributions arrow_net even_tables /\ likelihood rows6 even_tables = frac 1 4096.
Proof.
  exact (conj (proj1 rows6_hyps) (conj (proj1 (proj2 rows6_hyps)) (conj (proj1 (proj2 (proj2 rows6_hyps))) (conj (proj2 (proj2 (proj2 rows6_hyps))) (conj plain6_learn (conj (proj1 rows6_values) (conj even_distributions (proj1 (proj2 rows6_values))))))))).
Qed.

(** With smoothing by k: the same, after k more imagined observations of every combination. *)
Theorem C73_smoothed : forall N, netinv N -> doms_positive N -> forall D, complete N D -> co_vars D = net_size N -> forall k coin ts, learn_params N D (Z.of_nat k) coin [] = Ok ts ->
  distributions N ts /\ (0 < likelihood D ts * imagined k ts)%Qc /\ forall qs, distributions N qs ->
  (likelihood D qs * imagined k qs <= likelihood D ts * imagined k ts)%Qc /\
  ((likelihood D qs * imagined k qs)%Qc = (likelihood D ts * imagined k ts)%Qc -> forall x q t a, qs !! x = Some q -> ts !! x = Some t -> valid (net_dom N) a -> tval q a = tval t a).
Proof. exact learned_maximise. Qed.
Print Assumptions C73_smoothed.
Example C73_smoothed_witness : learn_params arrow_net rows6 (Z.of_nat 1) (fun _ _ => 0) [] = Ok smooth6 /\ distributions arrow_net even_tables /\
  (likelihood rows6 even_tables * imagined 1 even_tables = frac 1 262144)%Qc /\ (likelihood rows6 smooth6 * imagined 1 smooth6 = frac 2278125 274877906944)%Qc.
Proof. exact (conj smooth6_learn (conj even_distributions (proj2 (proj2 (proj2 (proj2 rows6_values)))))). Qed.

(** Smoothed parameters do not maximise the probability of the data themselves. *)
Theorem C73_smoothed_likeliest_refuted : exists N D k coin ts qs, netinv N /\ doms_positive N /\ complete N D /\ co_vars D = net_size N /\ 0 < k /\ learn_params N D (Z.of_nat k) coin [] = Ok ts /\ distributions N qs /\ (likelihood D ts < likelihood D qs)%Qc.
Proof. exact rows6_refutes. Qed.
Print Assumptions C73_smoothed_likeliest_refuted.

(** And without smoothing a maximum can exist where learning divides by zero. *)
Theorem C73_found_refuted : exists N D ts, netinv N /\ doms_positive N /\ complete N D /\ co_vars D = net_size N /\ distributions N ts /\ (forall qs, distributions N qs -> (likelihood D qs <= likelihood D ts)%Qc) /\
  forall coin, learn_params N D 0 coin [] = Err DivZero.
Proof. exact row1_refutes. Qed.
Print Assumptions C73_found_refuted.
