(** C77: exact inference respects d-separation (JunctionTree.cpp), and so do the tests on data that
    look like draws from a network (IndependenceTest.cpp, PCStable.cpp).

    Vocabulary.  IndepSpec.v: [independent], [faithful], [observed].  RecoverSpec.v: [chance],
    [representative].  DSepSpec.v: [d_connected], [descendant], [dag], [markov_equivalent].
    SampleSpec.v: [distributions N ts] - ts are conditional probability tables of N.  JTSpec.v:
    [posterior], [evidence_in_range], [evidence_weight], [answer_block], [answer_all].  GSquareSpec.v:
    [cond_indep], [chi_square_like], [each_row], [pick_rows]. *)
From Coq Require Import Reals QArith.
From Verif Require Import IndepSpec GSquareModel GSquareSpec OrientModel PCSpec IndepTheorems IndepAnswers IndepData IndepLearn JTWitness LearnWitness PCWitness GSquareWitness DSepWitness RecoverWitness IndepWitness TableProofs.
Local Open Scope nat_scope.

(** Variables separated from [x] by [s] are independent of it given [s], whatever the parameters. *)
Theorem C77_independent : forall N, netinv N -> doms_positive N -> forall ts, distributions N ts -> forall x ys s, x < net_size N -> (forall v, v ∈ ys ++ s -> v < net_size N) -> x ∉ ys -> x ∉ s -> (forall v, v ∈ ys -> v ∉ s) ->
  (forall y, y ∈ ys -> ~ d_connected (arcs_of N) x y s) -> independent N ts x ys s.
Proof. exact separated_independent. Qed.
Print Assumptions C77_independent.
Example C77_independent_witness : netinv relay_net /\ doms_positive relay_net /\ distributions relay_net relay_tables /\ ~ d_connected (arcs_of relay_net) 0 2 [1].
Proof. exact (conj relay_inv (conj relay_doms (conj relay_distributions relay_separated))). Qed.

(** More evidence [X], about variables separated from [q] by the evidence [E], does not change the
    answers about [q]. *)
Theorem C77_answers : forall N, netinv N -> doms_positive N -> 0 < net_size N -> forall ts, distributions N ts -> forall o, valid_order o -> forall T, jt_build o N ts = Ok T ->
  forall q X E, q < net_size N -> (forall v, v ∈ fst <$> X ++ E -> v < net_size N) -> evidence_in_range N (X ++ E) -> q ∉ fst <$> X ++ E -> (forall v, v ∈ fst <$> X -> v ∉ fst <$> E) ->
  (forall y, y ∈ fst <$> X -> ~ d_connected (arcs_of N) q y (fst <$> E)) -> evidence_weight N ts (X ++ E) <> 0%Qc ->
  forall sch sch', valid_scheduler sch -> valid_scheduler sch' ->
  (exists st st' p p', propagate sch T E (jt_backup T) = Ok st /\ propagate sch' T (X ++ E) (jt_backup T) = Ok st' /\ calculate_marginal T st q = Ok p /\ calculate_marginal T st' q = Ok p' /\ pt_pots p = pt_pots p') /\
  (exists l, query_label sch T q E (jt_backup T) = Ok (jt_backup T, l) /\ query_label sch' T q (X ++ E) (jt_backup T) = Ok (jt_backup T, l)) /\
  query_probs sch T E (jt_backup T) = Ok (jt_backup T, answer_all N ts E) /\ query_probs sch' T (X ++ E) (jt_backup T) = Ok (jt_backup T, answer_all N ts (X ++ E)) /\ answer_block N ts (X ++ E) q = answer_block N ts E q.
Proof. exact separated_answers. Qed.
Print Assumptions C77_answers.
Example C77_answers_witness : (exists T, jt_build addr_order relay_net relay_tables = Ok T) /\ ~ d_connected (arcs_of relay_net) 0 2 [1] /\
  evidence_weight relay_net relay_tables [(2, 1); (1, 0)] = frac 1 6 /\ posterior relay_net relay_tables [(1, 0)] 0 0 = frac 2 3 /\ posterior relay_net relay_tables [(2, 1); (1, 0)] 0 0 = frac 2 3 /\
  posterior relay_net relay_tables [] 0 0 = frac 1 2 /\ posterior relay_net relay_tables [(2, 0)] 0 0 = frac 5 9.
Proof. exact (conj relay_tree (conj relay_separated relay_learned_posterior)). Qed.
(** Variables that are separated without evidence may be connected with evidence. *)
Example C77_answers_collider_witness : netinv meet_net /\ exists ts, learn_params meet_net rows16 0 (fun _ _ => 0) [] = Ok ts /\ posterior meet_net ts [] 0 0 = frac 1 2 /\ posterior meet_net ts [(1, 0)] 0 0 = frac 1 2 /\
  posterior meet_net ts [(2, 0)] 0 0 = frac 3 5 /\ posterior meet_net ts [(1, 0); (2, 0)] 0 0 = frac 1 2.
Proof. exact (conj meet_inv meet_posterior). Qed.

(** If the evidence covers the parents of [q], its children and their other parents, then no other
    evidence changes the answers about [q]. *)
Theorem C77_blanket : forall N, netinv N -> doms_positive N -> 0 < net_size N -> forall ts, distributions N ts -> forall o, valid_order o -> forall T, jt_build o N ts = Ok T ->
  forall q X E, q < net_size N -> (forall v, v ∈ fst <$> X ++ E -> v < net_size N) -> evidence_in_range N (X ++ E) -> q ∉ fst <$> X ++ E -> (forall v, v ∈ fst <$> X -> v ∉ fst <$> E) ->
  (forall p, p ∈ parents_of N q -> p ∈ fst <$> E) -> (forall c, c < net_size N -> q ∈ parents_of N c -> c ∈ fst <$> E /\ forall p, p ∈ parents_of N c -> p = q \/ p ∈ fst <$> E) -> evidence_weight N ts (X ++ E) <> 0%Qc ->
  forall sch sch', valid_scheduler sch -> valid_scheduler sch' ->
  (exists l, query_label sch T q E (jt_backup T) = Ok (jt_backup T, l) /\ query_label sch' T q (X ++ E) (jt_backup T) = Ok (jt_backup T, l)) /\
  query_probs sch T E (jt_backup T) = Ok (jt_backup T, answer_all N ts E) /\ query_probs sch' T (X ++ E) (jt_backup T) = Ok (jt_backup T, answer_all N ts (X ++ E)) /\ answer_block N ts (X ++ E) q = answer_block N ts E q.
Proof. exact blanket_answers. Qed.
Print Assumptions C77_blanket.
Example C77_blanket_witness : (forall p, p ∈ parents_of relay_net 0 -> p ∈ [1]) /\ (forall c, c < net_size relay_net -> 0 ∈ parents_of relay_net c -> c ∈ [1] /\ forall p, p ∈ parents_of relay_net c -> p = 0 \/ p ∈ [1]).
Proof. exact relay_blanket. Qed.

(** If the evidence covers the parents of [q] and nothing after it, the answers are the entries of [q]'s table. *)
Theorem C77_entries : forall N, netinv N -> doms_positive N -> 0 < net_size N -> forall ts, distributions N ts -> forall o, valid_order o -> forall T, jt_build o N ts = Ok T ->
  forall q t E, ts !! q = Some t -> (forall v, v ∈ fst <$> E -> v < net_size N) -> evidence_in_range N E -> q ∉ fst <$> E -> (forall p, p ∈ parents_of N q -> p ∈ fst <$> E) -> (forall d, d ∈ fst <$> E -> ~ descendant (arcs_of N) q d) ->
  evidence_weight N ts E <> 0%Qc -> forall sch, valid_scheduler sch ->
  exists st p, propagate sch T E (jt_backup T) = Ok st /\ calculate_marginal T st q = Ok p /\ length (pt_pots p) = net_dom N q /\
  forall a, valid (net_dom N) a -> (forall v x, (v, x) ∈ E -> a v = x) -> pt_pots p !! a q = Some (tval t a) /\ posterior N ts E q (a q) = tval t a.
Proof. exact entry_answers. Qed.
Print Assumptions C77_entries.
Example C77_entries_witness : (forall p, p ∈ parents_of relay_net 2 -> p ∈ [1; 0]) /\ (forall d, d ∈ [1; 0] -> ~ descendant (arcs_of relay_net) 2 d) /\ evidence_weight relay_net relay_tables [(1, 0); (0, 1)] = frac 1 6 /\
  posterior relay_net relay_tables [(1, 0); (0, 1)] 2 0 = frac 6 9.
Proof. exact relay_last. Qed.

(** If the distribution has no other independences, the separated variables are exactly those that never matter. *)
Theorem C77_informative : forall N, netinv N -> doms_positive N -> forall ts, distributions N ts -> faithful N ts -> forall x y s, x < net_size N -> y < net_size N -> Forall (fun v => v < net_size N) s -> NoDup (x :: y :: s) ->
  ~ d_connected (arcs_of N) x y s <->
  forall a, valid (net_dom N) a -> evidence_weight N ts (observed (y :: s) a) <> 0%Qc -> forall i, i < net_dom N x -> posterior N ts (observed (y :: s) a) x i = posterior N ts (observed s a) x i.
Proof. exact informative. Qed.
Print Assumptions C77_informative.
Example C77_informative_witness : faithful relay_net relay_tables.
Proof. exact relay_faithful. Qed.

(** In data exactly as frequent as the network says, separated variables are independent; if the
    distribution has no other independences, exactly the separated ones are. *)
Theorem C77_data : forall N, netinv N -> doms_positive N -> forall ts, distributions N ts -> forall D, complete N D -> co_vars D = net_size N -> representative N ts D ->
  forall x y zs, x < net_size N -> y < net_size N -> Forall (fun v => v < net_size N) zs -> NoDup (zs ++ [x; y]) -> ~ d_connected (arcs_of N) x y zs -> cond_indep D x y zs.
Proof. exact separated_data. Qed.
Print Assumptions C77_data.
Theorem C77_faithful_data : forall N, netinv N -> doms_positive N -> forall ts, distributions N ts -> forall D, complete N D -> co_vars D = net_size N -> representative N ts D ->
  faithful N ts -> data_faithful D (net_size N) (arcs_of N).
Proof. exact faithful_data. Qed.
Print Assumptions C77_faithful_data.
Example C77_data_witness : complete relay_net rows18 /\ co_vars rows18 = net_size relay_net /\ representative relay_net relay_tables rows18 /\ faithful relay_net relay_tables.
Proof. exact (conj (proj1 rows18_complete) (conj (proj2 rows18_complete) (conj relay_representative relay_faithful))). Qed.

(** So the test accepts them at every level below 1. *)
Theorem C77_test : forall N, netinv N -> doms_positive N -> forall ts D, distributions N ts -> complete N D -> co_vars D = net_size N -> representative N ts D ->
  forall x y zs, x < net_size N -> y < net_size N -> Forall (fun v => v < net_size N) zs -> NoDup (zs ++ [x; y]) -> ~ d_connected (arcs_of N) x y zs ->
  forall F alpha, chi_square_like F -> (0 <= alpha < 1)%R -> exists r, gsquare_test F alpha D (domain_sizes N) x y zs 1 = Ok r /\ ci_indep r = true.
Proof. exact separated_accepted. Qed.
Print Assumptions C77_test.
Example C77_test_witness : chi_square_like chi_two /\ ~ d_connected (arcs_of relay_net) 0 2 [1].
Proof. exact (conj chi_two_like relay_separated). Qed.

(** And structure learning from enough copies of such data returns the essential graph of the network. *)
Theorem C77_learning : forall N, netinv N -> doms_positive N -> forall ts D, distributions N ts -> faithful N ts -> complete N D -> co_vars D = net_size N -> representative N ts D ->
  forall F alpha size sch depth coin, chi_square_like F -> (0 < alpha < 1)%R -> size = 1 \/ 1 <= size <= 8 /\ (alpha < 1 - F 0 0%nat)%R -> valid_sched sch -> (forall v, length (parents_of N v) < depth) ->
  exists K, forall k p, K <= k -> each_row k (co_rows D) p ->
  exists fuel0, forall fuel, fuel0 <= fuel -> exists es A S M, skeleton_search (gsquare_test F alpha (pick_rows p D) (domain_sizes N)) (net_size N) depth fuel size sch = Ok (es, A, S) /\ orient_skeleton fuel (domain_sizes N) false coin es A S = Ok M /\
  (forall x y, has_directed M x y <-> forall h, dag (net_size N) h -> markov_equivalent (arcs_of N) h -> h x y = true) /\
  (forall x y, undirected_edge x y ∈ nt_edges M <-> (exists h, dag (net_size N) h /\ markov_equivalent (arcs_of N) h /\ h x y = true) /\ (exists h, dag (net_size N) h /\ markov_equivalent (arcs_of N) h /\ h y x = true)).
Proof. exact faithful_learning. Qed.
Print Assumptions C77_learning.
Example C77_learning_witness : faithful relay_net relay_tables /\ representative relay_net relay_tables rows18 /\ chi_square_like chi_two /\ valid_sched forwards /\ forall v, length (parents_of relay_net v) < 3.
Proof. exact (conj relay_faithful (conj relay_representative (conj chi_two_like (conj forwards_valid (proj1 (proj2 (proj2 relay_oracle))))))). Qed.
