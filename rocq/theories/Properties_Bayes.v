(** C79: predictions (JunctionTree.cpp L1399-1470, Inference.cpp L73-88) are the best ones on data that
    look like draws from the network.

    Vocabulary.  BayesSpec.v: [row_questions], [row_truths], [from_evidence].  RecoverSpec.v:
    [representative], [nearly_representative], [fraction], [differ_by].  LearnSpec.v: [complete].  SampleSpec.v: [distributions].  ExtendSpec.v:
    [reversible_cliques].  IndepSpec.v: [faithful].  GSquareSpec.v: [each_row], [pick_rows],
    [chi_square_like]. *)
From Coq Require Import QArith Reals.
From Verif Require Import BayesSpec JTModel LearnModel UtilModel LearnWitness LikelihoodWitness EssentialSpec SampleWitness JTWitness RecoverWitness ExtendSpec IndepSpec DSepSpec PCSpec GSquareSpec GSquareModel OrientModel PCModel DSepWitness PCWitness GSquareWitness IndepWitness IndepWitness ExtendWitness BayesTheorems BayesClose BayesPipe BayesWitness BayesPipeWitness TableProofs.
Local Open Scope nat_scope.

(** No predictions from the same evidence have a higher accuracy. *)
Theorem C79_best : forall N, netinv N -> doms_positive N -> forall ts, distributions N ts -> forall o, valid_order o -> forall T, jt_build o N ts = Ok T ->
  forall D, complete N D -> co_vars D = net_size N -> representative N ts D -> 20 <= co_rows D ->
  forall q xs, q < net_size N -> (forall v, v ∈ xs -> v < net_size N) -> q ∉ xs -> forall sch, (forall i, valid_scheduler (sch i)) ->
  exists labels p, predict sch T q (row_questions D xs) = Ok labels /\ accuracy (row_truths D q) (Z.of_nat <$> labels) = Ok p /\ from_evidence (row_questions D xs) (Z.of_nat <$> labels) /\
  forall ps, from_evidence (row_questions D xs) ps -> exists p', accuracy (row_truths D q) ps = Ok p' /\ (p' <= p)%Qc.
Proof. exact best_accuracy. Qed.
Print Assumptions C79_best.
Example C79_best_witness : (complete relay_net rows36 /\ co_vars rows36 = net_size relay_net /\ representative relay_net relay_tables rows36 /\ 20 <= co_rows rows36) /\ (from_evidence (row_questions rows36 [2]) (replicate 36 0%Z) /\ accuracy (row_truths rows36 0) (replicate 36 0%Z) = Ok (frac 1 2)).
Proof. exact (conj rows36_hyps relay_constant). Qed.

(** Knowing more variables does not lower the accuracy. *)
Theorem C79_more : forall N, netinv N -> doms_positive N -> forall ts, distributions N ts -> forall o, valid_order o -> forall T, jt_build o N ts = Ok T ->
  forall D, complete N D -> co_vars D = net_size N -> representative N ts D -> 20 <= co_rows D ->
  forall q xs ys, q < net_size N -> (forall v, v ∈ xs -> v ∈ ys) -> (forall v, v ∈ ys -> v < net_size N) -> q ∉ ys -> forall sch sch', (forall i, valid_scheduler (sch i)) -> (forall i, valid_scheduler (sch' i)) ->
  exists labels labels' p p', predict sch T q (row_questions D xs) = Ok labels /\ predict sch' T q (row_questions D ys) = Ok labels' /\
  accuracy (row_truths D q) (Z.of_nat <$> labels) = Ok p /\ accuracy (row_truths D q) (Z.of_nat <$> labels') = Ok p' /\ (p <= p')%Qc.
Proof. exact more_evidence. Qed.
Print Assumptions C79_more.
Example C79_more_witness : relay_accuracy [] = Ok (frac 1 2) /\ relay_accuracy [2] = Ok (frac 5 9) /\ relay_accuracy [1; 2] = Ok (frac 2 3).
Proof. exact relay_accuracies. Qed.

(** A network learned from data of the same kind, on any equivalent structure, does as well. *)
Theorem C79_learned : forall N1 N2, netinv N1 -> netinv N2 -> doms_positive N1 -> 0 < net_size N1 -> weakly_connected N1 -> domain_sizes N1 = domain_sizes N2 -> markov_equivalent (arcs_of N1) (arcs_of N2) ->
  forall ts train, distributions N1 ts -> complete N1 train -> co_vars train = net_size N1 -> representative N1 ts train -> forall coin ts2, learn_params N2 train 0 coin [] = Ok ts2 ->
  forall test, complete N1 test -> co_vars test = net_size N1 -> representative N1 ts test -> 20 <= co_rows test -> forall o, valid_order o -> exists T, jt_build o N2 ts2 = Ok T /\
  forall q xs, q < net_size N1 -> (forall v, v ∈ xs -> v < net_size N1) -> q ∉ xs -> forall sch, (forall i, valid_scheduler (sch i)) ->
  exists labels p, predict sch T q (row_questions test xs) = Ok labels /\ accuracy (row_truths test q) (Z.of_nat <$> labels) = Ok p /\
  forall ps, from_evidence (row_questions test xs) ps -> exists p', accuracy (row_truths test q) ps = Ok p' /\ (p' <= p)%Qc.
Proof. exact learned_best. Qed.
Print Assumptions C79_learned.
Example C79_learned_witness : netinv relay_net /\ netinv yaler_net /\ weakly_connected relay_net /\ markov_equivalent (arcs_of relay_net) (arcs_of yaler_net) /\ representative relay_net relay_tables rows18.
Proof. exact (conj relay_inv (conj yaler_inv (conj relay_connected (conj relay_equivalent relay_representative)))). Qed.

(** A network that is right about every row up to e comes close: twice e for each combination of values. *)
Theorem C79_nearly : forall N, netinv N -> doms_positive N -> forall ts, distributions N ts -> forall o, valid_order o -> forall T, jt_build o N ts = Ok T ->
  forall D, complete N D -> co_vars D = net_size N -> 20 <= co_rows D -> forall e, (forall a, valid (net_dom N) a -> differ_by e (fraction D (seq 0 (net_size N)) a) (joint ts a)) ->
  (forall j, j < co_rows D -> joint ts (data_row D j) <> 0%Qc) ->
  forall q xs, q < net_size N -> (forall v, v ∈ xs -> v < net_size N) -> NoDup xs -> q ∉ xs -> forall sch, (forall i, valid_scheduler (sch i)) ->
  exists labels p, predict sch T q (row_questions D xs) = Ok labels /\ accuracy (row_truths D q) (Z.of_nat <$> labels) = Ok p /\ from_evidence (row_questions D xs) (Z.of_nat <$> labels) /\
  forall ps, from_evidence (row_questions D xs) ps -> exists p', accuracy (row_truths D q) ps = Ok p' /\ (p' <= p + (1 + 1) * qn (prod_list (domain_sizes N)) * e)%Qc.
Proof. exact nearly_best. Qed.
Print Assumptions C79_nearly.
Example C79_nearly_witness : (distributions arrow_net wire_tables /\ complete arrow_net rows800 /\ co_vars rows800 = net_size arrow_net) /\ ((forall a, valid (net_dom arrow_net) a -> differ_by (frac 1 800) (fraction rows800 (seq 0 (net_size arrow_net)) a) (joint wire_tables a)) /\ (forall j, j < co_rows rows800 -> joint wire_tables (data_row rows800 j) <> 0%Qc) /\ 20 <= co_rows rows800) /\ ((1 + 1) * qn (prod_list (domain_sizes arrow_net)) * frac 1 800 = frac 1 100)%Qc.
Proof. exact (conj (conj wire_distributions rows800_complete) (conj wire_test (proj1 wire_gaps))). Qed.

(** So does a network whose parameters are learned with smoothing from other data of nearly the same kind. *)
Theorem C79_smoothed : forall N, netinv N -> doms_positive N -> 0 < net_size N -> weakly_connected N ->
  forall ts train, distributions N ts -> complete N train -> co_vars train = net_size N -> forall e p, nearly_representative e N ts train ->
  (forall x a, x < net_size N -> valid (net_dom N) a -> (p <= chance N ts (parents_of N x) a)%Qc) -> (e < p)%Qc ->
  forall k c, 0 < k -> (forall x, x < net_size N -> (((1 + 1) * e + qn k / qn (co_rows train) * qn (net_dom N x)) / (p - e) <= c)%Qc) -> forall coin,
  forall test, complete N test -> co_vars test = net_size N -> 20 <= co_rows test -> forall e', (forall a, valid (net_dom N) a -> differ_by e' (fraction test (seq 0 (net_size N)) a) (joint ts a)) ->
  forall o, valid_order o -> exists ts2 T, learn_params N train (Z.of_nat k) coin [] = Ok ts2 /\ jt_build o N ts2 = Ok T /\
  forall q xs, q < net_size N -> (forall v, v ∈ xs -> v < net_size N) -> NoDup xs -> q ∉ xs -> forall sch, (forall i, valid_scheduler (sch i)) ->
  exists labels acc, predict sch T q (row_questions test xs) = Ok labels /\ accuracy (row_truths test q) (Z.of_nat <$> labels) = Ok acc /\
  forall ps, from_evidence (row_questions test xs) ps -> exists acc', accuracy (row_truths test q) ps = Ok acc' /\ (acc' <= acc + (1 + 1) * qn (prod_list (domain_sizes N)) * (e' + qn (net_size N) * c))%Qc.
Proof. exact learned_nearly_best. Qed.
Print Assumptions C79_smoothed.
Example C79_smoothed_witness : nearly_representative (frac 1 800) arrow_net wire_tables rows800 /\ (forall x a, x < net_size arrow_net -> valid (net_dom arrow_net) a -> (frac 1 2 <= chance arrow_net wire_tables (parents_of arrow_net x) a)%Qc) /\ (forall x, x < net_size arrow_net -> (((1 + 1) * frac 1 800 + qn 1 / qn (co_rows rows800) * qn (net_dom arrow_net x)) / (frac 1 2 - frac 1 800) <= frac 4 399)%Qc) /\ ((1 + 1) * qn (prod_list (domain_sizes arrow_net)) * (frac 1 800 + qn (net_size arrow_net) * frac 4 399) = frac 6799 39900)%Qc.
Proof. exact (conj (proj1 wire_near) (conj wire_chance (conj wire_c (proj2 wire_gaps)))). Qed.

(** From data to predictions: with enough copies of representative data, structure learning with the G-square test, parameter learning and the junction tree give the best predictions on other representative data. *)
Theorem C79_from_data : forall N, netinv N -> doms_positive N -> weakly_connected N -> reversible_cliques (net_size N) (arcs_of N) -> (exists x y, x < net_size N /\ y < net_size N /\ x <> y /\ ~ adjacent (arcs_of N) x y) ->
  forall ts D, distributions N ts -> (forall a, valid (net_dom N) a -> joint ts a <> 0%Qc) -> faithful N ts -> complete N D -> co_vars D = net_size N -> representative N ts D ->
  forall F alpha size psch depth, chi_square_like F -> (0 < alpha < 1)%R -> size = 1 \/ 1 <= size <= 8 /\ (alpha < 1 - F 0 0%nat)%R -> valid_sched psch -> (forall v, length (parents_of N v) < depth) ->
  exists K, forall k p, K <= k -> each_row k (co_rows D) p -> forall pcoin,
  exists fuel0, forall fuel, fuel0 <= fuel -> exists es A S M, skeleton_search (gsquare_test F alpha (pick_rows p D) (domain_sizes N)) (net_size N) depth fuel size psch = Ok (es, A, S) /\ orient_skeleton fuel (domain_sizes N) true pcoin es A S = Ok M /\
  forall coin, exists ts2, learn_params M (pick_rows p D) 0 coin [] = Ok ts2 /\ forall o, valid_order o -> exists T, jt_build o M ts2 = Ok T /\
  forall test, complete N test -> co_vars test = net_size N -> representative N ts test -> 20 <= co_rows test ->
  forall q xs, q < net_size N -> (forall v, v ∈ xs -> v < net_size N) -> q ∉ xs -> forall sch, (forall i, valid_scheduler (sch i)) ->
  exists labels acc, predict sch T q (row_questions test xs) = Ok labels /\ accuracy (row_truths test q) (Z.of_nat <$> labels) = Ok acc /\
  forall ps, from_evidence (row_questions test xs) ps -> exists acc', accuracy (row_truths test q) ps = Ok acc' /\ (acc' <= acc)%Qc.
Proof. exact learned_predictions. Qed.
Print Assumptions C79_from_data.
Example C79_from_data_witness : (complete meet_net rows32 /\ co_vars rows32 = net_size meet_net /\ representative meet_net meet_tables rows32 /\ 20 <= co_rows rows32) /\ representative meet_net meet_tables rows16 /\ faithful meet_net meet_tables /\ weakly_connected meet_net /\ reversible_cliques 3 (arcs_of meet_net) /\ chi_square_like chi_two.
Proof. exact (conj rows32_hyps (conj meet_representative (conj meet_faithful (conj meet_connected (conj meet_cliques chi_two_like))))). Qed.
