(** C80: generating samples (SampleSetGenerator.cpp L20-45) and learning from them
    (ParameterLearning.cpp L10-109).

    Vocabulary.  SimulateSpec.v: [unit_box], [hits], [discrepancy], [sample_columns], [grid].
    SampleSpec.v: [uniform], [in_box], [volume], [distributions].  RecoverSpec.v: [fraction], [chance],
    [differ_by].  BayesSpec.v: [row_questions], [row_truths], [from_evidence]. *)
From Coq Require Import QArith.
From Verif Require Import SimulateSpec BayesSpec SampleModel JTModel LearnModel UtilModel JTWitness LikelihoodWitness RecoverWitness SimulateTheorems SimulateLimit SimulateWitness TableProofs.
Local Open Scope nat_scope.

(** The frequency of every row of the samples differs from its probability by at most the discrepancy of the numbers drawn; no impossible row occurs. *)
Theorem C80_frequencies : forall N cs ts, netinv N -> nt_topo N = [] -> doms_positive N -> 0 < net_size N -> node_tables N cs = Ok ts -> distributions N ts ->
  forall us e, us <> [] -> (forall u, u ∈ us -> uniform u) -> discrepancy e (net_size N) us -> exists M samples, generate_samples N cs us = Ok (M, samples) /\ length samples = length us /\
  complete N (sample_columns (net_size N) samples) /\ (forall a, valid (net_dom N) a -> differ_by e (fraction (sample_columns (net_size N) samples) (seq 0 (net_size N)) a) (joint ts a)) /\
  forall j, j < length samples -> joint ts (data_row (sample_columns (net_size N) samples) j) <> 0%Qc.
Proof. exact generated_frequencies. Qed.
Print Assumptions C80_frequencies.
Example C80_frequencies_witness : (netinv arrow_net /\ nt_topo arrow_net = [] /\ doms_positive arrow_net /\ 0 < net_size arrow_net /\ weakly_connected arrow_net /\ node_tables arrow_net wire_counters = Ok wire_cpts /\ distributions arrow_net wire_cpts /\ (exists t, wire_cpts !! 1 = Some t /\ tval t (fun _ => 0) = frac 3 4)) /\ discrepancy (frac 1 200) (net_size arrow_net) (grid 400 2).
Proof. exact (conj wire_hyps (proj1 wire_grid)). Qed.

(** Parameters learned from the samples, and the answers of the network learned, differ from the original ones by a bound that goes to zero with the discrepancy and the share of the smoothing. *)
Theorem C80_learned : forall N cs ts, netinv N -> nt_topo N = [] -> doms_positive N -> 0 < net_size N -> weakly_connected N -> node_tables N cs = Ok ts -> distributions N ts ->
  forall us e p, us <> [] -> (forall u, u ∈ us -> uniform u) -> discrepancy e (net_size N) us ->
  (forall x a, x < net_size N -> valid (net_dom N) a -> (p <= chance N ts (parents_of N x) a)%Qc) -> let g := (qn (prod_list (domain_sizes N)) * e)%Qc in (g < p)%Qc ->
  forall k d, (forall v, net_dom N v <= d) -> forall coin o, valid_order o -> exists M samples ts2 T, generate_samples N cs us = Ok (M, samples) /\
  learn_params N (sample_columns (net_size N) samples) (Z.of_nat k) coin [] = Ok ts2 /\ jt_build o N ts2 = Ok T /\
  (forall x q t a, ts !! x = Some q -> ts2 !! x = Some t -> valid (net_dom N) a -> differ_by (((1 + 1) * g + qn k / qn (length us) * qn (net_dom N x)) / (p - g))%Qc (tval t a) (tval q a)) /\
  let h := (qn (net_size N * prod_list (domain_sizes N)) * (((1 + 1) * g + qn k / qn (length us) * qn d) / (p - g)))%Qc in
  forall sch E, valid_scheduler sch -> evidence_in_range N E -> (h < evidence_weight N ts E)%Qc ->
    query_probs sch T E (jt_backup T) = Ok (jt_backup T, answer_all N ts2 E) /\
    forall q x, q < net_size N -> q ∉ fst <$> E -> x < net_dom N q -> differ_by ((1 + 1) * h / evidence_weight N ts E)%Qc (posterior N ts2 E q x) (posterior N ts E q x).
Proof. exact generated_learned. Qed.
Print Assumptions C80_learned.
Example C80_learned_witness : (forall x a, x < net_size arrow_net -> valid (net_dom arrow_net) a -> (frac 1 2 <= chance arrow_net wire_cpts (parents_of arrow_net x) a)%Qc) /\ (qn (prod_list (domain_sizes arrow_net)) * frac 1 200 = frac 1 50)%Qc /\ (((1 + 1) * frac 1 50 + qn 1 / qn (400 ^ 2)%nat * qn (net_dom arrow_net 1)) / (frac 1 2 - frac 1 50) = frac 3201 38400)%Qc.
Proof. exact (conj wire_even (proj2 wire_grid)). Qed.

(** Predictions of the network learned, on samples generated separately, are nearly the best ones. *)
Theorem C80_predictions : forall N cs ts, netinv N -> nt_topo N = [] -> doms_positive N -> 0 < net_size N -> weakly_connected N -> node_tables N cs = Ok ts -> distributions N ts ->
  forall us e p, us <> [] -> (forall u, u ∈ us -> uniform u) -> discrepancy e (net_size N) us ->
  (forall x a, x < net_size N -> valid (net_dom N) a -> (p <= chance N ts (parents_of N x) a)%Qc) -> let g := (qn (prod_list (domain_sizes N)) * e)%Qc in (g < p)%Qc ->
  forall k c, 0 < k -> (forall x, x < net_size N -> (((1 + 1) * g + qn k / qn (length us) * qn (net_dom N x)) / (p - g) <= c)%Qc) ->
  forall us' e', 20 <= length us' -> (forall u, u ∈ us' -> uniform u) -> discrepancy e' (net_size N) us' -> forall coin o, valid_order o ->
  exists M samples M' tests ts2 T, generate_samples N cs us = Ok (M, samples) /\ generate_samples N cs us' = Ok (M', tests) /\ learn_params N (sample_columns (net_size N) samples) (Z.of_nat k) coin [] = Ok ts2 /\ jt_build o N ts2 = Ok T /\
  forall q xs, q < net_size N -> (forall v, v ∈ xs -> v < net_size N) -> NoDup xs -> q ∉ xs -> forall sch, (forall i, valid_scheduler (sch i)) -> let D := sample_columns (net_size N) tests in
  exists labels acc, predict sch T q (row_questions D xs) = Ok labels /\ accuracy (row_truths D q) (Z.of_nat <$> labels) = Ok acc /\
  forall ps, from_evidence (row_questions D xs) ps -> exists acc', accuracy (row_truths D q) ps = Ok acc' /\ (acc' <= acc + (1 + 1) * qn (prod_list (domain_sizes N)) * (e' + qn (net_size N) * c))%Qc.
Proof. exact generated_predictions. Qed.
Print Assumptions C80_predictions.
Example C80_predictions_witness : (netinv arrow_net /\ nt_topo arrow_net = [] /\ doms_positive arrow_net /\ 0 < net_size arrow_net /\ weakly_connected arrow_net /\ node_tables arrow_net wire_counters = Ok wire_cpts /\ distributions arrow_net wire_cpts /\ (exists t, wire_cpts !! 1 = Some t /\ tval t (fun _ => 0) = frac 3 4)) /\ (forall x a, x < net_size arrow_net -> valid (net_dom arrow_net) a -> (frac 1 2 <= chance arrow_net wire_cpts (parents_of arrow_net x) a)%Qc).
Proof. exact (conj wire_hyps wire_even). Qed.

(** There are numbers of any discrepancy: a regular grid with m values for each of d coordinates. *)
Theorem C80_grid : forall m d, 0 < m -> discrepancy (qn d / qn m)%Qc d (grid m d) /\ (forall u, u ∈ grid m d -> uniform u) /\ length (grid m d) = m ^ d.
Proof. exact grid_discrepancy. Qed.
Print Assumptions C80_grid.

(** In the limit: for every error allowed there are a discrepancy and a number of samples from which on learning gives back the parameters and the answers up to that error. *)
Theorem C80_limit : forall N cs ts, netinv N -> nt_topo N = [] -> doms_positive N -> 0 < net_size N -> weakly_connected N -> node_tables N cs = Ok ts -> distributions N ts ->
  forall w err k, (0 < w)%Qc -> (0 < err)%Qc -> (forall x a, x < net_size N -> valid (net_dom N) a -> (0 < chance N ts (parents_of N x) a)%Qc) ->
  exists e m, (0 < e)%Qc /\ forall us, m <= length us -> (forall u, u ∈ us -> uniform u) -> discrepancy e (net_size N) us -> forall coin o, valid_order o ->
  exists M samples ts2 T, generate_samples N cs us = Ok (M, samples) /\ learn_params N (sample_columns (net_size N) samples) (Z.of_nat k) coin [] = Ok ts2 /\ jt_build o N ts2 = Ok T /\
  (forall x q t a, ts !! x = Some q -> ts2 !! x = Some t -> valid (net_dom N) a -> differ_by err (tval t a) (tval q a)) /\
  forall sch E, valid_scheduler sch -> evidence_in_range N E -> (w <= evidence_weight N ts E)%Qc ->
    query_probs sch T E (jt_backup T) = Ok (jt_backup T, answer_all N ts2 E) /\
    forall q x, q < net_size N -> q ∉ fst <$> E -> x < net_dom N q -> differ_by err (posterior N ts2 E q x) (posterior N ts E q x).
Proof. exact generated_limit. Qed.
Print Assumptions C80_limit.
Example C80_limit_witness : (netinv arrow_net /\ nt_topo arrow_net = [] /\ doms_positive arrow_net /\ 0 < net_size arrow_net /\ weakly_connected arrow_net /\ node_tables arrow_net wire_counters = Ok wire_cpts /\ distributions arrow_net wire_cpts /\ (exists t, wire_cpts !! 1 = Some t /\ tval t (fun _ => 0) = frac 3 4)) /\ (forall x a, x < net_size arrow_net -> valid (net_dom arrow_net) a -> (0 < chance arrow_net wire_cpts (parents_of arrow_net x) a)%Qc).
Proof. exact (conj wire_hyps wire_positive). Qed.

(** In the limit: for every error allowed there are a discrepancy and a number of samples from which on the predictions are the best ones up to that error. *)
Theorem C80_predictions_limit : forall N cs ts, netinv N -> nt_topo N = [] -> doms_positive N -> 0 < net_size N -> weakly_connected N -> node_tables N cs = Ok ts -> distributions N ts ->
  forall err k, (0 < err)%Qc -> 0 < k -> (forall x a, x < net_size N -> valid (net_dom N) a -> (0 < chance N ts (parents_of N x) a)%Qc) ->
  exists e m, (0 < e)%Qc /\ forall us us', m <= length us -> m <= length us' -> (forall u, u ∈ us ++ us' -> uniform u) -> discrepancy e (net_size N) us -> discrepancy e (net_size N) us' -> forall coin o, valid_order o ->
  exists M samples M' tests ts2 T, generate_samples N cs us = Ok (M, samples) /\ generate_samples N cs us' = Ok (M', tests) /\ learn_params N (sample_columns (net_size N) samples) (Z.of_nat k) coin [] = Ok ts2 /\ jt_build o N ts2 = Ok T /\
  forall q xs, q < net_size N -> (forall v, v ∈ xs -> v < net_size N) -> NoDup xs -> q ∉ xs -> forall sch, (forall i, valid_scheduler (sch i)) -> let D := sample_columns (net_size N) tests in
  exists labels acc, predict sch T q (row_questions D xs) = Ok labels /\ accuracy (row_truths D q) (Z.of_nat <$> labels) = Ok acc /\
  forall ps, from_evidence (row_questions D xs) ps -> exists acc', accuracy (row_truths D q) ps = Ok acc' /\ (acc' <= acc + err)%Qc.
Proof. exact predictions_limit. Qed.
Print Assumptions C80_predictions_limit.
Example C80_predictions_limit_witness : (netinv arrow_net /\ nt_topo arrow_net = [] /\ doms_positive arrow_net /\ 0 < net_size arrow_net /\ weakly_connected arrow_net /\ node_tables arrow_net wire_counters = Ok wire_cpts /\ distributions arrow_net wire_cpts /\ (exists t, wire_cpts !! 1 = Some t /\ tval t (fun _ => 0) = frac 3 4)) /\ (forall x a, x < net_size arrow_net -> valid (net_dom arrow_net) a -> (0 < chance arrow_net wire_cpts (parents_of arrow_net x) a)%Qc).
Proof. exact (conj wire_hyps wire_positive). Qed.

(** There are numbers as evenly spread, and as many, as these two ask for. *)
Theorem C80_draws : forall d e m, 0 < d -> (0 < e)%Qc -> exists us, m <= length us /\ (forall u, u ∈ us -> uniform u) /\ discrepancy e d us.
Proof. exact draws_exist. Qed.
Print Assumptions C80_draws.
