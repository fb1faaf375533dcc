(** C08-C12 and C34: the junction tree (JunctionTreeStructure.cpp, JunctionTree.cpp).

    Vocabulary (JTSpec.v): [net_ok N] - a DAG with at least one value per node; [table_of_family N t] -
    a well-formed table about a node and its parents; [nonneg] - no negative entries;
    [joint pts a] - product of all tables at [a]; [evidence_weight N pts E] - its sum over all
    assignments agreeing with the evidence; [posterior N pts E q x] - share of the assignments
    with q = x; [answer_all] - all posteriors in the layout of the result array; [best_label] - first
    most probable value; [clique_tree_of] - junction tree of the network; [weakly_connected].
    Model (JTModel.v): [jt_build o N pts] constructs the engine, [o] is the order of the addresses of
    cliques and separators (any order: [valid_order]); [propagate sch], [query_label sch], [query_probs sch]
    answer a query with the interleavings [sch] of the parallel loops ([valid_scheduler]). *)
From Verif Require Import JTModel JTSpec ParModel ParProofs SchedProofs JTTheorems JTWitness.
Local Open Scope nat_scope.

(** ** C08 *)
(** All unobserved nodes at once. *)
Theorem C08_all_posteriors : forall N, net_ok N -> 0 < net_size N -> forall o, valid_order o -> forall pts,
  Forall (table_of_family N) pts -> Forall (nonneg (net_dom N)) pts -> forall T, jt_build o N pts = Ok T ->
  forall sch E, valid_scheduler sch -> evidence_in_range N E -> evidence_weight N pts E <> 0%Qc ->
  query_probs sch T E (jt_backup T) = Ok (jt_backup T, answer_all N pts E).
Proof. exact exact_probs. Qed.
Print Assumptions C08_all_posteriors.
Example C08_all_posteriors_witness :
  (net_ok jt_net /\ 0 < net_size jt_net /\ Forall (table_of_family jt_net) jt_pts /\ Forall (nonneg (net_dom jt_net)) jt_pts /\ weakly_connected jt_net) /\
  (valid_order rev_order /\ jt_build rev_order jt_net jt_pts = Ok jt_tree) /\ valid_scheduler wild_sched /\
  evidence_in_range jt_net jt_evidence /\ evidence_weight jt_net jt_pts jt_evidence <> 0%Qc.
Proof. exact (conj jt_hyps (conj (conj rev_order_valid jt_tree_built) (conj wild_valid jt_evidence_ok))). Qed.

(** One unobserved node. *)
Theorem C08_posterior : forall N, net_ok N -> 0 < net_size N -> forall o, valid_order o -> forall pts,
  Forall (table_of_family N) pts -> Forall (nonneg (net_dom N)) pts -> forall T, jt_build o N pts = Ok T ->
  forall sch E q, valid_scheduler sch -> evidence_in_range N E -> evidence_weight N pts E <> 0%Qc -> q < net_size N -> q ∉ fst <$> E ->
  exists st p, propagate sch T E (jt_backup T) = Ok st /\ calculate_marginal T st q = Ok p /\
    pt_pots p = posterior N pts E q <$> seq 0 (net_dom N q).
Proof. exact exact_marginal. Qed.
Print Assumptions C08_posterior.
Example C08_posterior_witness : 0 < net_size jt_net /\ 0 ∉ fst <$> jt_evidence /\
  (posterior jt_net jt_pts jt_evidence 0 <$> seq 0 (net_dom jt_net 0)) = [frac 445 1759; frac 1314 1759].
Proof. split_and!; [vm_compute; lia|set_solver|apply (bool_decide_unpack _); vm_compute; exact I]. Qed.

Theorem C08_label : forall N, net_ok N -> 0 < net_size N -> forall o, valid_order o -> forall pts,
  Forall (table_of_family N) pts -> Forall (nonneg (net_dom N)) pts -> forall T, jt_build o N pts = Ok T ->
  forall sch E q, valid_scheduler sch -> evidence_in_range N E -> evidence_weight N pts E <> 0%Qc -> q < net_size N -> q ∉ fst <$> E ->
  exists l, query_label sch T q E (jt_backup T) = Ok (jt_backup T, l) /\ best_label N pts E q l.
Proof. exact exact_label. Qed.
Print Assumptions C08_label.
Example C08_label_witness : query_label wild_sched jt_tree 0 jt_evidence (jt_backup jt_tree) = Ok (jt_backup jt_tree, 1).
Proof. vm_compute. reflexivity. Qed.

(** The specified posterior is a probability distribution. *)
Theorem C08_distribution : forall N, net_ok N -> 0 < net_size N -> forall o, valid_order o -> forall pts,
  Forall (table_of_family N) pts -> Forall (nonneg (net_dom N)) pts -> forall T, jt_build o N pts = Ok T ->
  forall E q, evidence_in_range N E -> evidence_weight N pts E <> 0%Qc -> q < net_size N -> q ∉ fst <$> E ->
  qsum (seq 0 (net_dom N q)) (posterior N pts E q) = 1%Qc /\ forall x, x < net_dom N q -> (0 <= posterior N pts E q x)%Qc.
Proof. exact posterior_distribution. Qed.
Print Assumptions C08_distribution.
Example C08_distribution_witness : qsum (seq 0 2) (posterior jt_net jt_pts jt_evidence 0) = 1%Qc.
Proof. apply (bool_decide_unpack _). vm_compute. exact I. Qed.

(** Evidence of probability zero or naming a value that does not exist: a division by zero (NaN
    in the code), never a wrong finite number. *)
Theorem C08_impossible_evidence : forall N, net_ok N -> 0 < net_size N -> forall o, valid_order o -> forall pts,
  Forall (table_of_family N) pts -> Forall (nonneg (net_dom N)) pts -> forall T, jt_build o N pts = Ok T ->
  forall sch E q, valid_scheduler sch ->
  (evidence_in_range N E /\ evidence_weight N pts E = 0%Qc) \/
  (exists E1 v x E2, E = E1 ++ (v, x) :: E2 /\ v < net_size N /\ v ∉ fst <$> E1 /\ net_dom N v <= x) ->
  query_probs sch T E (jt_backup T) = Err DivZero /\ query_label sch T q E (jt_backup T) = Err DivZero.
Proof. exact impossible_evidence. Qed.
Print Assumptions C08_impossible_evidence.
Example C08_impossible_evidence_witness :
  (evidence_in_range jt_net [(1, 0)] /\ evidence_weight jt_net jt_pts_det [(1, 0)] = 0%Qc) /\ net_dom jt_net 3 <= 3.
Proof. exact (conj jt_impossible (le_n 3)). Qed.

(** Asking for a variable that is observed or does not exist ends the process. *)
Theorem C08_observed_query : forall N, net_ok N -> 0 < net_size N -> forall o, valid_order o -> forall pts,
  Forall (table_of_family N) pts -> Forall (nonneg (net_dom N)) pts -> forall T, jt_build o N pts = Ok T ->
  forall sch E q, valid_scheduler sch -> evidence_in_range N E -> evidence_weight N pts E <> 0%Qc ->
  q ∈ fst <$> E \/ net_size N <= q -> query_label sch T q E (jt_backup T) = Err Exit1.
Proof. exact observed_query. Qed.
Print Assumptions C08_observed_query.
Example C08_observed_query_witness : 3 ∈ fst <$> jt_evidence /\ query_label seq_sched jt_tree 3 jt_evidence (jt_backup jt_tree) = Err Exit1.
Proof. split; [left|vm_compute; reflexivity]. Qed.

(** ** C09 *)
Theorem C09_junction_tree : forall N o pts, net_ok N -> 0 < net_size N -> valid_order o -> Forall (table_of_family N) pts -> weakly_connected N ->
  exists cliques seps, jt_structure o N pts = Ok (cliques, seps) /\ clique_tree_of N cliques seps /\
    forall a, valid (net_dom N) a -> qprod cliques (fun c => tval (cq_tab c) a) = joint pts a.
Proof. exact clique_tree. Qed.
Print Assumptions C09_junction_tree.
Example C09_junction_tree_witness : net_ok jt_net /\ 0 < net_size jt_net /\ Forall (table_of_family jt_net) jt_pts /\ Forall (nonneg (net_dom jt_net)) jt_pts /\ weakly_connected jt_net.
Proof. exact jt_hyps. Qed.

(** ** C10 *)
(** The engine can be built exactly when the network is in one piece; otherwise a null pointer is
    followed. *)
Theorem C10_build_partial : forall N o pts, net_ok N -> 0 < net_size N -> valid_order o -> Forall (table_of_family N) pts -> Forall (nonneg (net_dom N)) pts ->
  ((exists T, jt_build o N pts = Ok T) <-> weakly_connected N) /\ (~ weakly_connected N -> jt_build o N pts = Err NullDeref).
Proof. exact build_iff. Qed.
Print Assumptions C10_build_partial.
Example C10_build_partial_witness : net_ok jt_net /\ 0 < net_size jt_net /\ Forall (table_of_family jt_net) jt_pts /\ Forall (nonneg (net_dom jt_net)) jt_pts /\ weakly_connected jt_net.
Proof. exact jt_hyps. Qed.
Theorem C10_refuted : exists N pts o, valid_order o /\ net_ok N /\ 0 < net_size N /\ Forall (table_of_family N) pts /\ Forall (nonneg (net_dom N)) pts /\
  jt_build o N pts = Err NullDeref.
Proof. exact build_not_total. Qed.
Print Assumptions C10_refuted.

(** ** C11 *)
(** The flattened index runs through all cells of all tables, each once. *)
Theorem C11_flat_index : forall sizes s, s < sum_list sizes ->
  exists j k n, compute_2d_index s (length sizes) (fst (cum_sums sizes)) = Ok (j, k) /\ sizes !! j = Some n /\ k < n /\ s = sum_list (take j sizes) + k.
Proof. exact flat_index. Qed.
Print Assumptions C11_flat_index.
Theorem C11_flat_index_onto : forall sizes j k n, sizes !! j = Some n -> k < n ->
  compute_2d_index (sum_list (take j sizes) + k) (length sizes) (fst (cum_sums sizes)) = Ok (j, k).
Proof. exact flat_index_onto. Qed.
Print Assumptions C11_flat_index_onto.
Example C11_flat_index_witness : compute_2d_index 5 3 (fst (cum_sums [4; 0; 3])) = Ok (2, 1) /\ 5 < sum_list [4; 0; 3].
Proof. split; [reflexivity|vm_compute; lia]. Qed.
(** A flattened loop gives the same arrays for all interleavings of its iterations. *)
Theorem C11_flat_loop : forall (X : Type) (sizes : list nat) (es es' : list event) (body : nat -> nat -> X -> outcome X) (m : list (list X)),
  valid_schedule (snd (cum_sums sizes)) es -> valid_schedule (snd (cum_sums sizes)) es' ->
  forall r, par2 es sizes body m = Ok r <-> par2 es' sizes body m = Ok r.
Proof. exact @par2_okeq. Qed.
Print Assumptions C11_flat_loop.
Example C11_flat_loop_witness : valid_schedule 6 (wild_sched [] 6) /\ wild_sched [] 6 <> in_order 6.
Proof. split; [exact (wild_valid [] 6)|discriminate]. Qed.
(** Evidence loading, both message passes and normalisation: the same tables for all
    interleavings of all their loops, from any tables. *)
Theorem C11_propagation : forall sch sch', valid_scheduler sch -> valid_scheduler sch' ->
  forall T E st r, propagate sch T E st = Ok r <-> propagate sch' T E st = Ok r.
Proof. exact propagate_okeq. Qed.
Print Assumptions C11_propagation.
(** On a constructed engine also the failures agree. *)
Theorem C11_queries : forall N, net_ok N -> 0 < net_size N -> forall o, valid_order o -> forall pts,
  Forall (table_of_family N) pts -> Forall (nonneg (net_dom N)) pts -> forall T, jt_build o N pts = Ok T ->
  forall sch sch' E q, valid_scheduler sch -> valid_scheduler sch' -> evidence_in_range N E ->
  query_probs sch T E (jt_backup T) = query_probs sch' T E (jt_backup T) /\
  query_label sch T q E (jt_backup T) = query_label sch' T q E (jt_backup T).
Proof. exact query_schedule. Qed.
Print Assumptions C11_queries.
Example C11_queries_witness : valid_scheduler seq_sched /\ valid_scheduler wild_sched /\ evidence_in_range jt_net jt_evidence /\
  query_probs wild_sched jt_tree jt_evidence (jt_backup jt_tree) = query_probs seq_sched jt_tree jt_evidence (jt_backup jt_tree).
Proof. split_and!; [exact seq_valid|exact wild_valid|exact (proj1 jt_evidence_ok)|vm_compute; reflexivity]. Qed.

(** ** C12 *)
(** In any session that gets answers, every answer is the one a new engine gives (under any
    schedule), and a session gets answers whenever each query alone does. *)
Theorem C12_session : forall T sch0 qs st ans, valid_scheduler sch0 -> Forall (fun sq => valid_scheduler (fst sq)) qs ->
  run_queries T qs (jt_backup T) = Ok (st, ans) <->
  st = jt_backup T /\ Forall2 (fun sq a => run_query sch0 T (snd sq) (jt_backup T) = Ok (jt_backup T, a)) qs ans.
Proof. exact session_independent. Qed.
Print Assumptions C12_session.
Example C12_session_witness : valid_scheduler wild_sched /\ Forall (fun sq => valid_scheduler (fst sq)) jt_session /\
  run_queries jt_tree jt_session (jt_backup jt_tree) = Ok (jt_backup jt_tree, jt_answers).
Proof. exact (conj wild_valid (conj jt_session_valid jt_session_run)). Qed.

(** ** C34 *)
(** No rows, or at least 20. *)
Theorem C34_predict_partial : forall N o pts T sch q Es, net_ok N -> 0 < net_size N -> valid_order o ->
  Forall (table_of_family N) pts -> Forall (nonneg (net_dom N)) pts -> jt_build o N pts = Ok T ->
  (forall i, valid_scheduler (sch i)) -> Es = [] \/ 20 <= length Es -> q < net_size N ->
  Forall (fun E => evidence_in_range N E /\ evidence_weight N pts E <> 0%Qc /\ q ∉ fst <$> E) Es ->
  exists labels, predict sch T q Es = Ok labels /\ Forall2 (fun E l => best_label N pts E q l) Es labels.
Proof. exact predict_ok. Qed.
Print Assumptions C34_predict_partial.
Example C34_predict_partial_witness : 20 <= length (replicate 21 jt_evidence) /\
  predict (fun _ => wild_sched) jt_tree 0 (replicate 21 jt_evidence) = Ok (replicate 21 1).
Proof. split; [vm_compute; lia|vm_compute; reflexivity]. Qed.
(** One to 19 rows: the progress indicator divides by zero. *)
Theorem C34_few_rows : forall sch T q Es, Es <> [] -> length Es < 20 -> predict sch T q Es = Err DivZero.
Proof. exact predict_few. Qed.
Print Assumptions C34_few_rows.
Theorem C34_refuted : exists sch, valid_scheduler sch /\ predict (fun _ => sch) jt_tree 3 [[(0, 1)]] = Err DivZero /\
  exists l, query_label sch jt_tree 3 [(0, 1)] (jt_backup jt_tree) = Ok (jt_backup jt_tree, l).
Proof. exact predict_not_total. Qed.
Print Assumptions C34_refuted.
