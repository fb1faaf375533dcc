(** C24, C25, C39, C46, C47: counting, conditional probability tables and parameter learning
    (DiscreteNode.cpp, PotentialTableBase.cpp, ParameterLearning.cpp).

    Vocabulary (LearnSpec.v): [counted h x u] - amount a history of counts adds to value x under parent
    configuration u; [counted_under h u] - the same for all values; [complete N D] - a column of values in range
    for every variable of the data; [occurrences cols rows vs a] - number of rows that agree with [a] on [vs];
    [smoothed] - (N(x,u)+alpha)/(N(u)+alpha*r); [is_cpt N x ps f t] - table t holds f and has scope x, ps;
    [cpt_ok] - moreover its entries are positive and its columns sum to one; [root_half] - what ROOT gets.
    Model (LearnModel.v): [learn_params N D alpha coin pts] learns from data D, appending to the tables [pts];
    [coin x j] is the random value of ROOT used for row j when counting variable x. *)
From Verif Require Import LearnModel LearnSpec GraphModel2 CountProofs LearnTheorems LearnWitness.
Local Open Scope nat_scope.

(** ** C24 *)
(** Data for every node. *)
Theorem C24_learned_tables : forall N, netinv N -> doms_positive N -> forall D, complete N D -> forall alpha, co_vars D = net_size N -> (0 < alpha)%Z -> forall coin,
  exists ts, learn_params N D alpha coin [] = Ok ts /\ length ts = net_size N /\
    forall x nd, nt_nodes N !! x = Some nd -> exists t, ts !! x = Some t /\
      cpt_ok N x (nd_parents nd) (smoothed N (co_cols D) (co_rows D) alpha x (nd_parents nd)) t.
Proof. exact learn_params_plain. Qed.
Print Assumptions C24_learned_tables.
Example C24_learned_tables_witness :
  (netinv jt_net /\ doms_positive jt_net /\ 0 < net_size jt_net /\ complete jt_net rows5 /\ co_vars rows5 = net_size jt_net /\ weakly_connected jt_net) /\
  learn_params jt_net rows5 1 (fun _ _ => 0) [] = Ok rows5_learned.
Proof. exact (conj rows5_hyps rows5_learn). Qed.
Example C24_learned_tables_values : pt_pots <$> rows5_learned = [[frac 3 7; frac 4 7]; [frac 2 7; frac 5 7];
  [frac 1 2; frac 1 2; frac 2 3; frac 1 2; frac 1 2; frac 1 2; frac 1 3; frac 1 2];
  [frac 1 3; frac 1 5; frac 1 6; frac 2 5; frac 1 2; frac 2 5]].
Proof. exact rows5_pots. Qed.

(** No smoothing: relative frequencies, or a division by zero when some parent configuration never occurs. *)
Theorem C24_without_smoothing : forall N, netinv N -> doms_positive N -> forall D, complete N D -> forall alpha, co_vars D = net_size N -> forall coin, alpha = 0%Z ->
  ((forall x nd a, nt_nodes N !! x = Some nd -> valid (net_dom N) a -> occurrences (co_cols D) (co_rows D) (nd_parents nd) a <> 0) ->
   exists ts, learn_params N D alpha coin [] = Ok ts /\ length ts = net_size N /\
    forall x nd, nt_nodes N !! x = Some nd -> exists t, ts !! x = Some t /\ is_cpt N x (nd_parents nd) (smoothed N (co_cols D) (co_rows D) 0 x (nd_parents nd)) t) /\
  ((exists x nd a, nt_nodes N !! x = Some nd /\ valid (net_dom N) a /\ occurrences (co_cols D) (co_rows D) (nd_parents nd) a = 0) ->
   learn_params N D alpha coin [] = Err DivZero).
Proof. exact learn_params_zero. Qed.
Print Assumptions C24_without_smoothing.
Example C24_without_smoothing_witness :
  (exists x nd a, nt_nodes jt_net !! x = Some nd /\ valid (net_dom jt_net) a /\ occurrences (co_cols rows5) (co_rows rows5) (nd_parents nd) a = 0) /\
  (netinv apart_net /\ doms_positive apart_net /\ complete apart_net rows3 /\ co_vars rows3 = net_size apart_net) /\
  (forall x nd a, nt_nodes apart_net !! x = Some nd -> valid (net_dom apart_net) a -> occurrences (co_cols rows3) (co_rows rows3) (nd_parents nd) a <> 0).
Proof. exact (conj rows5_unseen (conj rows3_hyps rows3_seen)). Qed.

(** A network extended with ROOT, which has no column: the tables of the other nodes are those of the data
    in which ROOT's column holds the random values used. *)
Theorem C24_with_root : forall N, netinv N -> doms_positive N -> forall D, complete N D -> co_vars D = net_size N ->
  forall alpha coin, (forall x j, coin x j < 2) -> (0 < alpha)%Z ->
  exists roots N' ts, (find_roots N = Ok roots /\ add_root_node N roots = Ok N') /\ learn_params N' D alpha coin [] = Ok ts /\ length ts = S (net_size N) /\
    (forall x nd, nt_nodes N' !! x = Some nd -> x < net_size N -> exists t, ts !! x = Some t /\
       cpt_ok N' x (nd_parents nd) (smoothed N' (with_column D (coin x <$> seq 0 (co_rows D))) (co_rows D) alpha x (nd_parents nd)) t) /\
    exists t, ts !! net_size N = Some t /\ is_cpt N' (net_size N) [] (fun _ => root_half (co_rows D) alpha) t.
Proof. exact learn_params_root. Qed.
Print Assumptions C24_with_root.
Example C24_with_root_witness : (netinv apart_net /\ doms_positive apart_net /\ complete apart_net rows3 /\ co_vars rows3 = net_size apart_net) /\
  is_ok (roots ← find_roots apart_net; N' ← add_root_node apart_net roots; learn_params N' rows3 1 (fun x j => (x + j) mod 2) []) = true.
Proof. exact (conj rows3_hyps eq_refl). Qed.

(** ** C25 *)
(** Refuted: two unconnected nodes, three rows. *)
Theorem C25_root_distribution_refuted : exists N roots N' D ts t, netinv N /\ complete N D /\ co_vars D = net_size N /\
  find_roots N = Ok roots /\ add_root_node N roots = Ok N' /\
  learn_params N' D 1 (fun _ _ => 0) [] = Ok ts /\ ts !! net_size N = Some t /\ pt_vars t = [net_size N] /\ qsum (pt_pots t) (fun p => p) <> 1%Qc.
Proof. exact root_not_distribution. Qed.
Print Assumptions C25_root_distribution_refuted.
(** Both entries of ROOT's table are the same positive number; they sum to one exactly for even numbers of rows. *)
Theorem C25_root_distribution_partial : forall N, netinv N -> doms_positive N -> forall D, complete N D -> co_vars D = net_size N ->
  forall alpha coin, (forall x j, coin x j < 2) -> (0 < alpha)%Z ->
  exists roots N' ts t p, (find_roots N = Ok roots /\ add_root_node N roots = Ok N') /\ learn_params N' D alpha coin [] = Ok ts /\
    ts !! net_size N = Some t /\ pt_vars t = [net_size N] /\ pt_pots t = [p; p] /\ (0 < p)%Qc /\ (qsum (pt_pots t) (fun p => p) = 1%Qc <-> Nat.Even (co_rows D)).
Proof. exact root_table_sum. Qed.
Print Assumptions C25_root_distribution_partial.
Example C25_root_distribution_partial_witness : (netinv apart_net /\ doms_positive apart_net /\ complete apart_net rows3 /\ co_vars rows3 = net_size apart_net) /\
  (root_half 4 1 + root_half 4 1 = 1)%Qc /\ (root_half 3 1 + root_half 3 1 = frac 4 5)%Qc.
Proof. split; [exact rows3_hyps|]. split; apply (bool_decide_unpack _); vm_compute; exact I. Qed.

(** ** C39 *)
(** The reported probability, for any constant [a] and any history [h]. *)
Theorem C39_probability : forall nd a h x u, (qz (counted_under h u) + a * qn (nd_dom nd) <> 0)%Qc ->
  get_probability nd (add_counts nd h (set_laplace a new_counters)) x u = Ok ((qz (counted h x u) + a) / (qz (counted_under h u) + a * qn (nd_dom nd)))%Qc.
Proof. exact counting. Qed.
Print Assumptions C39_probability.
Theorem C39_division_by_zero : forall nd a h x u, (qz (counted_under h u) + a * qn (nd_dom nd) = 0)%Qc ->
  get_probability nd (add_counts nd h (set_laplace a new_counters)) x u = Err DivZero.
Proof. exact counting_zero. Qed.
Print Assumptions C39_division_by_zero.
Theorem C39_sums_to_one : forall nd a h u, Forall (fun e => e.1.1 < nd_dom nd) h -> (qz (counted_under h u) + a * qn (nd_dom nd) <> 0)%Qc ->
  exists p, (forall x, get_probability nd (add_counts nd h (set_laplace a new_counters)) x u = Ok (p x)) /\ qsum (seq 0 (nd_dom nd)) p = 1%Qc.
Proof. exact counting_sum. Qed.
Print Assumptions C39_sums_to_one.
Theorem C39_unseen_uniform : forall nd a h x u, u ∉ (fun e => e.1.2) <$> h -> a <> 0%Qc -> nd_dom nd <> 0 ->
  get_probability nd (add_counts nd h (set_laplace a new_counters)) x u = Ok (1 / qn (nd_dom nd))%Qc.
Proof. exact counting_unseen. Qed.
Print Assumptions C39_unseen_uniform.
Theorem C39_positive : forall nd a h x u, (0 < a)%Qc -> nd_dom nd <> 0 -> Forall (fun e => 0 <= e.2)%Z h ->
  exists p, get_probability nd (add_counts nd h (set_laplace a new_counters)) x u = Ok p /\ (0 < p)%Qc.
Proof. exact counting_positive. Qed.
Print Assumptions C39_positive.
Example C39_witness : Forall (fun e => e.1.1 < nd_dom two_parent_values) some_history /\ Forall (fun e => 0 <= e.2)%Z some_history /\ [(1, 1)] ∉ (fun e => e.1.2) <$> some_history /\
  get_probability two_parent_values (add_counts two_parent_values some_history new_counters) 0 [(1, 0)] = Ok (frac 6 9).
Proof. exact some_history_ok. Qed.
(** The tables built from the counters of all nodes. *)
Theorem C39_tables : forall N hs, netinv N -> doms_positive N -> length hs = net_size N ->
  (forall x h, hs !! x = Some h -> Forall (fun e => e.1.1 < net_dom N x /\ (0 <= e.2)%Z) h) ->
  exists ts, node_tables N (imap (fun x h => add_counts (default (new_node 0) (nt_nodes N !! x)) h new_counters) hs) = Ok ts /\ length ts = net_size N /\
    forall x nd h, nt_nodes N !! x = Some nd -> hs !! x = Some h -> exists t, ts !! x = Some t /\
      cpt_ok N x (nd_parents nd) (fun a => let u := (fun v => (v, a v)) <$> nd_parents nd in (qz (counted h (a x) u) + 1) / (qz (counted_under h u) + 1 * qn (net_dom N x)))%Qc t.
Proof. exact tables_from_counts. Qed.
Print Assumptions C39_tables.
Example C39_tables_witness : netinv jt_net /\ doms_positive jt_net /\
  is_ok (node_tables jt_net (imap (fun x h => add_counts (default (new_node 0) (nt_nodes jt_net !! x)) h new_counters) [[]; []; [((1, [(0, 1); (1, 0)]), 4%Z)]; []])) = true.
Proof. exact (conj jt_inv (conj (proj1 (proj2 rows5_hyps)) eq_refl)). Qed.

(** ** C46 *)
Theorem C46_learn_then_query : forall N D alpha coin o, netinv N -> doms_positive N -> 0 < net_size N -> complete N D -> co_vars D = net_size N -> (0 < alpha)%Z ->
  weakly_connected N -> valid_order o ->
  exists ts T, learn_params N D alpha coin [] = Ok ts /\ jt_build o N ts = Ok T /\
    (forall a, valid (net_dom N) a -> joint ts a = qprod (seq 0 (net_size N)) (fun x => smoothed N (co_cols D) (co_rows D) alpha x (parents_of N x) a)) /\
    forall sch E, valid_scheduler sch -> evidence_in_range N E -> query_probs sch T E (jt_backup T) = Ok (jt_backup T, answer_all N ts E).
Proof. exact learn_then_query. Qed.
Print Assumptions C46_learn_then_query.
Example C46_learn_then_query_witness :
  (netinv jt_net /\ doms_positive jt_net /\ 0 < net_size jt_net /\ complete jt_net rows5 /\ co_vars rows5 = net_size jt_net /\ weakly_connected jt_net) /\
  valid_order rev_order /\ valid_scheduler wild_sched.
Proof. exact (conj rows5_hyps (conj rev_order_valid wild_valid)). Qed.
(** Any DAG, when ROOT is added first. *)
Theorem C46_learn_with_root_then_query : forall N D alpha coin o, netinv N -> doms_positive N -> complete N D -> co_vars D = net_size N -> (0 < alpha)%Z ->
  (forall x j, coin x j < 2) -> valid_order o ->
  exists roots N' ts T, find_roots N = Ok roots /\ add_root_node N roots = Ok N' /\ learn_params N' D alpha coin [] = Ok ts /\ jt_build o N' ts = Ok T /\
    (forall a, valid (net_dom N') a -> joint ts a = (qprod (seq 0 (net_size N)) (fun x => smoothed N' (with_column D (coin x <$> seq 0 (co_rows D))) (co_rows D) alpha x (parents_of N' x) a) * root_half (co_rows D) alpha)%Qc) /\
    forall sch E, valid_scheduler sch -> evidence_in_range N' E -> query_probs sch T E (jt_backup T) = Ok (jt_backup T, answer_all N' ts E).
Proof. exact learn_with_root_then_query. Qed.
Print Assumptions C46_learn_with_root_then_query.
Example C46_learn_with_root_then_query_witness : (netinv apart_net /\ doms_positive apart_net /\ complete apart_net rows3 /\ co_vars rows3 = net_size apart_net) /\ valid_order rev_order.
Proof. exact (conj rows3_hyps rev_order_valid). Qed.

(** ** C47 *)
(** Refuted: one node, values 0, 0, 1. *)
Theorem C47_learning_again_refuted : exists N D ts1 ts2 T1 T2 ans1 ans2,
  learn_params N D 1 (fun _ _ => 0) [] = Ok ts1 /\ learn_params N D 1 (fun _ _ => 0) ts1 = Ok ts2 /\
  jt_build addr_order N ts1 = Ok T1 /\ jt_build addr_order N ts2 = Ok T2 /\
  query_probs seq_sched T1 [] (jt_backup T1) = Ok (jt_backup T1, ans1) /\ query_probs seq_sched T2 [] (jt_backup T2) = Ok (jt_backup T2, ans2) /\
  ans1 = [frac 3 5; frac 2 5] /\ ans2 = [frac 9 13; frac 4 13].
Proof. exact relearn_counterexample. Qed.
Print Assumptions C47_learning_again_refuted.
(** The tables of both runs are kept. *)
Theorem C47_learning_again_partial : forall N D alpha coin pts ts, learn_params N D alpha coin [] = Ok ts -> learn_params N D alpha coin pts = Ok (pts ++ ts).
Proof. exact relearn_appends. Qed.
Print Assumptions C47_learning_again_partial.
Example C47_learning_again_partial_witness : learn_params jt_net rows5 1 (fun _ _ => 0) [] = Ok rows5_learned.
Proof. exact rows5_learn. Qed.
