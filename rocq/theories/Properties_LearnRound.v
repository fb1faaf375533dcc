(** C72: rounding errors of learned parameters, and of questions asked of a learned network
    (ParameterLearning.cpp, JunctionTreeStructure.cpp, JunctionTree.cpp).

    Vocabulary.  RoundSpec.v: [rounds c rnd] - the rounding changes no non-negative number by more
    than the factor c; [within_factor], [table_within], [errors_of], [answer_errors],
    [marginal_errors] as in Properties_Round.v.  LearnSpec.v: [smoothed] - the smoothed relative
    frequency; [complete N D] - the data give every node a value in every row.
    Model (LearnRoundModel.v): [learn_params_r rnd] - [learn_params] with [rnd] applied to every sum
    and quotient of doubles; RoundModel.v for the inference. *)
From Verif Require Import LearnModel LearnSpec LearnRoundModel RoundModel RoundSpec JTSpec GraphModel2 JTWitness LearnWitness RoundWitness LearnRoundTheorems LearnRoundWitness.
Local Open Scope nat_scope.

(** With exact arithmetic it is the model of C24. *)
Theorem C72_exact_case : forall N D alpha coin pts, learn_params_r (fun x => x) N D alpha coin pts = learn_params N D alpha coin pts.
Proof. exact learn_exact. Qed.
Print Assumptions C72_exact_case.
Example C72_exact_case_witness : learn_params_r (fun x => x) jt_net rows5 1 (fun _ _ => 0) [] = Ok rows5_learned.
Proof. exact (eq_trans (learn_exact _ _ _ _ _) rows5_learn). Qed.

(** Learning fails in the same cases (a configuration without data and without smoothing); otherwise
    every entry carries three rounding errors. *)
Theorem C72_outcome : forall c rnd, rounds c rnd -> forall N D alpha coin, (0 <= alpha)%Z ->
  (forall e, learn_params_r rnd N D alpha coin [] = Err e <-> learn_params N D alpha coin [] = Err e) /\
  forall ts, learn_params N D alpha coin [] = Ok ts -> exists ts', learn_params_r rnd N D alpha coin [] = Ok ts' /\ Forall2 (table_within (c ^ 3)%Qc) ts ts'.
Proof. exact learned_outcome. Qed.
Print Assumptions C72_outcome.
Example C72_outcome_witness : rounds (1 + frac 1 (2 ^ 53))%Qc (round_bits 53) /\ learn_params_r (round_bits 53) jt_net rows5 1 (fun _ _ => 0) [] = Ok rows5_rounded /\
  learn_params_r (round_bits 53) jt_net rows5 0 (fun _ _ => 0) [] = Err DivZero /\
  exists t t', rows5_learned !! 3 = Some t /\ rows5_rounded !! 3 = Some t' /\ pt_pots t !! 0 = Some (frac 1 3) /\ exists p, pt_pots t' !! 0 = Some p /\ p <> frac 1 3.
Proof. exact (conj bits53 (conj rows5_rounded_ok (conj eq_refl rows5_inexact))). Qed.

(** The entries are the smoothed relative frequencies up to three errors, they are positive, and they
    sum to one up to three errors. *)
Theorem C72_tables : forall c rnd, rounds c rnd -> forall N, netinv N -> doms_positive N -> forall D, complete N D -> forall alpha, co_vars D = net_size N -> (0 < alpha)%Z -> forall coin,
  exists ts, learn_params_r rnd N D alpha coin [] = Ok ts /\ length ts = net_size N /\
    forall x nd, nt_nodes N !! x = Some nd -> exists t, ts !! x = Some t /\ pt_vars t = x :: nd_parents nd /\
      forall a, valid (net_dom N) a ->
        within_factor (c ^ 3)%Qc (smoothed N (co_cols D) (co_rows D) alpha x (nd_parents nd) a) (tval t a) /\ (0 < tval t a)%Qc /\
        within_factor (c ^ 3)%Qc 1%Qc (qsum (seq 0 (net_dom N x)) (fun y => tval t (upd a x y))).
Proof. exact learned_tables. Qed.
Print Assumptions C72_tables.
Example C72_tables_witness : netinv jt_net /\ doms_positive jt_net /\ 0 < net_size jt_net /\ complete jt_net rows5 /\ co_vars rows5 = net_size jt_net /\ weakly_connected jt_net.
Proof. exact rows5_hyps. Qed.

(** They need not sum to one exactly. *)
Theorem C72_sums_refuted : rounds (1 + frac 1 (2 ^ 53))%Qc (round_bits 53) /\
  exists ts t, learn_params_r (round_bits 53) jt_net rows5 1 (fun _ _ => 0) [] = Ok ts /\ ts !! 0 = Some t /\ pt_vars t = [0] /\ qsum (pt_pots t) (fun p => p) <> 1%Qc.
Proof. exact (conj bits53 rows5_sum). Qed.
Print Assumptions C72_sums_refuted.

(** Learning and then asking, with rounding from the first count to the last answer: no failure, every
    posterior is the exact posterior of the exactly learned network up to a number of errors that does
    not depend on the data, and a label that leads by more is the exact one. *)
Theorem C72_learn_then_query : forall c rnd, rounds c rnd -> forall N D alpha coin o, netinv N -> doms_positive N -> 0 < net_size N -> complete N D -> co_vars D = net_size N -> (0 < alpha)%Z ->
  weakly_connected N -> valid_order o ->
  exists ts ts' T, learn_params N D alpha coin [] = Ok ts /\ learn_params_r rnd N D alpha coin [] = Ok ts' /\ jt_build_r rnd o N ts' = Ok T /\
    forall sch E, valid_scheduler sch -> evidence_in_range N E ->
    (exists ps, query_probs_r rnd sch T E (jt_backup T) = Ok (jt_backup T, ps) /\
       Forall2 (fun p p' => p' = p \/ within_factor (c ^ errors_of answer_errors T (net_size N) 3)%Qc p p') (answer_all N ts E) ps) /\
    forall q w, q < net_size N -> q ∉ fst <$> E -> w < net_dom N q ->
      (forall x, x < net_dom N q -> x <> w -> (c ^ (2 * errors_of marginal_errors T (net_size N) 3) * posterior N ts E q x < posterior N ts E q w)%Qc) ->
      query_label_r rnd sch T q E (jt_backup T) = Ok (jt_backup T, w).
Proof. exact learn_then_query_r. Qed.
Print Assumptions C72_learn_then_query.
Example C72_learn_then_query_witness : (jt_build_r (round_bits 53) rev_order jt_net rows5_rounded = Ok learned_tree /\
    errors_of answer_errors learned_tree (net_size jt_net) 3 = 1033 /\ errors_of marginal_errors learned_tree (net_size jt_net) 3 = 513) /\
  (exists ps, query_probs_r (round_bits 53) wild_sched learned_tree [(3, 0)] (jt_backup learned_tree) = Ok (jt_backup learned_tree, ps) /\ length ps = 9 /\ ps !! 0 <> Some (frac 63 149)) /\
  posterior jt_net rows5_learned [(3, 0)] 2 0 = frac 775 1192 /\ ((1 + frac 1 (2 ^ 53)) ^ (2 * 513) * posterior jt_net rows5_learned [(3, 0)]%nat 2 1 < posterior jt_net rows5_learned [(3, 0)]%nat 2 0)%Qc /\
  query_label_r (round_bits 53) wild_sched learned_tree 2 [(3, 0)] (jt_backup learned_tree) = Ok (jt_backup learned_tree, 0).
Proof. exact (conj (conj learned_tree_built learned_errors) (conj learned_inexact learned_clear)). Qed.

(** Any DAG, when ROOT is added first. *)
Theorem C72_learn_with_root_then_query : forall c rnd, rounds c rnd -> forall N D alpha coin o, netinv N -> doms_positive N -> complete N D -> co_vars D = net_size N -> (0 < alpha)%Z ->
  (forall x j, coin x j < 2) -> valid_order o ->
  exists roots N' ts ts' T, find_roots N = Ok roots /\ add_root_node N roots = Ok N' /\ learn_params N' D alpha coin [] = Ok ts /\ learn_params_r rnd N' D alpha coin [] = Ok ts' /\ jt_build_r rnd o N' ts' = Ok T /\
    forall sch E, valid_scheduler sch -> evidence_in_range N' E ->
    (exists ps, query_probs_r rnd sch T E (jt_backup T) = Ok (jt_backup T, ps) /\
       Forall2 (fun p p' => p' = p \/ within_factor (c ^ errors_of answer_errors T (net_size N') 3)%Qc p p') (answer_all N' ts E) ps) /\
    forall q w, q < net_size N' -> q ∉ fst <$> E -> w < net_dom N' q ->
      (forall x, x < net_dom N' q -> x <> w -> (c ^ (2 * errors_of marginal_errors T (net_size N') 3) * posterior N' ts E q x < posterior N' ts E q w)%Qc) ->
      query_label_r rnd sch T q E (jt_backup T) = Ok (jt_backup T, w).
Proof. exact learn_with_root_then_query_r. Qed.
Print Assumptions C72_learn_with_root_then_query.
Example C72_learn_with_root_then_query_witness : (netinv apart_net /\ doms_positive apart_net /\ complete apart_net rows3 /\ co_vars rows3 = net_size apart_net) /\ valid_order rev_order.
Proof. exact (conj rows3_hyps rev_order_valid). Qed.
