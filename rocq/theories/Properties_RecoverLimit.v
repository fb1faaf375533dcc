(** C76 in the limit.  Vocabulary as in Properties_Recover.v. *)
From Coq Require Import QArith.
From Verif Require Import RecoverSpec RecoverLimit JTWitness LearnWitness LikelihoodWitness SimulateWitness RecoverWitness TableProofs.
Local Open Scope nat_scope.

(** For every error allowed there are a closeness of the data to the network's distribution and a number of rows from which on learning, with any
    smoothing, gives back the parameters and the answers up to that error. *)
Theorem C76_limit : forall N ts, netinv N -> doms_positive N -> 0 < net_size N -> weakly_connected N -> distributions N ts ->
  forall w err k, (0 < w)%Qc -> (0 < err)%Qc -> (forall x a, x < net_size N -> valid (net_dom N) a -> (0 < chance N ts (parents_of N x) a)%Qc) ->
  exists e m, (0 < e)%Qc /\ forall D, complete N D -> co_vars D = net_size N -> m <= co_rows D -> nearly_representative e N ts D -> forall coin o, valid_order o ->
  exists ts2 T, learn_params N D (Z.of_nat k) coin [] = Ok ts2 /\ jt_build o N ts2 = Ok T /\
  (forall x q t a, ts !! x = Some q -> ts2 !! x = Some t -> valid (net_dom N) a -> differ_by err (tval t a) (tval q a)) /\
  forall sch E, valid_scheduler sch -> evidence_in_range N E -> (w <= evidence_weight N ts E)%Qc ->
    query_probs sch T E (jt_backup T) = Ok (jt_backup T, answer_all N ts2 E) /\
    forall q x, q < net_size N -> q ∉ fst <$> E -> x < net_dom N q -> differ_by err (posterior N ts2 E q x) (posterior N ts E q x).
Proof. exact close_limit. Qed.
Print Assumptions C76_limit.
Example C76_limit_witness : (netinv arrow_net /\ nt_topo arrow_net = [] /\ doms_positive arrow_net /\ 0 < net_size arrow_net /\ weakly_connected arrow_net /\ node_tables arrow_net wire_counters = Ok wire_cpts /\ distributions arrow_net wire_cpts /\ (exists t, wire_cpts !! 1 = Some t /\ tval t (fun _ => 0) = frac 3 4)) /\
  (forall x a, x < net_size arrow_net -> valid (net_dom arrow_net) a -> (0 < chance arrow_net wire_cpts (parents_of arrow_net x) a)%Qc).
Proof. exact (conj wire_hyps wire_positive). Qed.
