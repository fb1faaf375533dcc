(** C61: every way of passing messages and entering evidence that the code implements
    (JunctionTree.cpp) gives the exact answers.

    Vocabulary (JTSpec.v): as in Properties_JT.v.  Model (MessageModel.v): [propagate_by p drop sch T E st]
    answers like [propagate sch T E st] but with the variant [p] of message passing - [Shortcut]
    (separators updated with precomputed positions), [Plain], [LevelByLevel] or [Recursive f] (from the root,
    at most [f] calls deep) - and, for [drop = false], with evidence that leaves the observed
    variables in the tables. *)
From Verif Require Import MessageModel JTSpec ParModel ParProofs SchedProofs PlainTheorems JTWitness MessageWitness.
Local Open Scope nat_scope.

(** The four variants leave the same tables, for any evidence and schedule, also when they fail. *)
Theorem C61_same_tables : forall N, net_ok N -> 0 < net_size N -> forall o, valid_order o -> forall pts,
  Forall (table_of_family N) pts -> Forall (nonneg (net_dom N)) pts -> forall T, jt_build o N pts = Ok T ->
  forall p sch E, valid_scheduler sch -> match p with Recursive f => length (jt_levels T) <= f | _ => True end ->
  propagate_by p true sch T E (jt_backup T) = propagate sch T E (jt_backup T).
Proof. exact messages_same. Qed.
Print Assumptions C61_same_tables.
Example C61_same_tables_witness : (net_ok jt_net /\ 0 < net_size jt_net /\ Forall (table_of_family jt_net) jt_pts /\ Forall (nonneg (net_dom jt_net)) jt_pts /\ weakly_connected jt_net) /\
  (valid_order rev_order /\ jt_build rev_order jt_net jt_pts = Ok jt_tree) /\ valid_scheduler wild_sched /\ length (jt_levels jt_tree) = 3.
Proof. exact (conj jt_hyps (conj (conj rev_order_valid jt_tree_built) (conj wild_valid jt_levels_count))). Qed.

(** All variants, with both ways of entering evidence: exact posteriors of the unobserved variables. *)
Theorem C61_exact : forall N, net_ok N -> 0 < net_size N -> forall o, valid_order o -> forall pts,
  Forall (table_of_family N) pts -> Forall (nonneg (net_dom N)) pts -> forall T, jt_build o N pts = Ok T ->
  forall p drop sch E, valid_scheduler sch -> match p with Recursive f => length (jt_levels T) <= f | _ => True end ->
  evidence_in_range N E -> NoDup (fst <$> E) -> evidence_weight N pts E <> 0%Qc ->
  exists st, propagate_by p drop sch T E (jt_backup T) = Ok st /\ probabilities_all T st E = Ok (answer_all N pts E) /\
    forall q, q < net_size N -> q ∉ fst <$> E ->
    exists t, calculate_marginal T st q = Ok t /\ pt_pots t = posterior N pts E q <$> seq 0 (net_dom N q).
Proof. exact variants_exact. Qed.
Print Assumptions C61_exact.
Example C61_exact_witness : (evidence_in_range jt_net two_evidence /\ NoDup (fst <$> two_evidence) /\ evidence_weight jt_net jt_pts two_evidence <> 0%Qc) /\
  get [] (marginal_by (Recursive 3) false two_evidence 0) = (posterior jt_net jt_pts two_evidence 0 <$> seq 0 2) /\
  get [] (marginal_by LevelByLevel true two_evidence 0) = (posterior jt_net jt_pts two_evidence 0 <$> seq 0 2) /\
  get [] (marginal_by Plain false two_evidence 2) = [1%Qc; 0%Qc].
Proof. exact (conj two_evidence_ok recursive_run). Qed.

(** With the observed variables left in the tables they can be asked for, too: all probability on
    the observed value. *)
Theorem C61_observed : forall N, net_ok N -> 0 < net_size N -> forall o, valid_order o -> forall pts,
  Forall (table_of_family N) pts -> Forall (nonneg (net_dom N)) pts -> forall T, jt_build o N pts = Ok T ->
  forall p sch E, valid_scheduler sch -> match p with Recursive f => length (jt_levels T) <= f | _ => True end ->
  evidence_in_range N E -> NoDup (fst <$> E) -> evidence_weight N pts E <> 0%Qc ->
  exists st, propagate_by p false sch T E (jt_backup T) = Ok st /\
    forall q y, q < net_size N -> (q, y) ∈ E ->
    exists t, calculate_marginal T st q = Ok t /\ pt_pots t = (fun x => if bool_decide (x = y) then 1%Qc else 0%Qc) <$> seq 0 (net_dom N q).
Proof. exact variants_observed. Qed.
Print Assumptions C61_observed.
Example C61_observed_witness : 2 < net_size jt_net /\ (2, 0) ∈ two_evidence /\ marginal_by Plain true two_evidence 2 = Err Exit1.
Proof. split_and!; [vm_compute; lia|left|exact removed_run]. Qed.

(** Impossible evidence ends in a division by zero with every variant. *)
Theorem C61_impossible : forall N, net_ok N -> 0 < net_size N -> forall o, valid_order o -> forall pts,
  Forall (table_of_family N) pts -> Forall (nonneg (net_dom N)) pts -> forall T, jt_build o N pts = Ok T ->
  forall p drop sch E, valid_scheduler sch -> match p with Recursive f => length (jt_levels T) <= f | _ => True end ->
  evidence_in_range N E -> NoDup (fst <$> E) -> evidence_weight N pts E = 0%Qc ->
  propagate_by p drop sch T E (jt_backup T) = Err DivZero.
Proof. exact variants_impossible. Qed.
Print Assumptions C61_impossible.
Example C61_impossible_witness : evidence_in_range jt_net [(1, 0)] /\ evidence_weight jt_net jt_pts_det [(1, 0)] = 0%Qc.
Proof. exact jt_impossible. Qed.

(** Values out of range, and two values for one variable, when the variables stay in the tables. *)
Theorem C61_contradiction : forall N, net_ok N -> 0 < net_size N -> forall o, valid_order o -> forall pts,
  Forall (table_of_family N) pts -> Forall (nonneg (net_dom N)) pts -> forall T, jt_build o N pts = Ok T ->
  forall p sch E, valid_scheduler sch -> match p with Recursive f => length (jt_levels T) <= f | _ => True end ->
  (exists v x, (v, x) ∈ E /\ v < net_size N /\ net_dom N v <= x) \/ (exists v x y, (v, x) ∈ E /\ (v, y) ∈ E /\ v < net_size N /\ x <> y) ->
  propagate_by p false sch T E (jt_backup T) = Err DivZero.
Proof. exact plain_impossible. Qed.
Print Assumptions C61_contradiction.
Example C61_contradiction_witness : propagate_by Shortcut false seq_sched jt_tree [(2, 0); (2, 1)] (jt_backup jt_tree) = Err DivZero /\
  get [] (marginal_by Shortcut true [(2, 0); (2, 1)] 0) = (posterior jt_net jt_pts [(2, 0)] 0 <$> seq 0 2).
Proof. exact contradiction_run. Qed.
