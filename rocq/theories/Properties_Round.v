(** C65: rounding errors of exact inference (JunctionTreeStructure.cpp, JunctionTree.cpp,
    PotentialTableBase.cpp, PotentialTable.cpp).

    Vocabulary (RoundSpec.v): [rounds c rnd] - the rounding [rnd] changes no non-negative number by
    more than the factor c; [within_factor f x y] - x and y are not negative and differ by at most
    the factor f; [table_within f t t'] - so do the entries of two tables of one shape;
    [answer_errors n M b], [marginal_errors n M b] - closed formulas in the number n of cliques, the
    size M of the largest table and the number b of errors in a clique; [errors_of count T m k] - such a
    formula for the tree T built from m tables with k errors each; [relative_error K u] =
    K u / (1 - K u).  JTSpec.v: as in Properties_JT.v.
    Model (RoundModel.v): [jt_build_r rnd], [query_probs_r rnd], [query_label_r rnd] - the
    functions of JTModel.v with [rnd] applied to every sum, product and quotient. *)
From Verif Require Import JTModel JTSpec RoundModel RoundSpec JTWitness RoundTheorems RoundWitness.
Local Open Scope nat_scope.

(** With exact arithmetic it is the model of C08. *)
Theorem C65_exact_case : jt_build_r (fun x => x) = jt_build /\ query_probs_r (fun x => x) = query_probs /\ query_label_r (fun x => x) = query_label.
Proof. exact no_rounding. Qed.
Print Assumptions C65_exact_case.
Example C65_exact_case_witness : jt_build_r (fun x => x) rev_order jt_net jt_pts = Ok jt_tree.
Proof. vm_compute. reflexivity. Qed.

(** Construction succeeds for the same networks. *)
Theorem C65_construction : forall N, net_ok N -> 0 < net_size N -> forall o, valid_order o -> forall c rnd, rounds c rnd -> forall k pts pts',
  Forall (table_of_family N) pts -> Forall2 (table_within (c ^ k)%Qc) pts pts' ->
  (exists T, jt_build_r rnd o N pts' = Ok T) <-> weakly_connected N.
Proof. exact rounded_built. Qed.
Print Assumptions C65_construction.
Example C65_construction_witness : rounds (1 + frac 1 (2 ^ 53))%Qc (round_bits 53) /\ Forall2 (table_within ((1 + frac 1 (2 ^ 53)) ^ 1)%Qc) jt_pts rounded_pts /\ weakly_connected jt_net.
Proof. exact (conj bits53 (conj rounded_pts_within jt_connected)). Qed.

(** All posteriors. *)
Theorem C65_posteriors_partial : forall N, net_ok N -> 0 < net_size N -> forall o, valid_order o -> forall c rnd, rounds c rnd -> forall k pts pts',
  Forall (table_of_family N) pts -> Forall2 (table_within (c ^ k)%Qc) pts pts' -> forall T, jt_build_r rnd o N pts' = Ok T ->
  forall sch E, valid_scheduler sch -> evidence_in_range N E -> evidence_weight N pts E <> 0%Qc ->
  exists ps, query_probs_r rnd sch T E (jt_backup T) = Ok (jt_backup T, ps) /\
    Forall2 (fun p p' => p' = p \/ within_factor (c ^ errors_of answer_errors T (length pts) k)%Qc p p') (answer_all N pts E) ps.
Proof. exact rounded_probs. Qed.
Print Assumptions C65_posteriors_partial.
Example C65_posteriors_witness :
  (rounds (1 + frac 1 (2 ^ 53))%Qc (round_bits 53) /\ Forall2 (table_within ((1 + frac 1 (2 ^ 53)) ^ 1)%Qc) jt_pts rounded_pts /\ jt_build_r (round_bits 53) rev_order jt_net rounded_pts = Ok rounded_tree) /\
  exists ps, query_probs_r (round_bits 53) wild_sched rounded_tree jt_evidence (jt_backup rounded_tree) = Ok (jt_backup rounded_tree, ps) /\
    length ps = 9 /\ ps !! 0 <> Some (frac 445 1759) /\ ps !! 7 = Some minus_one.
Proof. exact (conj round_hyps rounded_answer). Qed.

(** The same as a relative error. *)
Theorem C65_relative_error_partial : forall N, net_ok N -> 0 < net_size N -> forall o, valid_order o -> forall u rnd, (0 <= u)%Qc -> rounds (1 + u)%Qc rnd -> forall k pts pts',
  Forall (table_of_family N) pts -> Forall2 (table_within ((1 + u) ^ k)%Qc) pts pts' -> forall T, jt_build_r rnd o N pts' = Ok T ->
  forall sch E, valid_scheduler sch -> evidence_in_range N E -> evidence_weight N pts E <> 0%Qc ->
  forall K, K = errors_of answer_errors T (length pts) k -> (nat_Qc K * u < 1)%Qc ->
  exists ps, query_probs_r rnd sch T E (jt_backup T) = Ok (jt_backup T, ps) /\
    Forall2 (fun p p' => p' = p \/ (p' - p <= relative_error K u * p)%Qc /\ (p - p' <= relative_error K u * p)%Qc) (answer_all N pts E) ps.
Proof. exact rounded_relative. Qed.
Print Assumptions C65_relative_error_partial.
Example C65_relative_error_witness : errors_of answer_errors rounded_tree (length jt_pts) 1 = 745 /\ (relative_error 745 (frac 1 (2 ^ 53)) < frac 1 (10 ^ 13))%Qc.
Proof. split; [vm_compute; reflexivity|apply (bool_decide_unpack _); vm_compute; exact I]. Qed.

(** The reported label has almost the largest posterior. *)
Theorem C65_label_partial : forall N, net_ok N -> 0 < net_size N -> forall o, valid_order o -> forall c rnd, rounds c rnd -> forall k pts pts',
  Forall (table_of_family N) pts -> Forall2 (table_within (c ^ k)%Qc) pts pts' -> forall T, jt_build_r rnd o N pts' = Ok T ->
  forall sch E q, valid_scheduler sch -> evidence_in_range N E -> evidence_weight N pts E <> 0%Qc -> q < net_size N -> q ∉ fst <$> E ->
  exists l, query_label_r rnd sch T q E (jt_backup T) = Ok (jt_backup T, l) /\ l < net_dom N q /\
    forall x, x < net_dom N q -> (posterior N pts E q x <= c ^ (2 * errors_of marginal_errors T (length pts) k) * posterior N pts E q l)%Qc.
Proof. exact rounded_label. Qed.
Print Assumptions C65_label_partial.
Example C65_label_witness : query_label_r (round_bits 53) wild_sched rounded_tree 0 jt_evidence (jt_backup rounded_tree) = Ok (jt_backup rounded_tree, 1).
Proof. vm_compute. reflexivity. Qed.

(** It is the exact label when that one leads by more than the rounding errors. *)
Theorem C65_clear_winner_partial : forall N, net_ok N -> 0 < net_size N -> forall o, valid_order o -> forall c rnd, rounds c rnd -> forall k pts pts',
  Forall (table_of_family N) pts -> Forall2 (table_within (c ^ k)%Qc) pts pts' -> forall T, jt_build_r rnd o N pts' = Ok T ->
  forall sch E q w, valid_scheduler sch -> evidence_in_range N E -> evidence_weight N pts E <> 0%Qc -> q < net_size N -> q ∉ fst <$> E -> w < net_dom N q ->
  (forall x, x < net_dom N q -> x <> w -> (c ^ (2 * errors_of marginal_errors T (length pts) k) * posterior N pts E q x < posterior N pts E q w)%Qc) ->
  query_label_r rnd sch T q E (jt_backup T) = Ok (jt_backup T, w).
Proof. exact rounded_winner. Qed.
Print Assumptions C65_clear_winner_partial.
Example C65_clear_winner_witness : errors_of marginal_errors rounded_tree (length jt_pts) 1 = 369 /\
  ((1 + frac 1 (2 ^ 53)) ^ (2 * 369) * posterior jt_net jt_pts jt_evidence 0 0 < posterior jt_net jt_pts jt_evidence 0 1)%Qc.
Proof. split; [vm_compute; reflexivity|apply (bool_decide_unpack _); vm_compute; exact I]. Qed.

(** Evidence of probability zero, and values that do not exist: never a finite answer. *)
Theorem C65_impossible_evidence_partial : forall N, net_ok N -> 0 < net_size N -> forall o, valid_order o -> forall c rnd, rounds c rnd -> forall k pts pts',
  Forall (table_of_family N) pts -> Forall2 (table_within (c ^ k)%Qc) pts pts' -> forall T, jt_build_r rnd o N pts' = Ok T ->
  forall sch E q, valid_scheduler sch ->
  (evidence_in_range N E /\ evidence_weight N pts E = 0%Qc) \/
  (exists E1 v x E2, E = E1 ++ (v, x) :: E2 /\ v < net_size N /\ v ∉ fst <$> E1 /\ net_dom N v <= x) ->
  query_probs_r rnd sch T E (jt_backup T) = Err DivZero /\ query_label_r rnd sch T q E (jt_backup T) = Err DivZero.
Proof. exact rounded_impossible. Qed.
Print Assumptions C65_impossible_evidence_partial.
Example C65_impossible_evidence_witness : query_probs_r (round_bits 53) wild_sched rounded_tree [(3, 3)] (jt_backup rounded_tree) = Err DivZero.
Proof. vm_compute. reflexivity. Qed.

(** Changed parameters change the exact answer by no more than the factor of all changes, twice. *)
Theorem C65_parameters : forall f, (1 <= f)%Qc -> forall N pts pts' E q x, Forall2 (table_within f) pts pts' -> evidence_weight N pts E <> 0%Qc ->
  evidence_weight N pts' E <> 0%Qc /\ within_factor (f ^ (2 * length pts))%Qc (posterior N pts E q x) (posterior N pts' E q x).
Proof. exact posterior_within. Qed.
Print Assumptions C65_parameters.
Example C65_parameters_witness : posterior jt_net rounded_pts jt_evidence 0 0 <> posterior jt_net jt_pts jt_evidence 0 0 /\ Forall2 (table_within ((1 + frac 1 (2 ^ 53)) ^ 1)%Qc) jt_pts rounded_pts.
Proof. split; [vm_compute; discriminate|exact rounded_pts_within]. Qed.

(** What is missing: a rounding that turns numbers below 2^-1022 into zero and is otherwise as precise
    as a double.  Evidence of probability 2^-1200 is then treated as impossible, although the exact
    answer is an ordinary number. *)
Theorem C65_underflow_refuted :
  (forall x, (frac 1 (2 ^ 1022) <= x)%Qc -> (flush53 x <= (1 + frac 1 (2 ^ 53)) * x)%Qc /\ (x <= (1 + frac 1 (2 ^ 53)) * flush53 x)%Qc) /\
  net_ok jt_net /\ Forall (table_of_family jt_net) tiny_pts /\ Forall (nonneg (net_dom jt_net)) tiny_pts /\ evidence_in_range jt_net [(0, 0); (1, 0)] /\
  posterior jt_net tiny_pts [(0, 0); (1, 0)] 2 0 = frac 1 4 /\
  jt_build_r flush53 addr_order jt_net tiny_pts = Ok tiny_tree /\ query_probs_r flush53 wild_sched tiny_tree [(0, 0); (1, 0)] (jt_backup tiny_tree) = Err DivZero.
Proof. exact underflow_witness. Qed.
Print Assumptions C65_underflow_refuted.
