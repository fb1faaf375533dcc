(** Property theorems about the comparison with a reference file: C54.
    Specifications used: EvalSpec.v ([is_reference], [compared], [root_mean_square], [average], [root_like]),
    JTSpec.v ([net_ok], [table_of_family], [nonneg], [evidence_in_range], [evidence_weight], [posterior]). *)
From Coq Require Import Field QArith.
From Verif Require Import EvalModel EvalSpec EvalTheorems EvalWitness JTModel JTSpec JTWitness BIFWitness.
Local Open Scope nat_scope.

(** ** C54 *)
(** With at least twenty test cases that each have some positive reference probability for an unobserved node, the two
    numbers printed are averages over the test cases: of the root mean square difference between the posterior
    probabilities (rounded to seven decimals) and the reference probabilities, and of the root mean square difference
    between their roots.  Missing: fewer test cases; test cases without such an entry (see below). *)
Theorem C54_errors_partial : forall sq stod N, net_ok N -> 0 < net_size N -> forall o, valid_order o ->
  forall pts, Forall (table_of_family N) pts -> Forall (nonneg (net_dom N)) pts -> forall T, jt_build o N pts = Ok T ->
  forall sch Es refs text, (forall i, valid_scheduler (sch i)) -> 20 <= length Es ->
  Forall (fun E => evidence_in_range N E /\ evidence_weight N pts E <> 0%Qc) Es -> is_reference stod N Es refs text ->
  (forall i E ref, Es !! i = Some E -> refs !! i = Some ref -> compared N pts E ref <> []) ->
  evaluate_errors sq stod sch T text Es =
    Ok (average (zip_with (fun E ref => root_mean_square sq (fun x => x) (compared N pts E ref)) Es refs),
        average (zip_with (fun E ref => root_mean_square sq sq (compared N pts E ref)) Es refs)).
Proof. exact evaluate_ok. Qed.
Print Assumptions C54_errors_partial.
Example C54_errors_partial_witness :
  (Forall (fun E => evidence_in_range jt_net E /\ evidence_weight jt_net jt_pts E <> 0%Qc) (cases 20) /\
   is_reference stod4 jt_net (cases 20) (case_refs 20) (case_text 20) /\
   (forall i E ref, cases 20 !! i = Some E -> case_refs 20 !! i = Some ref -> compared jt_net jt_pts E ref <> [])) /\
  exists m, evaluate_errors plain stod4 (fun _ => wild_sched) jt_tree (case_text 20) (cases 20) = Ok (m, m) /\ (0 < m)%Qc.
Proof. exact (conj (conj (cases_ok 20) (conj (case_reference 20) (cases_compared 20))) cases_evaluated). Qed.

(** Then each number is zero exactly when every compared posterior probability agrees with the reference. *)
Theorem C54_zero_iff_agree_partial : forall sq stod N, net_ok N -> 0 < net_size N -> forall o, valid_order o ->
  forall pts, Forall (table_of_family N) pts -> Forall (nonneg (net_dom N)) pts -> forall T, jt_build o N pts = Ok T ->
  forall sch Es refs text, root_like sq -> (forall i, valid_scheduler (sch i)) -> 20 <= length Es ->
  Forall (fun E => evidence_in_range N E /\ evidence_weight N pts E <> 0%Qc) Es -> is_reference stod N Es refs text ->
  (forall i E ref, Es !! i = Some E -> refs !! i = Some ref -> compared N pts E ref <> []) ->
  exists m h, evaluate_errors sq stod sch T text Es = Ok (m, h) /\ (0 <= m)%Qc /\ (0 <= h)%Qc /\
    let agree := forall i E ref v k, Es !! i = Some E -> refs !! i = Some ref -> v < net_size N -> v ∉ fst <$> E ->
      k < net_dom N v -> (0 < ref v k)%Qc -> qround (posterior N pts E v k) 7 = ref v k in
    (m = 0%Qc <-> agree) /\ (h = 0%Qc <-> agree).
Proof. exact evaluate_zero. Qed.
Print Assumptions C54_zero_iff_agree_partial.
Example C54_zero_iff_agree_partial_witness : root_like plain /\
  Forall (fun E => evidence_in_range jt_net E /\ evidence_weight jt_net jt_pts E <> 0%Qc) (cases 20) /\
  is_reference stod4 jt_net (cases 20) (case_refs 20) (case_text 20) /\
  (forall i E ref, cases 20 !! i = Some E -> case_refs 20 !! i = Some ref -> compared jt_net jt_pts E ref <> []).
Proof. exact (conj plain_root (conj (cases_ok 20) (conj (case_reference 20) (cases_compared 20)))). Qed.

(** In the other cases a division by zero happens: fewer than twenty test cases, or a test case without a positive
    reference probability of an unobserved node. *)
Theorem C54_no_average : forall sq stod N, net_ok N -> 0 < net_size N -> forall o, valid_order o ->
  forall pts, Forall (table_of_family N) pts -> Forall (nonneg (net_dom N)) pts -> forall T, jt_build o N pts = Ok T ->
  forall sch Es refs text, (forall i, valid_scheduler (sch i)) ->
  Forall (fun E => evidence_in_range N E /\ evidence_weight N pts E <> 0%Qc) Es -> is_reference stod N Es refs text ->
  length Es < 20 \/ (exists i E ref, Es !! i = Some E /\ refs !! i = Some ref /\ compared N pts E ref = []) ->
  evaluate_errors sq stod sch T text Es = Err DivZero.
Proof. exact evaluate_bad. Qed.
Print Assumptions C54_no_average.
Example C54_no_average_witness : length (cases 3) < 20 /\
  evaluate_errors plain stod4 (fun _ => wild_sched) jt_tree (case_text 3) (cases 3) = Err DivZero.
Proof. exact few_cases. Qed.
