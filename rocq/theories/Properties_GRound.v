(** Rounding errors of the test of conditional independence. [gsquare_test_r rnd flog F] is the test with every operation rounded
    by [rnd], the logarithm [flog] and the distribution function [F]; [rounds_within u rnd] and [log_within u flog] say that no
    result is off by more than the fraction [u]; [test_error] is an explicit bound in terms of [u], the number of rows and the number
    of cells; [clear_of_level F alpha e b g df] says that moving the statistic [g] by [b] and the p-value by [e] does not
    move it across the level (GRoundSpec.v). [double] is rounding to 53 binary digits, from the library Flocq. Numbers are the real
    numbers of Coq's standard library, so the theorems depend on its axioms. *)
From Coq Require Import Reals.
From Verif Require Import GRoundModel GRoundSpec PCModel PCSpec OrientModel PCWitness SaveWitness GSquareWitness GRoundProofs GRoundTheorems GRoundWitness.
Local Open Scope R_scope.

(** ** C71 *)
(** Without rounding it is the test of C66. *)
Theorem C71_exact : forall F alpha D ds x y zs g, gsquare_test_r (fun r => r) ln F alpha D ds x y zs g = gsquare_test F alpha D ds x y zs g.
Proof. exact no_rounding. Qed.
Print Assumptions C71_exact.
(** Double precision meets the assumptions, and represents the natural numbers below 2^53. *)
Theorem C71_double : rounds_within (/ 2 ^ 53) double /\ log_within (/ 2 ^ 53) (fun r => double (ln r)) /\ forall b, (Z.of_nat b < 2 ^ 53)%Z -> exact_up_to b double.
Proof. exact (conj double_rounds (conj double_log double_integers)). Qed.
Print Assumptions C71_double.
(** The test decides by a number within [test_error] of the textbook statistic. *)
Theorem C71_test : forall u rnd flog D ds x y zs, rounds_within u rnd -> log_within u flog -> tabulated D ds -> (x < length ds)%nat -> (y < length ds)%nat -> Forall (fun v => (v < length ds)%nat) zs ->
  exists q, Rabs (q - g_square D ds x y zs) <= test_error u D ds x y zs /\
    forall F alpha g, 0 <= alpha <= 1 -> (g <= 1)%nat -> exists r, gsquare_test_r rnd flog F alpha D ds x y zs g = Ok r /\ (ci_indep r = true <-> degrees D ds x y zs = 0%nat \/ alpha < rnd (1 - F q (degrees D ds x y zs))).
Proof. exact rounded_test. Qed.
Print Assumptions C71_test.
Example C71_test_witness : tabulated lamps [2;2;2]%nat /\ g_square lamps [2;2;2]%nat 0 2 [] = 10 * (2 * ln (64 / 27)) /\ 0 <= test_error (/ 2 ^ 53) lamps [2;2;2]%nat 0 2 [] <= 1.
Proof. exact (conj lamps_tabulated (conj (eq_trans (proj1 (lamps_copy 0 2 [])) (f_equal (Rmult 10) lamp_value02)) (lamps_error 0 2 []))). Qed.
(** Where the p-value is clear of the level, rounding does not change the answer. *)
Theorem C71_clear : forall u rnd flog F Fr e alpha D ds x y zs g, rounds_within u rnd -> log_within u flog -> nondecreasing F -> tabulated D ds -> (x < length ds)%nat -> (y < length ds)%nat -> Forall (fun v => (v < length ds)%nat) zs -> (g <= 1)%nat -> 0 <= alpha <= 1 ->
  (forall q df, (0 < df)%nat -> Rabs (rnd (1 - Fr q df) - (1 - F q df)) <= e) -> clear_of_level F alpha e (test_error u D ds x y zs) (g_square D ds x y zs) (degrees D ds x y zs) ->
  exists r r', gsquare_test_r rnd flog Fr alpha D ds x y zs g = Ok r' /\ gsquare_test F alpha D ds x y zs g = Ok r /\ ci_indep r' = ci_indep r.
Proof. exact clear_test. Qed.
Print Assumptions C71_clear.
(** The order of the rows has no influence, whatever the arithmetic. *)
Theorem C71_rows : forall rnd flog F alpha D ds x y zs g p, tabulated D ds -> (x < length ds)%nat -> (y < length ds)%nat -> Forall (fun v => (v < length ds)%nat) zs -> (g <= 1)%nat -> 0 <= alpha <= 1 -> p ≡ₚ seq 0 (co_rows D) ->
  exists r r', gsquare_test_r rnd flog F alpha D ds x y zs g = Ok r /\ gsquare_test_r rnd flog F alpha (pick_rows p D) ds x y zs g = Ok r' /\ ci_indep r' = ci_indep r.
Proof. exact rows_test. Qed.
Print Assumptions C71_rows.
(** Data that are exactly independent give the statistic 0 without any error, if the arithmetic is exact for the natural numbers up
    to the square of the number of rows and for the logarithm of 1. *)
Theorem C71_independent : forall rnd flog F alpha D ds x y zs g, exact_up_to (co_rows D * co_rows D) rnd -> flog 1 = 0 -> tabulated D ds -> (x < length ds)%nat -> (y < length ds)%nat -> Forall (fun v => (v < length ds)%nat) zs -> (g <= 1)%nat -> 0 <= alpha <= 1 -> cond_indep D x y zs ->
  exists r, gsquare_test_r rnd flog F alpha D ds x y zs g = Ok r /\ (ci_indep r = true <-> degrees D ds x y zs = 0%nat \/ alpha < rnd (1 - F 0 (degrees D ds x y zs))).
Proof. exact independent_test. Qed.
Print Assumptions C71_independent.
(** If all tests are clear of the level, the search with rounding finds the same skeleton and the same separating sets as
    the search with exact numbers, whatever the group sizes and the schedules of the two. *)
Theorem C71_skeleton : forall u rnd flog F Fr e alpha D ds, rounds_within u rnd -> log_within u flog -> nondecreasing F -> tabulated D ds -> 0 <= alpha <= 1 ->
  (forall q df, (0 < df)%nat -> Rabs (rnd (1 - Fr q df) - (1 - F q df)) <= e) ->
  (forall x y zs, (x < length ds)%nat -> (y < length ds)%nat -> Forall (fun v => (v < length ds)%nat) zs -> NoDup (x :: y :: zs) -> (0 < degrees D ds x y zs)%nat -> clear_of_level F alpha e (test_error u D ds x y zs) (g_square D ds x y zs) (degrees D ds x y zs)) ->
  forall size size' sch sch' depth, size = 1%nat \/ (1 <= size <= 8)%nat /\ (forall q, alpha < rnd (1 - Fr q 0%nat)) -> size' = 1%nat \/ (1 <= size' <= 8)%nat /\ alpha < 1 - F 0 0%nat -> valid_sched sch -> valid_sched sch' -> (1 <= depth)%nat ->
  exists A S fuel0, forall fuel, (fuel0 <= fuel)%nat -> exists es es', skeleton_search (gsquare_test_r rnd flog Fr alpha D ds) (length ds) depth fuel size sch = Ok (es, A, S) /\
    skeleton_search (gsquare_test F alpha D ds) (length ds) depth fuel size' sch' = Ok (es', A, S) /\ pe_pair <$> es = pe_pair <$> es'.
Proof. exact rounded_skeleton. Qed.
Print Assumptions C71_skeleton.
(** If moreover the exact tests agree with d-separation in a graph, the computed result is its essential graph. *)
Theorem C71_essential : forall u rnd flog F Fr e alpha D ds g size sch depth coin, rounds_within u rnd -> log_within u flog -> nondecreasing F -> tabulated D ds -> 0 <= alpha <= 1 ->
  (forall q df, (0 < df)%nat -> Rabs (rnd (1 - Fr q df) - (1 - F q df)) <= e) ->
  (forall x y zs, (x < length ds)%nat -> (y < length ds)%nat -> Forall (fun v => (v < length ds)%nat) zs -> NoDup (x :: y :: zs) -> (0 < degrees D ds x y zs)%nat -> clear_of_level F alpha e (test_error u D ds x y zs) (g_square D ds x y zs) (degrees D ds x y zs)) ->
  dag (length ds) g ->
  (forall x y s, (x < y)%nat -> (y < length ds)%nat -> x ∉ s -> y ∉ s -> StronglySorted lt s -> Forall (fun v => (v < length ds)%nat) s -> (degrees D ds x y s = 0%nat \/ alpha < 1 - F (g_square D ds x y s) (degrees D ds x y s)) <-> ~ d_connected g x y s) ->
  size = 1%nat \/ (1 <= size <= 8)%nat /\ (forall q, alpha < rnd (1 - Fr q 0%nat)) -> valid_sched sch -> (forall v, (length (dag_parents (length ds) g v) < depth)%nat) ->
  exists fuel0, forall fuel, (fuel0 <= fuel)%nat -> exists es A S N, skeleton_search (gsquare_test_r rnd flog Fr alpha D ds) (length ds) depth fuel size sch = Ok (es, A, S) /\ orient_skeleton fuel ds false coin es A S = Ok N /\
  (forall x y, has_directed N x y <-> forall h, dag (length ds) h -> markov_equivalent g h -> h x y = true) /\
  (forall x y, undirected_edge x y ∈ nt_edges N <-> (exists h, dag (length ds) h /\ markov_equivalent g h /\ h x y = true) /\ (exists h, dag (length ds) h /\ markov_equivalent g h /\ h y x = true)).
Proof. exact rounded_essential. Qed.
Print Assumptions C71_essential.
(** The four rows of two switches and a lamp, ten times each, in double precision: all hypotheses hold. *)
Example C71_essential_witness : rounds_within (/ 2 ^ 53) double /\ log_within (/ 2 ^ 53) (fun r => double (ln r)) /\ nondecreasing chi_pos /\ tabulated lamps [2;2;2]%nat /\ 0 <= 1 / 20 <= 1 /\
  (forall q df, (0 < df)%nat -> Rabs (double (1 - double_chi q df) - (1 - chi_pos q df)) <= 1 / 100) /\
  (forall x y zs, (x < 3)%nat -> (y < 3)%nat -> Forall (fun v => (v < 3)%nat) zs -> NoDup (x :: y :: zs) -> (0 < degrees lamps [2;2;2]%nat x y zs)%nat ->
    clear_of_level chi_pos (1 / 20) (1 / 100) (test_error (/ 2 ^ 53) lamps [2;2;2]%nat x y zs) (g_square lamps [2;2;2]%nat x y zs) (degrees lamps [2;2;2]%nat x y zs)) /\
  dag 3 lamp_graph /\
  (forall x y s, (x < y)%nat -> (y < 3)%nat -> x ∉ s -> y ∉ s -> StronglySorted lt s -> Forall (fun v => (v < 3)%nat) s ->
    (degrees lamps [2;2;2]%nat x y s = 0%nat \/ 1 / 20 < 1 - chi_pos (g_square lamps [2;2;2]%nat x y s) (degrees lamps [2;2;2]%nat x y s)) <-> ~ d_connected lamp_graph x y s) /\
  valid_sched forwards /\ (forall v, (length (dag_parents 3 lamp_graph v) < 3)%nat).
Proof. exact lamps_learning. Qed.
