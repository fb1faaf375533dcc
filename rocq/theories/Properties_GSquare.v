(** The test of conditional independence. [g_square] is the textbook statistic over the counts of rows, [degrees] the
    adjusted degrees of freedom, [cond_indep D x y zs] says that in the data n(x,y,z) n(z) = n(x,z) n(y,z) for all values,
    [pick_rows p D] is the data set of the rows at the positions [p], and [each_row k n p] says that [p] names each of the [n]
    rows [k] times (GSquareSpec.v, CellSpec.v). [F] stands for [stats::pchisq]; numbers are the real numbers of Coq's standard
    library, so the theorems depend on its axioms. *)
From Coq Require Import Reals.
From Verif Require Import GSquareModel GSquareSpec OrientModel PCWitness SaveWitness GSquareProofs GSquareProofs2 GSquareTheorems GSquareWitness.
Local Open Scope R_scope.

(** ** C66 *)
(** What a single test answers, for any function [F]. *)
Theorem C66_test : forall F alpha D ds x y zs g, tabulated D ds -> (x < length ds)%nat -> (y < length ds)%nat -> Forall (fun v => (v < length ds)%nat) zs -> (g <= 1)%nat -> 0 <= alpha <= 1 ->
  exists r, gsquare_test F alpha D ds x y zs g = Ok r /\ (ci_indep r = true <-> degrees D ds x y zs = 0%nat \/ alpha < 1 - F (g_square D ds x y zs) (degrees D ds x y zs)).
Proof. exact test_value. Qed.
Print Assumptions C66_test.
Example C66_test_witness : tabulated lamp_columns [2;2;2]%nat /\ degrees lamp_columns [2;2;2]%nat 0 2 [] = 1%nat /\ g_square lamp_columns [2;2;2]%nat 0 2 [] = 2 * (ln (4 / 2) + (ln (4 / 6) + 2 * ln (8 / 6))).
Proof. exact (conj lamp_tabulated (conj (proj1 (proj2 (proj2 lamp_counts))) lamp_value)). Qed.
(** A level outside of [0, 1] ends the program. *)
Theorem C66_level : forall alpha F D ds x y zs g, alpha < 0 \/ 1 < alpha -> gsquare_test F alpha D ds x y zs g = Err Exit1.
Proof. exact level_bad. Qed.
Print Assumptions C66_level.
(** The statistic is never negative, it is zero exactly when the data are independent, and it is at most 2 N log d for N rows
    and a variable with d values. *)
Theorem C66_nonnegative : forall D ds, tabulated D ds -> forall x y, (x < length ds)%nat -> (y < length ds)%nat -> forall zs, 0 <= g_square D ds x y zs.
Proof. exact g_square_nonneg. Qed.
Print Assumptions C66_nonnegative.
Theorem C66_zero : forall D ds, tabulated D ds -> forall x y, (x < length ds)%nat -> (y < length ds)%nat -> forall zs, g_square D ds x y zs = 0 <-> cond_indep D x y zs.
Proof. exact g_square_zero. Qed.
Print Assumptions C66_zero.
Theorem C66_bound : forall D ds x y zs d, tabulated D ds -> ds !! x = Some d -> (y < length ds)%nat -> Forall (fun v => (v < length ds)%nat) zs -> g_square D ds x y zs <= 2 * INR (co_rows D) * ln (INR d).
Proof. exact g_square_bound. Qed.
Print Assumptions C66_bound.
Example C66_zero_witness : tabulated lamp_columns [2;2;2]%nat /\ cond_indep lamp_columns 0 1 [] /\ ~ cond_indep lamp_columns 0 2 [].
Proof. exact (conj lamp_tabulated (conj (proj1 lamp_counts) (proj1 (proj2 lamp_counts)))). Qed.
(** Without degrees of freedom the data are independent. *)
Theorem C66_no_freedom : forall D ds, tabulated D ds -> forall x y, (x < length ds)%nat -> (y < length ds)%nat -> forall zs, degrees D ds x y zs = 0%nat -> cond_indep D x y zs.
Proof. exact no_freedom. Qed.
Print Assumptions C66_no_freedom.
(** Exchanging the two variables, reordering the conditioning variables and reordering the rows does not change the answer. *)
Theorem C66_order : forall F alpha D ds x y zs zs' p, tabulated D ds -> (x < length ds)%nat -> (y < length ds)%nat -> Forall (fun v => (v < length ds)%nat) zs -> 0 <= alpha <= 1 -> zs' ≡ₚ zs -> p ≡ₚ seq 0 (co_rows D) ->
  exists r r', gsquare_test F alpha D ds x y zs 1 = Ok r /\ gsquare_test F alpha (pick_rows p D) ds y x zs' 1 = Ok r' /\ ci_indep r' = ci_indep r.
Proof. exact order_free. Qed.
Print Assumptions C66_order.
(** Repeating every row k times multiplies the statistic by k and leaves the degrees of freedom. *)
Theorem C66_copies : forall k p D ds x y zs, tabulated D ds -> each_row k (co_rows D) p -> g_square (pick_rows p D) ds x y zs = INR k * g_square D ds x y zs.
Proof. exact copies_g_square. Qed.
Print Assumptions C66_copies.
Theorem C66_copies_degrees : forall k p D ds x y zs, tabulated D ds -> each_row k (co_rows D) p -> (0 < k)%nat -> degrees (pick_rows p D) ds x y zs = degrees D ds x y zs.
Proof. exact copies_degrees. Qed.
Print Assumptions C66_copies_degrees.
(** A larger level accepts less. *)
Theorem C66_level_order : forall F alpha alpha' D ds x y zs r r', tabulated D ds -> (x < length ds)%nat -> (y < length ds)%nat -> Forall (fun v => (v < length ds)%nat) zs -> 0 <= alpha -> alpha <= alpha' -> alpha' <= 1 ->
  gsquare_test F alpha D ds x y zs 1 = Ok r -> gsquare_test F alpha' D ds x y zs 1 = Ok r' -> ci_indep r' = true -> ci_indep r = true.
Proof. exact level_monotone. Qed.
Print Assumptions C66_level_order.
(** Independent data are accepted at every level below 1; dependent data are rejected at every level above 0 when the rows are
    repeated often enough. *)
Theorem C66_independent : forall F alpha D ds x y zs, tabulated D ds -> (x < length ds)%nat -> (y < length ds)%nat -> Forall (fun v => (v < length ds)%nat) zs -> chi_square_like F -> 0 <= alpha < 1 -> cond_indep D x y zs ->
  exists r, gsquare_test F alpha D ds x y zs 1 = Ok r /\ ci_indep r = true.
Proof. exact accepts_independent. Qed.
Print Assumptions C66_independent.
Theorem C66_dependent : forall F alpha D ds x y zs, tabulated D ds -> (x < length ds)%nat -> (y < length ds)%nat -> Forall (fun v => (v < length ds)%nat) zs -> chi_square_like F -> 0 < alpha <= 1 -> ~ cond_indep D x y zs ->
  exists K, forall k p, (K <= k)%nat -> each_row k (co_rows D) p -> exists r, gsquare_test F alpha (pick_rows p D) ds x y zs 1 = Ok r /\ ci_indep r = false.
Proof. exact rejects_dependent. Qed.
Print Assumptions C66_dependent.
(** A group of tests finds a separating set exactly when one of its members does alone, for all data, if and only if the
    comparison accepts a zero statistic with zero degrees of freedom: a single test does not compute the p-value then, a group
    does. *)
Theorem C66_groups : forall F alpha, 0 <= alpha <= 1 ->
  (forall D ds x y c zss, tabulated D ds -> (x < length ds)%nat -> (y < length ds)%nat -> (0 < c)%nat -> Forall (fun zs => length zs = c) zss -> (1 < length zss <= 8)%nat -> Forall (Forall (fun v => (v < length ds)%nat)) zss ->
    exists r, gsquare_test F alpha D ds x y (concat zss) (length zss) = Ok r /\ (ci_indep r = true <-> exists zs s, zs ∈ zss /\ gsquare_test F alpha D ds x y zs 1 = Ok s /\ ci_indep s = true)) <-> alpha < 1 - F 0 0%nat.
Proof. exact groups_as_single. Qed.
Print Assumptions C66_groups.
(** Learning from data: if the independences of the data are the d-separations of the graph [g], then PC-stable with the
    G-square test returns the essential graph of [g] when every row is repeated often enough, in any order. *)
Theorem C66_learning : forall F alpha D ds g size sch depth coin, tabulated D ds -> dag (length ds) g -> data_faithful D (length ds) g -> chi_square_like F -> 0 < alpha < 1 ->
  size = 1%nat \/ (1 <= size <= 8)%nat /\ alpha < 1 - F 0 0%nat -> valid_sched sch -> (forall v, (length (dag_parents (length ds) g v) < depth)%nat) ->
  exists K, forall k p, (K <= k)%nat -> each_row k (co_rows D) p ->
  exists fuel0, forall fuel, (fuel0 <= fuel)%nat -> exists es A S N, skeleton_search (gsquare_test F alpha (pick_rows p D) ds) (length ds) depth fuel size sch = Ok (es, A, S) /\ orient_skeleton fuel ds false coin es A S = Ok N /\
  (forall x y, has_directed N x y <-> forall h, dag (length ds) h -> markov_equivalent g h -> h x y = true) /\
  (forall x y, undirected_edge x y ∈ nt_edges N <-> (exists h, dag (length ds) h /\ markov_equivalent g h /\ h x y = true) /\ (exists h, dag (length ds) h /\ markov_equivalent g h /\ h y x = true)).
Proof. exact learns_from_rows. Qed.
Print Assumptions C66_learning.
Example C66_learning_witness : tabulated lamp_columns [2;2;2]%nat /\ dag 3 lamp_graph /\ data_faithful lamp_columns 3 lamp_graph /\ chi_square_like chi_two /\ 0 < 1 / 20 < 1 /\ 1 / 20 < 1 - chi_two 0 0 /\
  valid_sched forwards /\ (forall v, (length (dag_parents 3 lamp_graph v) < 3)%nat) /\ each_row 2 4 [3;0;0;1;2;2;1;3]%nat.
Proof. exact lamp_learning. Qed.
