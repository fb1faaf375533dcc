(** The skeleton search of PC-stable. [decides tst ind n gmax] says that the test function [tst] answers with the
    decisions [ind] on [n] variables, for single tests and for groups of at most [gmax] tests; [stable_skeleton ind n d]
    is the skeleton of PC-stable after the depths 0, ..., d - 1, defined without any order of the edges; a schedule
    is valid if every iteration of every parallel loop takes effect once, in any order (PCSpec.v). *)
From Verif Require Import CellSpec CellWitness PCModel PCSpec PCTheorems PCWitness.
Local Open Scope nat_scope.

(** ** C18 *)
(** One result for all test functions with the same decisions, all group sizes and all schedules. [F] is the amount
    of fuel from which the search ends. Missing: the iterations are atomic here, but the code does not protect the
    objects that they share, see [C18_races_refuted]. *)
Theorem C18_skeleton_partial : forall n depth ind, 1 <= depth -> exists E A S,
  (forall tst gmax g sch, decides tst ind n gmax -> 1 <= g <= gmax -> valid_sched sch ->
     exists F es, (forall fuel, F <= fuel -> skeleton_search tst n depth fuel g sch = Ok (es, A, S)) /\ pe_pair <$> es = E) /\
  NoDup E /\ (forall x y, (x, y) ∈ E <-> x < y /\ stable_skeleton ind n depth x y) /\
  length A = n /\ (forall x row, A !! x = Some row -> StronglySorted lt row /\ forall v, v ∈ row <-> stable_skeleton ind n depth x v).
Proof. exact skeleton_result. Qed.
Print Assumptions C18_skeleton_partial.
Example C18_skeleton_partial_witness : decides chain_test chain_ind 4 3 /\ valid_sched forwards /\ valid_sched backwards /\
  outline (skeleton_search chain_test 4 5 100 1 forwards) = outline (skeleton_search chain_test 4 5 100 3 backwards) /\
  outline (skeleton_search chain_test 4 5 100 3 backwards) = Some ([(0, 1); (1, 2); (2, 3)], [[1]; [0; 2]; [1; 3]; [2]], [(1, 3, [2]); (0, 3, [1]); (0, 2, [1])]).
Proof. exact (conj (chain_decides 4 3) (conj forwards_valid (conj backwards_valid chain_runs))). Qed.
(** The G-square test on a data set is such a test function, in groups of at most eight tests and, without the
    hypothesis on the p-value of a zero statistic, one by one. *)
Theorem C18_gsquare : forall accept D ds, tabulated D ds -> (forall ts, Forall balanced ts -> accept ts 0 = true) ->
  decides (independence_result accept D ds) (decision accept D ds) (length ds) 8.
Proof. exact gsquare_decides. Qed.
Print Assumptions C18_gsquare.
Example C18_gsquare_witness : tabulated rows5 [2;2;2;3] /\ (forall ts, Forall balanced ts -> few_df ts 0 = true).
Proof. exact (conj rows5_tabulated few_df_zero). Qed.
Theorem C18_gsquare_alone : forall accept D ds, tabulated D ds -> decides (independence_result accept D ds) (decision accept D ds) (length ds) 1.
Proof. exact gsquare_decides_alone. Qed.
Print Assumptions C18_gsquare_alone.
(** Refuted for larger groups: the search on eleven variables ends with groups of eight tests, and with groups of
    nine it writes past the end of an array. *)
Theorem C18_large_groups_refuted : exists D ds accept sch, tabulated D ds /\ (forall ts, Forall balanced ts -> accept ts 0 = true) /\ valid_sched sch /\
  is_ok (skeleton_search (independence_result accept D ds) (length ds) 2 1000 8 sch) = true /\
  skeleton_search (independence_result accept D ds) (length ds) 2 1000 9 sch = Err OutOfBounds.
Proof. exact eleven_search. Qed.
Print Assumptions C18_large_groups_refuted.
(** Refuted for threads: iterations of the parallel loop write the same unprotected counter (always, from three
    variables on) and the same unprotected map. *)
Theorem C18_counter_race : forall tst ind n gmax, decides tst ind n gmax -> 3 <= n -> level_zero_race tst n CounterCell.
Proof. exact counter_race. Qed.
Print Assumptions C18_counter_race.
Theorem C18_sepset_race : forall tst ind n gmax, decides tst ind n gmax ->
  forall x y u v, x < y -> y < n -> u < v -> v < n -> (x, y) <> (u, v) -> ind x y [] = true -> ind u v [] = true -> level_zero_race tst n SepsetMap.
Proof. exact sepset_race. Qed.
Print Assumptions C18_sepset_race.
Theorem C18_races_refuted : exists accept D ds, tabulated D ds /\ level_zero_race (independence_result accept D ds) (length ds) CounterCell /\ level_zero_race (independence_result accept D ds) (length ds) SepsetMap.
Proof. exact sepset_races. Qed.
Print Assumptions C18_races_refuted.

(** ** C19 *)
(** [stable_skeleton ind n (length s) x y] and its negation at the next depth say that the pair was removed at the
    depth [length s]. *)
Theorem C19_separating_sets : forall tst ind n gmax depth g sch, decides tst ind n gmax -> 1 <= g <= gmax -> valid_sched sch -> 1 <= depth ->
  exists F es A S, (forall fuel, F <= fuel -> skeleton_search tst n depth fuel g sch = Ok (es, A, S)) /\
  (forall x y row, x < y -> y < n -> A !! x = Some row -> y ∉ row <-> is_Some (S !! (x, y))) /\
  (forall x y s, S !! (x, y) = Some s -> x < y /\ y < n /\ ind x y s = true /\ x ∉ s /\ y ∉ s /\ StronglySorted lt s /\
     stable_skeleton ind n (length s) x y /\ ~ stable_skeleton ind n (1 + length s) x y).
Proof. exact separating_sets. Qed.
Print Assumptions C19_separating_sets.
Example C19_separating_sets_witness : exists es A S, skeleton_search chain_test 4 5 100 3 backwards = Ok (es, A, S) /\ S !! (0, 3) = Some [1] /\ S !! (1, 3) = Some [2] /\ S !! (1, 2) = None.
Proof. exact chain_map. Qed.
