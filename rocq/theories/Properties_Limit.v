(** C70: integer overflow in structure learning (CellTable.cpp, IndependenceTest.cpp, PCStable.cpp).

    Vocabulary (LimitSpec.v): [table_cells ds x y zs] - the product of the numbers of values of x, y and zs;
    [group_cells] - the sum of these products over a group of conditioning sets.  IntSpec.v:
    [unless_overflow x y] - y is x, or y is the outcome [Overflow].  CellSpec.v: [tabulated D ds] - every
    column has a value below its number of values in each row; [balanced].  PCSpec.v: [valid_sched].
    Model (LimitModel.v): [independence_result_i M] - the test when the largest int is M; a product or a sum
    beyond M that gives a size, a stride, an offset, a position, a count or the degrees of freedom is the
    outcome [Overflow].  [independence_result] (CellModel.v) computes with unlimited integers. *)
From Verif Require Import CellModel LimitModel CellSpec LimitSpec IntSpec PCModel PCSpec LearnWitness CellWitness PCWitness LimitRefine LimitLearn LimitWitness.
Local Open Scope nat_scope.

(** For any data at all, a test gives the answer of unlimited integers or overflows; so does the search for
    the skeleton. *)
Theorem C70_same_or_overflow : forall M accept D ds,
  (forall x y zs g, unless_overflow (independence_result accept D ds x y zs g) (independence_result_i M accept D ds x y zs g)) /\
  (forall n depth fuel g sch, unless_overflow (skeleton_search (independence_result accept D ds) n depth fuel g sch) (skeleton_search (independence_result_i M accept D ds) n depth fuel g sch)).
Proof. exact (fun M accept D ds => conj (independence_unless M accept D ds) (skeleton_search_unless _ _ (independence_unless M accept D ds))). Qed.
Print Assumptions C70_same_or_overflow.
Example C70_same_or_overflow_witness : independence_result_i 24 always rows5 [2;2;2;3] 0 3 [1;2] 1 = independence_result always rows5 [2;2;2;3] 0 3 [1;2] 1 /\ independence_result_i 23 always rows5 [2;2;2;3] 0 3 [1;2] 1 = Err Overflow.
Proof. vm_compute. done. Qed.

(** A single test overflows exactly when its table has more than M cells (the number of rows being an int). *)
Theorem C70_single_test : forall M accept D ds x y zs g, tabulated D ds -> Forall (fun d => 0 < d) ds -> co_rows D <= M -> x < length ds -> y < length ds -> Forall (fun v => v < length ds) zs -> g <= 1 ->
  independence_result_i M accept D ds x y zs g = if decide (table_cells ds x y zs <= M) then independence_result accept D ds x y zs g else Err Overflow.
Proof. exact single_exact. Qed.
Print Assumptions C70_single_test.
Example C70_single_test_witness : tabulated rows5 [2;2;2;3] /\ Forall (fun d => 0 < d) [2;2;2;3] /\ co_rows rows5 <= 23 /\ table_cells [2;2;2;3] 0 3 [1;2] = 24 /\ independence_result_i 24 always rows5 [2;2;2;3] 0 3 [1;2] 1 = Ok (mkCI true 0).
Proof. split_and!; [exact rows5_tabulated|repeat constructor|cbn; lia|done|vm_compute; done]. Qed.

(** A group of tests overflows exactly when its tables together have more than M cells: a group of tests may
    overflow although none of its tests does alone. *)
Theorem C70_group_test : forall M accept D ds x y c zss, tabulated D ds -> Forall (fun d => 0 < d) ds -> co_rows D <= M -> x < length ds -> y < length ds ->
  0 < c -> 1 < length zss -> Forall (fun zs => length zs = c /\ Forall (fun v => v < length ds) zs) zss ->
  independence_result_i M accept D ds x y (concat zss) (length zss) = if decide (group_cells ds x y zss <= M) then independence_result accept D ds x y (concat zss) (length zss) else Err Overflow.
Proof. exact group_exact. Qed.
Print Assumptions C70_group_test.
Example C70_group_test_witness : group_cells [2;2;2;3] 0 3 [[1];[2]] = 24 /\ independence_result_i 24 always rows5 [2;2;2;3] 0 3 [1;2] 2 = Ok (mkCI true 0) /\
  independence_result_i 23 always rows5 [2;2;2;3] 0 3 [1;2] 2 = Err Overflow /\ independence_result_i 23 always rows5 [2;2;2;3] 0 3 [1] 1 = Ok (mkCI true 0) /\ independence_result_i 23 always rows5 [2;2;2;3] 0 3 [2] 1 = Ok (mkCI true 0).
Proof. vm_compute. done. Qed.

(** Learning overflows nothing when the group size times the product of all numbers of values is at most M:
    for every schedule and every search depth the result is that of unlimited integers. *)
Theorem C70_learning_partial : forall M accept D ds g sch depth, tabulated D ds -> Forall (fun d => 0 < d) ds -> co_rows D <= M -> g * foldr Nat.mul 1 ds <= M ->
  1 <= g <= 8 -> g = 1 \/ (forall ts, Forall balanced ts -> accept ts 0 = true) -> valid_sched sch -> 1 <= depth ->
  exists F r, forall fuel, F <= fuel ->
    skeleton_search (independence_result accept D ds) (length ds) depth fuel g sch = Ok r /\ skeleton_search (independence_result_i M accept D ds) (length ds) depth fuel g sch = Ok r.
Proof. exact learning_fits. Qed.
Print Assumptions C70_learning_partial.
Example C70_learning_witness : tabulated rows5 [2;2;2;3] /\ Forall (fun d => 0 < d) [2;2;2;3] /\ co_rows rows5 <= 72 /\ 3 * foldr Nat.mul 1 [2;2;2;3] <= 72 /\ (forall ts, Forall balanced ts -> always ts 0 = true) /\ valid_sched backwards /\
  skeleton_search (independence_result_i 72 zero_df rows5 [2;2;2;3]) 4 1000 100 3 backwards = skeleton_search (independence_result zero_df rows5 [2;2;2;3]) 4 1000 100 3 backwards /\
  skeleton_search (independence_result_i 5 zero_df rows5 [2;2;2;3]) 4 1000 100 3 backwards = Err Overflow.
Proof. split_and!; [exact rows5_tabulated|repeat constructor|cbn; lia|vm_compute; lia|done|exact backwards_valid|vm_compute; reflexivity..]. Qed.

(** Two variables whose numbers of values have a product beyond M: learning always overflows. *)
Theorem C70_large_pair : forall M accept D ds x y dx dy g sch depth fuel, tabulated D ds -> ds !! x = Some dx -> ds !! y = Some dy -> x <> y -> M < dx * dy -> valid_sched sch ->
  skeleton_search (independence_result_i M accept D ds) (length ds) depth fuel g sch = Err Overflow.
Proof. exact learning_over. Qed.
Print Assumptions C70_large_pair.
Example C70_large_pair_witness : tabulated rows5 [2;2;2;3] /\ 5 < 2 * 3 /\ valid_sched forwards /\ skeleton_search (independence_result_i 5 always rows5 [2;2;2;3]) 4 1000 100 1 forwards = Err Overflow.
Proof. split_and!; [exact rows5_tabulated|lia|exact forwards_valid|vm_compute; reflexivity]. Qed.

(** The property fails with 32-bit ints: 46341 rows of two columns, each with 46341 different values. *)
Theorem C70_refuted : exists D ds, tabulated D ds /\ Forall (fun d => 0 < d) ds /\ co_rows D = Z.to_nat 46341 /\ length ds = 2 /\
  forall accept g sch depth fuel, valid_sched sch -> skeleton_search (independence_result_i (Z.to_nat 2147483647) accept D ds) (length ds) depth fuel g sch = Err Overflow.
Proof. exact wide_overflows. Qed.
Print Assumptions C70_refuted.
