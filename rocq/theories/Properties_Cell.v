(** Contingency tables and the conditional-independence test. [matching D vs cfg] is the number of rows in which
    the variables [vs] have the values [cfg]; [tally D ds vs] lists these numbers for all configurations in
    lexicographic order; [statistic] lists the terms of G-square, [degrees] the degrees of freedom and [decision]
    the outcome of one test (CellSpec.v). [accept] stands for the comparison of the p-value with alpha. *)
From Verif Require Import CellModel CellSpec CellTheorems CellWitness.
Local Open Scope nat_scope.

(** ** C22 *)
Theorem C22_single_table : forall D ds, tabulated D ds -> forall x y dx dy, ds !! x = Some dx -> ds !! y = Some dy -> forall zs, Forall (fun v => v < length ds) zs -> zs <> [] ->
  counts3d D dx dy x y (sizes_of ds zs) zs = Ok (mkC3 (length (configs (sizes_of ds zs))) (tally D ds (zs ++ [x; y])) (tally D ds (zs ++ [x])) (tally D ds (zs ++ [y])) (tally D ds zs)).
Proof. exact single_table. Qed.
Print Assumptions C22_single_table.
Example C22_single_table_witness : tabulated rows5 [2;2;2;3] /\ tally rows5 [2;2;2;3] [0;1;2;3] = [0;0;0;0;0;0; 0;0;1;0;0;1; 1;0;0;0;0;0; 0;0;1;0;1;0] /\
  counts3d rows5 2 3 2 3 [2;2] [0;1] = Ok (mkC3 4 [0;0;0;0;0;0; 0;0;1;0;0;1; 1;0;0;0;0;0; 0;0;1;0;1;0] [0;0;1;1;1;0;1;1] [0;0;0;0;0;2;1;0;0;0;1;1] [0;2;1;2]).
Proof. exact rows5_tables. Qed.
Theorem C22_pair_table : forall D ds, tabulated D ds -> forall x y dx dy, ds !! x = Some dx -> ds !! y = Some dy -> counts2d D dx dy x y = Ok (tally D ds [x; y], tally D ds [x], tally D ds [y]).
Proof. exact pair_table. Qed.
Print Assumptions C22_pair_table.
(** The tables of a group are the tables of its members, one after the other. *)
Theorem C22_group_table : forall D ds, tabulated D ds -> forall x y dx dy, ds !! x = Some dx -> ds !! y = Some dy ->
  forall c zss, 0 < c -> Forall (fun zs => length zs = c) zss -> zss <> [] -> Forall (Forall (fun v => v < length ds)) zss ->
  exists t, counts3d_group D dx dy x y (sizes_of ds (concat zss)) (concat zss) (length zss) = Ok t /\
    cg_dimz t = (fun zs => length (configs (sizes_of ds zs))) <$> zss /\
    cg_n t = concat ((fun zs => tally D ds (zs ++ [x; y])) <$> zss) /\ cg_ni t = concat ((fun zs => tally D ds (zs ++ [x])) <$> zss) /\
    cg_nj t = concat ((fun zs => tally D ds (zs ++ [y])) <$> zss) /\ cg_nk t = concat (tally D ds <$> zss).
Proof. exact group_table. Qed.
Print Assumptions C22_group_table.
Example C22_group_table_witness : Forall (fun zs => length zs = 1) [[0];[1]] /\ is_ok (counts3d_group rows5 2 3 2 3 [2;2] [0;1] 2) = true.
Proof. exact rows5_group. Qed.
(** Where the count of a configuration is found. *)
Theorem C22_position : forall D ds vs cfg, in_range (sizes_of ds vs) cfg -> tally D ds vs !! lex_index (sizes_of ds vs) cfg = Some (matching D vs cfg).
Proof. exact tally_position. Qed.
Print Assumptions C22_position.
(** The marginals are the sums of the cells, and the total is the number of rows. *)
Theorem C22_margin_x : forall D ds, tabulated D ds -> forall x y dx dy, ds !! x = Some dx -> ds !! y = Some dy -> forall zs cfg i, length cfg = length zs ->
  matching D (zs ++ [x]) (cfg ++ [i]) = nsum (seq 0 dy) (fun j => matching D (zs ++ [x; y]) (cfg ++ [i; j])).
Proof. exact margin_x. Qed.
Print Assumptions C22_margin_x.
Theorem C22_margin_y : forall D ds, tabulated D ds -> forall x y dx dy, ds !! x = Some dx -> ds !! y = Some dy -> forall zs cfg j, length cfg = length zs ->
  matching D (zs ++ [y]) (cfg ++ [j]) = nsum (seq 0 dx) (fun i => matching D (zs ++ [x; y]) (cfg ++ [i; j])).
Proof. exact margin_y. Qed.
Print Assumptions C22_margin_y.
Theorem C22_margin_z : forall D ds, tabulated D ds -> forall x y dx dy, ds !! x = Some dx -> ds !! y = Some dy -> forall zs cfg, length cfg = length zs ->
  matching D zs cfg = nsum (seq 0 dx) (fun i => nsum (seq 0 dy) (fun j => matching D (zs ++ [x; y]) (cfg ++ [i; j]))).
Proof. exact margin_z. Qed.
Print Assumptions C22_margin_z.
Theorem C22_total : forall D, matching D [] [] = co_rows D.
Proof. exact CellProofs4.matching_nil. Qed.
Print Assumptions C22_total.

(** ** C23 *)
(** A test made alone. *)
Theorem C23_single_decision : forall D ds, tabulated D ds -> forall x y dx dy, ds !! x = Some dx -> ds !! y = Some dy -> forall accept zs g, Forall (fun v => v < length ds) zs -> g <= 1 ->
  exists f, independence_result accept D ds x y zs g = Ok (mkCI (decision accept D ds x y zs) f) /\ (zs <> [] -> f = 0%Z).
Proof. exact single_decision. Qed.
Print Assumptions C23_single_decision.
(** A group of two to eight tests finds the first set that separates when tested alone. The hypothesis on
    [accept] is about 1 - pchisq(0, 0) only: without degrees of freedom every term of the statistic is zero, and
    the single test answers "independent" without asking. *)
Theorem C23_group_decision_partial : forall D ds x y accept c zss, tabulated D ds -> x < length ds -> y < length ds -> 0 < c -> Forall (fun zs => length zs = c) zss -> 1 < length zss <= 8 ->
  Forall (Forall (fun v => v < length ds)) zss -> (forall ts, Forall balanced ts -> accept ts 0 = true) ->
  independence_result accept D ds x y (concat zss) (length zss) = Ok (group_result (decision accept D ds x y <$> zss)).
Proof. exact group_as_single. Qed.
Print Assumptions C23_group_decision_partial.
Example C23_group_decision_partial_witness : tabulated rows5 [2;2;2;3] /\ (forall ts, Forall balanced ts -> few_df ts 0 = true) /\
  degrees rows5 [2;2;2;3] 2 3 [0] = 2 /\ degrees rows5 [2;2;2;3] 2 3 [1] = 1 /\ degrees rows5 [2;2;2;3] 0 1 [2;3] = 0 /\
  independence_result few_df rows5 [2;2;2;3] 2 3 [0] 1 = Ok (mkCI false 0) /\ independence_result few_df rows5 [2;2;2;3] 2 3 [1] 1 = Ok (mkCI true 0) /\
  independence_result few_df rows5 [2;2;2;3] 2 3 [0;1] 2 = Ok (mkCI true 1).
Proof. exact (conj rows5_tabulated (conj few_df_zero rows5_decisions)). Qed.
Theorem C23_zero_statistic : forall D ds x y zs, tabulated D ds -> x < length ds -> y < length ds -> degrees D ds x y zs = 0 -> Forall balanced (statistic D ds x y zs).
Proof. exact balanced_terms. Qed.
Print Assumptions C23_zero_statistic.
(** The exact answer of a group without that hypothesis; more than eight tests write past the end of an array. *)
Theorem C23_group_decision : forall D ds, tabulated D ds -> forall x y dx dy, ds !! x = Some dx -> ds !! y = Some dy -> forall accept c zss, 0 < c -> Forall (fun zs => length zs = c) zss -> 1 < length zss ->
  Forall (Forall (fun v => v < length ds)) zss ->
  independence_result accept D ds x y (concat zss) (length zss) =
  if decide (length zss <= 8) then Ok (group_result ((fun zs => accept (statistic D ds x y zs) (degrees D ds x y zs)) <$> zss)) else Err OutOfBounds.
Proof. exact group_decision. Qed.
Print Assumptions C23_group_decision.
(** Refuted: eleven variables, a group of nine tests, whatever the p-values are. *)
Theorem C23_group_decision_refuted : exists D ds x y zss, tabulated D ds /\ NoDup zss /\ Forall (fun zs => length zs = 1 /\ x ∉ zs /\ y ∉ zs) zss /\ forall accept,
  Forall (fun zs => exists r, independence_result accept D ds x y zs 1 = Ok r) zss /\ independence_result accept D ds x y (concat zss) (length zss) = Err OutOfBounds.
Proof. exact nine_tests. Qed.
Print Assumptions C23_group_decision_refuted.
