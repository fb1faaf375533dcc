(** Specification vocabulary for contingency tables and the G-square test. *)
From Verif Require Export CellModel LearnSpec.
Local Open Scope nat_scope.

(** The values of the variables [vs] in row [j]. *)
Definition row_values (cols : list (list nat)) (vs : list nat) (j : nat) : option (list nat) := mapM (entry cols j) vs.
(** The number of rows in which the variables [vs] have the values [cfg]. *)
Definition matching (D : columns) (vs cfg : list nat) : nat :=
  length (filter (fun j => row_values (co_cols D) vs j = Some cfg) (seq 0 (co_rows D))).
(** Every variable has a column with a value in range for each row. *)
Definition tabulated (D : columns) (ds : list nat) : Prop :=
  length (co_cols D) = length ds /\
  forall v col d, co_cols D !! v = Some col -> ds !! v = Some d -> length col = co_rows D /\ Forall (fun x => x < d) col.
(** The numbers of values of the variables [vs]. *)
Definition sizes_of (ds vs : list nat) : list nat := (fun v => default 0 (ds !! v)) <$> vs.
(** The counts of all configurations of [vs], in lexicographic order. *)
Definition tally (D : columns) (ds vs : list nat) : list nat := matching D vs <$> configs (sizes_of ds vs).
(** The number of values of [v] that occur in a row where [zs] have the values [cfg]. *)
Definition levels_seen (D : columns) (ds : list nat) (v : nat) (zs cfg : list nat) : nat :=
  length (filter (fun i => 0 < matching D (zs ++ [v]) (cfg ++ [i])) (seq 0 (default 0 (ds !! v)))).
(** The adjusted degrees of freedom, and the terms of the statistic for the cells that occur. *)
Definition nsum {A} (l : list A) (f : A -> nat) : nat := foldr (fun x s => f x + s) 0 l.
Definition degrees (D : columns) (ds : list nat) (x y : nat) (zs : list nat) : nat :=
  nsum (configs (sizes_of ds zs)) (fun cfg => (levels_seen D ds x zs cfg - 1) * (levels_seen D ds y zs cfg - 1)).
Definition cell_terms (D : columns) (x y : nat) (zs cfg : list nat) (i j : nat) : list gterm :=
  if decide (0 < matching D (zs ++ [x; y]) (cfg ++ [i; j])) then
    [(matching D (zs ++ [x; y]) (cfg ++ [i; j]), matching D (zs ++ [x]) (cfg ++ [i]), matching D (zs ++ [y]) (cfg ++ [j]), matching D zs cfg)]
  else [].
Definition statistic (D : columns) (ds : list nat) (x y : nat) (zs : list nat) : list gterm :=
  cfg ← configs (sizes_of ds zs); i ← seq 0 (default 0 (ds !! x)); j ← seq 0 (default 0 (ds !! y)); cell_terms D x y zs cfg i j.
(** The decision of one test: independent if there are no degrees of freedom or the p-value is large. *)
Definition decision (accept : list gterm -> nat -> bool) (D : columns) (ds : list nat) (x y : nat) (zs : list nat) : bool :=
  if decide (degrees D ds x y zs = 0) then true else accept (statistic D ds x y zs) (degrees D ds x y zs).
(** The first conditioning set of a group that makes the test succeed. *)
Fixpoint first_true (l : list bool) : option nat :=
  match l with [] => None | b :: l => if (b : bool) then Some 0 else S <$> first_true l end.
Definition group_result (l : list bool) : ci_result :=
  match first_true l with Some i => mkCI true (Z.of_nat i) | None => mkCI false (-1) end.
(** The observed count is the expected one, so that the term of the statistic is zero. *)
Definition balanced (t : gterm) : Prop := let '(obs, row, col, total) := t in obs * total = row * col.
