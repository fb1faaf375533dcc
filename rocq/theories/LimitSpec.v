(** Vocabulary for integer overflow in the conditional-independence tests. *)
From Verif Require Export CellSpec.
Local Open Scope nat_scope.

(** The number of cells of the contingency table of [x], [y] and the variables [zs]: the product of their
    numbers of values. *)
Definition table_cells (ds : list nat) (x y : nat) (zs : list nat) : nat := foldr Nat.mul 1 (sizes_of ds (zs ++ [x; y])).
(** The tables of a group of tests lie in one array. *)
Definition group_cells (ds : list nat) (x y : nat) (zss : list (list nat)) : nat := nsum zss (table_cells ds x y).
