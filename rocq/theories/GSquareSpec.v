(** Specification vocabulary for the G-square test. *)
From Coq Require Import Reals.
From Verif Require Export GSquareModel CellSpec PCSpec DSepSpec.
Local Open Scope R_scope.

Definition Rsum {A} (l : list A) (f : A -> R) : R := foldr (fun a s => f a + s) 0 l.
(** The textbook statistic: the sum of 2 n log(n n_z / (n_xz n_yz)) over all values of z, x and y, where n, n_z, n_xz and
    n_yz are the numbers of rows with these values; summands with n = 0 are zero. *)
Definition g_square (D : columns) (ds : list nat) (x y : nat) (zs : list nat) : R :=
  Rsum (configs (sizes_of ds zs)) (fun z => Rsum (seq 0 (default 0%nat (ds !! x))) (fun a => Rsum (seq 0 (default 0%nat (ds !! y))) (fun b =>
    let n := INR (matching D (zs ++ [x; y]) (z ++ [a; b])) in
    let n_xz := INR (matching D (zs ++ [x]) (z ++ [a])) in
    let n_yz := INR (matching D (zs ++ [y]) (z ++ [b])) in
    let n_z := INR (matching D zs z) in
    2 * n * ln (n * n_z / (n_xz * n_yz))))).
(** In the data, [x] and [y] are independent given [zs]: n(x,y,z) n(z) = n(x,z) n(y,z) for all values. *)
Definition cond_indep (D : columns) (x y : nat) (zs : list nat) : Prop := forall z a b, length z = length zs ->
  (matching D (zs ++ [x; y]) (z ++ [a; b]) * matching D zs z = matching D (zs ++ [x]) (z ++ [a]) * matching D (zs ++ [y]) (z ++ [b]))%nat.
(** The data set made of the rows at the positions [p]. *)
Definition pick_rows (p : list nat) (D : columns) : columns :=
  mkCols ((fun col => (fun j => default 0%nat (col !! j)) <$> p) <$> co_cols D) (length p) (co_vars D).
(** [p] names each of the [n] rows [k] times, in any order. *)
Definition each_row (k n : nat) (p : list nat) : Prop := p ≡ₚ concat (replicate k (seq 0 n)).
(** What is used of the chi-square distribution functions: they are 0 at 0 and tend to 1. *)
Definition chi_square_like (F : R -> nat -> R) : Prop := forall df, (0 < df)%nat ->
  F 0 df = 0 /\ forall e, 0 < e -> exists b, forall q, b <= q -> 1 - e < F q df.
(** The independences of the data are the d-separations of the graph. *)
Definition data_faithful (D : columns) (n : nat) (g : digraph) : Prop :=
  forall x y s, (x < y)%nat -> (y < n)%nat -> x ∉ s -> y ∉ s -> StronglySorted lt s -> Forall (fun v => (v < n)%nat) s -> cond_indep D x y s <-> ~ d_connected g x y s.
