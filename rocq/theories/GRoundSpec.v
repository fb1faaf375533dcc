(** What it means for the arithmetic of the independence test to be rounded, and how large the error can get. *)
From Coq Require Import Reals.
From Flocq Require Import Core.
From Verif Require Export GRoundModel GSquareSpec LimitSpec.
Local Open Scope R_scope.

(** Every result differs from the exact one by at most the fraction [u] of it: rounding to nearest with 53 binary digits
    does so with u = 2^-53, as long as nothing overflows or underflows. *)
Definition rounds_within (u : R) (rnd : R -> R) : Prop := 0 <= u < 1 /\ forall x, Rabs (rnd x - x) <= u * Rabs x.
(** The same for a computed logarithm. *)
Definition log_within (u : R) (flog : R -> R) : Prop := forall x, 0 < x -> Rabs (flog x - ln x) <= u * Rabs (ln x).
(** Every natural number up to [b] is represented exactly. *)
Definition exact_up_to (b : nat) (rnd : R -> R) : Prop := forall n, (n <= b)%nat -> rnd (INR n) = INR n.
(** A bound on the error of the statistic for [n] rows and [m] summands. *)
Definition g2_error (u : R) (n m : nat) : R :=
  2 * INR n * (((1 + u) ^ (m + 4) - 1) * ln (INR n) + (1 + u) ^ (m + 4) * (7 * u / (1 - u))).
(** There are at most as many summands as rows, and as cells in the table of counts. *)
Definition test_error (u : R) (D : columns) (ds : list nat) (x y : nat) (zs : list nat) : R :=
  g2_error u (co_rows D) (Nat.min (co_rows D) (table_cells ds x y zs)).
(** [F] never decreases. *)
Definition nondecreasing (F : R -> nat -> R) : Prop := forall df q q', q <= q' -> F q df <= F q' df.
(** The p-value is not too close to the level: moving the statistic by [b] and the p-value by [e] changes nothing. *)
Definition clear_of_level (F : R -> nat -> R) (alpha e b : R) (g : R) (df : nat) : Prop :=
  alpha + e < 1 - F (g + b) df \/ 1 - F (g - b) df + e <= alpha.

(** The nearest number with 53 binary digits, halves to even: the arithmetic of [double] without overflow and underflow, in
    the formalisation of the library Flocq. *)
Definition double (r : R) : R := round radix2 (FLX_exp 53) ZnearestE r.
