(** What it means for arithmetic to be rounded, and for two numbers or tables to agree up to a factor. *)
From Coq Require Qround.
From Verif Require Import TableModel JTModel.
Local Open Scope Qc_scope.

(** A rounding that changes no non-negative number by more than the factor [c].  Rounding to nearest
    with p significant bits does so with c = 1 + 2^(1-p), as long as nothing overflows or
    underflows. *)
Definition rounds (c : Qc) (rnd : Qc -> Qc) : Prop :=
  1 <= c /\ forall x, 0 <= x -> rnd x <= c * x /\ x <= c * rnd x.
(** Two non-negative numbers that differ by at most the factor [f]. *)
Definition within_factor (f x y : Qc) : Prop := 0 <= x /\ 0 <= y /\ y <= f * x /\ x <= f * y.
(** The same for the entries of two tables of one shape. *)
Definition table_within (f : Qc) (t t' : ptable) : Prop :=
  pt_vars t' = pt_vars t /\ pt_dims t' = pt_dims t /\ pt_cum t' = pt_cum t /\ pt_nv t' = pt_nv t /\ pt_size t' = pt_size t /\
  Forall2 (within_factor f) (pt_pots t) (pt_pots t').

(** The number of rounding errors that can reach an answer.  [n] is the number of cliques, [M] the
    number of entries of the largest table and [b] a number of rounding errors that the tables of
    the cliques carry before the query. *)
Definition clique_errors (n M b : nat) : nat := (2 * (n + 1) * (n + 1) * (b + M + 4))%nat.
Definition marginal_errors (n M b : nat) : nat := (clique_errors n M b + M + 1)%nat.
Definition answer_errors (n M b : nat) : nat := (2 * clique_errors n M b + 3 * M + 1)%nat.
Definition largest_table (st : tabs) : nat := foldr (fun t m => pt_size t `max` m)%nat 0%nat (t_c st ++ t_s st).
(** The number for the tree [T] built from [m] tables that already carry [k] errors each: putting a
    table into its clique costs its own errors and one more. *)
Definition errors_of (count : nat -> nat -> nat -> nat) (T : jtree) (m k : nat) : nat :=
  count (length (t_c (jt_backup T))) (largest_table (jt_backup T)) (m * (k + 1))%nat.
(** The fraction K u / (1 - K u). *)
Definition nat_Qc (k : nat) : Qc := Q2Qc (QArith_base.inject_Z (Z.of_nat k)).
Definition relative_error (K : nat) (u : Qc) : Qc := nat_Qc K * u / (1 - nat_Qc K * u).

(** A rounding: to the nearest number with p (sometimes p + 1) significant binary digits, halves
    upwards.  It only serves as an example of [rounds]. *)
Definition round_bits (p : nat) (x : Qc) : Qc :=
  let n := QArith_base.Qnum x in
  if (n <=? 0)%Z then x else
  let k := (Z.of_nat p - (Z.log2 n - Z.log2 (Z.pos (QArith_base.Qden x))))%Z in
  let s := QArith_base.Qpower (QArith_base.Qmake 2 1) k in
  Q2Qc (QArith_base.Qdiv (QArith_base.inject_Z (Qround.Qfloor (QArith_base.Qplus (QArith_base.Qmult x s) (QArith_base.Qmake 1 2)))) s).
(** A rounding that turns everything below [t] into zero. *)
Definition flushing (t : Qc) (rnd : Qc -> Qc) (x : Qc) : Qc := if bool_decide (x < t) then 0 else rnd x.
(** A table with every entry rounded. *)
Definition round_table (rnd : Qc -> Qc) (t : ptable) : ptable :=
  mkPT (pt_vars t) (rnd <$> pt_pots t) (pt_dims t) (pt_cum t) (pt_nv t) (pt_size t).
