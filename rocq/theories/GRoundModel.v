(** Model of the numbers in IndependenceTest.cpp with rounding.

    Each definition is the one of the same name (without [_r]) in GSquareModel.v, with the result of every conversion and
    every operation passed through [rnd], as a floating point unit does, and with [flog] for the function [log] of the
    C library and [pchisq] for [stats::pchisq].  The order of the operations is that of the code. *)
From Coq Require Import Reals.
From Verif Require Export GSquareModel.
Local Open Scope R_scope.

Section rounded.
Context (rnd flog : R -> R).

(** L134-135, L252-253, L344-345: [expected] is a product divided, and [2.0 * observed] is multiplied by the logarithm.
    The four counts are of type [long]; L134 converts three of them explicitly, the fourth is converted for the product
    and for the quotient of L135. *)
Definition g2_term_r (t : gterm) : R :=
  let '(obs, row, col, total) := t in
  let expected := rnd (rnd (rnd (INR col) * rnd (INR row)) / rnd (INR total)) in
  rnd (rnd (2 * rnd (INR obs)) * flog (rnd (rnd (INR obs) / expected))).
(** L94, L201, L306: [g2] starts at zero and each summand is added to it. *)
Definition g2_sum_r (ts : list gterm) : R := fold_left (fun g2 t => rnd (g2 + g2_term_r t)) ts 0.
(** L146-153, L268-270, L355-362: the p-value and its comparison with the significance level. *)
Definition pvalue_test_r (pchisq : R -> nat -> R) (alpha : R) (ts : list gterm) (df : nat) : bool :=
  let p_value := rnd (1 - pchisq (g2_sum_r ts) df) in
  if Rlt_dec alpha p_value then true else false.
(** L12-57: a test object is made for a data set and a level, then asked. *)
Definition gsquare_test_r (pchisq : R -> nat -> R) (alpha : R) (D : columns) (ds : list nat) (x y : nat) (zs : list nat) (g : nat) : outcome ci_result :=
  a ← significance_level alpha;
  independence_result (pvalue_test_r pchisq a) D ds x y zs g.
End rounded.
