(** Model of the numbers in IndependenceTest.cpp: the G-square statistic and the decision by its p-value.

    The counts, the loops and the degrees of freedom are those of CellModel.v. [double] is a real number of Coq's
    standard library and [log] is its natural logarithm: rounding is not modelled. [pchisq] stands for [stats::pchisq]
    of the library kthohr/stats, which is not part of the repository. *)
From Coq Require Import Reals.
From Verif Require Export CellModel.
Local Open Scope R_scope.

(** L134-135, L252-253, L344-345: [expected] and the summand. *)
Definition g2_term (t : gterm) : R :=
  let '(obs, row, col, total) := t in
  let expected := INR col * INR row / INR total in
  2 * INR obs * ln (INR obs / expected).
(** L94, L201, L306: [g2] starts at zero and each summand is added to it. *)
Definition g2_sum (ts : list gterm) : R := fold_left (fun g2 t => g2 + g2_term t) ts 0.
(** L146-153, L268-270, L355-362: the p-value and its comparison with the significance level. *)
Definition pvalue_test (pchisq : R -> nat -> R) (alpha : R) (ts : list gterm) (df : nat) : bool :=
  let p_value := 1 - pchisq (g2_sum ts) df in
  if Rlt_dec alpha p_value then true else false.
(** L12-21: the constructor stops the program for a level outside of [0, 1]. *)
Definition significance_level (alpha : R) : outcome R :=
  if Rlt_dec alpha 0 then Err Exit1 else if Rlt_dec 1 alpha then Err Exit1 else Ok alpha.
(** L12-57: a test object is made for a data set and a level, then asked. *)
Definition gsquare_test (pchisq : R -> nat -> R) (alpha : R) (D : columns) (ds : list nat) (x y : nat) (zs : list nat) (g : nat) : outcome ci_result :=
  a ← significance_level alpha;
  independence_result (pvalue_test pchisq a) D ds x y zs g.
