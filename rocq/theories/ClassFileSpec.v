(** Specification of the files written by the classification job. *)
From Verif Require Export JobModel SaveSpec.
Local Open Scope nat_scope.

(** The probability in the parameter file: the smoothed relative frequency for a column ([flips x]: the column that stands for
    ROOT when the table of [x] is counted, see C25), the same number for both values of ROOT. *)
Definition class_probability (N : network) (D : columns) (flips : nat -> nat -> nat) (x : nat) (a : asg) : Qc :=
  if decide (x < co_vars D) then smoothed N (with_column D (flips x <$> seq 0 (co_rows D))) (co_rows D) 1 x (parents_of N x) a else root_half (co_rows D) 1.
(** One parentless node for every connected component. *)
Definition one_root_each (n : nat) (h : digraph) (roots : list nat) : Prop :=
  NoDup roots /\ (forall r, r ∈ roots -> r < n /\ forall x, h x r = false) /\
  forall v, v < n -> exists r, r ∈ roots /\ rtc (adjacent h) v r /\ forall r', r' ∈ roots -> rtc (adjacent h) v r' -> r' = r.
(** The lines are the arcs of [h] and those from the further node [n] to the roots, each once. *)
Definition lists_rooted (n : nat) (h : digraph) (roots : list nat) (ls : list line) : Prop :=
  NoDup ls /\ (forall x y, Arc x y ∈ ls <-> h x y = true \/ x = n /\ y ∈ roots) /\ forall x y, Link x y ∉ ls.
