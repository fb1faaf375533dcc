(** Data that look like draws from a network. *)
From Verif Require Export LikelihoodSpec SampleSpec.
Local Open Scope nat_scope.

(** The probability that the variables [l] have the values [a] gives them: the joint probability,
    summed over the values of all other variables. *)
Definition chance (N : network) (ts : list ptable) (l : list nat) (a : asg) : Qc :=
  sumv (net_dom N) (filter (fun v => v ∉ l) (seq 0 (net_size N))) (joint ts) a.
(** The fraction of the rows in which they have these values. *)
Definition fraction (D : columns) (l : list nat) (a : asg) : Qc := (qn (occurrences (co_cols D) (co_rows D) l a) / qn (co_rows D))%Qc.
(** Two numbers differ by at most [e]. *)
Definition differ_by (e x y : Qc) : Prop := (x <= y + e)%Qc /\ (y <= x + e)%Qc.

(** Every full row is as frequent in the data as the network says. *)
Definition representative (N : network) (ts : list ptable) (D : columns) : Prop :=
  0 < co_rows D /\ forall a, valid (net_dom N) a -> fraction D (seq 0 (net_size N)) a = joint ts a.
(** For every node, the combinations of values of its parents, and of the node with its parents, are
    as frequent in the data as the network says, up to [e]. *)
Definition nearly_representative (e : Qc) (N : network) (ts : list ptable) (D : columns) : Prop :=
  0 < co_rows D /\ forall x a, x < net_size N -> valid (net_dom N) a ->
    differ_by e (fraction D (parents_of N x) a) (chance N ts (parents_of N x) a) /\
    differ_by e (fraction D (x :: parents_of N x) a) (chance N ts (x :: parents_of N x) a).
