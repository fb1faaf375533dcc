(** The likelihood of data under the parameters of a network. *)
From Verif Require Export LearnSpec.
Local Open Scope nat_scope.

(** The values of row [j] of the data. *)
Definition data_row (D : columns) (j : nat) : asg := fun v => default 0 (entry (co_cols D) j v).
(** The probability of all rows, drawn independently. *)
Definition likelihood (D : columns) (ts : list ptable) : Qc := qprod (seq 0 (co_rows D)) (fun j => joint ts (data_row D j)).
(** The probability of seeing every combination of the values of a node and of its parents [k] more times. *)
Definition imagined (k : nat) (ts : list ptable) : Qc := qprod ts (fun t => qprod (pt_pots t) (fun p => (p ^ k)%Qc)).
