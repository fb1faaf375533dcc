(** What the numbers in the second and third array of a factor mean. *)
From Verif Require Export ImportanceModel TableSpec.
Local Open Scope Qc_scope.

(** The array has a number for every combination of values. *)
Definition sized (t : ptable) (l : list Qc) : Prop := length l = pt_size t.
(** The number stored in array [l], shaped as factor [t], for assignment [a]. *)
Definition entry (t : ptable) (l : list Qc) (a : asg) : Qc :=
  default 0 (l !! lex_index (pt_dims t) (a <$> pt_vars t)).
(** For every combination of values of the other variables the numbers of the first variable [v]
    add up to one. *)
Definition column_sums_one (dom : nat -> nat) (t : ptable) (v : nat) (l : list Qc) : Prop :=
  forall a, valid dom a -> qsum (seq 0 (dom v)) (fun x => entry t l (upd a v x)) = 1.
(** [l'] is [l] with every column whose sum is positive divided by its sum. *)
Definition columns_scaled (dom : nat -> nat) (t : ptable) (v : nat) (l l' : list Qc) : Prop :=
  forall a, valid dom a ->
    let z := qsum (seq 0 (dom v)) (fun x => entry t l (upd a v x)) in
    (0 < z -> (forall x, (x < dom v)%nat -> entry t l' (upd a v x) = entry t l (upd a v x) / z) /\
              qsum (seq 0 (dom v)) (fun x => entry t l' (upd a v x)) = 1) /\
    (z <= 0 -> forall x, (x < dom v)%nat -> entry t l' (upd a v x) = entry t l (upd a v x)).
