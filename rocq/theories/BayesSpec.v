(** The rows of a data set as questions about one of its variables. *)
From Verif Require Export RecoverSpec LikelihoodSpec IndepSpec.
Local Open Scope nat_scope.

(** For each row, what the variables [xs] are. *)
Definition row_questions (D : columns) (xs : list nat) : list (list (nat * nat)) := (fun j => observed xs (data_row D j)) <$> seq 0 (co_rows D).
(** For each row, what the variable [q] is. *)
Definition row_truths (D : columns) (q : nat) : list Z := (fun j => Z.of_nat (data_row D j q)) <$> seq 0 (co_rows D).
(** Predictions that depend on the evidence only. *)
Definition from_evidence (Es : list (list (nat * nat))) (ps : list Z) : Prop :=
  length ps = length Es /\ forall i j E, Es !! i = Some E -> Es !! j = Some E -> ps !! i = ps !! j.
