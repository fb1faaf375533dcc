(** Vocabulary for belief propagation on a rooted clique tree. *)
From Verif Require Export Sums.
Local Open Scope Qc_scope.

(** Product over a list. *)
Definition qprod {A} (l : list A) (f : A -> Qc) : Qc := foldr (fun x acc => f x * acc) 1 l.

(** Equal up to a non-zero factor, on valid assignments. *)
Definition propto (dom : nat -> nat) (f g : asg -> Qc) : Prop :=
  exists k, k <> 0 /\ forall a, valid dom a -> f a = k * g a.

(** The marginal of [J] on the variables [W]: the sum over all other variables of [U]. *)
Definition marg (dom : nat -> nat) (U W : list nat) (J : asg -> Qc) : asg -> Qc :=
  sumv dom (filter (fun v => v ∉ W) U) J.

(** A link joins clique [l_up] to clique [l_dn] (further from the root) by separator [l_sep]. *)
Record link := mkLink { l_sep : nat; l_up : nat; l_dn : nat }.
(** Cliques seen after following the links in order, starting with the root. *)
Definition seen (r : nat) (ls : list link) : list nat := r :: (l_dn <$> ls).
Definition scope_of (sc : nat -> list nat) (is : list nat) : list nat := is ≫= sc.

(** The links, in this order, form a tree rooted at [r] in which each separator is the
    intersection of its clique with everything seen before, and lies in the upper clique. *)
Fixpoint rooted (sc ss : nat -> list nat) (r : nat) (seen_ : list nat) (ls : list link) : Prop :=
  match ls with
  | [] => True
  | l :: ls' => l_up l ∈ seen_ /\ l_dn l ∉ seen_ /\
      (forall v, v ∈ ss (l_sep l) <-> v ∈ sc (l_dn l) /\ v ∈ scope_of sc seen_) /\
      (forall v, v ∈ ss (l_sep l) -> v ∈ sc (l_up l)) /\
      rooted sc ss r (seen_ ++ [l_dn l]) ls'
  end.
