(** Distances in the tree of cliques. *)
From Verif Require Export JTSpec JTModel.
Local Open Scope nat_scope.

(** Clique [d] can be reached from clique [c] over at most [k] separators. *)
Definition near (seps : list sepr) (k c d : nat) : Prop :=
  exists j, j <= k /\ nsteps (step ((fun s => (sp_a s, sp_b s)) <$> seps)) j c d.
(** All of the [nc] cliques can be reached from [c] over at most [k] separators. *)
Definition spans (nc : nat) (seps : list sepr) (k c : nat) : Prop := forall d, d < nc -> near seps k c d.
