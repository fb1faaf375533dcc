(** When the edges left undirected can be directed independently of each other. *)
From Verif Require Export DSepSpec.
Local Open Scope nat_scope.

(** In the equivalence class of [g], the edge between [x] and [y] occurs in both directions. *)
Definition reversible (n : nat) (g : digraph) (x y : nat) : Prop :=
  (exists h, dag n h /\ markov_equivalent g h /\ h x y = true) /\ (exists h, dag n h /\ markov_equivalent g h /\ h y x = true).
(** Two reversible edges at the same node belong to a triangle. *)
Definition reversible_cliques (n : nat) (g : digraph) : Prop := forall x y z, reversible n g x y -> reversible n g z y -> x <> z -> adjacent g x z.
