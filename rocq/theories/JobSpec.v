(** Specification of the comparison with a reference network. *)
From Coq Require Import Ascii String.
From Verif Require Export JobModel BIFSpec EssentialSpec SaveSpec.
Local Open Scope nat_scope.

(** The arcs of a reference network, between the positions of its variables in the file. *)
Definition reference_graph (B : bnet) : digraph := fun x y => bool_decide ((x, y) ∈ bn_arcs B).
(** The restriction of C35 for a reference network, in whatever topological order: for example if no variable has more than two
    parents. *)
Definition comparable (B : bnet) : Prop :=
  forall t, topological (bn_arc B) (bn_size B) t -> one_extra (compelled (bn_size B) (reference_graph B)) (bn_arc B) t.
(** Two descriptions of the same network: the same variables with the same values, in any order, and the same arcs between names. *)
Definition named_arc (B : bnet) (a b : str) : Prop := exists x y, bn_arc B x y /\ bn_name B x = a /\ bn_name B y = b.
Definition same_network (B B' : bnet) : Prop := bn_vars B ≡ₚ bn_vars B' /\ forall a b, named_arc B a b <-> named_arc B' a b.
