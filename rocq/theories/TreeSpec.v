(** Undirected trees and junction trees, as lists of edges over any type of vertices. *)
From Verif Require Export Base.

Section tree.
Context {A : Type} `{EqDecision A}.
(** One edge of [E], in either direction. *)
Definition step (E : list (A * A)) (x y : A) : Prop := (x, y) ∈ E \/ (y, x) ∈ E.
Definition within (E : list (A * A)) (Vs : list A) : Prop := forall x y, (x, y) ∈ E -> x ∈ Vs /\ y ∈ Vs.
Definition connected (E : list (A * A)) (Vs : list A) : Prop := forall x y, x ∈ Vs -> y ∈ Vs -> rtc (step E) x y.
(** A spanning tree of the vertices: connected, with one edge less than vertices. *)
Definition tree (E : list (A * A)) (Vs : list A) : Prop :=
  within E Vs /\ connected E Vs /\ S (length E) = length Vs.
(** One edge both of whose ends contain variable [v]. *)
Definition vstep (sc : A -> list nat) (E : list (A * A)) (v : nat) (x y : A) : Prop :=
  step E x y /\ v ∈ sc x /\ v ∈ sc y.
(** Running intersection: the vertices containing any given variable are connected among
    themselves. *)
Definition running_intersection (sc : A -> list nat) (E : list (A * A)) (Vs : list A) : Prop :=
  forall v x y, x ∈ Vs -> y ∈ Vs -> v ∈ sc x -> v ∈ sc y -> rtc (vstep sc E v) x y.
Definition junction_tree (sc : A -> list nat) (E : list (A * A)) (Vs : list A) : Prop :=
  tree E Vs /\ running_intersection sc E Vs.
Definition inter (l1 l2 : list nat) : list nat := filter (fun v => v ∈ l2) l1.
End tree.
