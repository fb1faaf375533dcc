(** Specifications for edge ordering, structural Hamming distance and the ROOT node. *)
From Verif Require Export GraphSpec GraphModel2.
Local Open Scope nat_scope.

Definition epair (e : edge) : nat * nat := (e_n1 e, e_n2 e).
(** The order required: head earlier in [t], or equal heads and tail later in [t]. *)
Definition edge_before (t : list nat) (p q : nat * nat) : Prop :=
  exists kp jp kq jq, t !! kp = Some (fst p) /\ t !! jp = Some (snd p) /\ t !! kq = Some (fst q) /\ t !! jq = Some (snd q) /\
    (jp < jq \/ jp = jq /\ kq < kp).

Definition is_arc (e : edge) : Prop := e_ep1 e = Tail /\ e_ep2 e = Arrow.
Global Instance is_arc_dec e : Decision (is_arc e).
Proof. unfold is_arc. apply _. Defined.

(** For each node y with topologically last parent x such that every w -> x that is [fixed] has
    w -> y as well: at most one further parent of y is not also a parent of x. *)
Definition one_extra (fixed R : nat -> nat -> Prop) (t : list nat) : Prop :=
  forall x y z1 z2, R x y ->
    (forall z i j, R z y -> t !! i = Some z -> t !! j = Some x -> i <= j) ->
    (forall w, R w x -> fixed w x -> R w y) ->
    R z1 y -> R z2 y -> z1 <> x -> z2 <> x -> ~ R z1 x -> ~ R z2 x -> z1 = z2.
Definition single_extra (fixed : nat -> nat -> Prop) (N : network) (t : list nat) : Prop := one_extra fixed (has_directed N) t.

(** Edge [e] of [N] joins the nodes i and j. *)
Definition joins (N : network) (i j : nat) (e : edge) : Prop :=
  e ∈ nt_edges N /\ (e_n1 e = i /\ e_n2 e = j \/ e_n2 e = i /\ e_n1 e = j).
(** At most one edge per pair of nodes. *)
Definition single (N : network) : Prop := forall i j e1 e2, joins N i j e1 -> joins N i j e2 -> e1 = e2.
(** The two graphs have the same edge (same nodes in the same order, same end mark) or no edge
    between i and j. *)
Definition agree (T L : network) (i j : nat) : Prop :=
  forall n1 n2 ep,
    (exists e, joins T i j e /\ e_n1 e = n1 /\ e_n2 e = n2 /\ e_ep2 e = ep) <->
    (exists e, joins L i j e /\ e_n1 e = n1 /\ e_n2 e = n2 /\ e_ep2 e = ep).

(** The pattern has the same adjacent pairs, position by position; edges are kept or undirected. *)
Definition loosened (e e' : edge) : Prop :=
  is_arc e' /\ epair e' = epair e \/
  e_ep1 e' = Tail /\ e_ep2 e' = Tail /\ e_n1 e' < e_n2 e' /\ (epair e' = epair e \/ epair e' = (e_n2 e, e_n1 e)).

(** Adjacent nodes, in either direction; connected = [rtc (adj N)]. *)
Definition adj (N : network) (x y : nat) : Prop := has_directed N x y \/ has_directed N y x.
(** Node [v] has exactly [k] children. *)
Definition has_children (N : network) (v k : nat) : Prop :=
  exists cs, NoDup cs /\ (forall c, c ∈ cs <-> has_directed N v c) /\ length cs = k.
