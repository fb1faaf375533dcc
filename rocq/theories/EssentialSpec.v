(** Specification: the essential graph of a DAG. *)
From Verif Require Export DSepSpec GraphSpec2.
Local Open Scope nat_scope.

(** The directed edges of a network as a graph. *)
Definition arcs_of (N : network) : digraph := fun x y => bool_decide ((x, y) ∈ directed_pairs (nt_edges N)).
(** x -> y in every graph that is Markov equivalent to [g]. *)
Definition compelled (n : nat) (g : digraph) (x y : nat) : Prop := forall h, dag n h -> markov_equivalent g h -> h x y = true.
(** x -- y, stored in either order. *)
Definition has_undirected (N : network) (x y : nat) : Prop :=
  exists e, e ∈ nt_edges N /\ e_ep1 e = Tail /\ e_ep2 e = Tail /\ (e_n1 e = x /\ e_n2 e = y \/ e_n1 e = y /\ e_n2 e = x).
(** [N] shows the compelled edges of [g] as directed edges and its other edges as undirected edges. *)
Definition essential_graph (n : nat) (g : digraph) (N : network) : Prop := forall x y,
  (has_directed N x y <-> compelled n g x y) /\
  (has_undirected N x y <-> adjacent g x y /\ ~ compelled n g x y /\ ~ compelled n g y x).

(** Learned graphs: at most one edge per pair of nodes, directed edges x -> y and undirected edges x -- y with x < y. *)
Definition mixed_graph (N : network) : Prop := single N /\
  forall e, e ∈ nt_edges N -> e_n1 e < length (nt_nodes N) /\ e_n2 e < length (nt_nodes N) /\ e_n1 e <> e_n2 e /\ e_ep1 e = Tail /\ (e_ep2 e = Tail -> e_n1 e < e_n2 e).
(** The same directed and the same undirected edges. *)
Definition same_graph (N N' : network) : Prop := forall x y,
  (has_directed N x y <-> has_directed N' x y) /\ (has_undirected N x y <-> has_undirected N' x y).
(** A DAG as the loaders and edits leave it: every edge directed and stored once, no order computed yet. *)
Definition fresh_dag (T : network) : Prop :=
  netinv T /\ no_dup_directed T /\ nt_topo T = [] /\ nt_num_edges T = length (nt_edges T) /\
  (forall e, e ∈ nt_edges T -> e_ep1 e = Tail /\ e_ep2 e = Arrow /\ e_ordered e = false).
