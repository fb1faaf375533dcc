(** Specifications for directed graphs, independent of the algorithms. *)
From Verif Require Export GraphModel.
From stdpp Require Export relations.
Local Open Scope nat_scope.

(** No nonempty directed path returns to its start ([tc]: transitive closure). *)
Definition acyclic {A} (R : A -> A -> Prop) : Prop := forall x, ~ tc R x x.

(** [ord] lists 0..n-1 exactly once and every edge goes forward. *)
Definition topological (R : nat -> nat -> Prop) (n : nat) (ord : list nat) : Prop :=
  ord ≡ₚ seq 0 n /\
  forall i j x y, ord !! i = Some x -> ord !! j = Some y -> R x y -> i < j.

(** An n by n matrix, and the relation it denotes. *)
Definition square_matrix (n : nat) (graph : list (list nat)) : Prop :=
  length graph = n /\ forall row, row ∈ graph -> length row = n.
Definition matrix_rel (graph : list (list nat)) (x y : nat) : Prop :=
  exists row, graph !! x = Some row /\ row !! y = Some 1.
(** In-degrees that belong to the matrix. *)
Definition indegrees_of (n : nat) (graph : list (list nat)) (ins : list Z) : Prop :=
  length ins = n /\ forall j, j < n -> exists preds : list nat,
    ins !! j = Some (Z.of_nat (length preds)) /\ NoDup preds /\
    forall i, i ∈ preds <-> matrix_rel graph i j.

(** The directed edges x -> y in the edge list, and the recorded children and parents. *)
Definition has_directed (N : network) (x y : nat) : Prop :=
  exists e, e ∈ nt_edges N /\ e_n1 e = x /\ e_n2 e = y /\ e_ep1 e = Tail /\ e_ep2 e = Arrow.
Definition child_rel (N : network) (x y : nat) : Prop :=
  exists nd, nt_nodes N !! x = Some nd /\ y ∈ nd_children nd.
Definition parent_rel (N : network) (x y : nat) : Prop :=
  exists nd, nt_nodes N !! y = Some nd /\ x ∈ nd_parents nd.

(** Recorded parents/children are exactly those of the directed edges. *)
Definition consistent (N : network) : Prop :=
  forall x y, (has_directed N x y <-> child_rel N x y) /\ (has_directed N x y <-> parent_rel N x y).

(** ** Parent configurations *)
(** The configurations of the parents [ps] (an increasing list) with domain sizes [dom]. *)
Definition is_config (dom : nat -> nat) (ps : list nat) (c : config) : Prop :=
  fst <$> c = ps /\ Forall (fun vx => snd vx < dom (fst vx)) c.
(** The recorded set is exactly the set of all joint assignments, each once. *)
Definition combos_exact (dom : nat -> nat) (nd : node) : Prop :=
  NoDup (nd_combos nd) /\ forall c, c ∈ nd_combos nd <-> is_config dom (nd_parents nd) c.

(** Adding the parents [ps] one after the other. *)
Definition add_parents (dom : nat -> nat) (ps : list nat) (nd : node) : node :=
  foldl (fun nd p => node_add_parent p (dom p) nd) nd ps.

(** ** Well-formed networks: what every history of edits without repeated additions keeps *)
(** Children recorded as increasing lists of existing nodes. *)
Definition children_ok (N : network) : Prop :=
  forall x nd, nt_nodes N !! x = Some nd ->
    StronglySorted lt (nd_children nd) /\ Forall (fun c => c < length (nt_nodes N)) (nd_children nd).
(** ** The invariant *)
Definition edge_wf (n : nat) (e : edge) : Prop :=
  e_n1 e < n /\ e_n2 e < n /\ e_ep1 e = Tail /\ (e_ep2 e = Tail -> e_n1 e <= e_n2 e).
Record netinv (N : network) : Prop := {
  ni_children : children_ok N;
  ni_parents : forall x nd, nt_nodes N !! x = Some nd -> StronglySorted lt (nd_parents nd) /\ nd_pvec nd ≡ₚ nd_parents nd;
  ni_consistent : consistent N;
  ni_acyclic : acyclic (has_directed N);
  ni_edges : Forall (edge_wf (length (nt_nodes N))) (nt_edges N) }.
(** No directed edge is stored twice. *)
Definition directed_pairs (edges : list edge) : list (nat * nat) :=
  (fun e => (e_n1 e, e_n2 e)) <$> filter (fun e => e_ep1 e = Tail /\ e_ep2 e = Arrow) edges.
Definition no_dup_directed (N : network) : Prop := NoDup (directed_pairs (nt_edges N)).

(** ** Histories of edits *)
Inductive edit := AddD (p c : nat) | DelD (p c : nat) | AddU (p c : nat) | DelU (p c : nat).
Definition exec (N : network) (o : edit) : outcome network :=
  match o with
  | AddD p c => fst <$> add_directed_edge N p c
  | DelD p c => fst <$> delete_directed_edge N p c
  | AddU p c => add_undirected_edge N p c
  | DelU p c => fst <$> delete_undirected_edge N p c
  end.
Definition run (N : network) (ops : list edit) : outcome network := mfor ops (fun o N => exec N o) N.
Definition edit_in_range (n : nat) (o : edit) : Prop :=
  match o with AddD p c | DelD p c | AddU p c | DelU p c => p < n /\ c < n end.
(** No AddDirectedEdge call repeats an edge that is present at that time. *)
Fixpoint no_repeated_add (N : network) (ops : list edit) : Prop :=
  match ops with
  | [] => True
  | o :: ops' => match o with AddD p c => ~ has_directed N p c | _ => True end /\
                 match exec N o with Ok N' => no_repeated_add N' ops' | Err _ => True end
  end.

(** Equal up to the cached set of parent configurations. *)
Definition node_same (nd nd' : node) : Prop :=
  nd_dom nd' = nd_dom nd /\ nd_parents nd' = nd_parents nd /\ nd_pvec nd' = nd_pvec nd /\ nd_children nd' = nd_children nd.
