(** Copying a network, and the edge counts printed by CheckEdges. *)
From Verif Require Export LearnModel GraphModel2.
Local Open Scope nat_scope.

(** Network.cpp L31-54 [Network(Network &net)]: the nodes are copied one by one ([map_idx_node_ptr.at(i)], a new DiscreteNode
    copied member by member); the topological order is asked of the original (which caches it); [vec_edges], [num_edges]
    and [pts] are not mentioned, so they have their initial values: no edges, 0 (Network.h L31-41), no tables.  Result: the
    original, the copy and the copy's tables.  Names, [pure_discrete] and [vec_default_elim_ord] (never read elsewhere) are
    left out; so is the aliasing of nodes, which are fresh objects. *)
Definition copy_network (N : network) : outcome (network * (network * list ptable)) :=
  r ← get_topo_ord N;
  Ok (fst r, (mkNet (nt_nodes (fst r)) [] (snd r) 0, [])).

(** Network.cpp L153-163 [CheckEdges]: the two numbers printed. *)
Definition check_edges (N : network) : nat * nat :=
  foldl (fun s nd => (fst s + length (nd_parents nd), snd s + length (nd_children nd))) (0, 0) (nt_nodes N).
(** Network.cpp L349-365 [GetParentIdxesOfNode], [GetChildrenIdxesOfNode]. *)
Definition parent_idxes (N : network) (i : nat) : outcome (list nat) := nd ← find_node N i; Ok (nd_parents nd).
Definition children_idxes (N : network) (i : nat) : outcome (list nat) := nd ← find_node N i; Ok (nd_children nd).
