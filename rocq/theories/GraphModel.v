(** Model of the graph part of Network.cpp, Node.cpp, Edge.cpp and common.cpp: nodes with
    parent/child sets and recorded parent configurations, edge lists, cycle check,
    topological order, edge ordering. *)
From Verif Require Export Base.
Local Open Scope nat_scope.

(** ** std::set<int> as a strictly increasing list *)
Fixpoint sins (x : nat) (l : list nat) : list nat :=
  match l with
  | [] => [x]
  | y :: l' => if bool_decide (x < y) then x :: l
               else if bool_decide (x = y) then l else y :: sins x l'
  end.
Definition serase (x : nat) (l : list nat) : list nat := filter (fun y => y ≠ x) l.

(** ** DiscreteConfig = std::set<pair<int,int>> as a strictly increasing list *)
Definition config := list (nat * nat).
Definition pair_lt (p q : nat * nat) : Prop := fst p < fst q \/ fst p = fst q /\ snd p < snd q.
Global Instance pair_lt_dec p q : Decision (pair_lt p q).
Proof. unfold pair_lt. apply _. Defined.
Fixpoint cins (x : nat * nat) (l : config) : config :=
  match l with
  | [] => [x]
  | y :: l' => if bool_decide (pair_lt x y) then x :: l
               else if bool_decide (x = y) then l else y :: cins x l'
  end.
Definition cerase (x : nat * nat) (l : list (nat * nat)) : list (nat * nat) := filter (fun y => y ≠ x) l.
(** std::set<DiscreteConfig>: only membership is modelled, not the iteration order (which
    has no observable effect on the functions below). *)
Definition ccset_add (c : config) (S : list config) : list config :=
  if bool_decide (c ∈ S) then S else S ++ [c].

(** ** Edge.h, Edge.cpp *)
Inductive endpoint := Tail | Arrow.
Global Instance endpoint_eq_dec : EqDecision endpoint.
Proof. solve_decision. Defined.
Inductive label := Compelled | Reversible.
Global Instance label_eq_dec : EqDecision label.
Proof. solve_decision. Defined.
(** A node pointer is modelled by the node's index; [e_label = None]: never written. *)
Record edge := mkEdge {
  e_n1 : nat; e_n2 : nat; e_ep1 : endpoint; e_ep2 : endpoint;
  e_ordered : bool; e_label : option label }.
Global Instance edge_eq_dec : EqDecision edge.
Proof. solve_decision. Defined.
(** Edge.cpp L7-15. *)
Definition directed_edge (x y : nat) : edge := mkEdge x y Tail Arrow false None.
(** Edge.cpp L17-34: the two nodes ordered by index. *)
Definition undirected_edge (x y : nat) : edge :=
  if bool_decide (x < y) then mkEdge x y Tail Tail false None else mkEdge y x Tail Tail false None.
(** Edge.h operator==. *)
Definition edge_same (a b : edge) : bool :=
  bool_decide (e_n1 a = e_n1 b) && bool_decide (e_n2 a = e_n2 b) &&
  bool_decide (e_ep1 a = e_ep1 b) && bool_decide (e_ep2 a = e_ep2 b).
(** Edge.cpp L51-58. *)
Definition is_directed (e : edge) : bool :=
  (bool_decide (e_ep1 e = Arrow) && bool_decide (e_ep2 e = Tail)) ||
  (bool_decide (e_ep2 e = Arrow) && bool_decide (e_ep1 e = Tail)).

(** ** Node.h, Node.cpp (all nodes discrete) *)
Record node := mkNode {
  nd_dom : nat;              (* num_potential_vals *)
  nd_parents : list nat;     (* set_parent_indexes *)
  nd_pvec : list nat;        (* vec_disc_parent_indexes *)
  nd_children : list nat;    (* set_children_indexes *)
  nd_combos : list config    (* set_discrete_parents_combinations *) }.
(** Node.h: a fresh node has one, empty, parent configuration. *)
Definition new_node (dom : nat) : node := mkNode dom [] [] [] [[]].

(** Node.cpp L40-44 [AddChild]. *)
Definition node_add_child (c : nat) (nd : node) : node :=
  mkNode (nd_dom nd) (nd_parents nd) (nd_pvec nd) (sins c (nd_children nd)) (nd_combos nd).
(** Node.cpp L91-102: the new configurations. *)
Definition add_parent_combos (p pdom : nat) (combos : list config) : list config :=
  foldl (fun acc i => foldl (fun acc c => ccset_add (cins (p, i) c) acc) acc combos) [] (seq 0 pdom).
(** Node.cpp L80-106 [AddDiscreteParent]; [pdom] is the parent's domain size. *)
Definition node_add_parent (p pdom : nat) (nd : node) : node :=
  if bool_decide (p ∈ nd_parents nd) then nd else
  mkNode (nd_dom nd) (sins p (nd_parents nd)) (nd_pvec nd ++ [p]) (nd_children nd)
    (add_parent_combos p pdom (nd_combos nd)).
(** Node.cpp L147-154 [RemoveChild]: only a message when there is no such child. *)
Definition node_remove_child (c : nat) (nd : node) : node :=
  mkNode (nd_dom nd) (nd_parents nd) (nd_pvec nd) (serase c (nd_children nd)) (nd_combos nd).
(** Erase the first occurrence (std::find, then vector::erase); erasing end() is undefined. *)
Fixpoint vec_erase_first (x : nat) (l : list nat) : outcome (list nat) :=
  match l with
  | [] => Err OutOfBounds
  | y :: l' => if bool_decide (y = x) then Ok l' else r ← vec_erase_first x l'; Ok (y :: r)
  end.
(** Node.cpp L197-203: the configurations after removal. *)
Definition remove_parent_combos (p pdom : nat) (combos : list config) : list config :=
  foldl (fun acc i => foldl (fun acc c => ccset_add (cerase (p, i) c) acc) acc combos) [] (seq 0 pdom).
(** Node.cpp L164-207 [RemoveParent]. *)
Definition node_remove_parent (p pdom : nat) (nd : node) : outcome node :=
  if bool_decide (p ∈ nd_parents nd) then
    v ← vec_erase_first p (nd_pvec nd);
    Ok (mkNode (nd_dom nd) (serase p (nd_parents nd)) v (nd_children nd)
          (remove_parent_combos p pdom (nd_combos nd)))
  else Ok nd.

(** ** Network.h, Network.cpp *)
(** [map_idx_node_ptr] with keys 0..num_nodes-1 is a list of nodes; [nt_topo] is the cached
    topological order; all networks are [pure_discrete]. *)
Record network := mkNet {
  nt_nodes : list node; nt_edges : list edge; nt_topo : list nat; nt_num_edges : nat }.
Definition new_network (doms : list nat) : network := mkNet (new_node <$> doms) [] [] 0.
Definition set_nodes (N : network) (nodes : list node) : network :=
  mkNet nodes (nt_edges N) (nt_topo N) (nt_num_edges N).
Definition set_edges (N : network) (edges : list edge) : network :=
  mkNet (nt_nodes N) edges (nt_topo N) (nt_num_edges N).
Definition set_topo (N : network) (t : list nat) : network :=
  mkNet (nt_nodes N) (nt_edges N) t (nt_num_edges N).

(** Network.cpp L67-73 [FindNodePtrByIndex]. *)
Definition find_node (N : network) (i : nat) : outcome node :=
  match nt_nodes N !! i with Some nd => Ok nd | None => Err Exit1 end.

(** std::find over a vector of edges with Edge::operator==. *)
Fixpoint find_edge (edges : list edge) (e : edge) : option nat :=
  match edges with
  | [] => None
  | a :: l => if edge_same a e then Some 0 else S <$> find_edge l e
  end.
(** Network.cpp L90-99 [GetUndirectedEdge], L101-110 [GetDirectedEdge]; -1 is [None]. *)
Definition get_undirected_edge (N : network) (x y : nat) : option nat :=
  find_edge (nt_edges N) (undirected_edge x y).
Definition get_directed_edge (N : network) (x y : nat) : option nat :=
  find_edge (nt_edges N) (directed_edge x y).
(** Network.cpp L122-130 [GetEdge]. *)
Fixpoint get_edge_in (edges : list edge) (x y : nat) : option nat :=
  match edges with
  | [] => None
  | a :: l => if (bool_decide (e_n1 a = x) && bool_decide (e_n2 a = y)) ||
                 (bool_decide (e_n2 a = x) && bool_decide (e_n1 a = y)) then Some 0
              else S <$> get_edge_in l x y
  end.
Definition get_edge (N : network) (x y : nat) : option nat := get_edge_in (nt_edges N) x y.

(** Network.cpp L327-330 [SetParentChild]. *)
Definition set_parent_child (N : network) (p c : nat) : outcome network :=
  ndp ← find_node N p;
  let N := set_nodes N (<[p := node_add_child c ndp]> (nt_nodes N)) in
  ndc ← find_node N c;
  Ok (set_nodes N (<[c := node_add_parent p (nd_dom ndp) ndc]> (nt_nodes N))).
(** Network.cpp L337-347 [RemoveParentChild]. *)
Definition remove_parent_child (N : network) (p c : nat) : outcome network :=
  ndp ← find_node N p;
  let N := set_nodes N (<[p := node_remove_child c ndp]> (nt_nodes N)) in
  ndc ← find_node N c;
  ndc' ← node_remove_parent p (nd_dom ndp) ndc;
  Ok (set_nodes N (<[c := ndc']> (nt_nodes N))).

(** common.cpp L15-72: the two functions [DirectedGraphContainsCircle] and
    [TopoSortOfDAGZeroInDegreeFirst] run the same loop; one counts the nodes taken from the
    queue, the other collects them.  The front element is removed before instead of after its
    row is scanned, which is the same since new elements go to the back. *)
Definition adj_entry (graph : list (list nat)) (u j : nat) : outcome nat :=
  row ← vget graph u; vget row j.
Definition kahn_relax (graph : list (list nat)) (n u : nat) (st : list Z * list nat)
  : outcome (list Z * list nat) :=
  mfor (seq 0 n) (fun j (st : list Z * list nat) =>
    x ← adj_entry graph u j;
    if bool_decide (x = 1) then
      d ← vget (fst st) j;
      ins ← vset (fst st) j (d - 1)%Z;
      if bool_decide (d - 1 = 0)%Z then Ok (ins, snd st ++ [j]) else Ok (ins, snd st)
    else Ok st) st.
Fixpoint kahn_loop (fuel : nat) (graph : list (list nat)) (n : nat) (ins : list Z) (que : list nat)
  (result : list nat) : outcome (list nat) :=
  match que with
  | [] => Ok result
  | u :: que' =>
      match fuel with
      | O => Err OutOfFuel
      | S f => st ← kahn_relax graph n u (ins, que');
               kahn_loop f graph n (fst st) (snd st) (result ++ [u])
      end
  end.
Definition kahn (graph : list (list nat)) (ins : list Z) (n : nat) : outcome (list nat) :=
  que ← mfor (seq 0 n) (fun i que => d ← vget ins i; if bool_decide (d = 0)%Z then Ok (que ++ [i]) else Ok que) [];
  kahn_loop n graph n ins que [].
Definition directed_graph_contains_circle (graph : list (list nat)) (ins : list Z) (n : nat) : outcome bool :=
  r ← kahn graph ins n; Ok (bool_decide (length r ≠ n)).
Definition topo_sort (graph : list (list nat)) (ins : list Z) (n : nat) : outcome (list nat) :=
  kahn graph ins n.

(** Network.cpp L391-403 and L515-531: adjacency matrix and in-degrees from the child sets. *)
Definition adjacency (N : network) : outcome (list (list nat) * list Z) :=
  let n := length (nt_nodes N) in
  mfor (seq 0 n) (fun i st =>
    nd ← find_node N i;
    mfor (nd_children nd) (fun c (st : list (list nat) * list Z) =>
      row ← vget (fst st) i;
      row' ← vset row c 1;
      g ← vset (fst st) i row';
      d ← vget (snd st) c;
      ins ← vset (snd st) c (d + 1)%Z;
      Ok (g, ins)) st) (replicate n (replicate n 0), replicate n 0%Z).
(** Network.cpp L515-541 [ContainCircle]. *)
Definition contain_circle (N : network) : outcome bool :=
  gi ← adjacency N; directed_graph_contains_circle (fst gi) (snd gi) (length (nt_nodes N)).
(** Network.cpp L385-490 [GenTopoOrd]. *)
Definition gen_topo_ord (N : network) : outcome (network * list nat) :=
  gi ← adjacency N;
  t ← topo_sort (fst gi) (snd gi) (length (nt_nodes N));
  Ok (set_topo N t, t).
(** Network.cpp L371-376 [GetTopoOrd]: computed only when the cache is empty. *)
Definition get_topo_ord (N : network) : outcome (network * list nat) :=
  if bool_decide (nt_topo N = []) then gen_topo_ord N else Ok (N, nt_topo N).

(** Network.cpp L169-191 [AddDirectedEdge]. *)
Definition add_directed_edge (N : network) (p c : nat) : outcome (network * bool) :=
  _ ← find_node N p;
  _ ← find_node N c;
  N1 ← set_parent_child N p c;
  circ ← contain_circle N1;
  if (circ : bool) then N2 ← remove_parent_child N1 p c; Ok (N2, false)
  else Ok (set_edges N1 (nt_edges N1 ++ [directed_edge p c]), true).
(** vector::erase(begin() + pos). *)
Definition erase_at {A} (l : list A) (pos : nat) : list A := take pos l ++ drop (S pos) l.
(** Network.cpp L193-213 [DeleteDirectedEdge]. *)
Definition delete_directed_edge (N : network) (p c : nat) : outcome (network * bool) :=
  _ ← find_node N p;
  _ ← find_node N c;
  match get_directed_edge N p c with
  | None => Ok (N, false)
  | Some pos => N1 ← remove_parent_child N p c; Ok (set_edges N1 (erase_at (nt_edges N1) pos), true)
  end.
(** Network.cpp L219-240 [AddUndirectedEdge]. *)
Definition add_undirected_edge (N : network) (p c : nat) : outcome network :=
  _ ← find_node N p;
  _ ← find_node N c;
  Ok (set_edges N (nt_edges N ++ [undirected_edge p c])).
(** Network.cpp L242-268 [DeleteUndirectedEdge]. *)
Definition delete_undirected_edge (N : network) (p c : nat) : outcome (network * bool) :=
  _ ← find_node N (p `min` c);
  _ ← find_node N (p `max` c);
  match get_undirected_edge N (p `min` c) (p `max` c) with
  | None => Ok (N, false)
  | Some pos => Ok (set_edges N (erase_at (nt_edges N) pos), true)
  end.

(** Network.cpp L302-306 [IsDirectedFromTo]. *)
Definition is_directed_from_to (N : network) (x y : nat) : outcome bool :=
  _ ← find_node N x; ndy ← find_node N y; Ok (bool_decide (x ∈ nd_parents ndy)).

(** Network.cpp L547-583 [OrderEdge].  The loop L553-555 works on copies and changes nothing. *)
Definition order_edge (N : network) : outcome (network * list edge) :=
  nt ← get_topo_ord N;
  let topo := snd nt in
  st ← mfor (seq 0 (length topo)) (fun j st =>
    y ← vat topo j;
    ndy ← find_node (fst nt) y;
    if bool_decide (nd_parents ndy = []) then Ok st else
    mfor (reverse (seq 0 j)) (fun k (st : list edge * list edge) =>
      x ← vat topo k;
      if bool_decide (x ∈ nd_parents ndy) then
        match find_edge (fst st) (directed_edge x y) with
        | None => Err Thrown   (* vec_edges.at(-1) *)
        | Some pos =>
            e ← vat (fst st) pos;
            if e_ordered e then Ok st else
            let e' := mkEdge (e_n1 e) (e_n2 e) (e_ep1 e) (e_ep2 e) true (e_label e) in
            Ok (<[pos := e']> (fst st), snd st ++ [e'])
        end
      else Ok st) st) (nt_edges (fst nt), []);
  let N' := set_edges (fst nt) (fst st) in
  if bool_decide (length (snd st) ≠ length (nt_edges N')) then Err Exit1 else Ok (N', snd st).

(** Network.cpp L692-698 [IsDAG]. *)
Definition is_dag (N : network) : outcome bool := e ← vat (nt_edges N) 0; Ok (is_directed e).
