(** Model of Network::FindCompelled, BNSLComparison.cpp, and the ROOT node and structure
    output of StructureLearning.cpp. *)
From Verif Require Export GraphModel.
Local Open Scope nat_scope.

(** ** Network.cpp L590-684 [FindCompelled] *)
(** [vec_edges.at(GetDirectedEdge(x, y)).label = lab]; .at(-1) throws. *)
Definition set_label (edges : list edge) (x y : nat) (lab : label) : outcome (list edge) :=
  match find_edge edges (directed_edge x y) with
  | None => Err Thrown
  | Some pos => e ← vat edges pos;
      Ok (<[pos := mkEdge (e_n1 e) (e_n2 e) (e_ep1 e) (e_ep2 e) (e_ordered e) (Some lab)]> edges)
  end.
(** The label read by [vec_edges.at(GetDirectedEdge(w, x)).label]; it is uninitialised until set. *)
Definition get_label (edges : list edge) (x y : nat) : outcome label :=
  match find_edge edges (directed_edge x y) with
  | None => Err Thrown
  | Some pos => e ← vat edges pos; match e_label e with Some l => Ok l | None => Err Uninit end
  end.
(** [edge_order.erase(edge_order.begin())]: undefined on an empty vector. *)
Definition erase_front (order : list edge) : outcome (list edge) :=
  match order with [] => Err OutOfBounds | _ :: l => Ok l end.
(** L627-637, L660-668, L677-685: label the edges into y that are still in edge_order and drop
    them; with [all] (L627-637) those no longer in it are labelled too. *)
Definition label_into (all : bool) (parents : list nat) (y : nat) (lab : label) (st : list edge * list edge)
  : outcome (list edge * list edge) :=
  mfor parents (fun p (st : list edge * list edge) =>
    match find_edge (snd st) (directed_edge p y) with
    | Some pos => es ← set_label (fst st) p y lab; Ok (es, erase_at (snd st) pos)
    | None => if all then es ← set_label (fst st) p y lab; Ok (es, snd st) else Ok st
    end) st.
(** L606-647: the loop over the parents w of x; the flag is [tmp1], which also ends the loop. *)
Fixpoint compelled_w (parx pary : list nat) (x y : nat) (st : list edge * list edge)
  : outcome (list edge * list edge * bool) :=
  match parx with
  | [] => Ok (st, false)
  | w :: ws =>
      l ← get_label (fst st) w x;
      if bool_decide (l = Compelled) then
        if bool_decide (w ∈ pary) then
          st' ← match find_edge (snd st) (directed_edge w y) with
                | Some pos => es ← set_label (fst st) w y Compelled; Ok (es, erase_at (snd st) pos)
                | None => Ok st
                end;
          compelled_w ws pary x y st'
        else
          es ← set_label (fst st) x y Compelled;
          order ← erase_front (snd st);
          st' ← label_into true pary y Compelled (es, order);
          Ok (st', true)
      else compelled_w ws pary x y st
  end.
(** L651-669: the loop over the parents z of y; no break after the first hit. *)
Definition compelled_z (parx pary : list nat) (x y : nat) (st : list edge * list edge)
  : outcome (list edge * list edge * bool) :=
  mfor pary (fun z (st : list edge * list edge * bool) =>
    if bool_decide (z ≠ x) && bool_decide (z ∉ parx) then
      es ← set_label (fst (fst st)) x y Compelled;
      order ← erase_front (snd (fst st));
      st' ← label_into false pary y Compelled (es, order);
      Ok (st', true)
    else Ok st) (st, false).
Fixpoint find_compelled_loop (fuel : nat) (N : network) (edges order : list edge) : outcome (list edge) :=
  match order with
  | [] => Ok edges
  | e :: _ =>
      match fuel with
      | O => Err OutOfFuel
      | S f =>
          let x := e_n1 e in let y := e_n2 e in
          ndx ← find_node N x;
          ndy ← find_node N y;
          r ← compelled_w (nd_parents ndx) (nd_parents ndy) x y (edges, order);
          st ← (if snd r : bool then Ok (fst r) else
                r2 ← compelled_z (nd_parents ndx) (nd_parents ndy) x y (fst r);
                if snd r2 : bool then Ok (fst r2) else
                es ← set_label (fst (fst r2)) x y Reversible;
                order ← erase_front (snd (fst r2));
                label_into false (nd_parents ndy) y Reversible (es, order));
          find_compelled_loop f N (fst st) (snd st)
      end
  end.
Definition find_compelled (N : network) (order : list edge) : outcome network :=
  es ← find_compelled_loop (length order) N (nt_edges N) order; Ok (set_edges N es).

(** ** BNSLComparison.cpp *)
(** L44-73 [GetSHDOneEdge]. *)
Definition shd_one (T L : network) (i1 i2 : nat) : outcome nat :=
  _ ← find_node T i1; _ ← find_node T i2; _ ← find_node L i1; _ ← find_node L i2;
  match get_edge T i1 i2, get_edge L i1 i2 with
  | None, None => Ok 0
  | Some p1, Some p2 =>
      e1 ← vat (nt_edges T) p1;
      e2 ← vat (nt_edges L) p2;
      Ok (if bool_decide (e_n1 e1 = e_n1 e2) && bool_decide (e_n2 e1 = e_n2 e2) && bool_decide (e_ep2 e1 = e_ep2 e2)
          then 0 else 1)
  | _, _ => Ok 1
  end.
(** L33-41: the sum over all pairs. *)
Definition shd_pairs (T L : network) : outcome nat :=
  let n := length (nt_nodes L) in
  mfor (seq 0 n) (fun i1 acc => mfor (seq (S i1) (n - S i1)) (fun i2 acc => d ← shd_one T L i1 i2; Ok (acc + d)) acc) 0.
(** L13-27: the true graph turned into a pattern. *)
Definition to_pattern (T : network) : outcome network :=
  no ← order_edge T;
  T1 ← find_compelled (fst no) (snd no);
  es ← mfor (seq 0 (nt_num_edges T1)) (fun i es =>
         e ← vat es i;
         match e_label e with
         | None => Err Uninit
         | Some Reversible => Ok (<[i := undirected_edge (e_n1 e) (e_n2 e)]> es)
         | Some Compelled => Ok es
         end) (nt_edges T1);
  Ok (set_edges T1 es).
(** L12-42 [GetSHD]. *)
Definition get_shd (T L : network) : outcome nat :=
  d ← is_dag L;
  T' ← (if d : bool then Ok T else to_pattern T);
  shd_pairs T' L.

(** ** StructureLearning.cpp L151-206 [FindRootsInDAGForest] *)
(** L163-170: unvisited node without parents with the most children, first such index. *)
Definition pick_root (N : network) (visited : list bool) : outcome (option (nat * nat)) :=
  mfor (seq 0 (length (nt_nodes N))) (fun i (best : option (nat * nat)) =>
    nd ← find_node N i;
    if bool_decide (length (nd_parents nd) = 0) then
      v ← vget visited i;
      if v : bool then Ok best else
      match best with
      | Some (m, _) => if bool_decide (m < length (nd_children nd)) then Ok (Some (length (nd_children nd), i)) else Ok best
      | None => Ok (Some (length (nd_children nd), i))
      end
    else Ok best) None.
Definition bfs_visit (i : nat) (st : list bool * list nat) : outcome (list bool * list nat) :=
  v ← vget (fst st) i;
  if v : bool then Ok st else vs ← vset (fst st) i true; Ok (vs, snd st ++ [i]).
(** L181-199: breadth-first search over children and parents. *)
Fixpoint bfs (fuel : nat) (N : network) (visited : list bool) (que : list nat) : outcome (list bool) :=
  match que with
  | [] => Ok visited
  | cur :: que' =>
      match fuel with
      | O => Err OutOfFuel
      | S f => nd ← find_node N cur;
               st ← mfor (nd_children nd) bfs_visit (visited, que');
               st ← mfor (nd_parents nd) bfs_visit st;
               bfs f N (fst st) (snd st)
      end
  end.
Fixpoint find_roots_loop (fuel : nat) (N : network) (visited : list bool) (roots : list nat) : outcome (list nat) :=
  match fuel with
  | O => Err OutOfFuel
  | S f =>
      best ← pick_root N visited;
      match best with
      | None => Ok roots
      | Some (_, root) =>
          vs ← vset visited root true;
          vs ← bfs (length (nt_nodes N)) N vs [root];
          find_roots_loop f N vs (roots ++ [root])
      end
  end.
Definition find_roots (N : network) : outcome (list nat) :=
  find_roots_loop (S (length (nt_nodes N))) N (replicate (length (nt_nodes N)) false) [].

(** ** StructureLearning.cpp L217-236 [AddRootNode]: domain of size 2, index num_nodes; the
    node is kept aside until it is stored in the map at the end. *)
Definition add_root_node (N : network) (sub_roots : list nat) : outcome network :=
  let r := length (nt_nodes N) in
  st ← mfor sub_roots (fun c (st : network * node) =>
    ndc ← find_node (fst st) c;
    let root := node_add_child c (snd st) in
    let N := set_nodes (fst st) (<[c := node_add_parent r (nd_dom root) ndc]> (nt_nodes (fst st))) in
    Ok (mkNet (nt_nodes N) (nt_edges N ++ [directed_edge r c]) (nt_topo N) (S (nt_num_edges N)), root))
    (N, new_node 2);
  Ok (set_nodes (fst st) (nt_nodes (fst st) ++ [snd st])).

(** ** StructureLearning.cpp L238-293 [SaveBNStructure] *)
(** A written line: the edge as "a -> b" or "a -- b" (names and numbering not modelled). *)
Inductive line := Arc (a b : nat) | Link (a b : nat).
Global Instance line_eq_dec : EqDecision line.
Proof. solve_decision. Defined.
Definition save_bn_structure (N : network) : outcome (list line) :=
  e0 ← vget (nt_edges N) 0;
  if is_directed e0 then
    nt ← get_topo_ord N;
    mfor (seq 0 (length (nt_nodes N))) (fun i out =>
      x ← vget (snd nt) i;
      nd ← find_node N x;
      mfor (nd_children nd) (fun c out => _ ← find_node N c; Ok (out ++ [Arc x c])) out) []
  else
    mfor (seq 0 (nt_num_edges N)) (fun i out =>
      e ← vat (nt_edges N) i;
      Ok (out ++ [if negb (is_directed e) then Link (e_n1 e) (e_n2 e)
                  else if bool_decide (e_ep1 e = Tail) then Arc (e_n1 e) (e_n2 e) else Arc (e_n2 e) (e_n1 e)])) [].
