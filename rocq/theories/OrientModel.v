(** Model of the edge orientation of PC-stable: PCStable.cpp L236-257 and L639-880, StructureLearning.cpp L73-144. *)
From Verif Require Export PCModel.
Local Open Scope nat_scope.

(** Network.cpp L289-296 [IsAdjacentTo]. *)
Definition is_adjacent_to (adj : adjs) (x y : nat) : outcome bool := row ← vat adj x; Ok (bool_decide (y ∈ row)).
(** Network.cpp L315-319 [IsUndirected]. *)
Definition is_undirected (adj : adjs) (N : network) (x y : nat) : outcome bool :=
  a ← is_adjacent_to adj x y;
  if (a : bool) then
    d ← is_directed_from_to N x y;
    if (d : bool) then Ok false else d ← is_directed_from_to N y x; Ok (negb d)
  else Ok false.

(** ** PCStable.cpp L639-724 [OrientVStructure] *)
(** The state of the edge between [x] and the middle node: what was deleted. *)
Inductive deleted := Kept | WasDirected | WasUndirected.
Global Instance deleted_eq_dec : EqDecision deleted.
Proof. solve_decision. Defined.
(** L682-691: delete [b->x] or else [x--b]. *)
Definition delete_for_collider (N : network) (b x : nat) : outcome (network * deleted) :=
  r ← delete_directed_edge N b x;
  let '(N, d) := r in
  if (d : bool) then Ok (N, WasDirected) else
  r ← delete_undirected_edge N x b;
  let '(N, d) := r in
  Ok (N, if (d : bool) then WasUndirected else Kept).
(** L693-698: add [x->b] if something was deleted; the boolean is [to_add && !added]. *)
Definition add_for_collider (N : network) (b x : nat) (d : deleted) : outcome (network * bool) :=
  if bool_decide (d = Kept) then Ok (N, false) else r ← add_directed_edge N x b; Ok (fst r, negb (snd r)).
(** L703-718: add back what was deleted. *)
Definition restore (N : network) (b x : nat) (d : deleted) : outcome network :=
  match d with
  | Kept => Ok N
  | WasDirected => r ← add_directed_edge N b x; Ok (fst r)
  | WasUndirected => add_undirected_edge N x b
  end.
(** L672-720. *)
Definition orient_collider (N : network) (a b c : nat) : outcome network :=
  r ← delete_for_collider N b a; let '(N, d1) := r in
  r ← delete_for_collider N b c; let '(N, d2) := r in
  r ← add_for_collider N b a d1; let '(N, fail1) := r in
  r ← add_for_collider N b c d2; let '(N, fail2) := r in
  if (fail1 : bool) || (fail2 : bool) then N ← restore N b a d1; restore N b c d2 else Ok N.
(** L653-722: one pair of neighbours of [b]. [this->sepset[(a, c)]] is empty for a pair that is not in the map
    (the entry that it inserts then is empty as well and is not modelled). *)
Definition v_triple (adj : adjs) (sep : sepmap) (b a c : nat) (N : network) : outcome network :=
  ac ← is_adjacent_to adj a c;
  if (ac : bool) then Ok N
  else if bool_decide (b ∈ default [] (sep !! (a, c))) then Ok N
  else orient_collider N a b c.
(** L650: the loop over the combinations. *)
Fixpoint v_loop (fuel : nat) (adj : adjs) (sep : sepmap) (b : nat) (vec : list nat) (cg : cgen) (N : network) : outcome network :=
  match fuel with
  | O => Err OutOfFuel
  | S f =>
      r ← cgen_next cg;
      let '(cg, ch) := r in
      if bool_decide (ch = []) then Ok N else
      i ← vget ch 0; a ← zat vec i;
      j ← vget ch 1; c ← zat vec j;
      N ← v_triple adj sep b a c N;
      v_loop f adj sep b vec cg N
  end.
(** L639-724. *)
Definition orient_v_structures (fuel : nat) (adj : adjs) (sep : sepmap) (N : network) : outcome network :=
  mfor (seq 0 (length (nt_nodes N))) (fun b N =>
    vec ← vat adj b;
    if bool_decide (length vec < 2) then Ok N else
    cg ← cgen_init (Z.of_nat (length vec)) 2;
    v_loop fuel adj sep b vec cg N) N.

(** ** StructureLearning.cpp L73-84 [Direct], called while an iterator into [vec_edges] is in use *)
(** [cap] is the capacity of the vector [vec_edges]. When the vector is full, [push_back] moves it, and the
    iterator of the calling loop, which is used next, is invalid. Otherwise the iterator keeps its position. *)
Definition direct (cap : nat) (N : network) (a c : nat) : outcome (network * bool) :=
  r ← add_directed_edge N a c;
  let '(N', added) := r in
  if (added : bool) then
    if bool_decide (cap <= length (nt_edges N)) then Err OutOfBounds else
    r ← delete_undirected_edge N' a c; Ok (fst r, true)
  else Ok (N', false).
(** L92-105 [GetCommonAdjacents]; the rows are increasing. *)
Definition common_adjacents (adj : adjs) (x y : nat) : outcome (list nat) :=
  ax ← vat adj x; ay ← vat adj y; Ok (filter (fun v => v ∈ ay) ax).
(** A loop that returns [true] at the first success, and [||]. *)
Fixpoint until_true {A} (f : A -> network -> outcome (network * bool)) (l : list A) (N : network) : outcome (network * bool) :=
  match l with
  | [] => Ok (N, false)
  | a :: l => r ← f a N; if (snd r : bool) then Ok r else until_true f l (fst r)
  end.
(** PCStable.cpp L777-786 [Rule1]. *)
Definition rule1 (cap : nat) (adj : adjs) (b c : nat) (N : network) : outcome (network * bool) :=
  nd ← find_node N b;
  until_true (fun a N => ac ← is_adjacent_to adj c a; if (ac : bool) then Ok (N, false) else direct cap N b c) (nd_parents nd) N.
(** L791-805 [Rule2]. *)
Definition rule2 (cap : nat) (adj : adjs) (a c : nat) (N : network) : outcome (network * bool) :=
  common ← common_adjacents adj a c;
  until_true (fun b N =>
    d ← is_directed_from_to N a b;
    if (d : bool) then d ← is_directed_from_to N b c; if (d : bool) then direct cap N a c else Ok (N, false)
    else Ok (N, false)) common N.
(** L838-851 [R3Helper]. *)
Definition r3_helper (cap : nat) (adj : adjs) (a d b c : nat) (N : network) : outcome (network * bool) :=
  b5 ← is_undirected adj N d b;
  b6 ← is_undirected adj N d c;
  b7 ← is_directed_from_to N b a;
  b8 ← is_directed_from_to N c a;
  if (b5 : bool) && (b6 : bool) && (b7 : bool) && (b8 : bool) then direct cap N d a else Ok (N, false).
(** L810-832 [Rule3]. *)
Definition rule3 (cap : nat) (adj : adjs) (d a : nat) (N : network) : outcome (network * bool) :=
  common ← common_adjacents adj a d;
  if bool_decide (length common < 2) then Ok (N, false) else
  until_true (fun i => until_true (fun j N =>
      b ← vget common i; c ← vget common j;
      bc ← is_adjacent_to adj b c;
      if (bc : bool) then Ok (N, false) else r3_helper cap adj a d b c N) (seq (S i) (length common - S i))) (seq 0 (length common)) N.
(** L751-756: the condition. *)
Definition any_rule (cap : nat) (adj : adjs) (x y : nat) (N : network) : outcome (network * bool) :=
  until_true (fun f N => f N) [rule1 cap adj x y; rule1 cap adj y x; rule2 cap adj x y; rule2 cap adj y x; rule3 cap adj x y; rule3 cap adj y x] N.
(** L744-770: one traversal; [k] is the position of the iterator. *)
Fixpoint implied_pass (fuel cap : nat) (adj : adjs) (k : nat) (oriented : bool) (N : network) : outcome (network * bool) :=
  match nt_edges N !! k with
  | None => Ok (N, oriented)
  | Some e =>
      match fuel with
      | O => Err OutOfFuel
      | S f =>
          u ← is_undirected adj N (e_n1 e) (e_n2 e);
          if (u : bool) then
            r ← any_rule cap adj (e_n1 e) (e_n2 e) N;
            if (snd r : bool) then implied_pass f cap adj k true (fst r) else implied_pass f cap adj (S k) oriented (fst r)
          else Ok (N, oriented)
      end
  end.
(** L734-772 [OrientImplied]. *)
Fixpoint orient_implied (fuel cap : nat) (adj : adjs) (N : network) : outcome network :=
  match fuel with
  | O => Err OutOfFuel
  | S f =>
      r ← implied_pass fuel cap adj 0 false N;
      if (snd r : bool) then orient_implied f cap adj (fst r) else Ok (fst r)
  end.

(** ** StructureLearning.cpp L110-144 [DirectLeftEdges] *)
(** [coin t] is the answer of the [t]-th call of [Random01]. *)
Fixpoint direct_left_edges (fuel cap : nat) (adj : adjs) (coin : nat -> bool) (t k : nat) (N : network) : outcome network :=
  match nt_edges N !! k with
  | None => Ok N
  | Some e =>
      match fuel with
      | O => Err OutOfFuel
      | S f =>
          let x := e_n1 e in let y := e_n2 e in
          u ← is_undirected adj N x y;
          if (u : bool) then
            let '(p, q) := if coin t then (y, x) else (x, y) in
            r ← direct cap N p q;
            r ← (if (snd r : bool) then Ok r else direct cap (fst r) q p);
            if (snd r : bool) then direct_left_edges f cap adj coin (S t) k (fst r) else Err Exit1
          else Ok N
      end
  end.

(** ** PCStable.cpp L84-257 [StructLearnByPCStable], the part after the skeleton search *)
(** The network after the search: nodes without parents, one undirected edge for every remaining pair. *)
Definition skeleton_network (doms : list nat) (es : list pedge) : network :=
  mkNet (new_node <$> doms) ((fun e => undirected_edge (pe_n1 e) (pe_n2 e)) <$> es) [] (length es).
(** [vec_edges] was resized once, from empty, for the complete graph (Network.cpp [GenerateUndirectedCompleteGraph]); its
    capacity is that size. A [push_back] on a full vector doubles the capacity (libstdc++). The step for one collider never
    makes the vector shorter and deletes before it adds ([orient_collider_grows] in OrientPairs.v), so the longest vector
    before [OrientImplied] is the last one. *)
Definition edge_capacity (n : nat) : nat := n * (n - 1) / 2.
Fixpoint doubled (k cap len : nat) : nat :=
  match k with O => cap | S k => if bool_decide (len <= cap) then cap else doubled k (Nat.max 1 (2 * cap)) len end.
Definition vector_capacity (cap len : nat) : nat := doubled len cap len.
(** L236-257. *)
Definition orient_skeleton (fuel : nat) (doms : list nat) (dag : bool) (coin : nat -> bool) (es : list pedge) (adj : adjs) (sep : sepmap) : outcome network :=
  N ← orient_v_structures fuel adj sep (skeleton_network doms es);
  let cap := vector_capacity (edge_capacity (length doms)) (length (nt_edges N)) in
  N ← orient_implied fuel cap adj N;
  if dag then direct_left_edges fuel cap adj coin 0 0 N else Ok N.
