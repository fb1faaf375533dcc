(** Model of the skeleton search of PCStable.cpp. *)
From stdpp Require Export gmap.
From Verif Require Export CellModel UtilModel GraphModel.
Local Open Scope nat_scope.

(** ** Edge.h L13, L15-34: the fields used by the search *)
Inductive process := PNo | PNode1 | PENode1 | PNode2.
Global Instance process_eq_dec : EqDecision process.
Proof. solve_decision. Defined.
(** [pe_cg = None]: unset or deleted pointer; [pe_finish = None]: never written. *)
Record pedge := mkPE {
  pe_n1 : nat; pe_n2 : nat; pe_remove : bool; pe_process : process;
  pe_cg : option cgen; pe_adj : list nat; pe_finish : option bool }.
(** Edge.cpp L17-34 for the nodes [i < j] of the complete graph. *)
Definition new_pedge (p : nat * nat) : pedge := mkPE (fst p) (snd p) false PNo None [] None.
Definition with_process (e : pedge) (p : process) : pedge := mkPE (pe_n1 e) (pe_n2 e) (pe_remove e) p (pe_cg e) (pe_adj e) (pe_finish e).
Definition with_cg (e : pedge) (g : option cgen) : pedge := mkPE (pe_n1 e) (pe_n2 e) (pe_remove e) (pe_process e) g (pe_adj e) (pe_finish e).
Definition with_adj (e : pedge) (l : list nat) : pedge := mkPE (pe_n1 e) (pe_n2 e) (pe_remove e) (pe_process e) (pe_cg e) l (pe_finish e).
Definition with_finish (e : pedge) (b : bool) : pedge := mkPE (pe_n1 e) (pe_n2 e) (pe_remove e) (pe_process e) (pe_cg e) (pe_adj e) (Some b).
Definition with_remove (e : pedge) (b : bool) : pedge := mkPE (pe_n1 e) (pe_n2 e) b (pe_process e) (pe_cg e) (pe_adj e) (pe_finish e).
Definition pe_pair (e : pedge) : nat * nat := (pe_n1 e, pe_n2 e).

(** [adjacencies]: for every node the increasing list of its neighbours (the weights are never used). *)
Notation adjs := (list (list nat)).
(** [sepset] with its [insert], which keeps an existing entry. *)
Notation sepmap := (gmap (nat * nat) (list nat)).
Definition sep_insert (k : nat * nat) (s : list nat) (m : sepmap) : sepmap :=
  match m !! k with Some _ => m | None => <[k := s]> m end.

Section search.
(** [tst x y Z g] is [IndependenceResult(x, y, Z, "g square", timer, g)]. *)
Context (tst : nat -> nat -> list nat -> nat -> outcome ci_result).

(** PCStable.cpp L500-515 [FindAdjacencies]. *)
Definition find_adjacencies (adj : adjs) (x y : nat) : outcome (list nat) := row ← vat adj x; Ok (serase y row).
(** [l[i]] for an [int] [i]. *)
Definition zat {A} (l : list A) (i : Z) : outcome A := if bool_decide (i < 0)%Z then Err OutOfBounds else vget l (Z.to_nat i).
(** The conditioning set chosen by [ch] (L548-556, L582-584). *)
Definition chosen (adj : list nat) (c : nat) (ch : list Z) : outcome (list nat) :=
  mcollect (seq 0 c) (fun j => i ← vget ch j; zat adj i).
(** L545-562: the concatenated conditioning sets and their number. *)
Fixpoint collect_z (adj : list nat) (c : nat) (choices : list (list Z)) : outcome (list nat * nat) :=
  match choices with
  | [] => Ok ([], 0)
  | ch :: rest =>
      if bool_decide (ch = []) then Ok ([], 0)
      else s ← chosen adj c ch; r ← collect_z adj c rest; Ok (s ++ fst r, S (snd r))
  end.
(** L526-614 [Testing]: the edge afterwards and the conditioning set, if independent
    ([num_ci_test] and the output are not modelled). *)
Definition testing (c g : nat) (e : pedge) : outcome (pedge * option (list nat)) :=
  match pe_cg e with
  | None => Err NullDeref
  | Some cg =>
      r ← cgen_nextn g cg;
      let '(cg, choices) := r in
      let e := with_cg e (Some cg) in
      c0 ← vget choices 0;
      if bool_decide (c0 = []) then Ok (with_finish e true, None)
      else
        zi ← collect_z (pe_adj e) c choices;
        let '(zs, i) := zi in
        res ← tst (pe_n1 e) (pe_n2 e) zs i;
        if ci_indep res then
          ch ← zat choices (ci_first res);
          s ← chosen (pe_adj e) c ch;
          Ok (e, Some (foldl (fun s v => sins v s) [] s))
        else Ok (with_finish e (negb (bool_decide (i = g))), None)
  end.
(** L399-494 [CheckEdge], L452-493: after the adjacency set has been chosen. *)
Definition check_tests (c g : nat) (e : pedge) : outcome (pedge * bool * option (list nat)) :=
  r ← testing c g e;
  let '(e, ind) := r in
  match ind with
  | Some s => Ok (with_remove (with_cg e None) true, false, Some s)
  | None =>
      match pe_finish e with
      | None => Err Uninit
      | Some false => Ok (e, true, None)
      | Some true =>
          if bool_decide (pe_process e = PNode1) then Ok (with_process (with_cg e None) PENode1, true, None)
          else Ok (with_remove (with_cg e None) false, false, None)
      end
  end.
Definition start_node (adj : list nat) (c : nat) (p : process) (e : pedge) : outcome pedge :=
  cg ← cgen_init (Z.of_nat (length adj)) (Z.of_nat c); Ok (with_process (with_cg (with_adj e adj) (Some cg)) p).
(** L399-494 [CheckEdge]: the edge, whether it has to be pushed again, and the set inserted into [sepset]. *)
Definition check_edge (adj : adjs) (c g : nat) (e : pedge) : outcome (pedge * bool * option (list nat)) :=
  let node2 e :=
    a2 ← find_adjacencies adj (pe_n2 e) (pe_n1 e);
    if bool_decide (c <= length a2) then e ← start_node a2 c PNode2 e; check_tests c g e
    else Ok (with_remove (with_adj e a2) false, false, None) in
  match pe_process e with
  | PNo =>
      a1 ← find_adjacencies adj (pe_n1 e) (pe_n2 e);
      if bool_decide (c <= length a1) then e ← start_node a1 c PNode1 e; check_tests c g e
      else node2 e
  | PENode1 => node2 e
  | PNode1 | PNode2 => check_tests c g e
  end.
(** The key under which L572-586 stores the set. *)
Definition sep_key (e : pedge) : nat * nat := if bool_decide (pe_n2 e < pe_n1 e) then (pe_n2 e, pe_n1 e) else (pe_n1 e, pe_n2 e).

(** ** L265-388 [SearchAtDepth] *)
(** The order in which the iterations of the [t]-th parallel loop, with [n] iterations, take effect. An
    iteration is one step: it only touches its own edge and entry of [need_to_push], except for
    [sepset.insert] and [num_ci_test], see [shared_writes]. *)
Notation schedule := (nat -> nat -> list nat).
(** L290-300, L314-323: one batch; [push] is [need_to_push]. *)
Definition run_batch (adj : adjs) (c g : nat) (order batch : list nat) (edges : list pedge) (sep : sepmap) : outcome (list pedge * sepmap * list bool) :=
  mfor order (fun p st =>
    let '(edges, sep, push) := st in
    id ← vget batch p; e ← vget edges id;
    r ← check_edge adj c g e;
    let '(e', b, ins) := r in
    edges ← vset edges id e';
    push ← vset push p b;
    Ok (edges, match ins with Some s => sep_insert (sep_key e) s sep | None => sep end, push))
    (edges, sep, replicate (length batch) false).
(** L279-332: the two loops, as one: the second is entered with fewer than 128 edges on the stack, and a batch
    never pushes more edges than it took. The top of the stack is the head of the list. *)
Fixpoint batches (fuel : nat) (adj : adjs) (c g : nat) (sch : schedule) (t : nat) (stack : list nat) (edges : list pedge) (sep : sepmap) : outcome (list pedge * sepmap) :=
  match stack with
  | [] => Ok (edges, sep)
  | _ =>
      match fuel with
      | O => Err OutOfFuel
      | S f =>
          let size := Nat.min 128 (length stack) in
          let batch := take size stack in
          r ← run_batch adj c g (sch t size) batch edges sep;
          let '(edges, sep, push) := r in
          batches f adj c g sch (S t) ((snd <$> filter (fun bp => fst bp = true) (zip push batch)) ++ drop size stack) edges sep
      end
  end.
(** L366-386, L178-195: the marked edges are deleted. *)
Definition erase_adj (x y : nat) (adj : adjs) : outcome adjs := row ← vget adj x; vset adj x (serase y row).
Definition remove_marked (edges : list pedge) (adj : adjs) : outcome (list pedge * adjs) :=
  adj ← mfor edges (fun e adj => if pe_remove e then adj ← erase_adj (pe_n1 e) (pe_n2 e) adj; erase_adj (pe_n2 e) (pe_n1 e) adj else Ok adj) adj;
  Ok (filter (fun e => pe_remove e = false) edges, adj).
(** L620-626 [FreeDegree]. *)
Definition max_degree (adj : adjs) : nat := foldl (fun m row => if bool_decide (m < length row) then length row else m) 0 adj.
Definition free_degree (adj : adjs) : Z := (Z.of_nat (max_degree adj) - 1)%Z.
Definition search_at_depth (fuel c g : nat) (sch : schedule) (edges : list pedge) (adj : adjs) (sep : sepmap) : outcome (list pedge * adjs * sepmap * bool) :=
  let edges := (fun e => with_process e PNo) <$> edges in
  r ← batches fuel adj c g sch 0 (seq 0 (length edges)) edges sep;
  let '(edges, sep) := r in
  r ← remove_marked edges adj;
  let '(edges, adj) := r in
  Ok (edges, adj, sep, bool_decide (Z.of_nat c < free_degree adj)%Z).

(** ** L84-225 [StructLearnByPCStable], up to the orientation of the edges *)
(** L137-176: level 0, the iterations in the order [order]. *)
Definition level_zero (order : list nat) (edges : list pedge) (sep : sepmap) : outcome (list pedge * sepmap) :=
  mfor order (fun i st =>
    let '(edges, sep) := st in
    e ← vget edges i;
    r ← tst (pe_n1 e) (pe_n2 e) [] 1;
    if ci_indep r then edges ← vset edges i (with_remove e true); Ok (edges, sep_insert (pe_pair e) [] sep)
    else Ok (edges, sep)) (edges, sep).
(** L209-232. *)
Fixpoint levels (ds : list nat) (fuel g : nat) (sch : nat -> schedule) (edges : list pedge) (adj : adjs) (sep : sepmap) : outcome (list pedge * adjs * sepmap) :=
  match ds with
  | [] => Ok (edges, adj, sep)
  | d :: ds =>
      r ← search_at_depth fuel d g (sch d) edges adj sep;
      let '(edges, adj, sep, more) := r in
      if (more : bool) then levels ds fuel g sch edges adj sep else Ok (edges, adj, sep)
  end.
(** L84-232; [n] is the number of variables, [depth] the field [depth] and [g] the group size. *)
Definition skeleton_search (n depth fuel g : nat) (sch : nat -> schedule) : outcome (list pedge * adjs * sepmap) :=
  ps ← complete_graph n;
  edges ← mcollect ps (fun p => match p with Some p => Ok (new_pedge p) | None => Err Uninit end);
  let adj := (fun i => serase i (seq 0 n)) <$> seq 0 n in
  r ← level_zero (sch 0 0 (length edges)) edges ∅;
  let '(edges, sep) := r in
  r ← remove_marked edges adj;
  let '(edges, adj) := r in
  levels (seq 1 (depth - 1)) fuel g sch edges adj sep.

(** ** Shared objects *)
(** What an iteration of the parallel loop of level 0 (L137-176) writes besides its own edge:
    the counter (L151) and, if independent, the map of separating sets (L173). *)
Inductive shared := CounterCell | SepsetMap.
Definition shared_writes (e : pedge) : outcome (list shared) :=
  r ← tst (pe_n1 e) (pe_n2 e) [] 1; Ok (CounterCell :: if ci_indep r then [SepsetMap] else []).
End search.
Notation schedule := (nat -> nat -> list nat).
