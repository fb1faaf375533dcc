(** Model of the objects the five jobs of fastpgm_api.cpp create with [new] and destroy with [delete]: who owns
    them, through which pointers they are used, and what is left when a job returns. The values computed are not
    part of this model: sizes, answers of the tests and the shape of the tree are arguments, so that a theorem for
    all arguments covers every run. Objects with automatic storage, strings, vectors, maps and sets are not
    modelled, and neither are the objects of the XML library. *)
From stdpp Require Export prelude.

(** ** Pointers, objects, heap *)
(** [PWild] is a pointer that was never written. *)
Inductive ptr := PNull | PWild | PTo (l : nat).
Global Instance ptr_eq_dec : EqDecision ptr.
Proof. solve_decision. Defined.

(** Edge.h L13. *)
Inductive stage := SNo | SNode1 | SENode1 | SNode2.
(** Edge.h L15-27: the fields used here. *)
Record edge := mkEdge { e_node1 : ptr; e_node2 : ptr; e_cg : ptr; e_stage : stage; e_remove : bool }.
(** Edge.cpp L7-34: no constructor writes [cg]. *)
Definition new_edge (a b : ptr) : edge := mkEdge a b PWild SNo false.

(** The objects; every field that holds a pointer is kept. *)
Inductive object :=
| OInts                                                     (* int[] *)
| OPointers (l : list ptr)                                  (* int*[] *)
| OCopies                                                   (* Clique[], Separator[]: JunctionTree.h L48-49 *)
| OTimer                                                    (* Timer.h *)
| ODataset (rows vars : nat) (all cols : ptr)               (* Dataset.h L19-33 *)
| ONode                                                     (* DiscreteNode.h *)
| ONetwork (nodes : list ptr) (edges : list edge)           (* Network.h L27-42, CustomNetwork.h *)
| OLearner (net : ptr)                                      (* PCStable.h *)
| OParams (net : ptr)                                       (* ParameterLearning.h *)
| OTest (dts : ptr)                                         (* IndependenceTest.h *)
| OCounts2 (arrays : list ptr)                              (* CellTable.h, Counts2D *)
| OCounts3 (arrays : list ptr)                              (* CellTable.h, Counts3D *)
| OGroup (arrays : list ptr)                                (* CellTable.h, Counts3DGroup *)
| OChoices                                                  (* ChoiceGenerator.h *)
| OClique (nbrs : list ptr)                                 (* Clique.h L21-33 *)
| OSeparator (nbrs : list ptr) (used : bool)                (* Separator.h *)
| OTree (net : ptr) (cliques seps : list ptr)               (* JunctionTreeStructure.h *)
| OEngine (net tree cb sb : ptr)                            (* JunctionTree.h, Inference.h *)
| OSamples (net : ptr).                                     (* SampleSetGenerator.h *)

(** The live objects with their addresses; an address is never given out twice, so that a stale pointer can
    never be mistaken for a new object. [h_tests] lists the tests made so far: it only serves to state results. *)
Inductive table_kind := TwoWay | ThreeWay (deep : bool) | Grouped (deep : bool).
Record heap := mkHeap { h_next : nat; h_live : list (nat * object); h_tests : list (table_kind * bool) }.

(** What can go wrong. [Unfinished]: the list of answers ended before the search did. [Exited]: [exit(1)].
    [NoFuel]: a loop of the program did not end within the given number of rounds. *)
Inductive fault :=
| UseDead | UseNull | UseWild       (* a pointer is used whose object is gone; that is null; never written *)
| FreeDead | FreeWild               (* [delete] of an object that is gone; of a pointer never written *)
| WrongForm                         (* [delete] for [new[]], [delete[]] for [new] *)
| WrongObject                       (* an object of another class than the type of the pointer *)
| NoVirtual                         (* [delete] through a base class whose destructor is not virtual *)
| OutOfRange                        (* an index that an array or vector does not have *)
| Unfinished | Exited | NoFuel.
Inductive result (A : Type) := Done (a : A) (h : heap) | Fault (f : fault).
Arguments Done {_} _ _.
Arguments Fault {_} _.
Definition prog (A : Type) : Type := heap -> result A.
Definition ret {A} (a : A) : prog A := fun h => Done a h.
Definition bind {A B} (p : prog A) (k : A -> prog B) : prog B := fun h => match p h with Done a h' => k a h' | Fault f => Fault f end.
Definition fail {A} (f : fault) : prog A := fun _ => Fault f.
Notation "x <- p ; k" := (bind p (fun x => k)) (at level 20, p at level 100, k at level 200, right associativity).
Notation "p ;; k" := (bind p (fun _ => k)) (at level 100, k at level 200, right associativity).
Fixpoint each {A} (l : list A) (f : A -> prog unit) : prog unit :=
  match l with [] => ret tt | a :: l => f a ;; each l f end.
Fixpoint collect {A B} (l : list A) (f : A -> prog B) : prog (list B) :=
  match l with [] => ret [] | a :: l => b <- f a; bs <- collect l f; ret (b :: bs) end.
Fixpoint repeat_prog (n : nat) (p : prog unit) : prog unit := match n with O => ret tt | S n => p ;; repeat_prog n p end.

Fixpoint find_object (l : nat) (m : list (nat * object)) : option object :=
  match m with [] => None | (l', o) :: m => if bool_decide (l = l') then Some o else find_object l m end.
Fixpoint drop_object (l : nat) (m : list (nat * object)) : list (nat * object) :=
  match m with [] => [] | (l', o) :: m => if bool_decide (l = l') then m else (l', o) :: drop_object l m end.
Fixpoint put_object (l : nat) (o : object) (m : list (nat * object)) : list (nat * object) :=
  match m with [] => [] | (l', o') :: m => if bool_decide (l = l') then (l', o) :: m else (l', o') :: put_object l o m end.

(** [new]. *)
Definition new (o : object) : prog ptr := fun h => Done (PTo (h_next h)) (mkHeap (S (h_next h)) ((h_next h, o) :: h_live h) (h_tests h)).
(** [*p], [p->...]. *)
Definition deref (p : ptr) : prog object := fun h =>
  match p with
  | PNull => Fault UseNull
  | PWild => Fault UseWild
  | PTo l => match find_object l (h_live h) with Some o => Done o h | None => Fault UseDead end
  end.
(** An assignment to fields of [*p]. *)
Definition assign (p : ptr) (o : object) : prog unit :=
  deref p ;; fun h => match p with PTo l => Done tt (mkHeap (h_next h) (put_object l o (h_live h)) (h_tests h)) | _ => Fault UseNull end.
(** The storage of [*p] is given back, after its destructor has run. *)
Definition release (p : ptr) : prog unit := fun h =>
  match p with
  | PNull => Done tt h
  | PWild => Fault FreeWild
  | PTo l => match find_object l (h_live h) with
             | Some _ => Done tt (mkHeap (h_next h) (drop_object l (h_live h)) (h_tests h))
             | None => Fault FreeDead
             end
  end.
Definition note_test (t : table_kind) (flat : bool) : prog unit := fun h => Done tt (mkHeap (h_next h) (h_live h) ((t, flat) :: h_tests h)).
(** The object a [delete] is about. *)
Definition victim (p : ptr) : prog (option object) := fun h =>
  match p with
  | PNull => Done None h
  | PWild => Fault FreeWild
  | PTo l => match find_object l (h_live h) with Some o => Done (Some o) h | None => Fault FreeDead end
  end.
Definition is_array (o : object) : bool := match o with OInts | OPointers _ | OCopies => true | _ => false end.
(** [delete[] p] and [SAFE_DELETE_ARRAY], common.h L19; the elements have no destructor to run, or (OCopies) one
    that does nothing with pointers. *)
Definition delete_array (p : ptr) : prog unit :=
  o <- victim p;
  match o with None => ret tt | Some o => if is_array o then release p else fail WrongForm end.
(** [delete p] and [SAFE_DELETE], common.h L18, for a class whose destructor does nothing with pointers;
    [own] tells the objects of the type of [p]. *)
Definition delete_plain (own : object -> bool) (p : ptr) : prog unit :=
  o <- victim p;
  match o with
  | None => ret tt
  | Some o => if is_array o then fail WrongForm else if own o then release p else fail WrongObject
  end.
Definition is_timer o := match o with OTimer => true | _ => false end.
Definition is_test o := match o with OTest _ => true | _ => false end.
Definition is_choices o := match o with OChoices => true | _ => false end.
Definition is_params o := match o with OParams _ => true | _ => false end.
Definition is_samples o := match o with OSamples _ => true | _ => false end.
(** Clique.h L42: the destructor is virtual, so a [Separator] may be deleted through a [Clique*]. *)
Definition is_clique o := match o with OClique _ | OSeparator _ _ => true | _ => false end.
Definition is_separator o := match o with OSeparator _ _ => true | _ => false end.
Definition touch (p : ptr) : prog unit := deref p ;; ret tt.
Definition at_index {A} (l : list A) (i : nat) : prog A := match l !! i with Some a => ret a | None => fail OutOfRange end.

(** ** Arrays *)
Definition new_ints : prog ptr := new OInts.
(** [int **a = new int*[n]; for (i < n) a[i] = new int[...]]. *)
Definition new_rows (n : nat) : prog ptr :=
  a <- new (OPointers (replicate n PWild));
  each (seq 0 n) (fun i => r <- new_ints; o <- deref a; match o with OPointers l => assign a (OPointers (<[i := r]> l)) | _ => fail WrongObject end) ;;
  ret a.
Definition rows_of (a : ptr) : prog (list ptr) := o <- deref a; match o with OPointers l => ret l | _ => fail WrongObject end.
Definition touch_rows (a : ptr) : prog unit := l <- rows_of a; each l touch.
(** [for (i < n) SAFE_DELETE_ARRAY(a[i])]: also sets the elements to null. *)
Definition delete_rows (a : ptr) (n : nat) : prog unit :=
  each (seq 0 n) (fun i =>
    l <- rows_of a; r <- at_index l i; delete_array r ;; assign a (OPointers (<[i := PNull]> l))).
(** Local arrays of [int] that are used and deleted again. *)
Definition scratch (n : nat) : prog unit := ps <- collect (seq 0 n) (fun _ => new_ints); each ps touch ;; each ps delete_array.
(** A local matrix: Network.cpp L390-410 ([GenTopoOrd]), L516-540 ([ContainCircle]). *)
Definition matrix_and_degrees (n : nat) : prog unit :=
  g <- new_rows n; d <- new_ints; touch_rows g ;; touch d ;; delete_rows g n ;; delete_array g ;; delete_array d.

(** ** Datasets *)
(** Dataset.cpp L7-10, L15-18, L23-34; L23-34 read the nodes of the network. *)
Definition new_dataset (vars : nat) : prog ptr := new (ODataset 0 vars PNull PNull).
Definition dataset_of (p : ptr) : prog (nat * nat * ptr * ptr) := o <- deref p; match o with ODataset r v a c => ret (r, v, a, c) | _ => fail WrongObject end.
(** Dataset.cpp L828-841 [Vector2IntArray]. *)
Definition vector_to_array (p : ptr) : prog unit :=
  d <- dataset_of p; let '(r, v, a, c) := d in
  a <- new_rows r; touch_rows a ;; assign p (ODataset r v a c).
(** Dataset.cpp L848-858 [RowMajor2ColumnMajor]. *)
Definition row_to_column (p : ptr) : prog unit :=
  d <- dataset_of p; let '(r, v, a, c) := d in
  c <- new_rows v; (if bool_decide (v = 0) then ret tt else touch_rows a) ;; touch_rows c ;; assign p (ODataset r v a c).
(** Dataset.cpp L378-500 [LoadCSVTrainingData], with [r] instances of [v] variables; the arrays at L492-496. *)
Definition load_training (p : ptr) (r v : nat) : prog unit :=
  d <- dataset_of p; let '(_, _, a, c) := d in
  assign p (ODataset r v a c) ;; vector_to_array p ;; row_to_column p.
(** Dataset.cpp L505-640 [LoadCSVTestingData], L265-375 [LoadLIBSVMTestingData]: no array is made. *)
Definition load_testing (p : ptr) (r : nat) : prog unit :=
  d <- dataset_of p; let '(_, v, a, c) := d in assign p (ODataset r v a c).
(** Dataset.cpp L36-50, then [delete]. *)
Definition delete_dataset (p : ptr) : prog unit :=
  o <- victim p;
  match o with
  | None => ret tt
  | Some (ODataset r v a c) =>
      (if bool_decide (a = PNull) then ret tt else delete_rows a r ;; delete_array a) ;;
      (if bool_decide (c = PNull) then ret tt else delete_rows c v ;; delete_array c) ;;
      release p
  | Some o => fail (if is_array o then WrongForm else WrongObject)
  end.
(** Reading the columns, as every counting loop does: CellTable.cpp, ParameterLearning.cpp L36-66. *)
Definition read_columns (p : ptr) : prog unit :=
  d <- dataset_of p; let '(r, v, a, c) := d in touch_rows c.

(** ** Networks *)
Definition network_of (p : ptr) : prog (list ptr * list edge) := o <- deref p; match o with ONetwork n e => ret (n, e) | _ => fail WrongObject end.
(** Network.cpp L8-12, CustomNetwork.cpp L6-10. *)
Definition new_network : prog ptr := new (ONetwork [] []).
(** [k] nodes are created and entered: StructureLearning.cpp L11-36 ([AssignNodeInformation]), CustomNetwork.cpp
    L90-95 ([LoadBIFFile]), XMLBIFParser.cpp L43-62 with CustomNetwork.cpp L28-32 ([LoadXMLBIFFile]). *)
Definition add_nodes (net : ptr) (k : nat) : prog unit :=
  each (seq 0 k) (fun _ => n <- new ONode; x <- network_of net; assign net (ONetwork (fst x ++ [n]) (snd x))).
(** Everything that only reads or changes nodes through the pointers the network holds. *)
Definition use_network (net : ptr) : prog unit :=
  x <- network_of net; each (fst x) touch ;; each (snd x) (fun e => touch (e_node1 e) ;; touch (e_node2 e)).
(** Network.cpp L65-73 [FindNodePtrByIndex]. *)
Definition find_node (net : ptr) (i : nat) : prog ptr := x <- network_of net; match fst x !! i with Some p => ret p | None => fail Exited end.
(** New edges between the nodes with the given indices; [keep] tells which of the old ones stay. *)
Definition set_edges (net : ptr) (keep : nat -> bool) (l : list (nat * nat)) : prog unit :=
  x <- network_of net;
  es <- collect l (fun ab => a <- find_node net (fst ab); b <- find_node net (snd ab); ret (new_edge a b));
  assign net (ONetwork (fst x) ((snd <$> filter (fun ie => keep (fst ie) = true) (imap (fun i e => (i, e)) (snd x))) ++ es)).
(** Network.cpp L56-62: the nodes are deleted through [Node*]. Node.h declares no destructor, so it is not virtual
    and deleting a [DiscreteNode] this way is undefined behaviour; with [strict = false] the usual outcome is
    taken: the storage is given back. *)
Definition delete_node (strict : bool) (p : ptr) : prog unit :=
  o <- victim p;
  match o with
  | None => ret tt
  | Some ONode => if strict then fail NoVirtual else release p
  | Some o => fail (if is_array o then WrongForm else WrongObject)
  end.
Definition delete_network (strict : bool) (p : ptr) : prog unit :=
  o <- victim p;
  match o with
  | None => ret tt
  | Some (ONetwork n e) => each n (delete_node strict) ;; release p
  | Some o => fail (if is_array o then WrongForm else WrongObject)
  end.

(** ** Independence tests *)
Definition array_count (t : table_kind) : nat :=
  match t with TwoWay => 3 | ThreeWay deep => if deep then 5 else 4 | Grouped deep => if deep then 6 else 5 end.
(** CellTable.cpp L24-72, L92-150, L173-193: the arrays of a table; [cum_levels] only for deeper sets. *)
Definition new_table (t : table_kind) : prog ptr :=
  ps <- collect (seq 0 (array_count t)) (fun _ => new_ints);
  new (match t with TwoWay => OCounts2 ps | ThreeWay _ => OCounts3 ps | Grouped _ => OGroup ps end).
Definition arrays_of (o : object) : option (list ptr) := match o with OCounts2 l | OCounts3 l | OGroup l => Some l | _ => None end.
(** CellTable.cpp L74-90, L152-171, L195-205. *)
Definition delete_table (p : ptr) : prog unit :=
  o <- victim p;
  match o with
  | None => ret tt
  | Some o => match arrays_of o with Some l => each l delete_array ;; release p | None => fail (if is_array o then WrongForm else WrongObject) end
  end.
Definition use_table (p : ptr) : prog unit := o <- deref p; match arrays_of o with Some l => each l touch | None => fail WrongObject end.
(** IndependenceTest.cpp L65-155 ([ComputeGSquareXYZ]), L295-364 ([ComputeGSquareXY]): with no degree of freedom
    ([flat]) they return before the table is deleted, L140-142 and L349-351. L163-287 ([ComputeGSquareXYZGroup])
    deletes it always; its [g] rounds and [FillTableGroup] (CellTable.cpp L295-425) use local arrays. *)
Definition compute (t : table_kind) (flat : bool) (g : nat) (test : ptr) : prog unit :=
  o <- deref test;
  match o with
  | OTest dts =>
      dataset_of dts ;;
      tab <- new_table t;
      read_columns dts ;; use_table tab ;;
      (match t with Grouped _ => scratch 1 ;; scratch 3 ;; repeat_prog g (scratch 3 ;; use_table tab) | _ => ret tt end) ;;
      note_test t flat ;;
      (match t, flat with Grouped _, _ | _, false => delete_table tab | _, true => ret tt end)
  | _ => fail WrongObject
  end.
(** PCStable.cpp L146-149, L562-565. *)
Definition ci_test (t : table_kind) (flat : bool) (g : nat) (dts : ptr) : prog unit :=
  test <- new (OTest dts); compute t flat g test ;; delete_plain is_test test.

(** ** PC-Stable *)
(** One call of [CheckEdge]: whether the two nodes have enough neighbours, whether a set is left to be tested,
    the kind of table, whether it has no degree of freedom, the answer, and whether the sets are exhausted. *)
Record answer := mkAnswer { a_first : bool; a_second : bool; a_some : bool; a_kind : table_kind; a_flat : bool; a_size : nat; a_indep : bool; a_finish : bool }.
Definition edge_at (net : ptr) (i : nat) : prog edge := x <- network_of net; at_index (snd x) i.
Definition set_edge (net : ptr) (i : nat) (e : edge) : prog unit := x <- network_of net; assign net (ONetwork (fst x) (<[i := e]> (snd x))).
Definition with_choices (e : edge) (p : ptr) (s : stage) : edge := mkEdge (e_node1 e) (e_node2 e) p s (e_remove e).
Definition with_mark (e : edge) (b : bool) : edge := mkEdge (e_node1 e) (e_node2 e) (e_cg e) (e_stage e) b.
(** PCStable.cpp L426, L434, L454. *)
Definition start (net : ptr) (i : nat) (s : stage) : prog unit :=
  g <- new OChoices; e <- edge_at net i; set_edge net i (with_choices e g s).
(** PCStable.cpp L476, L484, L488. *)
Definition stop (net : ptr) (i : nat) : prog unit :=
  e <- edge_at net i; delete_plain is_choices (e_cg e) ;; set_edge net i (with_choices e PNull (e_stage e)).
(** PCStable.cpp L526-614 [Testing]: the choice generator is used. *)
Definition testing (net dts : ptr) (i : nat) (a : answer) : prog unit :=
  e <- edge_at net i;
  touch (e_cg e) ;; touch (e_node1 e) ;; touch (e_node2 e) ;;
  if a_some a then ci_test (a_kind a) (a_flat a) (a_size a) dts else ret tt.
(** PCStable.cpp L399-494 [CheckEdge]; the result tells whether the edge has to be visited again. *)
Definition check_edge (net dts : ptr) (i : nat) (a : answer) : prog bool :=
  let go :=
    testing net dts i a ;;
    if a_some a && a_indep a then stop net i ;; e <- edge_at net i; set_edge net i (with_mark e true) ;; ret false
    else if negb (a_finish a) then ret true
    else
      e <- edge_at net i;
      match e_stage e with
      | SNode1 => stop net i ;; e <- edge_at net i; set_edge net i (with_choices e (e_cg e) SENode1) ;; ret true
      | _ => stop net i ;; e <- edge_at net i; set_edge net i (with_mark e false) ;; ret false
      end in
  let give_up := e <- edge_at net i; set_edge net i (with_mark e false) ;; ret false in
  e <- edge_at net i;
  touch (e_node1 e) ;; touch (e_node2 e) ;;
  match e_stage e with
  | SNo => if a_first a then start net i SNode1 ;; go else if a_second a then start net i SNode2 ;; go else give_up
  | SENode1 => if a_second a then start net i SNode2 ;; go else give_up
  | SNode1 | SNode2 => go
  end.
(** PCStable.cpp L265-388 [SearchAtDepth]: the edges that are still to be visited, in any order; every batch and
    every order of its iterations is one such list of visits. *)
Fixpoint visits (net dts : ptr) (l : list (nat * answer)) (pending : list nat) : prog unit :=
  match l with
  | [] => if bool_decide (pending = []) then ret tt else fail Unfinished
  | (i, a) :: l =>
      if bool_decide (i ∈ pending) then
        again <- check_edge net dts i a;
        visits net dts l (if (again : bool) then pending else filter (fun j => j <> i) pending)
      else fail Unfinished
  end.
Definition remove_marked (net : ptr) : prog unit :=
  x <- network_of net; assign net (ONetwork (fst x) (filter (fun e => e_remove e = false) (snd x))).
Definition search_at_depth (net dts : ptr) (l : list (nat * answer)) : prog unit :=
  x <- network_of net;
  assign net (ONetwork (fst x) ((fun e => with_choices e (e_cg e) SNo) <$> snd x)) ;;
  visits net dts l (seq 0 (length (snd x))) ;;
  remove_marked net.
(** The answers of a whole run: [r_zero] the tests of level 0 (L134-177: no degree of freedom, independent), [r_levels] the visits of every level
    (L209-232), [r_edges] the edges of the complete graph, [r_kept] and [r_added] the edges that the orientation
    (L240-251) keeps and adds, [r_circles] the number of calls of [ContainCircle] (Network.cpp L181). *)
Record learning := mkLearning {
  r_edges : list (nat * nat); r_zero : nat -> bool * bool; r_levels : list (list (nat * answer));
  r_kept : nat -> bool; r_added : list (nat * nat); r_circles : nat; r_roots : list nat; r_topo : bool }.
Definition size_of (net : ptr) : prog nat := x <- network_of net; ret (length (fst x)).
(** PCStable.cpp L133-195. *)
Definition level_zero (net dts : ptr) (zero : nat -> bool * bool) : prog unit :=
  x <- network_of net;
  each (seq 0 (length (snd x))) (fun i =>
    e <- edge_at net i; touch (e_node1 e) ;; touch (e_node2 e) ;;
    ci_test TwoWay (fst (zero i)) 1 dts ;;
    e <- edge_at net i; set_edge net i (if snd (zero i) then with_mark e true else e)) ;;
  remove_marked net.
(** StructureLearning.cpp L151-206, L217-236. *)
Definition add_root (net : ptr) (roots : list nat) : prog unit :=
  scratch 1 ;; use_network net ;;
  r <- new ONode;
  es <- collect roots (fun i => c <- find_node net i; touch c ;; touch r ;; ret (new_edge r c));
  x <- network_of net; assign net (ONetwork (fst x ++ [r]) (snd x ++ es)).
Definition learner_net (bnsl : ptr) : prog ptr := o <- deref bnsl; match o with OLearner net => ret net | _ => fail WrongObject end.
(** PCStable.cpp L25-82 [StructLearnCompData], L84-251; [root]: dag and ROOT are asked for; [save]: L51-53 with
    StructureLearning.cpp L238-293, which sorts the nodes if the first edge is directed ([r_topo]). *)
Definition learn_structure (bnsl dts : ptr) (root save : bool) (r : learning) : prog unit :=
  net <- learner_net bnsl;
  timer <- new OTimer;
  touch timer ;;
  d <- dataset_of dts;
  add_nodes net (snd (fst (fst d))) ;;
  set_edges net (fun _ => true) (r_edges r) ;;
  level_zero net dts (r_zero r) ;;
  each (r_levels r) (search_at_depth net dts) ;;
  use_network net ;;
  set_edges net (r_kept r) (r_added r) ;;
  n <- size_of net;
  repeat_prog (r_circles r) (matrix_and_degrees n) ;;
  use_network net ;;
  touch timer ;;
  (if root then add_root net (r_roots r) else ret tt) ;;
  n <- size_of net;
  (if save then use_network net ;; (if r_topo r then matrix_and_degrees n else ret tt) else ret tt) ;;
  touch timer ;;
  delete_plain is_timer timer.
(** PCStable.cpp L14-16: the destructor deletes the network; StructureLearning.h L17: it is virtual. *)
Definition delete_learner (strict : bool) (p : ptr) : prog unit :=
  o <- victim p;
  match o with
  | None => ret tt
  | Some (OLearner net) => delete_network strict net ;; release p
  | Some o => fail (if is_array o then WrongForm else WrongObject)
  end.
(** fastpgm_api.cpp L32-41, L59-68, L112-121, with BNSLComparison.cpp L12-75 and Network.cpp L548-600, where the
    nodes are sorted once. *)
Definition compare (strict : bool) (net : ptr) (ref : option (nat * list (nat * nat))) : prog unit :=
  match ref with
  | None => ret tt
  | Some (k, es) =>
      r_net <- new_network;
      add_nodes r_net k ;; set_edges r_net (fun _ => true) es ;;
      use_network net ;; matrix_and_degrees k ;; use_network r_net ;; delete_network strict r_net
  end.

(** ** Parameters *)
Definition params_net (bnpl : ptr) : prog ptr := o <- deref bnpl; match o with OParams net => ret net | _ => fail WrongObject end.
(** ParameterLearning.cpp L10-115 [LearnParamsKnowStructCompData]: [parents] tells which nodes have parents. The
    timer (L18) is never deleted; L116-160 [SaveBNParameter]: neither is the array of L133. *)
Definition learn_parameters (bnpl dts : ptr) (save : bool) (parents : nat -> bool) : prog unit :=
  net <- params_net bnpl;
  timer <- new OTimer;
  touch timer ;;
  d <- dataset_of dts; let '(r, v, _, _) := d in
  each (seq 0 v) (fun i =>
    n <- find_node net i; touch n ;;
    (if parents i then repeat_prog r (read_columns dts ;; scratch 1) else read_columns dts)) ;;
  n <- size_of net;
  (if bool_decide (n = v) then ret tt else p <- find_node net v; touch p) ;;
  touch timer ;;
  if save then
    each (seq 0 n) (fun i =>
      p <- find_node net i; touch p ;;
      if parents i then config <- new_ints; touch config else ret tt)
  else ret tt.

(** ** The junction tree *)
(** The shape of the tree: the number of cliques, which pairs share variables and how many, the numbers of nodes
    with two parents and of arrays used for potentials and re-ordering. *)
Record tree_shape := mkShape { t_cliques : nat; t_weight : nat -> nat -> nat; t_pairs : nat; t_products : nat; t_reorders : nat }.
Definition sep_of (p : ptr) : prog (list ptr * bool) := o <- deref p; match o with OSeparator n u => ret (n, u) | _ => fail WrongObject end.
(** JunctionTreeStructure.cpp L232-256: a separator for every pair that shares a variable; the weight, the number
    of its variables, is kept beside its address. *)
Definition pairs_below (k : nat) : list (nat * nat) := (seq 0 k) ≫= (fun i => (fun j => (i, j)) <$> seq (S i) (k - S i)).
Definition candidates (cliques : list ptr) (w : nat -> nat -> nat) : prog (list (ptr * nat)) :=
  collect (filter (fun ij => w (fst ij) (snd ij) <> 0) (pairs_below (length cliques))) (fun ij =>
    a <- at_index cliques (fst ij); b <- at_index cliques (snd ij);
    touch a ;; touch b ;;
    s <- new (OSeparator [a; b] false); ret (s, w (fst ij) (snd ij))).
(** L265-280: the heaviest separator between the tree and the rest ([std::set] orders by address: the order of
    the list; see C11 for the other orders). *)
Fixpoint heaviest (inside : list ptr) (l : list (ptr * nat)) (best : ptr) (weight : nat) : prog ptr :=
  match l with
  | [] => ret best
  | (s, w) :: l =>
      x <- sep_of s;
      a <- at_index (fst x) 0; b <- at_index (fst x) 1;
      if (bool_decide (a ∈ inside) && negb (bool_decide (b ∈ inside))) || (negb (bool_decide (a ∈ inside)) && bool_decide (b ∈ inside))
      then if bool_decide (best = PNull) || bool_decide (weight < w) then heaviest inside l s w else heaviest inside l best weight
      else heaviest inside l best weight
  end.
Definition insert_ptr (p : ptr) (l : list ptr) : list ptr := if bool_decide (p ∈ l) then l else p :: l.
(** L264-289. *)
Fixpoint grow (fuel k : nat) (l : list (ptr * nat)) (inside chosen : list ptr) : prog (list ptr) :=
  if bool_decide (length inside < k) then
    match fuel with
    | O => fail NoFuel
    | S f =>
        s <- heaviest inside l PNull 0;
        x <- sep_of s;
        assign s (OSeparator (fst x) true) ;;
        a <- at_index (fst x) 0; b <- at_index (fst x) 1;
        grow f k l (insert_ptr b (insert_ptr a inside)) (chosen ++ [s])
    end
  else ret chosen.
Definition clique_of (p : ptr) : prog (list ptr) := o <- deref p; match o with OClique n => ret n | _ => fail WrongObject end.
(** L291-297. *)
Definition attach (s : ptr) : prog unit :=
  x <- sep_of s;
  a <- at_index (fst x) 0; b <- at_index (fst x) 1;
  n <- clique_of a; assign a (OClique (insert_ptr s n)) ;;
  n <- clique_of b; assign b (OClique (insert_ptr s n)).
(** L299-307: the separators that are not in the tree are deleted. *)
Definition prune (l : list (ptr * nat)) : prog unit :=
  each l (fun sw => x <- sep_of (fst sw); if (snd x : bool) then ret tt else delete_plain is_separator (fst sw)).
(** JunctionTreeStructure.cpp L15-56 with Network.cpp L495-510 (the matrix) and L73-117 ([Moralize]). *)
Definition new_tree (net : ptr) (t : tree_shape) : prog ptr :=
  n <- size_of net;
  m <- new_rows n;
  use_network net ;;
  repeat_prog (t_pairs t) (c <- new OChoices; touch c ;; delete_plain is_choices c) ;;
  touch_rows m ;;
  cliques <- collect (seq 0 (t_cliques t)) (fun _ => new (OClique []));
  delete_rows m n ;; delete_array m ;;
  cands <- candidates cliques (t_weight t);
  c0 <- at_index cliques 0;
  chosen <- grow (t_cliques t) (t_cliques t) cands [c0] [];
  each chosen attach ;;
  prune cands ;;
  use_network net ;;
  repeat_prog (t_products t) (scratch 4) ;;
  each cliques touch ;;
  new (OTree net cliques chosen).
Definition tree_of (p : ptr) : prog (ptr * list ptr * list ptr) := o <- deref p; match o with OTree n c s => ret (n, c, s) | _ => fail WrongObject end.
(** JunctionTreeStructure.cpp L58-66. *)
Definition delete_tree (p : ptr) : prog unit :=
  o <- victim p;
  match o with
  | None => ret tt
  | Some (OTree n c s) => each c (delete_plain is_clique) ;; each s (delete_plain is_separator) ;; release p
  | Some o => fail (if is_array o then WrongForm else WrongObject)
  end.
(** Walking over the tree: every clique and separator and the neighbours of each are used. The pointers to the
    upstream and downstream neighbours and the lists by level are copies of these. *)
Definition walk (tree : ptr) : prog unit :=
  x <- tree_of tree; let '(_, cs, ss) := x in
  each cs (fun c => n <- clique_of c; each n touch) ;;
  each ss (fun s => n <- sep_of s; each (fst n) touch).
(** JunctionTree.cpp L3-45: choosing the root and the levels (L60-150), re-ordering (L155-203), copies (L211-223). *)
Definition new_engine (net dts : ptr) (t : tree_shape) : prog ptr :=
  dataset_of dts ;;
  timer <- new OTimer; touch timer ;;
  tree <- new_tree net t;
  walk tree ;;
  repeat_prog (t_reorders t) (scratch 4) ;;
  cb <- new OCopies; sb <- new OCopies;
  walk tree ;;
  touch cb ;; touch sb ;;
  touch timer ;; delete_plain is_timer timer ;;
  new (OEngine net tree cb sb).
Definition engine_of (p : ptr) : prog (ptr * ptr * ptr * ptr) := o <- deref p; match o with OEngine n t c s => ret (n, t, c, s) | _ => fail WrongObject end.
(** JunctionTree.cpp L47-51; Inference.h L51: the destructor is virtual. *)
Definition delete_engine (p : ptr) : prog unit :=
  o <- victim p;
  match o with
  | None => ret tt
  | Some (OEngine n t c s) => delete_tree t ;; delete_array c ;; delete_array s ;; release p
  | Some o => fail (if is_array o then WrongForm else WrongObject)
  end.
(** [k] local arrays of arrays of [int] with [n] rows and [s] plain ones, all deleted at the end: JunctionTree.cpp
    L381-448 (k = 2, s = 2), L978-1069 and L1072-1160 (k = 1, s = 3), L622-738 and L751-856 (k = 4, s = 3). *)
Definition level_arrays (k s n : nat) : prog unit :=
  ps <- collect (seq 0 s) (fun _ => new_ints);
  rs <- collect (seq 0 k) (fun _ => new_rows n);
  each rs touch_rows ;; each ps touch ;;
  each rs (fun r => delete_rows r n) ;;
  each rs delete_array ;; each ps delete_array.
(** One query: sizes of the tables that evidence is entered into, of the levels of the tree, and whether
    a marginal has to be computed (once for the class, or for every variable that is not given). *)
Record query := mkQuery { q_evidence : list nat; q_collect : list (bool * nat); q_distribute : list (bool * nat); q_marginals : nat }.
(** PotentialTableBase.cpp L519-552 [TableMarginalization]: [table_index] (L531) is not deleted. *)
Definition marginalize : prog unit :=
  ps <- collect (seq 0 3) (fun _ => new_ints); ti <- new_ints;
  each ps touch ;; touch ti ;; each ps delete_array ;; touch ti.
(** JunctionTree.cpp L1395-1432 [PredictUseJTInfer], L1162-1254 (levels), L1265-1380 (answers), L225-233 (reset). *)
Definition answer_query (eng timer : ptr) (q : query) : prog unit :=
  x <- engine_of eng; let '(net, tree, cb, sb) := x in
  touch timer ;;
  each (q_evidence q) (fun n => walk tree ;; level_arrays 2 2 n) ;;
  walk tree ;;
  each (q_collect q) (fun l => walk tree ;; if fst l then level_arrays 1 3 (snd l) else level_arrays 4 3 (snd l)) ;;
  each (q_distribute q) (fun l => walk tree ;; if fst l then level_arrays 4 3 (snd l) else level_arrays 1 3 (snd l)) ;;
  use_network net ;;
  repeat_prog (q_marginals q) marginalize ;;
  walk tree ;; touch cb ;; touch sb ;; touch timer.
(** JunctionTree.cpp L1438-1519 [Predict]. *)
Definition predict (eng : ptr) (qs : list query) : prog unit :=
  timer <- new OTimer; touch timer ;;
  each qs (answer_query eng timer) ;;
  touch timer ;; delete_plain is_timer timer.

(** ** The jobs *)
Section jobs.
Context (strict : bool).
(** fastpgm_api.cpp L18-44 [BNSL_PCStable]: [rows] and [vars] of the training set. *)
Definition job_structure (rows vars : nat) (save : bool) (r : learning) (ref : option (nat * list (nat * nat))) : prog unit :=
  trainer <- new_dataset 0;
  load_training trainer rows vars ;;
  network <- new_network;
  bnsl <- new (OLearner network);
  learn_structure bnsl trainer false save r ;;
  delete_dataset trainer ;;
  compare strict network ref ;;
  delete_network strict network.
(** fastpgm_api.cpp L46-75 [BNL_PCStable]. *)
Definition job_learn (rows vars : nat) (save_struct save_param : bool) (r : learning) (ref : option (nat * list (nat * nat))) (parents : nat -> bool) : prog unit :=
  trainer <- new_dataset 0;
  load_training trainer rows vars ;;
  network <- new_network;
  bnsl <- new (OLearner network);
  learn_structure bnsl trainer false save_struct r ;;
  compare strict network ref ;;
  bnpl <- new (OParams network);
  learn_parameters bnpl trainer save_param parents ;;
  delete_dataset trainer ;;
  delete_network strict network.
(** fastpgm_api.cpp L77-94 [BNEI_JT]: a network of [k] nodes, [rows] queries. *)
Definition job_infer (k : nat) (es : list (nat * nat)) (rows : nat) (t : tree_shape) (qs : list query) : prog unit :=
  network <- new_network;
  add_nodes network k ;; set_edges network (fun _ => true) es ;;
  use_network network ;;
  tester <- new_dataset k;
  load_testing tester rows ;;
  inference <- new_engine network tester t;
  delete_dataset tester ;;
  predict inference qs ;;
  delete_engine inference ;;
  delete_network strict network.
(** fastpgm_api.cpp L96-135 [C_PCStable_JT]. *)
Definition job_classify (rows vars test_rows : nat) (save_struct save_param : bool) (r : learning) (ref : option (nat * list (nat * nat))) (parents : nat -> bool) (t : tree_shape) (qs : list query) : prog unit :=
  trainer <- new_dataset 0;
  load_training trainer rows vars ;;
  dataset_of trainer ;;
  tester <- new_dataset vars;
  load_testing tester test_rows ;;
  network <- new_network;
  bnsl <- new (OLearner network);
  learn_structure bnsl trainer true save_struct r ;;
  compare strict network ref ;;
  bnpl <- new (OParams network);
  learn_parameters bnpl trainer save_param parents ;;
  delete_dataset trainer ;;
  inference <- new_engine network tester t;
  delete_dataset tester ;;
  predict inference qs ;;
  delete_engine inference ;;
  delete_learner strict bnsl ;;
  delete_plain is_params bnpl.
(** SampleSetGenerator.cpp L6-50: tables of the nodes, with local arrays (PotentialTableBase.cpp L54-63), the order
    of the nodes for every sample (Network.cpp L385-410), local arrays for the rows (PotentialTableBase.cpp L393-401). *)
Definition generate (gen : ptr) (samples : nat) (parents : nat -> bool) : prog unit :=
  o <- deref gen;
  match o with
  | OSamples net =>
      n <- size_of net;
      each (seq 0 n) (fun i => p <- find_node net i; touch p ;; if parents i then scratch 1 else ret tt) ;;
      repeat_prog samples (
        matrix_and_degrees n ;; use_network net ;;
        each (seq 0 n) (fun i => if parents i then scratch 1 else ret tt))
  | _ => fail WrongObject
  end.
(** fastpgm_api.cpp L137-170 [Sample_Generator]. *)
Definition job_sample (k : nat) (es : list (nat * nat)) (libsvm : bool) (samples : nat) (parents : nat -> bool) : prog unit :=
  network <- new_network;
  add_nodes network k ;; set_edges network (fun _ => true) es ;;
  sample_set <- new (OSamples network);
  generate sample_set samples parents ;;
  use_network network ;;
  delete_plain is_samples sample_set ;;
  if libsvm then delete_network strict network
  else
    use_network network ;;
    dts <- new_dataset k;
    load_testing dts samples ;;
    use_network network ;;
    delete_network strict network ;;
    dataset_of dts ;;
    delete_dataset dts.
End jobs.
