(** Model of JunctionTreeStructure.cpp (construction of the clique tree) and of
    JunctionTree.cpp (levels, storage order, evidence, message passing, queries).

    Pointers to cliques and separators are modelled by their positions in the containers.
    A [std::set] of pointers is iterated in address order, which the program does not control:
    the model takes an arbitrary order as a parameter ([mem_order]).  Parallel loops take an
    arbitrary schedule ([ParModel.v]).  Console output and timers are omitted. *)
From Verif Require Export TableModel UtilModel GraphModel ParModel.
Local Open Scope nat_scope.

(** ** JunctionTreeStructure.cpp *)
Definition matrix := list (list nat).
Definition mget (m : matrix) (i j : nat) : outcome nat := row ← vget m i; vget row j.
Definition mset (m : matrix) (i j x : nat) : outcome matrix := row ← vget m i; row' ← vset row j x; vset m i row'.
(** [.at()] with a signed index. *)
Definition vatz {A} (l : list A) (z : Z) : outcome A :=
  if bool_decide (z < 0)%Z then Err Thrown else vat l (Z.to_nat z).

(** Network.cpp L495-510 [ConvertDAGToAdjacencyMatrix]: the same loops as L391-403 (modelled by
    [adjacency]) without the in-degrees. *)
Definition dag_matrix (N : network) : outcome matrix := gi ← adjacency N; Ok (fst gi).

(** L77-87: the parents of node [i], in increasing order. *)
Definition moral_parents (m : matrix) (n i : nat) : outcome (list nat) :=
  mfor (seq 0 n) (fun j ps =>
    if bool_decide (i = j) then Ok ps else
    x ← mget m j i; Ok (if bool_decide (x = 1) then ps ++ [j] else ps)) [].
(** L94-98: all pairs of parents, through the choice generator. *)
Fixpoint marry_loop (fuel : nat) (g : cgen) (choice : list Z) (ps : list nat) (tm : list (nat * nat))
  : outcome (list (nat * nat)) :=
  if bool_decide (choice = []) then Ok tm else
  match fuel with
  | O => Err OutOfFuel
  | S f => c0 ← vat choice 0; p ← vatz ps c0; c1 ← vat choice 1; q ← vatz ps c1;
           r ← cgen_next g; marry_loop f (fst r) (snd r) ps (cins (p, q) tm)
  end.
(** L76-100: one node. *)
Definition marry_node (m : matrix) (n i : nat) (tm : list (nat * nat)) : outcome (list (nat * nat)) :=
  ps ← moral_parents m n i;
  if bool_decide (length ps < 2) then Ok tm else
  g ← cgen_init (Z.of_nat (length ps)) 2;
  r ← cgen_next g;
  marry_loop (length ps * length ps) (fst r) (snd r) ps tm.
(** L103-110. *)
Definition symmetrise (m : matrix) (n : nat) : outcome matrix :=
  mfor (seq 0 n) (fun i m => mfor (seq 0 i) (fun j m =>
    x ← mget m i j; y ← mget m j i;
    if bool_decide (x = 1) || bool_decide (y = 1) then m1 ← mset m i j 1; mset m1 j i 1 else Ok m) m) m.
(** JunctionTreeStructure.cpp L73-117 [Moralize]. *)
Definition moralize (m : matrix) (n : nat) : outcome matrix :=
  tm ← mfor (seq 0 n) (marry_node m n) [];
  m1 ← symmetrise m n;
  mfor tm (fun p m => m1 ← mset m (fst p) (snd p) 1; mset m1 (snd p) (fst p) 1) m1.

(** Clique.h: a clique's variables (increasing) and its table. *)
Record clq := mkClq { cq_vars : list nat; cq_tab : ptable }.
(** Separator.h: also the two cliques it joins. *)
Record sepr := mkSep { sp_vars : list nat; sp_a : nat; sp_b : nat; sp_tab : ptable }.
(** Clique.cpp L20-33. *)
Definition new_clique (doms vars : list nat) : outcome clq :=
  t ← construct_empty_potential_table doms vars; Ok (mkClq vars t).

(** L154-158, L175-179: the neighbours of [i]. *)
Definition neighbours (m : matrix) (n i : nat) : outcome (list nat) :=
  mfor (seq 0 n) (fun j nb => x ← mget m i j; Ok (if bool_decide (x = 1) then nb ++ [j] else nb)) [].
(** L147-163: the unprocessed node with fewest neighbours, the first such ([None]: still
    INT_MAX). *)
Definition min_neighbours (m : matrix) (n : nat) (processed : list bool) : outcome (option (nat * nat)) :=
  mfor (seq 0 n) (fun i best =>
    p ← vget processed i;
    if p : bool then Ok best else
    nb ← neighbours m n i;
    Ok (match best with
        | None => Some (length nb, i)
        | Some (mn, _) => if bool_decide (length nb < mn) then Some (length nb, i) else best
        end)) None.
(** L182-186: connect the neighbours pairwise. *)
Definition fill_in (m : matrix) (nb : list nat) : outcome matrix :=
  mfor (seq 0 (length nb)) (fun a m => mfor (seq (a + 1) (length nb - (a + 1))) (fun b m =>
    x ← vat nb a; y ← vat nb b; m1 ← mset m x y 1; mset m1 y x 1) m) m.
(** std::set_intersection and std::set_difference of increasing sequences. *)
Definition set_intersection (l1 l2 : list nat) : list nat := filter (fun v => v ∈ l2) l1.
Definition set_difference (l1 l2 : list nat) : list nat := filter (fun v => v ∉ l2) l1.
(** L192-203. *)
Definition redundant (K : list nat) (cliques : list clq) : bool :=
  existsb (fun C => bool_decide (set_intersection K (cq_vars C) = K)) cliques.
(** L130-224 [Triangulate].  Fuel: the number of nodes plus one. *)
Fixpoint triangulate (fuel n : nat) (doms : list nat) (m : matrix) (processed : list bool) (cliques : list clq)
  : outcome (list clq) :=
  match fuel with
  | O => Err OutOfFuel
  | S f =>
      flags ← mcollect (seq 0 n) (fun i => vget processed i);
      if forallb id flags then Ok cliques else
      best ← min_neighbours m n processed;
      match best with
      | None => Err Uninit
      | Some (_, v) =>
          nb ← neighbours m n v;
          m1 ← fill_in m nb;
          let K := foldl (fun s x => sins x s) [v] nb in
          cliques' ← (if redundant K cliques then Ok cliques
                      else C ← new_clique doms K; Ok (cliques ++ [C]));
          processed' ← vset processed v true;
          m2 ← mfor nb (fun x m => m1 ← mset m v x 0; mset m1 x v 0) m1;
          triangulate f n doms m2 processed' cliques'
      end
  end.

(** The order in which sets of pointers are iterated: any rearrangement. *)
Record mem_order := mkOrder { mo_nodes : list nat -> list nat; mo_seps : list sepr -> list sepr }.
Definition valid_order (o : mem_order) : Prop :=
  (forall l, mo_nodes o l ≡ₚ l) /\ (forall l, mo_seps o l ≡ₚ l).

(** L233-257: all pairs of cliques with common variables. *)
Definition candidate_seps (doms : list nat) (cliques : list clq) : outcome (list sepr) :=
  let nc := length cliques in
  mfor (seq 0 nc) (fun i acc => mfor (seq (i + 1) (nc - (i + 1))) (fun j acc =>
    c1 ← vget cliques i; c2 ← vget cliques j;
    let common := set_intersection (cq_vars c1) (cq_vars c2) in
    if bool_decide (common = []) then Ok acc else
    t ← construct_empty_potential_table doms common;
    Ok (acc ++ [mkSep common i j t])) acc) [].
Definition tree_insert (i : nat) (tree : list nat) : list nat := if bool_decide (i ∈ tree) then tree else tree ++ [i].
(** L267-282: the heaviest separator with exactly one end in the tree; a later one must be
    strictly heavier. *)
Definition heaviest (seps : list sepr) (tree : list nat) : option sepr :=
  foldl (fun best s =>
    if bool_decide (sp_a s ∈ tree /\ sp_b s ∉ tree) || bool_decide (sp_a s ∉ tree /\ sp_b s ∈ tree) then
      match best with
      | None => Some s
      | Some b => if bool_decide (pt_nv (sp_tab b) < pt_nv (sp_tab s)) then Some s else best
      end
    else best) None seps.
(** L266-291: Prim's algorithm; [max_weight_sep] is null when nothing crosses. *)
Fixpoint prim (fuel nc : nat) (cands : list sepr) (tree : list nat) (seps : list sepr) : outcome (list sepr) :=
  if bool_decide (length tree < nc) then
    match fuel with
    | O => Err OutOfFuel
    | S f => match heaviest cands tree with
             | None => Err NullDeref
             | Some s => prim f nc cands (tree_insert (sp_b s) (tree_insert (sp_a s) tree)) (seps ++ [s])
             end
    end
  else Ok seps.
(** L230-308 [FormJunctionTree]. *)
Definition form_junction_tree (o : mem_order) (doms : list nat) (cliques : list clq) : outcome (list sepr) :=
  cands ← candidate_seps doms cliques;
  _ ← vget cliques 0;
  prim (length cliques) (length cliques) (mo_seps o cands) [0] [].

(** L331-355: one potential table goes to the first clique that contains its variables. *)
Fixpoint assign_one (pt : ptable) (cliques : list clq) : outcome (list clq) :=
  match cliques with
  | [] => Ok []
  | c :: cs =>
      if bool_decide (pt_vars pt = []) || bool_decide (cq_vars c = []) then Ok (c :: cs) else
      if bool_decide (set_difference (pt_vars pt) (cq_vars c) = []) then
        t ← table_multiplication (cq_tab c) pt; Ok (mkClq (cq_vars c) t :: cs)
      else cs' ← assign_one pt cs; Ok (c :: cs')
  end.
(** L314-356 [AssignPotentials], given the tables ([network->pts], or one per node). *)
Definition assign_potentials (pts : list ptable) (cliques : list clq) : outcome (list clq) :=
  mfor pts assign_one cliques.

(** The number of values of each node. *)
Definition domain_sizes (N : network) : list nat := nd_dom <$> nt_nodes N.
(** L15-56: constructor.  [reserve(num_nodes - 1)] throws when there is no node. *)
Definition jt_structure (o : mem_order) (N : network) (pts : list ptable) : outcome (list clq * list sepr) :=
  let n := length (nt_nodes N) in
  if bool_decide (n = 0) then Err Thrown else
  m ← dag_matrix N;
  mm ← moralize m n;
  cliques ← triangulate (S n) n (domain_sizes N) mm (replicate n false) [];
  seps ← form_junction_tree o (domain_sizes N) cliques;
  cliques' ← assign_potentials pts cliques;
  Ok (cliques', seps).

(** ** JunctionTree.cpp: levels *)
(** [ptr_upstream_clique] and [ptr_downstream_cliques] of cliques (pointing to separators) and
    of separators (pointing to cliques). *)
Record marks := mkMarks { up_c : list (option nat); up_s : list (option nat);
                          dn_c : list (list nat); dn_s : list (list nat) }.
Definition no_marks (nc ns : nat) : marks :=
  mkMarks (replicate nc None) (replicate ns None) (replicate nc []) (replicate ns []).
(** JunctionTreeStructure.cpp L294-299: separators next to clique [i]; L249-250: cliques next to
    separator [s]. *)
Definition clique_neighbours (o : mem_order) (seps : list sepr) (i : nat) : list nat :=
  mo_nodes o (fst <$> filter (fun p : nat * sepr => sp_a (snd p) = i \/ sp_b (snd p) = i) (zip (seq 0 (length seps)) seps)).
Definition sep_neighbours (o : mem_order) (seps : list sepr) (s : nat) : outcome (list nat) :=
  x ← vget seps s; Ok (mo_nodes o [sp_a x; sp_b x]).
(** JunctionTree.cpp L73-88: one clique of the current level. *)
Definition visit_clique (o : mem_order) (seps : list sepr) (i : nat) (st : marks * list nat) : outcome (marks * list nat) :=
  mfor (clique_neighbours o seps i) (fun s (st : marks * list nat) =>
    let '(mk, vec2) := st in
    u ← vget (up_c mk) i;
    if bool_decide (u = Some s) then Ok st else
    d ← vget (dn_c mk) i;
    dn ← vset (dn_c mk) i (d ++ [s]);
    up ← vset (up_s mk) s (Some i);
    Ok (mkMarks (up_c mk) up dn (dn_s mk), vec2 ++ [s])) st.
(** The same for a separator. *)
Definition visit_sep (o : mem_order) (seps : list sepr) (s : nat) (st : marks * list nat) : outcome (marks * list nat) :=
  nb ← sep_neighbours o seps s;
  mfor nb (fun c (st : marks * list nat) =>
    let '(mk, vec2) := st in
    u ← vget (up_s mk) s;
    if bool_decide (u = Some c) then Ok st else
    d ← vget (dn_s mk) s;
    dn ← vset (dn_s mk) s (d ++ [c]);
    up ← vset (up_c mk) c (Some s);
    Ok (mkMarks up (up_s mk) (dn_c mk) dn, vec2 ++ [c])) st.
(** L64-97: the while loop; [levels] is [nodes_by_level].  Levels alternate between cliques and
    separators ([nodes_by_level.size() % 2]).  [separators_by_level[i/2]] always equals
    [nodes_by_level[i]] for odd i and is not kept separately.  Fuel: nodes plus one. *)
Fixpoint level_loop (fuel : nat) (o : mem_order) (seps : list sepr) (vec : list nat) (levels : list (list nat)) (mk : marks)
  : outcome (list (list nat) * marks) :=
  match vec with
  | [] => Ok (levels, mk)
  | _ :: _ =>
      match fuel with
      | O => Err OutOfFuel
      | S f =>
          r ← mfor vec (if Nat.odd (length levels) then visit_clique o seps else visit_sep o seps) (mk, []);
          level_loop f o seps (snd r) (levels ++ [snd r]) (fst r)
      end
  end.
(** L59-103 [MarkLevel]: the last, empty, level is dropped. *)
Definition mark_level (o : mem_order) (nc : nat) (seps : list sepr) (root : nat) : outcome (list (list nat) * marks) :=
  r ← level_loop (nc + length seps + 1) o seps [root] [[root]] (no_marks nc (length seps));
  Ok (take (length (fst r) - 1) (fst r), snd r).
(** L109-147 [GetMaxLevel]: the same traversal; the marks are cleared afterwards. *)
Definition get_max_level (o : mem_order) (nc : nat) (seps : list sepr) (root : nat) : outcome nat :=
  r ← mark_level o nc seps root; Ok (length (fst r)).
(** L16-26: the root is the first clique with the fewest levels. *)
Definition select_root (o : mem_order) (nc : nat) (seps : list sepr) : outcome nat :=
  m0 ← get_max_level o nc seps 0;
  r ← mfor (seq 1 (nc - 1)) (fun i (st : nat * nat) =>
        m ← get_max_level o nc seps i;
        Ok (if bool_decide (m < fst st) then (m, i) else st)) (m0, 0);
  Ok (snd r).

(** L170-176: do the last variables of the clique differ from those of the separator? *)
Definition need_reorganize (clique sep : ptable) : outcome bool :=
  mfor (seq 0 (pt_nv sep)) (fun j (need : bool) =>
    if need then Ok true else
    if bool_decide (pt_nv clique < j + 1) then Err OutOfBounds else
    x ← vget (pt_vars clique) (pt_nv clique - j - 1);
    y ← vget (pt_vars sep) (pt_nv sep - j - 1);
    Ok (bool_decide (x ≠ y))) false.
(** L157-203 [ReorganizeTableStorage]. *)
Definition reorganize_storage (mk : marks) (ctabs stabs : list ptable) : outcome (list ptable) :=
  mcollect (seq 0 (length ctabs)) (fun i =>
    t ← vget ctabs i;
    u ← vget (up_c mk) i;
    match u with
    | None => Ok t
    | Some s => sep ← vget stabs s;
                need ← need_reorganize t sep;
                if need : bool then table_reorganize_tail t (pt_vars sep) else Ok t
    end).

(** The tree after construction (L3-45): its levels and marks never change; the tables are the
    ones saved by [BackUpJunctionTree] (L211-222). *)
Record tabs := mkTabs { t_c : list ptable; t_s : list ptable }.
Record jtree := mkTree { jt_doms : list nat; jt_levels : list (list nat); jt_marks : marks; jt_backup : tabs }.
Definition jt_build (o : mem_order) (N : network) (pts : list ptable) : outcome jtree :=
  r ← jt_structure o N pts;
  let '(cliques, seps) := r in
  root ← select_root o (length cliques) seps;
  lm ← mark_level o (length cliques) seps root;
  ctabs ← reorganize_storage (snd lm) (cq_tab <$> cliques) (sp_tab <$> seps);
  Ok (mkTree (domain_sizes N) (fst lm) (snd lm) (mkTabs ctabs (sp_tab <$> seps))).

(** ** JunctionTree.cpp: evidence and message passing *)
(** The schedule of each parallel loop: the list of numbers tells the loops of a run apart. *)
Definition scheduler := list nat -> nat -> list event.
Definition valid_scheduler (sch : scheduler) : Prop := forall tag n, valid_schedule n (sch tag n).
(** The schedule of a loop that is not parallel. *)
Definition in_order (n : nat) : list event := seq 0 n ≫= (fun s => [Rd s; Wr s]).
Definition with_pots (t : ptable) (pots : list Qc) : ptable :=
  mkPT (pt_vars t) pots (pt_dims t) (pt_cum t) (pt_nv t) (pt_size t).

(** A clique or a separator. *)
Inductive tnode := TC (i : nat) | TS (s : nat).
Definition get_tab (st : tabs) (x : tnode) : outcome ptable :=
  match x with TC i => vget (t_c st) i | TS s => vget (t_s st) s end.
Definition set_tab (st : tabs) (x : tnode) (t : ptable) : outcome tabs :=
  match x with
  | TC i => l ← vset (t_c st) i t; Ok (mkTabs l (t_s st))
  | TS s => l ← vset (t_s st) s t; Ok (mkTabs (t_c st) l)
  end.
Definition set_tabs (st : tabs) (xs : list (tnode * ptable)) : outcome tabs :=
  mfor xs (fun xt st => set_tab st (fst xt) (snd xt)) st.

(** L273-290: the cliques, then the separators, whose table contains the variable. *)
Definition tables_with (st : tabs) (index : nat) : outcome (list tnode) :=
  let test (mk : nat -> tnode) (ts : list ptable) :=
    mfor (zip (seq 0 (length ts)) ts) (fun it (acc : list tnode) =>
      loc ← get_variable_index (snd it) index;
      Ok (if bool_decide (loc < pt_nv (snd it)) then acc ++ [mk (fst it)] else acc)) in
  acc ← test TC (t_c st) [];
  test TS (t_s st) acc.
(** L378-450 [LoadEvidenceToNodesOptimized]. *)
Definition load_evidence_to_nodes (sch : scheduler) (tag : list nat) (st : tabs) (nodes : list tnode) (index value : nat)
  : outcome tabs :=
  ts ← mcollect nodes (get_tab st);
  let sizes := pt_size <$> ts in
  locs ← par1_fill (sch (tag ++ [0]) (length ts)) (length ts) (fun k => t ← vget ts k; get_variable_index t index);
  vidx ← par2_fill (sch (tag ++ [1]) (snd (cum_sums sizes))) sizes (fun k i =>
           t ← vget ts k; loc ← vget locs k; reduction_main t loc i);
  ts' ← par1 (sch (tag ++ [2]) (length ts)) (fun k t =>
           vi ← vget vidx k; loc ← vget locs k; reduction_post t index value vi loc) ts;
  set_tabs st (zip nodes ts').
(** L238-305 [LoadDiscreteEvidence]; [n] is [network->num_nodes]. *)
Definition load_evidence (sch : scheduler) (tag : list nat) (n : nat) (E : list (nat * nat)) (st : tabs) : outcome tabs :=
  mfor (zip (seq 0 (length E)) E) (fun ie st =>
    let '(i, (index, value)) := ie in
    if bool_decide (n <= index) then Ok st else
    nodes ← tables_with st index;
    load_evidence_to_nodes sch (tag ++ [i]) st nodes index value) st.

(** The division loops (L1056-1067, L725-735), sequential in the code. *)
Definition divide_level (seps tmp : list ptable) : outcome (list (list Qc)) :=
  let sizes := pt_size <$> tmp in
  par2 (in_order (snd (cum_sums sizes))) sizes (fun j k _ =>
    old ← vget seps j; y ← vget (pt_pots old) k;
    t ← vget tmp j; x ← vget (pt_pots t) k;
    Ok (if bool_decide (y = 0%Qc) then 0%Qc else (x / y)%Qc)) (pt_pots <$> seps).
(** L978-1070 [SeparatorLevelCollectionOptimized]. *)
Definition separator_level_collection (sch : scheduler) (tag : list nat) (T : jtree) (i : nat) (st : tabs) : outcome tabs :=
  vec ← vget (jt_levels T) i;
  seps ← mcollect vec (vget (t_s st));
  clqs ← mcollect vec (fun s => d ← vget (dn_s (jt_marks T)) s; c ← vget d 0; vget (t_c st) c);
  tmp ← mcollect seps table_zero;
  tidx ← par2_fill (sch (tag ++ [0]) (snd (cum_sums (pt_size <$> clqs)))) (pt_size <$> clqs) (fun j k =>
           sep ← vget seps j; imod k (pt_size sep));
  tmp' ← mcollect (seq 0 (length vec)) (fun j =>
           t ← vget tmp j; c ← vget clqs j; x ← vget tidx j; marginalization_post t c x);
  pots ← divide_level seps tmp';
  set_tabs st (zip (TS <$> vec) (zip_with with_pots seps pots)).
(** L622-738 [SeparatorLevelDistribution]. *)
Definition separator_level_distribution (sch : scheduler) (tag : list nat) (T : jtree) (i : nat) (st : tabs) : outcome tabs :=
  vec ← vget (jt_levels T) i;
  seps ← mcollect vec (vget (t_s st));
  clqs ← mcollect vec (fun s => u ← vget (up_s (jt_marks T)) s;
           match u with Some c => vget (t_c st) c | None => Err NullDeref end);
  tmp ← mcollect seps table_zero;
  locs ← mcollect (seq 0 (length vec)) (fun j =>
           t ← vget tmp j; c ← vget clqs j;
           mcollect (seq 0 (pt_nv t)) (fun k => v ← vget (pt_vars t) k; get_variable_index c v));
  tidx ← par2_fill (sch (tag ++ [0]) (snd (cum_sums (pt_size <$> clqs)))) (pt_size <$> clqs) (fun j k =>
           t ← vget tmp j; c ← vget clqs j; l ← vget locs j; marginalization_main t (pt_nv c) (pt_cum c) l k);
  tmp' ← mcollect (seq 0 (length vec)) (fun j =>
           t ← vget tmp j; c ← vget clqs j; x ← vget tidx j; marginalization_post t c x);
  pots ← divide_level seps tmp';
  set_tabs st (zip (TS <$> vec) (zip_with with_pots seps pots)).

(** The multiplication loops (L843-852, L1143-1150) and the normalisation after them. *)
Definition multiply_level (sch : scheduler) (tag : list nat) (st : tabs) (vec : list nat) (clqs tmp : list ptable) : outcome tabs :=
  let sizes := pt_size <$> tmp in
  pots ← par2 (sch (tag ++ [1]) (snd (cum_sums sizes))) sizes (fun j k x =>
    t ← vget tmp j; y ← vget (pt_pots t) k; Ok (x * y)%Qc) (pt_pots <$> clqs);
  normed ← mcollect (zip_with with_pots clqs pots) table_normalize;
  set_tabs st (zip (TC <$> vec) normed).
(** L751-863 [CliqueLevelCollection]; [has] is [has_kth_child]. *)
Definition clique_level_collection (sch : scheduler) (tag : list nat) (T : jtree) (i : nat) (has : list nat) (k : nat) (st : tabs)
  : outcome tabs :=
  level ← vget (jt_levels T) i;
  vec ← mcollect has (vget level);
  clqs ← mcollect vec (vget (t_c st));
  seps ← mcollect vec (fun c => d ← vget (dn_c (jt_marks T)) c; s ← vget d k; vget (t_s st) s);
  locs ← mcollect (seq 0 (length vec)) (fun j =>
           s ← vget seps j; c ← vget clqs j;
           mcollect (seq 0 (pt_nv s)) (fun l => v ← vget (pt_vars s) l; get_variable_index c v));
  tidx ← par2_fill (sch (tag ++ [0]) (snd (cum_sums (pt_size <$> clqs)))) (pt_size <$> clqs) (fun j x =>
           s ← vget seps j; c ← vget clqs j; l ← vget locs j; extension_main c (pt_nv s) (pt_cum s) l x);
  tmp ← mcollect (seq 0 (length vec)) (fun j =>
           s ← vget seps j; c ← vget clqs j; x ← vget tidx j; extension_post c s x);
  multiply_level sch tag st vec clqs tmp.
(** L1072-1160 [CliqueLevelDistributionOptimized]. *)
Definition clique_level_distribution (sch : scheduler) (tag : list nat) (T : jtree) (i : nat) (st : tabs) : outcome tabs :=
  vec ← vget (jt_levels T) i;
  clqs ← mcollect vec (vget (t_c st));
  seps ← mcollect vec (fun c => u ← vget (up_c (jt_marks T)) c;
           match u with Some s => vget (t_s st) s | None => Err NullDeref end);
  tidx ← par2_fill (sch (tag ++ [0]) (snd (cum_sums (pt_size <$> clqs)))) (pt_size <$> clqs) (fun j k =>
           sep ← vget seps j; imod k (pt_size sep));
  tmp ← mcollect (seq 0 (length vec)) (fun j =>
           s ← vget seps j; c ← vget clqs j; x ← vget tidx j; extension_post c s x);
  multiply_level sch tag st vec clqs tmp.

(** L1162-1228 [Collect]. *)
Definition collect_level (sch : scheduler) (tag : list nat) (T : jtree) (i : nat) (st : tabs) : outcome tabs :=
  if Nat.odd i then separator_level_collection sch (tag ++ [i]) T i st else
  level ← vget (jt_levels T) i;
  nums ← mcollect level (fun c => d ← vget (dn_c (jt_marks T)) c; Ok (length d));
  let max_num_children := foldl Nat.max 0 nums in
  mfor (seq 0 max_num_children) (fun k st =>
    let has := filter (fun j => k < default 0 (nums !! j)) (seq 0 (length level)) in
    clique_level_collection sch (tag ++ [i; k]) T i has k st) st.
Definition collect (sch : scheduler) (tag : list nat) (T : jtree) (st : tabs) : outcome tabs :=
  mfor (reverse (seq 0 (length (jt_levels T) - 1))) (collect_level sch tag T) st.
(** L1230-1255 [Distribute]. *)
Definition distribute_level (sch : scheduler) (tag : list nat) (T : jtree) (i : nat) (st : tabs) : outcome tabs :=
  if Nat.odd i then separator_level_distribution sch (tag ++ [i]) T i st
  else clique_level_distribution sch (tag ++ [i]) T i st.
Definition distribute (sch : scheduler) (tag : list nat) (T : jtree) (st : tabs) : outcome tabs :=
  mfor (seq 1 (length (jt_levels T) - 1)) (distribute_level sch tag T) st.

(** L1399-1412: evidence, normalisation of every clique, message passing. *)
Definition propagate (sch : scheduler) (T : jtree) (E : list (nat * nat)) (st : tabs) : outcome tabs :=
  st1 ← load_evidence sch [0] (length (jt_doms T)) E st;
  cs ← mcollect (t_c st1) table_normalize;
  st2 ← collect sch [1] T (mkTabs cs (t_s st1));
  distribute sch [2] T st2.

(** ** Queries *)
(** L1264-1286 and L1336-1356: the first clique with fewest variables among those containing the
    query variable ([None]: INT32_MAX and a null pointer).  The code compares the number of
    related variables, which is the number of variables of a table without repetitions. *)
Definition smallest_clique (cs : list ptable) (q : nat) : outcome (option (nat * ptable)) :=
  mfor cs (fun t best =>
    loc ← get_variable_index t q;
    let small := match best with None => true | Some (mn, _) => bool_decide (pt_nv t < mn) end in
    Ok (if small && bool_decide (loc < pt_nv t) then Some (pt_nv t, t) else best)) None.
(** L1261-1302 [CalculateMarginalProbability]. *)
Definition calculate_marginal (T : jtree) (st : tabs) (q : nat) : outcome ptable :=
  b ← smallest_clique (t_c st) q;
  match b with
  | None => Err Exit1
  | Some (nv, t) =>
      if bool_decide (nv = 1) then Ok t else
      dim ← node_dim (jt_doms T) q;
      m ← table_marginalization t [q] [dim];
      table_normalize m
  end.
(** L1307-1380 [GetProbabilitiesAllNodes]; unwritten entries keep the value -1. *)
Definition probabilities_all (T : jtree) (st : tabs) (E : list (nat * nat)) : outcome (list Qc) :=
  let n := length (jt_doms T) in
  let size := foldl Nat.add 0 (jt_doms T) in
  r ← mfor (seq 0 n) (fun i (acc : list Qc * nat) =>
    let '(probs, l) := acc in
    if bool_decide (i ∈ fst <$> E) then Ok (probs, S l) else
    b ← smallest_clique (t_c st) i;
    match b with
    | None => Err Exit1
    | Some (nv, t) =>
        dim ← node_dim (jt_doms T) i;
        m ← (if bool_decide (1 < nv) then table_marginalization t [i] [dim] else Ok t);
        p ← table_normalize m;
        mfor (seq 0 (pt_size p)) (fun j (acc : list Qc * nat) =>
          x ← vget (pt_pots p) j; pr ← vset (fst acc) (snd acc) x; Ok (pr, S (snd acc))) (probs, l)
    end) (replicate size (Q2Qc (QArith_base.inject_Z (-1))), 0);
  Ok (fst r).

(** The two modes of L1399-1432 [PredictUseJTInfer].  A query acts on the current tables and
    leaves the restored ones ([ResetJunctionTree], L224-233). *)
Definition query_label (sch : scheduler) (T : jtree) (q : nat) (E : list (nat * nat)) (st : tabs) : outcome (tabs * nat) :=
  st' ← propagate sch T E st;
  p ← calculate_marginal T st' q;
  l ← argmax (pt_pots p);
  Ok (jt_backup T, l).
Definition query_probs (sch : scheduler) (T : jtree) (E : list (nat * nat)) (st : tabs) : outcome (tabs * list Qc) :=
  st' ← propagate sch T E st;
  ps ← probabilities_all T st' E;
  Ok (jt_backup T, ps).
(** L1438-1470 [Predict], label mode: one query per row, after the progress test
    [progress % every_1_of_20]. *)
Definition predict (sch : nat -> scheduler) (T : jtree) (q : nat) (evidences : list (list (nat * nat))) : outcome (list nat) :=
  let every := length evidences / 20 in
  r ← mfor (zip (seq 0 (length evidences)) evidences) (fun iE (acc : tabs * list nat) =>
    _ ← imod (S (fst iE)) every;
    r ← query_label (sch (fst iE)) T q (snd iE) (fst acc);
    Ok (fst r, snd acc ++ [snd r])) (jt_backup T, []);
  Ok (snd r).

(** A session: one engine answers several queries of both kinds, one after the other, each from
    the tables the previous one left behind (L1399-1432 called repeatedly). *)
Inductive query := AskLabel (q : nat) (E : list (nat * nat)) | AskProbs (E : list (nat * nat)).
Inductive answer := Label (l : nat) | Probs (ps : list Qc).
Definition run_query (sch : scheduler) (T : jtree) (qu : query) (st : tabs) : outcome (tabs * answer) :=
  match qu with
  | AskLabel q E => r ← query_label sch T q E st; Ok (fst r, Label (snd r))
  | AskProbs E => r ← query_probs sch T E st; Ok (fst r, Probs (snd r))
  end.
Definition run_queries (T : jtree) (qs : list (scheduler * query)) (st : tabs) : outcome (tabs * list answer) :=
  mfor qs (fun sq acc => r ← run_query (fst sq) T (snd sq) (fst acc); Ok (fst r, snd acc ++ [snd r])) (st, []).
