(** Exact inference (PotentialTableBase.cpp, JunctionTreeStructure.cpp, JunctionTree.cpp) with an [int] of
    limited range.

    Everywhere else an [int] is a natural number.  Here [M] is the largest [int] and a product or a sum
    beyond it is the outcome [Overflow] (undefined behaviour in C++).  Checked are all products and sums
    that give table sizes, strides, positions in tables, sizes of scratch arrays, positions in scratch
    arrays, and the lengths of the flattened loops.  Loop counters are not checked, since they stay below
    one of these.  Only the functions that compute with such numbers, and their callers, are written
    again; each is the function of the same name (without [_i]) in TableModel.v or JTModel.v with the
    checks inserted. *)
From Verif Require Export JTModel.
Local Open Scope nat_scope.

Section limited.
Context (M : nat).
(** [a * b] and [a + b] of type [int]. *)
Definition imul (a b : nat) : outcome nat := if bool_decide (a * b <= M) then Ok (a * b) else Err Overflow.
Definition iadd (a b : nat) : outcome nat := if bool_decide (a + b <= M) then Ok (a + b) else Err Overflow.

(** ** PotentialTableBase.cpp *)
(** L1164-1170 and L1192-1198 [GetTableIndexByConfigValue]. *)
Definition get_index_nv_i (cfg : list nat) (nv : nat) (cum : list nat) : outcome nat :=
  mfor (seq 0 nv) (fun i acc => c ← vget cfg i; l ← vget cum i; p ← imul c l; iadd acc p) 0.
Definition get_index_i (t : ptable) (cfg : list nat) : outcome nat := get_index_nv_i cfg (pt_nv t) (pt_cum t).
(** L1231-1239 [ConstructCumLevels]. *)
Definition construct_cum_levels_i (nv : nat) (dims : list nat) : outcome (list nat) :=
  if bool_decide (nv = 0) then Err OutOfBounds else
  c0 ← vset (replicate nv 0) (nv - 1) 1;
  mfor (reverse (seq 0 (nv - 1)))
    (fun i cum => c ← vget cum (i + 1); d ← vget dims (i + 1); p ← imul c d; vset cum i p) c0.
(** L1216-1226 [ConstructVarDimsAndCumLevels]. *)
Definition construct_var_dims_and_cum_levels_i (doms vars : list nat) : outcome (list nat * list nat * nat) :=
  dims ← mcollect vars (node_dim doms);
  cum ← construct_cum_levels_i (length vars) dims;
  c0 ← vget cum 0; d0 ← vget dims 0;
  size ← imul c0 d0;
  Ok (dims, cum, size).
(** L137-151 [ConstructEmptyPotentialTable]. *)
Definition construct_empty_potential_table_i (doms vars : list nat) : outcome ptable :=
  r ← construct_var_dims_and_cum_levels_i doms vars;
  let '(dims, cum, size) := r in
  Ok (mkPT vars (replicate size 1%Qc) dims cum (length vars) size).
(** L243-252 [TableReorganizationMain]. *)
Definition reorganization_main_i (new old : ptable) (locs : list nat) (k : nat) : outcome nat :=
  cfg1 ← get_config old k;
  cfg2 ← mcollect (seq 0 (pt_nv new)) (fun l => loc ← vget locs l; vget cfg1 loc);
  get_index_i new cfg2.
(** L165-196 [TableReorganization]. *)
Definition table_reorganization_i (this refer : ptable) : outcome ptable :=
  let new := refer in
  locs ← mcollect (seq 0 (pt_nv new)) (fun i =>
    if bool_decide (i < pt_nv this) then
      v ← vget (pt_vars new) i; get_variable_index this v
    else Err OutOfBounds);
  tidx ← mcollect (seq 0 (pt_size new)) (fun k =>
    if bool_decide (k < pt_size this) then reorganization_main_i new this locs k
    else Err OutOfBounds);
  reorganization_post new this tidx.
(** L198-241 [TableReorganizationPre]. *)
Definition reorganization_pre_i (this : ptable) (common : list nat) : outcome (ptable * list nat) :=
  r ← reorg_split (zip (pt_vars this) (pt_dims this)) 0 common;
  let '(kept, com) := r in
  let vars := ((fun t : nat * nat * nat => snd (fst t)) <$> kept) ++ common in
  let dims := ((fun t : nat * nat * nat => snd t) <$> kept) ++ (snd <$> com) in
  let locs := ((fun t : nat * nat * nat => fst (fst t)) <$> kept) ++ (fst <$> com) in
  cum ← construct_cum_levels_i (pt_nv this) dims;
  Ok (mkPT vars (replicate (pt_size this) 0%Qc) dims cum (pt_nv this) (pt_size this), locs).
(** JunctionTree.cpp L182-196: one clique of [ReorganizeTableStorage]. *)
Definition table_reorganize_tail_i (this : ptable) (common : list nat) : outcome ptable :=
  r ← reorganization_pre_i this common;
  let '(new, locs) := r in
  tidx ← mcollect (seq 0 (pt_size new)) (reorganization_main_i new this locs);
  reorganization_post new this tidx.
(** L313-318 [TableReductionMain]: [full_config + i * num_variables], then
    [full_config[i * num_variables + loc]]. *)
Definition reduction_main_i (t : ptable) (loc i : nat) : outcome nat :=
  o ← imul i (pt_nv t);
  cfg ← get_config t i;
  _ ← iadd o loc;
  vget cfg loc.
(** L320-362 [TableReductionPost]. *)
Definition reduction_post_i (t : ptable) (index value : nat) (vidx : list nat) (loc : nat) : outcome ptable :=
  d ← vget (pt_dims t) loc;
  new_size ← idiv (pt_size t) d;
  r ← mfor (seq 0 (pt_size t)) (fun i (st : nat * list Qc) =>
        let '(j, np) := st in
        vi ← vget vidx i;
        if bool_decide (vi = value) then
          x ← vget (pt_pots t) i; np' ← vset np j x; Ok (S j, np')
        else Ok (j, np)) (0, replicate new_size 0%Qc);
  let pots := snd r in
  let nv := pt_nv t - 1 in
  if bool_decide (0 < nv) then
    vd ← drop_var (pt_vars t) (pt_dims t) index;
    cum ← construct_cum_levels_i nv (snd vd);
    Ok (mkPT (fst vd) pots (snd vd) cum nv new_size)
  else Ok (mkPT [] pots [] [] nv 1).
(** The copying of a configuration (L578-581, L539-542, L824-827, L855-858): [k * nv], [k * nv + loc],
    [k * num_variables] and [k * num_variables + l]. *)
Definition project_i (full : list nat) (nv1 nv2 : nat) (locs : list nat) (k : nat) : outcome (list nat) :=
  mcollect (seq 0 nv2) (fun l =>
    loc ← vget locs l;
    o ← imul k nv1; _ ← iadd o loc;
    o2 ← imul k nv2; _ ← iadd o2 l;
    vget full loc).
(** L574-584 [TableMarginalizationMain] (and the loop body L536-545). *)
Definition marginalization_main_i (new : ptable) (nv : nat) (cl : list nat) (locs : list nat) (k : nat) : outcome nat :=
  _ ← imul k nv;
  full ← get_config_nv k nv cl;
  part ← project_i full nv (pt_nv new) locs k;
  _ ← imul k (pt_nv new);
  get_index_i new part.
(** L554-569 [TableMarginalizationPre]. *)
Definition marginalization_pre_i (variables dims : list nat) : outcome ptable :=
  let nv := length variables in
  if bool_decide (nv ≠ 0) then
    cum ← construct_cum_levels_i nv dims;
    c0 ← vget cum 0; d0 ← vget dims 0;
    size ← imul c0 d0;
    Ok (mkPT variables (replicate size 0%Qc) dims cum nv size)
  else Ok (mkPT variables (replicate 1 0%Qc) dims [] nv 1).
(** L524-551: locations, scratch arrays [table_size * num_variables], main loop, Post. *)
Definition marginalization_body_i (this new : ptable) : outcome ptable :=
  locs ← mcollect (seq 0 (pt_nv new)) (fun i => v ← vget (pt_vars new) i; get_variable_index this v);
  _ ← imul (pt_size this) (pt_nv this);
  _ ← imul (pt_size this) (pt_nv new);
  tidx ← mcollect (seq 0 (pt_size this)) (marginalization_main_i new (pt_nv this) (pt_cum this) locs);
  marginalization_post new this tidx.
(** L519-552 [TableMarginalization]. *)
Definition table_marginalization_i (this : ptable) (variables dims : list nat) : outcome ptable :=
  new ← marginalization_pre_i variables dims;
  marginalization_body_i this new.
(** L842-850 [TableExtensionPre]. *)
Definition extension_pre_i (variables dims : list nat) : outcome ptable :=
  let nv := length variables in
  cum ← construct_cum_levels_i nv dims;
  c0 ← vget cum 0; d0 ← vget dims 0;
  size ← imul c0 d0;
  Ok (mkPT variables (replicate size 0%Qc) dims cum nv size).
(** L852-862 [TableExtensionMain] (and loop body L821-831). *)
Definition extension_main_i (big : ptable) (nv : nat) (cl : list nat) (locs : list nat) (k : nat) : outcome nat :=
  _ ← imul k (pt_nv big);
  full ← get_config big k;
  part ← project_i full (pt_nv big) nv locs k;
  _ ← imul k nv;
  get_index_nv_i part nv cl.
(** L803-840 [TableExtension]. *)
Definition table_extension_i (this : ptable) (variables dims : list nat) : outcome ptable :=
  new ← extension_pre_i variables dims;
  locs ← mcollect (seq 0 (pt_nv this)) (fun i => v ← vget (pt_vars this) i; get_variable_index new v);
  _ ← imul (pt_size new) (pt_nv new);
  _ ← imul (pt_size new) (pt_nv this);
  tidx ← mcollect (seq 0 (pt_size new)) (extension_main_i new (pt_nv this) (pt_cum this) locs);
  extension_post new this tidx.
(** L884-905 [TableMultiplication]. *)
Definition table_multiplication_i (this second : ptable) : outcome ptable :=
  tmp ← (if bool_decide (pt_nv second < pt_nv this)
         then table_extension_i second (pt_vars this) (pt_dims this) else Ok second);
  tmp ← (if bool_decide (pt_vars this ≠ pt_vars tmp)
         then table_reorganization_i tmp this else Ok tmp);
  mult_loop this tmp.

(** ** JunctionTreeStructure.cpp *)
(** Clique.cpp L20-33. *)
Definition new_clique_i (doms vars : list nat) : outcome clq :=
  t ← construct_empty_potential_table_i doms vars; Ok (mkClq vars t).
(** L130-224 [Triangulate]. *)
Fixpoint triangulate_i (fuel n : nat) (doms : list nat) (m : matrix) (processed : list bool) (cliques : list clq)
  : outcome (list clq) :=
  match fuel with
  | O => Err OutOfFuel
  | S f =>
      flags ← mcollect (seq 0 n) (fun i => vget processed i);
      if forallb id flags then Ok cliques else
      best ← min_neighbours m n processed;
      match best with
      | None => Err Uninit
      | Some (_, v) =>
          nb ← neighbours m n v;
          m1 ← fill_in m nb;
          let K := foldl (fun s x => sins x s) [v] nb in
          cliques' ← (if redundant K cliques then Ok cliques
                      else C ← new_clique_i doms K; Ok (cliques ++ [C]));
          processed' ← vset processed v true;
          m2 ← mfor nb (fun x m => m1 ← mset m v x 0; mset m1 x v 0) m1;
          triangulate_i f n doms m2 processed' cliques'
      end
  end.
(** L233-257: all pairs of cliques with common variables. *)
Definition candidate_seps_i (doms : list nat) (cliques : list clq) : outcome (list sepr) :=
  let nc := length cliques in
  mfor (seq 0 nc) (fun i acc => mfor (seq (i + 1) (nc - (i + 1))) (fun j acc =>
    c1 ← vget cliques i; c2 ← vget cliques j;
    let common := set_intersection (cq_vars c1) (cq_vars c2) in
    if bool_decide (common = []) then Ok acc else
    t ← construct_empty_potential_table_i doms common;
    Ok (acc ++ [mkSep common i j t])) acc) [].
(** L230-308 [FormJunctionTree]. *)
Definition form_junction_tree_i (o : mem_order) (doms : list nat) (cliques : list clq) : outcome (list sepr) :=
  cands ← candidate_seps_i doms cliques;
  _ ← vget cliques 0;
  prim (length cliques) (length cliques) (mo_seps o cands) [0] [].
(** L331-355: one potential table goes to the first clique that contains its variables. *)
Fixpoint assign_one_i (pt : ptable) (cliques : list clq) : outcome (list clq) :=
  match cliques with
  | [] => Ok []
  | c :: cs =>
      if bool_decide (pt_vars pt = []) || bool_decide (cq_vars c = []) then Ok (c :: cs) else
      if bool_decide (set_difference (pt_vars pt) (cq_vars c) = []) then
        t ← table_multiplication_i (cq_tab c) pt; Ok (mkClq (cq_vars c) t :: cs)
      else cs' ← assign_one_i pt cs; Ok (c :: cs')
  end.
(** L314-356 [AssignPotentials]. *)
Definition assign_potentials_i (pts : list ptable) (cliques : list clq) : outcome (list clq) :=
  mfor pts assign_one_i cliques.
(** L15-56: constructor. *)
Definition jt_structure_i (o : mem_order) (N : network) (pts : list ptable) : outcome (list clq * list sepr) :=
  let n := length (nt_nodes N) in
  if bool_decide (n = 0) then Err Thrown else
  m ← dag_matrix N;
  mm ← moralize m n;
  cliques ← triangulate_i (S n) n (domain_sizes N) mm (replicate n false) [];
  seps ← form_junction_tree_i o (domain_sizes N) cliques;
  cliques' ← assign_potentials_i pts cliques;
  Ok (cliques', seps).

(** ** JunctionTree.cpp *)
(** L157-203 [ReorganizeTableStorage]. *)
Definition reorganize_storage_i (mk : marks) (ctabs stabs : list ptable) : outcome (list ptable) :=
  mcollect (seq 0 (length ctabs)) (fun i =>
    t ← vget ctabs i;
    u ← vget (up_c mk) i;
    match u with
    | None => Ok t
    | Some s => sep ← vget stabs s;
                need ← need_reorganize t sep;
                if need : bool then table_reorganize_tail_i t (pt_vars sep) else Ok t
    end).
(** L3-45: constructor. *)
Definition jt_build_i (o : mem_order) (N : network) (pts : list ptable) : outcome jtree :=
  r ← jt_structure_i o N pts;
  let '(cliques, seps) := r in
  root ← select_root o (length cliques) seps;
  lm ← mark_level o (length cliques) seps root;
  ctabs ← reorganize_storage_i (snd lm) (cq_tab <$> cliques) (sp_tab <$> seps);
  Ok (mkTree (domain_sizes N) (fst lm) (snd lm) (mkTabs ctabs (sp_tab <$> seps))).

(** The sums [final_sum += table_size] (e.g. L402, L560, L590, L678): the length of a flattened loop. *)
Definition final_sum_i (sizes : list nat) : outcome nat := mfor sizes (fun n acc => iadd acc n) 0.
(** The scratch arrays [new int[table_size * num_variables]] of L409, L673, L796. *)
Definition scratch_i (ts : list ptable) (nvs : list nat) : outcome unit :=
  mfor (zip ts nvs) (fun tn _ => _ ← imul (pt_size (fst tn)) (pt_nv (fst tn)); _ ← imul (pt_size (fst tn)) (snd tn); Ok tt) tt.
(** L378-450 [LoadEvidenceToNodesOptimized]. *)
Definition load_evidence_to_nodes_i (sch : scheduler) (tag : list nat) (st : tabs) (nodes : list tnode) (index value : nat)
  : outcome tabs :=
  ts ← mcollect nodes (get_tab st);
  let sizes := pt_size <$> ts in
  n ← final_sum_i sizes;
  locs ← par1_fill (sch (tag ++ [0]) (length ts)) (length ts) (fun k =>
           t ← vget ts k; _ ← imul (pt_size t) (pt_nv t); get_variable_index t index);
  vidx ← par2_fill (sch (tag ++ [1]) n) sizes (fun k i =>
           t ← vget ts k; loc ← vget locs k; reduction_main_i t loc i);
  ts' ← par1 (sch (tag ++ [2]) (length ts)) (fun k t =>
           vi ← vget vidx k; loc ← vget locs k; reduction_post_i t index value vi loc) ts;
  set_tabs st (zip nodes ts').
(** L238-305 [LoadDiscreteEvidence]. *)
Definition load_evidence_i (sch : scheduler) (tag : list nat) (n : nat) (E : list (nat * nat)) (st : tabs) : outcome tabs :=
  mfor (zip (seq 0 (length E)) E) (fun ie st =>
    let '(i, (index, value)) := ie in
    if bool_decide (n <= index) then Ok st else
    nodes ← tables_with st index;
    load_evidence_to_nodes_i sch (tag ++ [i]) st nodes index value) st.
(** L1036-1067, L698-735: the second sum and the division loops. *)
Definition divide_level_i (seps tmp : list ptable) : outcome (list (list Qc)) :=
  _ ← final_sum_i (pt_size <$> tmp);
  divide_level seps tmp.
(** L978-1070 [SeparatorLevelCollectionOptimized]. *)
Definition separator_level_collection_i (sch : scheduler) (tag : list nat) (T : jtree) (i : nat) (st : tabs) : outcome tabs :=
  vec ← vget (jt_levels T) i;
  seps ← mcollect vec (vget (t_s st));
  clqs ← mcollect vec (fun s => d ← vget (dn_s (jt_marks T)) s; c ← vget d 0; vget (t_c st) c);
  tmp ← mcollect seps table_zero;
  n ← final_sum_i (pt_size <$> clqs);
  tidx ← par2_fill (sch (tag ++ [0]) n) (pt_size <$> clqs) (fun j k =>
           sep ← vget seps j; imod k (pt_size sep));
  tmp' ← mcollect (seq 0 (length vec)) (fun j =>
           t ← vget tmp j; c ← vget clqs j; x ← vget tidx j; marginalization_post t c x);
  pots ← divide_level_i seps tmp';
  set_tabs st (zip (TS <$> vec) (zip_with with_pots seps pots)).
(** L622-738 [SeparatorLevelDistribution]. *)
Definition separator_level_distribution_i (sch : scheduler) (tag : list nat) (T : jtree) (i : nat) (st : tabs) : outcome tabs :=
  vec ← vget (jt_levels T) i;
  seps ← mcollect vec (vget (t_s st));
  clqs ← mcollect vec (fun s => u ← vget (up_s (jt_marks T)) s;
           match u with Some c => vget (t_c st) c | None => Err NullDeref end);
  tmp ← mcollect seps table_zero;
  locs ← mcollect (seq 0 (length vec)) (fun j =>
           t ← vget tmp j; c ← vget clqs j;
           mcollect (seq 0 (pt_nv t)) (fun k => v ← vget (pt_vars t) k; get_variable_index c v));
  _ ← scratch_i clqs (pt_nv <$> seps);
  n ← final_sum_i (pt_size <$> clqs);
  tidx ← par2_fill (sch (tag ++ [0]) n) (pt_size <$> clqs) (fun j k =>
           t ← vget tmp j; c ← vget clqs j; l ← vget locs j; marginalization_main_i t (pt_nv c) (pt_cum c) l k);
  tmp' ← mcollect (seq 0 (length vec)) (fun j =>
           t ← vget tmp j; c ← vget clqs j; x ← vget tidx j; marginalization_post t c x);
  pots ← divide_level_i seps tmp';
  set_tabs st (zip (TS <$> vec) (zip_with with_pots seps pots)).
(** L822-863, L1124-1157: the second sum, the multiplication loops and the normalisation. *)
Definition multiply_level_i (sch : scheduler) (tag : list nat) (st : tabs) (vec : list nat) (clqs tmp : list ptable) : outcome tabs :=
  _ ← final_sum_i (pt_size <$> tmp);
  multiply_level sch tag st vec clqs tmp.
(** L751-863 [CliqueLevelCollection]. *)
Definition clique_level_collection_i (sch : scheduler) (tag : list nat) (T : jtree) (i : nat) (has : list nat) (k : nat) (st : tabs)
  : outcome tabs :=
  level ← vget (jt_levels T) i;
  vec ← mcollect has (vget level);
  clqs ← mcollect vec (vget (t_c st));
  seps ← mcollect vec (fun c => d ← vget (dn_c (jt_marks T)) c; s ← vget d k; vget (t_s st) s);
  locs ← mcollect (seq 0 (length vec)) (fun j =>
           s ← vget seps j; c ← vget clqs j;
           mcollect (seq 0 (pt_nv s)) (fun l => v ← vget (pt_vars s) l; get_variable_index c v));
  _ ← scratch_i clqs (pt_nv <$> seps);
  n ← final_sum_i (pt_size <$> clqs);
  tidx ← par2_fill (sch (tag ++ [0]) n) (pt_size <$> clqs) (fun j x =>
           s ← vget seps j; c ← vget clqs j; l ← vget locs j; extension_main_i c (pt_nv s) (pt_cum s) l x);
  tmp ← mcollect (seq 0 (length vec)) (fun j =>
           s ← vget seps j; c ← vget clqs j; x ← vget tidx j; extension_post c s x);
  multiply_level_i sch tag st vec clqs tmp.
(** L1072-1160 [CliqueLevelDistributionOptimized]. *)
Definition clique_level_distribution_i (sch : scheduler) (tag : list nat) (T : jtree) (i : nat) (st : tabs) : outcome tabs :=
  vec ← vget (jt_levels T) i;
  clqs ← mcollect vec (vget (t_c st));
  seps ← mcollect vec (fun c => u ← vget (up_c (jt_marks T)) c;
           match u with Some s => vget (t_s st) s | None => Err NullDeref end);
  n ← final_sum_i (pt_size <$> clqs);
  tidx ← par2_fill (sch (tag ++ [0]) n) (pt_size <$> clqs) (fun j k =>
           sep ← vget seps j; imod k (pt_size sep));
  tmp ← mcollect (seq 0 (length vec)) (fun j =>
           s ← vget seps j; c ← vget clqs j; x ← vget tidx j; extension_post c s x);
  multiply_level_i sch tag st vec clqs tmp.
(** L1162-1228 [Collect]. *)
Definition collect_level_i (sch : scheduler) (tag : list nat) (T : jtree) (i : nat) (st : tabs) : outcome tabs :=
  if Nat.odd i then separator_level_collection_i sch (tag ++ [i]) T i st else
  level ← vget (jt_levels T) i;
  nums ← mcollect level (fun c => d ← vget (dn_c (jt_marks T)) c; Ok (length d));
  let max_num_children := foldl Nat.max 0 nums in
  mfor (seq 0 max_num_children) (fun k st =>
    let has := filter (fun j => k < default 0 (nums !! j)) (seq 0 (length level)) in
    clique_level_collection_i sch (tag ++ [i; k]) T i has k st) st.
Definition collect_i (sch : scheduler) (tag : list nat) (T : jtree) (st : tabs) : outcome tabs :=
  mfor (reverse (seq 0 (length (jt_levels T) - 1))) (collect_level_i sch tag T) st.
(** L1230-1255 [Distribute]. *)
Definition distribute_level_i (sch : scheduler) (tag : list nat) (T : jtree) (i : nat) (st : tabs) : outcome tabs :=
  if Nat.odd i then separator_level_distribution_i sch (tag ++ [i]) T i st
  else clique_level_distribution_i sch (tag ++ [i]) T i st.
Definition distribute_i (sch : scheduler) (tag : list nat) (T : jtree) (st : tabs) : outcome tabs :=
  mfor (seq 1 (length (jt_levels T) - 1)) (distribute_level_i sch tag T) st.
(** L1399-1412: evidence, normalisation of every clique, message passing. *)
Definition propagate_i (sch : scheduler) (T : jtree) (E : list (nat * nat)) (st : tabs) : outcome tabs :=
  st1 ← load_evidence_i sch [0] (length (jt_doms T)) E st;
  cs ← mcollect (t_c st1) table_normalize;
  st2 ← collect_i sch [1] T (mkTabs cs (t_s st1));
  distribute_i sch [2] T st2.
(** L1261-1302 [CalculateMarginalProbability]. *)
Definition calculate_marginal_i (T : jtree) (st : tabs) (q : nat) : outcome ptable :=
  b ← smallest_clique (t_c st) q;
  match b with
  | None => Err Exit1
  | Some (nv, t) =>
      if bool_decide (nv = 1) then Ok t else
      dim ← node_dim (jt_doms T) q;
      m ← table_marginalization_i t [q] [dim];
      table_normalize m
  end.
(** L1307-1380 [GetProbabilitiesAllNodes]. *)
Definition probabilities_all_i (T : jtree) (st : tabs) (E : list (nat * nat)) : outcome (list Qc) :=
  let n := length (jt_doms T) in
  size ← final_sum_i (jt_doms T);
  r ← mfor (seq 0 n) (fun i (acc : list Qc * nat) =>
    let '(probs, l) := acc in
    if bool_decide (i ∈ fst <$> E) then Ok (probs, S l) else
    b ← smallest_clique (t_c st) i;
    match b with
    | None => Err Exit1
    | Some (nv, t) =>
        dim ← node_dim (jt_doms T) i;
        m ← (if bool_decide (1 < nv) then table_marginalization_i t [i] [dim] else Ok t);
        p ← table_normalize m;
        mfor (seq 0 (pt_size p)) (fun j (acc : list Qc * nat) =>
          x ← vget (pt_pots p) j; pr ← vset (fst acc) (snd acc) x; Ok (pr, S (snd acc))) (probs, l)
    end) (replicate size (Q2Qc (QArith_base.inject_Z (-1))), 0);
  Ok (fst r).
(** L1399-1432 [PredictUseJTInfer]. *)
Definition query_label_i (sch : scheduler) (T : jtree) (q : nat) (E : list (nat * nat)) (st : tabs) : outcome (tabs * nat) :=
  st' ← propagate_i sch T E st;
  p ← calculate_marginal_i T st' q;
  l ← argmax (pt_pots p);
  Ok (jt_backup T, l).
Definition query_probs_i (sch : scheduler) (T : jtree) (E : list (nat * nat)) (st : tabs) : outcome (tabs * list Qc) :=
  st' ← propagate_i sch T E st;
  ps ← probabilities_all_i T st' E;
  Ok (jt_backup T, ps).
(** A session of queries. *)
Definition run_query_i (sch : scheduler) (T : jtree) (qu : query) (st : tabs) : outcome (tabs * answer) :=
  match qu with
  | AskLabel q E => r ← query_label_i sch T q E st; Ok (fst r, Label (snd r))
  | AskProbs E => r ← query_probs_i sch T E st; Ok (fst r, Probs (snd r))
  end.
Definition run_queries_i (T : jtree) (qs : list (scheduler * query)) (st : tabs) : outcome (tabs * list answer) :=
  mfor qs (fun sq acc => r ← run_query_i (fst sq) T (snd sq) (fst acc); Ok (fst r, snd acc ++ [snd r])) (st, []).
End limited.
