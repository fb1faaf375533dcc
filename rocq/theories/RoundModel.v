(** Exact inference (PotentialTableBase.cpp, JunctionTreeStructure.cpp, JunctionTree.cpp) in rounded
    arithmetic.

    Everywhere else a [double] is an exact rational.  Here the result of every addition,
    multiplication and division of the inference code is passed through a function [rnd], as a
    floating point unit does.  Only the functions that compute with table entries, and their callers,
    are written again; each is the function of the same name (without [_r]) in TableModel.v or
    JTModel.v with [rnd] inserted, and RoundTheorems.v proves that with [rnd] the identity they are
    equal.  The functions that only move entries, or only compute with indices, are shared. *)
From Verif Require Export JTModel.
Local Open Scope nat_scope.

Section rounded.
Context (rnd : Qc -> Qc).

(** ** PotentialTableBase.cpp *)
(** L586-591 [TableMarginalizationPost] (same code L733-738). *)
Definition marginalization_post_r (new old : ptable) (tidx : list nat) : outcome ptable :=
  pots ← mfor (seq 0 (pt_size old)) (fun k pots =>
    j ← vget tidx k; x ← vget (pt_pots old) k; y ← vget pots j; vset pots j (rnd (y + x)%Qc)) (pt_pots new);
  Ok (mkPT (pt_vars new) pots (pt_dims new) (pt_cum new) (pt_nv new) (pt_size new)).
(** L533-552: the common body of the marginalisations. *)
Definition marginalization_body_r (this new : ptable) : outcome ptable :=
  locs ← mcollect (seq 0 (pt_nv new)) (fun i => v ← vget (pt_vars new) i; get_variable_index this v);
  tidx ← mcollect (seq 0 (pt_size this)) (marginalization_main new (pt_nv this) (pt_cum this) locs);
  marginalization_post_r new this tidx.
(** L519-552 [TableMarginalization]. *)
Definition table_marginalization_r (this : ptable) (variables dims : list nat) : outcome ptable :=
  new ← marginalization_pre variables dims;
  marginalization_body_r this new.
(** L902-904: the pointwise product loop. *)
Definition mult_loop_r (this second : ptable) : outcome ptable :=
  pots ← mfor (seq 0 (pt_size this)) (fun i pots =>
    x ← vget pots i; y ← vget (pt_pots second) i; vset pots i (rnd (x * y)%Qc)) (pt_pots this);
  Ok (mkPT (pt_vars this) pots (pt_dims this) (pt_cum this) (pt_nv this) (pt_size this)).
(** L884-905 [TableMultiplication]. *)
Definition table_multiplication_r (this second : ptable) : outcome ptable :=
  tmp ← (if bool_decide (pt_nv second < pt_nv this)%nat
         then table_extension second (pt_vars this) (pt_dims this) else Ok second);
  tmp ← (if bool_decide (pt_vars this ≠ pt_vars tmp)
         then table_reorganization tmp this else Ok tmp);
  mult_loop_r this tmp.
(** L1037-1049 [Normalize]. *)
Definition table_normalize_r (t : ptable) : outcome ptable :=
  denom ← mfor (seq 0 (pt_size t)) (fun i acc => x ← vget (pt_pots t) i; Ok (rnd (acc + x)%Qc)) 0%Qc;
  pots ← mfor (seq 0 (pt_size t)) (fun i pots =>
    x ← vget pots i;
    if bool_decide (denom = 0%Qc) then Err DivZero else vset pots i (rnd (x / denom)%Qc)) (pt_pots t);
  Ok (mkPT (pt_vars t) pots (pt_dims t) (pt_cum t) (pt_nv t) (pt_size t)).

(** ** JunctionTreeStructure.cpp *)
(** L331-355: one potential table goes to the first clique that contains its variables. *)
Fixpoint assign_one_r (pt : ptable) (cliques : list clq) : outcome (list clq) :=
  match cliques with
  | [] => Ok []
  | c :: cs =>
      if bool_decide (pt_vars pt = []) || bool_decide (cq_vars c = []) then Ok (c :: cs) else
      if bool_decide (set_difference (pt_vars pt) (cq_vars c) = []) then
        t ← table_multiplication_r (cq_tab c) pt; Ok (mkClq (cq_vars c) t :: cs)
      else cs' ← assign_one_r pt cs; Ok (c :: cs')
  end.
(** L314-356 [AssignPotentials]. *)
Definition assign_potentials_r (pts : list ptable) (cliques : list clq) : outcome (list clq) :=
  mfor pts assign_one_r cliques.
(** L15-56: constructor. *)
Definition jt_structure_r (o : mem_order) (N : network) (pts : list ptable) : outcome (list clq * list sepr) :=
  let n := length (nt_nodes N) in
  if bool_decide (n = 0) then Err Thrown else
  m ← dag_matrix N;
  mm ← moralize m n;
  cliques ← triangulate (S n) n (domain_sizes N) mm (replicate n false) [];
  seps ← form_junction_tree o (domain_sizes N) cliques;
  cliques' ← assign_potentials_r pts cliques;
  Ok (cliques', seps).

(** ** JunctionTree.cpp *)
(** L3-45: constructor. *)
Definition jt_build_r (o : mem_order) (N : network) (pts : list ptable) : outcome jtree :=
  r ← jt_structure_r o N pts;
  let '(cliques, seps) := r in
  root ← select_root o (length cliques) seps;
  lm ← mark_level o (length cliques) seps root;
  ctabs ← reorganize_storage (snd lm) (cq_tab <$> cliques) (sp_tab <$> seps);
  Ok (mkTree (domain_sizes N) (fst lm) (snd lm) (mkTabs ctabs (sp_tab <$> seps))).

(** L1056-1067, L725-735: the division loops. *)
Definition divide_level_r (seps tmp : list ptable) : outcome (list (list Qc)) :=
  let sizes := pt_size <$> tmp in
  par2 (in_order (snd (cum_sums sizes))) sizes (fun j k _ =>
    old ← vget seps j; y ← vget (pt_pots old) k;
    t ← vget tmp j; x ← vget (pt_pots t) k;
    Ok (if bool_decide (y = 0%Qc) then 0%Qc else rnd (x / y)%Qc)) (pt_pots <$> seps).
(** L978-1070 [SeparatorLevelCollectionOptimized]. *)
Definition separator_level_collection_r (sch : scheduler) (tag : list nat) (T : jtree) (i : nat) (st : tabs) : outcome tabs :=
  vec ← vget (jt_levels T) i;
  seps ← mcollect vec (vget (t_s st));
  clqs ← mcollect vec (fun s => d ← vget (dn_s (jt_marks T)) s; c ← vget d 0; vget (t_c st) c);
  tmp ← mcollect seps table_zero;
  tidx ← par2_fill (sch (tag ++ [0]) (snd (cum_sums (pt_size <$> clqs)))) (pt_size <$> clqs) (fun j k =>
           sep ← vget seps j; imod k (pt_size sep));
  tmp' ← mcollect (seq 0 (length vec)) (fun j =>
           t ← vget tmp j; c ← vget clqs j; x ← vget tidx j; marginalization_post_r t c x);
  pots ← divide_level_r seps tmp';
  set_tabs st (zip (TS <$> vec) (zip_with with_pots seps pots)).
(** L622-738 [SeparatorLevelDistribution]. *)
Definition separator_level_distribution_r (sch : scheduler) (tag : list nat) (T : jtree) (i : nat) (st : tabs) : outcome tabs :=
  vec ← vget (jt_levels T) i;
  seps ← mcollect vec (vget (t_s st));
  clqs ← mcollect vec (fun s => u ← vget (up_s (jt_marks T)) s;
           match u with Some c => vget (t_c st) c | None => Err NullDeref end);
  tmp ← mcollect seps table_zero;
  locs ← mcollect (seq 0 (length vec)) (fun j =>
           t ← vget tmp j; c ← vget clqs j;
           mcollect (seq 0 (pt_nv t)) (fun k => v ← vget (pt_vars t) k; get_variable_index c v));
  tidx ← par2_fill (sch (tag ++ [0]) (snd (cum_sums (pt_size <$> clqs)))) (pt_size <$> clqs) (fun j k =>
           t ← vget tmp j; c ← vget clqs j; l ← vget locs j; marginalization_main t (pt_nv c) (pt_cum c) l k);
  tmp' ← mcollect (seq 0 (length vec)) (fun j =>
           t ← vget tmp j; c ← vget clqs j; x ← vget tidx j; marginalization_post_r t c x);
  pots ← divide_level_r seps tmp';
  set_tabs st (zip (TS <$> vec) (zip_with with_pots seps pots)).
(** L843-852, L1143-1150: the multiplication loops and the normalisation after them. *)
Definition multiply_level_r (sch : scheduler) (tag : list nat) (st : tabs) (vec : list nat) (clqs tmp : list ptable) : outcome tabs :=
  let sizes := pt_size <$> tmp in
  pots ← par2 (sch (tag ++ [1]) (snd (cum_sums sizes))) sizes (fun j k x =>
    t ← vget tmp j; y ← vget (pt_pots t) k; Ok (rnd (x * y)%Qc)) (pt_pots <$> clqs);
  normed ← mcollect (zip_with with_pots clqs pots) table_normalize_r;
  set_tabs st (zip (TC <$> vec) normed).
(** L751-863 [CliqueLevelCollection]. *)
Definition clique_level_collection_r (sch : scheduler) (tag : list nat) (T : jtree) (i : nat) (has : list nat) (k : nat) (st : tabs)
  : outcome tabs :=
  level ← vget (jt_levels T) i;
  vec ← mcollect has (vget level);
  clqs ← mcollect vec (vget (t_c st));
  seps ← mcollect vec (fun c => d ← vget (dn_c (jt_marks T)) c; s ← vget d k; vget (t_s st) s);
  locs ← mcollect (seq 0 (length vec)) (fun j =>
           s ← vget seps j; c ← vget clqs j;
           mcollect (seq 0 (pt_nv s)) (fun l => v ← vget (pt_vars s) l; get_variable_index c v));
  tidx ← par2_fill (sch (tag ++ [0]) (snd (cum_sums (pt_size <$> clqs)))) (pt_size <$> clqs) (fun j x =>
           s ← vget seps j; c ← vget clqs j; l ← vget locs j; extension_main c (pt_nv s) (pt_cum s) l x);
  tmp ← mcollect (seq 0 (length vec)) (fun j =>
           s ← vget seps j; c ← vget clqs j; x ← vget tidx j; extension_post c s x);
  multiply_level_r sch tag st vec clqs tmp.
(** L1072-1160 [CliqueLevelDistributionOptimized]. *)
Definition clique_level_distribution_r (sch : scheduler) (tag : list nat) (T : jtree) (i : nat) (st : tabs) : outcome tabs :=
  vec ← vget (jt_levels T) i;
  clqs ← mcollect vec (vget (t_c st));
  seps ← mcollect vec (fun c => u ← vget (up_c (jt_marks T)) c;
           match u with Some s => vget (t_s st) s | None => Err NullDeref end);
  tidx ← par2_fill (sch (tag ++ [0]) (snd (cum_sums (pt_size <$> clqs)))) (pt_size <$> clqs) (fun j k =>
           sep ← vget seps j; imod k (pt_size sep));
  tmp ← mcollect (seq 0 (length vec)) (fun j =>
           s ← vget seps j; c ← vget clqs j; x ← vget tidx j; extension_post c s x);
  multiply_level_r sch tag st vec clqs tmp.
(** L1162-1228 [Collect]. *)
Definition collect_level_r (sch : scheduler) (tag : list nat) (T : jtree) (i : nat) (st : tabs) : outcome tabs :=
  if Nat.odd i then separator_level_collection_r sch (tag ++ [i]) T i st else
  level ← vget (jt_levels T) i;
  nums ← mcollect level (fun c => d ← vget (dn_c (jt_marks T)) c; Ok (length d));
  let max_num_children := foldl Nat.max 0 nums in
  mfor (seq 0 max_num_children) (fun k st =>
    let has := filter (fun j => k < default 0 (nums !! j)) (seq 0 (length level)) in
    clique_level_collection_r sch (tag ++ [i; k]) T i has k st) st.
Definition collect_r (sch : scheduler) (tag : list nat) (T : jtree) (st : tabs) : outcome tabs :=
  mfor (reverse (seq 0 (length (jt_levels T) - 1))) (collect_level_r sch tag T) st.
(** L1230-1255 [Distribute]. *)
Definition distribute_level_r (sch : scheduler) (tag : list nat) (T : jtree) (i : nat) (st : tabs) : outcome tabs :=
  if Nat.odd i then separator_level_distribution_r sch (tag ++ [i]) T i st
  else clique_level_distribution_r sch (tag ++ [i]) T i st.
Definition distribute_r (sch : scheduler) (tag : list nat) (T : jtree) (st : tabs) : outcome tabs :=
  mfor (seq 1 (length (jt_levels T) - 1)) (distribute_level_r sch tag T) st.
(** L1399-1412: evidence, normalisation of every clique, message passing. *)
Definition propagate_r (sch : scheduler) (T : jtree) (E : list (nat * nat)) (st : tabs) : outcome tabs :=
  st1 ← load_evidence sch [0] (length (jt_doms T)) E st;
  cs ← mcollect (t_c st1) table_normalize_r;
  st2 ← collect_r sch [1] T (mkTabs cs (t_s st1));
  distribute_r sch [2] T st2.
(** L1261-1302 [CalculateMarginalProbability]. *)
Definition calculate_marginal_r (T : jtree) (st : tabs) (q : nat) : outcome ptable :=
  b ← smallest_clique (t_c st) q;
  match b with
  | None => Err Exit1
  | Some (nv, t) =>
      if bool_decide (nv = 1) then Ok t else
      dim ← node_dim (jt_doms T) q;
      m ← table_marginalization_r t [q] [dim];
      table_normalize_r m
  end.
(** L1307-1380 [GetProbabilitiesAllNodes]. *)
Definition probabilities_all_r (T : jtree) (st : tabs) (E : list (nat * nat)) : outcome (list Qc) :=
  let n := length (jt_doms T) in
  let size := foldl Nat.add 0 (jt_doms T) in
  r ← mfor (seq 0 n) (fun i (acc : list Qc * nat) =>
    let '(probs, l) := acc in
    if bool_decide (i ∈ fst <$> E) then Ok (probs, S l) else
    b ← smallest_clique (t_c st) i;
    match b with
    | None => Err Exit1
    | Some (nv, t) =>
        dim ← node_dim (jt_doms T) i;
        m ← (if bool_decide (1 < nv) then table_marginalization_r t [i] [dim] else Ok t);
        p ← table_normalize_r m;
        mfor (seq 0 (pt_size p)) (fun j (acc : list Qc * nat) =>
          x ← vget (pt_pots p) j; pr ← vset (fst acc) (snd acc) x; Ok (pr, S (snd acc))) (probs, l)
    end) (replicate size (Q2Qc (QArith_base.inject_Z (-1))), 0);
  Ok (fst r).
(** L1399-1432 [PredictUseJTInfer]. *)
Definition query_label_r (sch : scheduler) (T : jtree) (q : nat) (E : list (nat * nat)) (st : tabs) : outcome (tabs * nat) :=
  st' ← propagate_r sch T E st;
  p ← calculate_marginal_r T st' q;
  l ← argmax (pt_pots p);
  Ok (jt_backup T, l).
Definition query_probs_r (sch : scheduler) (T : jtree) (E : list (nat * nat)) (st : tabs) : outcome (tabs * list Qc) :=
  st' ← propagate_r sch T E st;
  ps ← probabilities_all_r T st' E;
  Ok (jt_backup T, ps).
End rounded.
