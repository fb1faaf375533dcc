(** The other ways of passing messages that the sources contain beside the one in use
    (JTModel.v [collect], [distribute]): the calls to them are commented out in JunctionTree.cpp. *)
From Verif Require Export JTModel.

(** ** Updating one table *)
(** inference/Clique.cpp L126-132 [Clique::UpdateMessage]. *)
Definition update_clique (this msg : ptable) : outcome ptable :=
  t ← table_multiplication this msg; table_normalize t.
(** inference/Separator.cpp L14-31 [Separator::UpdateMessage].  The second comparison is with the
    message as it came, not with the marginalised one. *)
Definition update_separator (this msg : ptable) : outcome ptable :=
  t1 ← (if bool_decide (pt_nv msg <> pt_nv this) then table_marginalization msg (pt_vars this) (pt_dims this) else Ok msg);
  t2 ← (if bool_decide (pt_vars this <> pt_vars msg) then table_reorganization t1 this else Ok t1);
  table_division t2 this.
(** [UpdateMessage] is virtual: the receiver decides. *)
Definition update_table (x : tnode) : ptable -> ptable -> outcome ptable :=
  match x with TC _ => update_clique | TS _ => update_separator end.
(** [dst->UpdateMessage(src->p_table)]. *)
Definition send (src dst : tnode) (st : tabs) : outcome tabs :=
  this ← get_tab st dst; msg ← get_tab st src; t ← update_table dst this msg; set_tab st dst t.

(** ** Walking through the tree *)
(** [ptr_downstream_cliques]. *)
Definition downstream (T : jtree) (x : tnode) : outcome (list tnode) :=
  match x with
  | TC c => d ← vget (dn_c (jt_marks T)) c; Ok (map TS d)
  | TS s => d ← vget (dn_s (jt_marks T)) s; Ok (map TC d)
  end.
(** [ptr_upstream_clique], dereferenced. *)
Definition upstream (T : jtree) (x : tnode) : outcome tnode :=
  match x with
  | TC c => u ← vget (up_c (jt_marks T)) c; match u with Some s => Ok (TS s) | None => Err NullDeref end
  | TS s => u ← vget (up_s (jt_marks T)) s; match u with Some c => Ok (TC c) | None => Err NullDeref end
  end.
(** [nodes_by_level[i]]: even levels hold cliques, odd ones separators. *)
Definition level_nodes (T : jtree) (i : nat) : outcome (list tnode) :=
  l ← vget (jt_levels T) i; Ok (map (if Nat.odd i then TS else TC) l).
(** [arb_root], the only clique of the first level. *)
Definition root_node (T : jtree) : outcome tnode := l ← level_nodes T 0; vget l 0.

(** inference/Clique.cpp L64-74 [Collect3]. *)
Definition collect3 (T : jtree) (st : tabs) : outcome tabs :=
  mfor (reverse (seq 0 (length (jt_levels T) - 1))) (fun i st =>
    level ← level_nodes T i;
    mfor level (fun x st => ds ← downstream T x; mfor ds (fun y st => send y x st) st) st) st.
(** inference/Clique.cpp L110-120 [Distribute3]. *)
Definition distribute3 (T : jtree) (st : tabs) : outcome tabs :=
  mfor (seq 1 (length (jt_levels T) - 1)) (fun i st =>
    level ← level_nodes T i;
    mfor level (fun x st => u ← upstream T x; send u x st) st) st.

(** inference/Clique.cpp L38-53 [Collect2], executed by one thread that runs each task where it is
    created.  The recursion is bounded by [fuel]. *)
Fixpoint collect2_from (fuel : nat) (T : jtree) (x : tnode) (st : tabs) : outcome tabs :=
  match fuel with
  | 0 => Err OutOfFuel
  | S f => ds ← downstream T x; mfor ds (fun y st => st' ← collect2_from f T y st; send y x st') st
  end.
(** inference/Clique.cpp L89-99 [Distribute2(pt)], where [pt] is the table of [src]. *)
Fixpoint distribute2_to (fuel : nat) (T : jtree) (src x : tnode) (st : tabs) : outcome tabs :=
  match fuel with
  | 0 => Err OutOfFuel
  | S f => st' ← send src x st; ds ← downstream T x; mfor ds (fun y st => distribute2_to f T x y st) st'
  end.
(** inference/JunctionTree.cpp L465-483: [arb_root->Collect2()] and [arb_root->Distribute2()]
    (inference/Clique.cpp L83-87). *)
Definition collect2 (fuel : nat) (T : jtree) (st : tabs) : outcome tabs :=
  r ← root_node T; collect2_from fuel T r st.
Definition distribute2 (fuel : nat) (T : jtree) (st : tabs) : outcome tabs :=
  r ← root_node T; ds ← downstream T r; mfor ds (fun y st => distribute2_to fuel T r y st) st.

(** ** The loops without the index shortcut *)
(** inference/JunctionTree.cpp L504-620 [SeparatorLevelCollection]. *)
Definition separator_level_collection_plain (sch : scheduler) (tag : list nat) (T : jtree) (i : nat) (st : tabs) : outcome tabs :=
  vec ← vget (jt_levels T) i;
  seps ← mcollect vec (vget (t_s st));
  clqs ← mcollect vec (fun s => d ← vget (dn_s (jt_marks T)) s; c ← vget d 0; vget (t_c st) c);
  tmp ← mcollect seps table_zero;
  locs ← mcollect (seq 0 (length vec)) (fun j =>
           t ← vget tmp j; c ← vget clqs j;
           mcollect (seq 0 (pt_nv t)) (fun k => v ← vget (pt_vars t) k; get_variable_index c v));
  tidx ← par2_fill (sch (tag ++ [0]) (snd (cum_sums (pt_size <$> clqs)))) (pt_size <$> clqs) (fun j k =>
           t ← vget tmp j; c ← vget clqs j; l ← vget locs j; marginalization_main t (pt_nv c) (pt_cum c) l k);
  tmp' ← mcollect (seq 0 (length vec)) (fun j =>
           t ← vget tmp j; c ← vget clqs j; x ← vget tidx j; marginalization_post t c x);
  pots ← divide_level seps tmp';
  set_tabs st (zip (TS <$> vec) (zip_with with_pots seps pots)).
(** inference/JunctionTree.cpp L865-976 [CliqueLevelDistribution]. *)
Definition clique_level_distribution_plain (sch : scheduler) (tag : list nat) (T : jtree) (i : nat) (st : tabs) : outcome tabs :=
  vec ← vget (jt_levels T) i;
  clqs ← mcollect vec (vget (t_c st));
  seps ← mcollect vec (fun c => u ← vget (up_c (jt_marks T)) c;
           match u with Some s => vget (t_s st) s | None => Err NullDeref end);
  locs ← mcollect (seq 0 (length vec)) (fun j =>
           s ← vget seps j; c ← vget clqs j;
           mcollect (seq 0 (pt_nv s)) (fun l => v ← vget (pt_vars s) l; get_variable_index c v));
  tidx ← par2_fill (sch (tag ++ [0]) (snd (cum_sums (pt_size <$> clqs)))) (pt_size <$> clqs) (fun j x =>
           s ← vget seps j; c ← vget clqs j; l ← vget locs j; extension_main c (pt_nv s) (pt_cum s) l x);
  tmp ← mcollect (seq 0 (length vec)) (fun j =>
           s ← vget seps j; c ← vget clqs j; x ← vget tidx j; extension_post c s x);
  multiply_level sch tag st vec clqs tmp.
(** inference/JunctionTree.cpp L1162-1228 [Collect] with the call of L1172 instead of L1173. *)
Definition collect_plain (sch : scheduler) (tag : list nat) (T : jtree) (st : tabs) : outcome tabs :=
  mfor (reverse (seq 0 (length (jt_levels T) - 1))) (fun i st =>
    if Nat.odd i then separator_level_collection_plain sch (tag ++ [i]) T i st else collect_level sch tag T i st) st.
(** inference/JunctionTree.cpp L1230-1255 [Distribute] with the call of L1250 instead of L1251. *)
Definition distribute_plain (sch : scheduler) (tag : list nat) (T : jtree) (st : tabs) : outcome tabs :=
  mfor (seq 1 (length (jt_levels T) - 1)) (fun i st =>
    if Nat.odd i then separator_level_distribution sch (tag ++ [i]) T i st else clique_level_distribution_plain sch (tag ++ [i]) T i st) st.

(** ** Evidence without removing the observed variables *)
(** inference/JunctionTree.cpp L308-379 [LoadEvidenceToNodes]: entries that contradict the evidence
    become zero (L358-363). *)
Definition zero_out (t : ptable) (value : nat) (vidx : list nat) : outcome ptable :=
  pots ← mfor (seq 0 (pt_size t)) (fun i pots =>
    v ← vget vidx i; if bool_decide (v <> value) then vset pots i 0%Qc else Ok pots) (pt_pots t);
  Ok (with_pots t pots).
Definition load_evidence_to_nodes_plain (sch : scheduler) (tag : list nat) (st : tabs) (nodes : list tnode) (index value : nat)
  : outcome tabs :=
  ts ← mcollect nodes (get_tab st);
  let sizes := pt_size <$> ts in
  locs ← par1_fill (sch (tag ++ [0]) (length ts)) (length ts) (fun k => t ← vget ts k; get_variable_index t index);
  vidx ← par2_fill (sch (tag ++ [1]) (snd (cum_sums sizes))) sizes (fun k i =>
           t ← vget ts k; loc ← vget locs k; reduction_main t loc i);
  ts' ← par1 (sch (tag ++ [2]) (length ts)) (fun k t => vi ← vget vidx k; zero_out t value vi) ts;
  set_tabs st (zip nodes ts').
(** inference/JunctionTree.cpp L238-305 [LoadDiscreteEvidence] with the call of L292 instead of L291. *)
Definition load_evidence_plain (sch : scheduler) (tag : list nat) (n : nat) (E : list (nat * nat)) (st : tabs) : outcome tabs :=
  mfor (zip (seq 0 (length E)) E) (fun ie st =>
    let '(i, (index, value)) := ie in
    if bool_decide (n <= index) then Ok st else
    nodes ← tables_with st index;
    load_evidence_to_nodes_plain sch (tag ++ [i]) st nodes index value) st.

(** ** The variants of a propagation (inference/JunctionTree.cpp L1399-1412, L457-494) *)
Inductive passing := Shortcut | Plain | LevelByLevel | Recursive (fuel : nat).
Definition pass_messages (p : passing) (sch : scheduler) (T : jtree) (st : tabs) : outcome tabs :=
  match p with
  | Shortcut => st' ← collect sch [1] T st; distribute sch [2] T st'
  | Plain => st' ← collect_plain sch [1] T st; distribute_plain sch [2] T st'
  | LevelByLevel => st' ← collect3 T st; distribute3 T st'
  | Recursive f => st' ← collect2 f T st; distribute2 f T st'
  end.
Definition propagate_by (p : passing) (drop : bool) (sch : scheduler) (T : jtree) (E : list (nat * nat)) (st : tabs) : outcome tabs :=
  st1 ← (if drop then load_evidence sch [0] (length (jt_doms T)) E st else load_evidence_plain sch [0] (length (jt_doms T)) E st);
  cs ← mcollect (t_c st1) table_normalize;
  pass_messages p sch T (mkTabs cs (t_s st1)).
