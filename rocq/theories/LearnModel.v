(** Model of the counters of DiscreteNode.cpp, the table constructors of PotentialTableBase.cpp
    and ParameterLearning.cpp.  [int] counters are unbounded integers, [double] is exact. *)
From stdpp Require Export gmap.
From Verif Require Export TableModel GraphModel JTModel.
Local Open Scope nat_scope.

(** A floating division; by zero it gives NaN or an infinity. *)
Definition qdiv (x y : Qc) : outcome Qc := if bool_decide (y = 0%Qc) then Err DivZero else Ok (x / y)%Qc.
Definition qz (z : Z) : Qc := Q2Qc (QArith_base.inject_Z z).
Definition qn (n : nat) : Qc := qz (Z.of_nat n).

(** ** DiscreteNode.h L30-60, DiscreteNode.cpp *)
(** [map_cond_prob_table_statistics] (a map of maps) and [map_total_count_under_parents_config];
    an absent key reads as 0 ([operator[]]). *)
Record counters := mkCounters {
  ct_laplace : Qc; ct_init : bool; ct_joint : gmap (nat * config) Z; ct_total : gmap config Z }.
(** DiscreteNode.h: [laplace_smooth = 1], [cpt_initialized = false]. *)
Definition new_counters : counters := mkCounters 1%Qc false ∅ ∅.
(** DiscreteNode.cpp L50-52 [SetLaplaceSmooth]. *)
Definition set_laplace (a : Qc) (c : counters) : counters := mkCounters a (ct_init c) (ct_joint c) (ct_total c).
Definition read {K} `{Countable K} (m : gmap K Z) (k : K) : Z := default 0%Z (m !! k).
(** L65-82 [InitializeCPT]. *)
Definition initialize_cpt (nd : node) (c : counters) : counters :=
  let keys := if bool_decide (nd_parents nd = []) then [[]] else nd_combos nd in
  mkCounters (ct_laplace c) true
    (foldl (fun m u => foldl (fun m i => <[(i, u) := 0%Z]> m) m (seq 0 (nd_dom nd))) (ct_joint c) keys)
    (foldl (fun m u => <[u := 0%Z]> m) (ct_total c) keys).
(** L88-94 [AddCount]. *)
Definition add_count (nd : node) (x : nat) (u : config) (k : Z) (c : counters) : counters :=
  let c := if ct_init c then c else initialize_cpt nd c in
  mkCounters (ct_laplace c) (ct_init c)
    (<[(x, u) := (read (ct_joint c) (x, u) + k)%Z]> (ct_joint c))
    (<[u := (read (ct_total c) u + k)%Z]> (ct_total c)).
(** L101-106 [GetProbability]. *)
Definition get_probability (nd : node) (c : counters) (x : nat) (u : config) : outcome Qc :=
  qdiv (qz (read (ct_joint c) (x, u)) + ct_laplace c)%Qc
       (qz (read (ct_total c) u) + ct_laplace c * qn (nd_dom nd))%Qc.

(** ** PotentialTableBase.cpp: tables of nodes *)
(** L102-130 [ConstructPotentialTableWithEmptyPotentials] for node [x]; [resize] fills with 0. *)
Definition empty_node_table (N : network) (x : nat) : outcome ptable :=
  nd ← find_node N x;
  if bool_decide (nd_parents nd = []) then
    Ok (mkPT [x] (replicate (nd_dom nd) 0%Qc) [nd_dom nd] [1] 1 (nd_dom nd))
  else
    let vars := x :: nd_parents nd in
    r ← construct_var_dims_and_cum_levels (domain_sizes N) vars;
    let '(dims, cum, size) := r in
    Ok (mkPT vars (replicate size 0%Qc) dims cum (length vars) size).
Definition set_pots (t : ptable) (pots : list Qc) : ptable :=
  mkPT (pt_vars t) pots (pt_dims t) (pt_cum t) (pt_nv t) (pt_size t).
(** L16-69: the table of node [x] from its counters; same shape as above, each potential is
    assigned once, in order. *)
Definition node_table (N : network) (x : nat) (c : counters) : outcome ptable :=
  nd ← find_node N x;
  t ← empty_node_table N x;
  if bool_decide (nd_parents nd = []) then
    pots ← mcollect (seq 0 (pt_size t)) (fun i => get_probability nd c i []);
    Ok (set_pots t pots)
  else
    pots ← mcollect (seq 0 (pt_size t)) (fun i =>
      cfg ← get_config t i;
      x0 ← vget cfg 0;
      u ← mfor (seq 1 (pt_nv t - 1)) (fun j u => v ← vget (pt_vars t) j; z ← vget cfg j; Ok (cins (v, z) u)) [];
      get_probability nd c x0 u);
    Ok (set_pots t pots).
(** L76-96: the table of an observation. *)
Definition evidence_table (nd : node) (x value : nat) : ptable :=
  mkPT [x] ((fun i => if bool_decide (i = value) then 1%Qc else 0%Qc) <$> seq 0 (nd_dom nd)) [nd_dom nd] [1] 1 (nd_dom nd).
(** JunctionTreeStructure.cpp L317-326, SampleSetGenerator.cpp L24-30: one table per node, in
    the order of the nodes; [cs] holds the counters of each node. *)
Definition node_tables (N : network) (cs : list counters) : outcome (list ptable) :=
  mcollect (seq 0 (length (nt_nodes N))) (fun x => c ← vget cs x; node_table N x c).

(** ** ParameterLearning.cpp L10-109 [LearnParamsKnowStructCompData] *)
(** [dataset_columns], [num_instance] and [num_vars] of the data set. *)
Record columns := mkCols { co_cols : list (list nat); co_rows : nat; co_vars : nat }.
Definition cell (D : columns) (v j : nat) : outcome nat := col ← vget (co_cols D) v; vget col j.
(** One [++]. *)
Definition bump (l : list nat) (k : nat) : outcome (list nat) := n ← vget l k; vset l k (S n).
(** L37-69: one instance.  [coin] is the sequence of results of [Random01] (common.cpp L220)
    for this node, one per instance. *)
Definition count_row (D : columns) (root : option nat) (coin : nat -> nat) (t : ptable) (j : nat)
  (st : list nat * list nat) : outcome (list nat * list nat) :=
  if bool_decide (pt_nv t = 1) then
    v ← vget (pt_vars t) 0; x ← cell D v j;
    s ← bump (fst st) x; n ← bump (snd st) 0; Ok (s, n)
  else
    p ← vget (pt_vars t) 1;
    cfg ← (if bool_decide (Some p = root) then v ← vget (pt_vars t) 0; x ← cell D v j; Ok [x; coin j]
           else mcollect (seq 0 (pt_nv t)) (fun k => v ← vget (pt_vars t) k; cell D v j));
    i ← get_index t cfg;
    c0 ← vget (pt_cum t) 0;
    i2 ← imod i c0;
    s ← bump (fst st) i; n ← bump (snd st) i2; Ok (s, n).
(** L25-84: the table of variable [x]. *)
Definition learn_node (N : network) (D : columns) (alpha : Z) (root : option nat) (coin : nat -> nat) (x : nat) : outcome ptable :=
  t ← empty_node_table N x;
  c0 ← vget (pt_cum t) 0;
  st ← mfor (seq 0 (co_rows D)) (count_row D root coin t) (replicate (pt_size t) 0, replicate c0 0);
  pots ← mcollect (seq 0 (pt_size t)) (fun j =>
    n1 ← vget (fst st) j;
    n2 ← (if bool_decide (pt_nv t = 1) then vget (snd st) 0 else i2 ← imod j c0; vget (snd st) i2);
    d0 ← vget (pt_dims t) 0;
    qdiv (qn n1 + qz alpha)%Qc (qn n2 + qz alpha * qn d0)%Qc);
  Ok (set_pots t pots).
(** L87-104: the table of ROOT. *)
Definition learn_root (N : network) (D : columns) (alpha : Z) (root : nat) : outcome ptable :=
  t ← empty_node_table N root;
  let n1 := co_rows D / 2 in
  let n2 := co_rows D in
  d0 ← vget (pt_dims t) 0;
  p ← qdiv (qn n1 + qz alpha)%Qc (qn n2 + qz alpha * qn d0)%Qc;
  pots ← vset (pt_pots t) 0 p;
  pots ← vset pots 1 p;
  Ok (set_pots t pots).
(** The tables are appended to [network->pts]. *)
Definition learn_params (N : network) (D : columns) (alpha : Z) (coin : nat -> nat -> nat) (pts : list ptable) : outcome (list ptable) :=
  let root := if bool_decide (length (nt_nodes N) = co_vars D) then None else Some (co_vars D) in
  pts ← mfor (seq 0 (co_vars D)) (fun x pts => t ← learn_node N D alpha root (coin x) x; Ok (pts ++ [t])) pts;
  match root with
  | None => Ok pts
  | Some r => t ← learn_root N D alpha r; Ok (pts ++ [t])
  end.
