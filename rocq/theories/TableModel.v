(** Model of class [PotentialTableBase] (src/fastpgm/PotentialTableBase.cpp).

    Simplifications common to the whole file: [double] is an exact rational [Qc];
    [int] is [nat]; scratch arrays ([full_config], [partial_config], ...) that are
    written left to right and then read are returned as lists; the fields
    [potentialsICPT] and [pt_scores] (only used by sampling code that is not in the
    repository) are omitted. *)
From Verif Require Export Base.
Local Open Scope Qc_scope.

(** include/fastpgm/PotentialTableBase.h L25-40: the fields of a table. *)
Record ptable := mkPT {
  pt_vars : list nat;   (* vec_related_variables *)
  pt_pots : list Qc;    (* potentials *)
  pt_dims : list nat;   (* var_dims *)
  pt_cum  : list nat;   (* cum_levels *)
  pt_nv   : nat;        (* num_variables *)
  pt_size : nat;        (* table_size *)
}.

(** PotentialTableBase.cpp L6-9: default constructor. *)
Definition pt_default : ptable := mkPT [] [] [] [] 0%nat 0%nat.

(** PotentialTableBase.cpp L1135-1142 [GetVariableIndex]: location of a variable, or
    [num_variables] if it does not occur. *)
Fixpoint find_var (vars : list nat) (nv : nat) (idxs : list nat) (v : nat) : outcome nat :=
  match idxs with
  | [] => Ok nv
  | i :: rest => x ← vget vars i;
                 if bool_decide (x = v) then Ok i else find_var vars nv rest v
  end.
Definition get_variable_index (t : ptable) (v : nat) : outcome nat :=
  find_var (pt_vars t) (pt_nv t) (seq 0 (pt_nv t)) v.

(** PotentialTableBase.cpp L1151-1159 and L1179-1187 [GetConfigValueByTableIndex]. *)
Fixpoint config_loop (cum : list nat) (idxs : list nat) (a : nat) : outcome (list nat) :=
  match idxs with
  | [] => Ok []
  | i :: rest => cl ← vget cum i;
                 c ← idiv a cl;
                 d ← imod a cl;
                 cs ← config_loop cum rest d;
                 Ok (c :: cs)
  end.
Definition get_config_nv (k nv : nat) (cum : list nat) : outcome (list nat) :=
  config_loop cum (seq 0 nv) k.
Definition get_config (t : ptable) (k : nat) : outcome (list nat) :=
  get_config_nv k (pt_nv t) (pt_cum t).

(** PotentialTableBase.cpp L1164-1170 and L1192-1198 [GetTableIndexByConfigValue]. *)
Definition get_index_nv (cfg : list nat) (nv : nat) (cum : list nat) : outcome nat :=
  mfor (seq 0 nv) (fun i acc => c ← vget cfg i; l ← vget cum i; Ok (acc + c * l)%nat) 0%nat.
Definition get_index (t : ptable) (cfg : list nat) : outcome nat :=
  get_index_nv cfg (pt_nv t) (pt_cum t).

(** PotentialTableBase.cpp L1204-1210 [GetRelativeIndexByConfigValue]. *)
Definition get_relative_index (t : ptable) (cfg : list nat) : outcome nat :=
  mfor (seq 1 (pt_nv t - 1))
    (fun i acc => c ← vget cfg (i - 1)%nat; l ← vget (pt_cum t) i; Ok (acc + c * l)%nat) 0%nat.

(** PotentialTableBase.cpp L1231-1239 [ConstructCumLevels].  With no variable the code
    writes [cum_levels[-1]].  The loop overwrites every entry, so the contents kept
    by [resize] do not matter and are modelled as zeros. *)
Definition construct_cum_levels (nv : nat) (dims : list nat) : outcome (list nat) :=
  if bool_decide (nv = 0%nat) then Err OutOfBounds else
  c0 ← vset (replicate nv 0%nat) (nv - 1) 1%nat;
  mfor (reverse (seq 0 (nv - 1)))
    (fun i cum => c ← vget cum (i + 1)%nat; d ← vget dims (i + 1)%nat; vset cum i (c * d)%nat) c0.

(** Domain size of node [v] of the network ([FindNodePtrByIndex], Network.cpp L67-73,
    exits when the node does not exist).  [doms] lists the domain sizes of nodes 0,1,.. *)
Definition node_dim (doms : list nat) (v : nat) : outcome nat :=
  match doms !! v with Some d => Ok d | None => Err Exit1 end.

(** PotentialTableBase.cpp L1216-1226 [ConstructVarDimsAndCumLevels]: dims, cum_levels and
    table size of a table over [vars]. *)
Definition construct_var_dims_and_cum_levels (doms vars : list nat)
  : outcome (list nat * list nat * nat) :=
  dims ← mcollect vars (node_dim doms);
  cum ← construct_cum_levels (length vars) dims;
  c0 ← vget cum 0; d0 ← vget dims 0;
  Ok (dims, cum, (c0 * d0)%nat).

(** PotentialTableBase.cpp L137-151 [ConstructEmptyPotentialTable]: all entries 1;
    [vars] is the content of the [std::set], in increasing order. *)
Definition construct_empty_potential_table (doms vars : list nat) : outcome ptable :=
  r ← construct_var_dims_and_cum_levels doms vars;
  let '(dims, cum, size) := r in
  Ok (mkPT vars (replicate size 1) dims cum (length vars) size).

(** PotentialTableBase.cpp L243-252 [TableReorganizationMain]. *)
Definition reorganization_main (new old : ptable) (locs : list nat) (k : nat) : outcome nat :=
  cfg1 ← get_config old k;
  cfg2 ← mcollect (seq 0 (pt_nv new)) (fun l => loc ← vget locs l; vget cfg1 loc);
  get_index new cfg2.

(** PotentialTableBase.cpp L254-259 [TableReorganizationPost]. *)
Definition reorganization_post (new old : ptable) (tidx : list nat) : outcome ptable :=
  pots ← mfor (seq 0 (pt_size new))
    (fun k pots => j ← vget tidx k; x ← vget (pt_pots old) k; vset pots j x) (pt_pots new);
  Ok (mkPT (pt_vars new) pots (pt_dims new) (pt_cum new) (pt_nv new) (pt_size new)).

(** PotentialTableBase.cpp L165-196 [TableReorganization].  [locations] is allocated with
    [this->num_variables] cells and [table_index] with [this->table_size] cells. *)
Definition table_reorganization (this refer : ptable) : outcome ptable :=
  let new := refer in
  locs ← mcollect (seq 0 (pt_nv new)) (fun i =>
    if bool_decide (i < pt_nv this)%nat then
      v ← vget (pt_vars new) i; get_variable_index this v
    else Err OutOfBounds);
  tidx ← mcollect (seq 0 (pt_size new)) (fun k =>
    if bool_decide (k < pt_size this)%nat then reorganization_main new this locs k
    else Err OutOfBounds);
  reorganization_post new this tidx.

(** PotentialTableBase.cpp L198-241 [TableReorganizationPre]: the merge-like loop that takes
    the common variables out of [this] and appends them.  [reorg_split] walks through the
    variables of [this] (with dims and locations) and the common variables; it returns the
    kept (location, variable, dim) triples and the locations/dims of the common
    ones.  Running past the end of [vec_related_variables] while looking for a common
    variable is out of bounds. *)
Fixpoint reorg_split (vd : list (nat * nat)) (i : nat) (common : list nat)
  : outcome (list (nat * nat * nat) * list (nat * nat)) :=
  match vd with
  | [] => match common with
          | [] => Ok ([], [])
          | _ :: _ => (* either the inner loop reads past the end, or the outer loop
                         stops and the appended variables do not fit *)
                      Err OutOfBounds
          end
  | (v, d) :: vd' =>
      match common with
      | [] => r ← reorg_split vd' (S i) []; Ok ((i, v, d) :: fst r, snd r)
      | c :: cs =>
          if bool_decide (v = c) then
            r ← reorg_split vd' (S i) cs; Ok (fst r, (i, d) :: snd r)
          else
            r ← reorg_split vd' (S i) (c :: cs); Ok ((i, v, d) :: fst r, snd r)
      end
  end.
Definition reorganization_pre (this : ptable) (common : list nat) : outcome (ptable * list nat) :=
  r ← reorg_split (zip (pt_vars this) (pt_dims this)) 0 common;
  let '(kept, com) := r in
  let vars := ((fun t : nat * nat * nat => snd (fst t)) <$> kept) ++ common in
  let dims := ((fun t : nat * nat * nat => snd t) <$> kept) ++ (snd <$> com) in
  let locs := ((fun t : nat * nat * nat => fst (fst t)) <$> kept) ++ (fst <$> com) in
  cum ← construct_cum_levels (pt_nv this) dims;
  Ok (mkPT vars (replicate (pt_size this) 0) dims cum (pt_nv this) (pt_size this), locs).

(** JunctionTree.cpp L182-196: one clique of [ReorganizeTableStorage] (Pre, main loop, Post). *)
Definition table_reorganize_tail (this : ptable) (common : list nat) : outcome ptable :=
  r ← reorganization_pre this common;
  let '(new, locs) := r in
  tidx ← mcollect (seq 0 (pt_size new)) (reorganization_main new this locs);
  reorganization_post new this tidx.

(** PotentialTableBase.cpp L313-318 [TableReductionMain].  The value is read from row [i] of
    [full_config]; a location equal to [num_variables] reads outside the row. *)
Definition reduction_main (t : ptable) (loc i : nat) : outcome nat :=
  cfg ← get_config t i; vget cfg loc.

(** The two copying loops of PotentialTableBase.cpp L338-349: drop the first occurrence of
    [index]; running off the end of the vector is out of bounds. *)
Fixpoint drop_var (vars dims : list nat) (index : nat) : outcome (list nat * list nat) :=
  match vars, dims with
  | v :: vs, d :: ds =>
      if bool_decide (v = index) then Ok (vs, ds)
      else r ← drop_var vs ds index; Ok (v :: fst r, d :: snd r)
  | _, _ => Err OutOfBounds
  end.

(** PotentialTableBase.cpp L320-362 [TableReductionPost]. *)
Definition reduction_post (t : ptable) (index value : nat) (vidx : list nat) (loc : nat)
  : outcome ptable :=
  d ← vget (pt_dims t) loc;
  new_size ← idiv (pt_size t) d;
  r ← mfor (seq 0 (pt_size t)) (fun i (st : nat * list Qc) =>
        let '(j, np) := st in
        vi ← vget vidx i;
        if bool_decide (vi = value) then
          x ← vget (pt_pots t) i; np' ← vset np j x; Ok (S j, np')
        else Ok (j, np)) (0%nat, replicate new_size 0);
  let pots := snd r in
  let nv := (pt_nv t - 1)%nat in
  if bool_decide (0 < nv)%nat then
    vd ← drop_var (pt_vars t) (pt_dims t) index;
    cum ← construct_cum_levels nv (snd vd);
    Ok (mkPT (fst vd) pots (snd vd) cum nv new_size)
  else Ok (mkPT [] pots [] [] nv 1%nat).

(** PotentialTableBase.cpp L275-307 [TableReduction]. *)
Definition table_reduction (t : ptable) (index value : nat) : outcome ptable :=
  loc ← get_variable_index t index;
  vidx ← mcollect (seq 0 (pt_size t)) (reduction_main t loc);
  reduction_post t index value vidx loc.

(** PotentialTableBase.cpp L378-424 [GetReducedPotentials]: the distribution of the first
    variable given the values of all nodes in [evidence]. [rlen] is the length of the
    result vector supplied by the caller. *)
Definition get_reduced_potentials (t : ptable) (rlen : nat) (evidence : list nat) : outcome (list Qc) :=
  if bool_decide (pt_nv t = 1%nat) then Ok (pt_pots t) else
  dp ← vget (pt_cum t) 0;
  par ← mcollect (seq 1 (length (pt_vars t) - 1)) (fun i =>
          v ← vget (pt_vars t) i; vget evidence v);
  lp ← get_relative_index t par;
  d0 ← vget (pt_dims t) 0;
  r ← mfor (0%nat :: seq 1 (d0 - 1)) (fun i result =>
        x ← vget (pt_pots t) (lp + i * dp)%nat; vset result i x) (replicate rlen 0);
  Ok r.

(** PotentialTableBase.cpp L476-493 [GetReducedPotential]: the entry selected by the values
    of all nodes. *)
Definition get_reduced_potential (t : ptable) (evidence : list nat) : outcome Qc :=
  if bool_decide (pt_nv t = 1%nat) then
    v ← vget (pt_vars t) 0; e ← vget evidence v; vget (pt_pots t) e
  else
    cfg ← mcollect (seq 0 (pt_nv t)) (fun i => v ← vget (pt_vars t) i; vget evidence v);
    k ← get_index t cfg;
    vget (pt_pots t) k.

(** PotentialTableBase.cpp L586-591 [TableMarginalizationPost] (same code L733-738): scatter-add. *)
Definition marginalization_post (new old : ptable) (tidx : list nat) : outcome ptable :=
  pots ← mfor (seq 0 (pt_size old)) (fun k pots =>
    j ← vget tidx k; x ← vget (pt_pots old) k; y ← vget pots j; vset pots j (y + x)) (pt_pots new);
  Ok (mkPT (pt_vars new) pots (pt_dims new) (pt_cum new) (pt_nv new) (pt_size new)).

(** PotentialTableBase.cpp L574-584 [TableMarginalizationMain] (and the loop bodies L536-545,
    L610-619, L687-696): index in [new] of entry [k] of a table with [nv] variables and
    cumulative levels [cl]. *)
Definition marginalization_main (new : ptable) (nv : nat) (cl : list nat) (locs : list nat) (k : nat)
  : outcome nat :=
  full ← get_config_nv k nv cl;
  part ← mcollect (seq 0 (pt_nv new)) (fun l => loc ← vget locs l; vget full loc);
  get_index new part.

(** PotentialTableBase.cpp L554-569 [TableMarginalizationPre] (kept variables given). *)
Definition marginalization_pre (variables dims : list nat) : outcome ptable :=
  let nv := length variables in
  if bool_decide (nv ≠ 0%nat) then
    cum ← construct_cum_levels nv dims;
    c0 ← vget cum 0; d0 ← vget dims 0;
    Ok (mkPT variables (replicate (c0 * d0) 0) dims cum nv (c0 * d0)%nat)
  else Ok (mkPT variables (replicate 1 0) dims [] nv 1%nat).

(** The common body of the three marginalisations: locations, main loop, Post. *)
Definition marginalization_body (this new : ptable) : outcome ptable :=
  locs ← mcollect (seq 0 (pt_nv new)) (fun i => v ← vget (pt_vars new) i; get_variable_index this v);
  tidx ← mcollect (seq 0 (pt_size this)) (marginalization_main new (pt_nv this) (pt_cum this) locs);
  marginalization_post new this tidx.

(** PotentialTableBase.cpp L519-552 [TableMarginalization(variables, dims)]. *)
Definition table_marginalization (this : ptable) (variables dims : list nat) : outcome ptable :=
  new ← marginalization_pre variables dims;
  marginalization_body this new.

(** PotentialTableBase.cpp L628-664 [TableMarginalizationPre(ext_variable, new_table)]. *)
Definition marginalization_ext_pre (this : ptable) (ext : nat) : outcome ptable :=
  if bool_decide (pt_nv this = 0%nat) then Err Thrown (* resize(-1) *) else
  let nv := (pt_nv this - 1)%nat in
  if bool_decide (nv = 0%nat) then Ok (mkPT [] (replicate 1 0) [] [] nv 1%nat) else
  vd ← drop_var (pt_vars this) (pt_dims this) ext;
  let dims := snd <$> filter (fun vd : nat * nat => fst vd ≠ ext) (zip (pt_vars this) (pt_dims this)) in
  cum ← construct_cum_levels nv dims;
  c0 ← vget cum 0; d0 ← vget dims 0;
  Ok (mkPT (fst vd) (replicate (c0 * d0) 0) dims cum nv (c0 * d0)%nat).

(** PotentialTableBase.cpp L593-626 [TableMarginalization(ext_variable)]. *)
Definition table_marginalization_ext (this : ptable) (ext : nat) : outcome ptable :=
  new ← marginalization_ext_pre this ext;
  marginalization_body this new.

(** PotentialTableBase.cpp L705-731 [TableMarginalizationOneVariablePre]: the new arrays have
    [num_variables - 1] cells, so an absent variable overruns them. *)
Definition marginalization_one_pre (this : ptable) (ext : nat) : outcome ptable :=
  if bool_decide (pt_nv this = 0%nat) then Err Thrown (* resize(-1) *) else
  let nv := (pt_nv this - 1)%nat in
  if bool_decide (nv = 0%nat) then Ok (mkPT [] (replicate 1 0) [] [] nv 1%nat) else
  let vd := filter (fun vd : nat * nat => fst vd ≠ ext) (zip (pt_vars this) (pt_dims this)) in
  if bool_decide (nv < length vd)%nat then Err OutOfBounds else
  let vars := fst <$> vd in let dims := snd <$> vd in
  cum ← construct_cum_levels nv dims;
  c0 ← vget cum 0; d0 ← vget dims 0;
  Ok (mkPT vars (replicate (c0 * d0) 0) dims cum nv (c0 * d0)%nat).

(** PotentialTableBase.cpp L670-703 [TableMarginalizationOneVariable]. *)
Definition table_marginalization_one (this : ptable) (ext : nat) : outcome ptable :=
  new ← marginalization_one_pre this ext;
  marginalization_body this new.

(** PotentialTableBase.cpp L769-796 [TableMarginalizationSimplified]: keep only the first variable. *)
Definition table_marginalization_simplified (this : ptable) : outcome ptable :=
  if bool_decide (pt_nv this = 1%nat) then Ok this else
  d ← vget (pt_dims this) 0;
  v ← vget (pt_vars this) 0;
  dp ← idiv (pt_size this) d;
  pots ← mfor (seq 0 (pt_size this)) (fun i pots =>
    id ← idiv i dp; x ← vget (pt_pots this) i; y ← vget pots id; vset pots id (y + x)) (replicate d 0);
  Ok (mkPT [v] pots [d] [1%nat] 1%nat d).

(** PotentialTableBase.cpp L842-850 [TableExtensionPre]. *)
Definition extension_pre (variables dims : list nat) : outcome ptable :=
  let nv := length variables in
  cum ← construct_cum_levels nv dims;
  c0 ← vget cum 0; d0 ← vget dims 0;
  Ok (mkPT variables (replicate (c0 * d0) 0) dims cum nv (c0 * d0)%nat).

(** PotentialTableBase.cpp L852-862 [TableExtensionMain] (and loop body L821-831): index in the
    small table (with [nv] variables and levels [cl]) of entry [k] of [big]. *)
Definition extension_main (big : ptable) (nv : nat) (cl : list nat) (locs : list nat) (k : nat)
  : outcome nat :=
  full ← get_config big k;
  part ← mcollect (seq 0 nv) (fun l => loc ← vget locs l; vget full loc);
  get_index_nv part nv cl.

(** PotentialTableBase.cpp L864-869 [TableExtensionPost]: gather. *)
Definition extension_post (big small : ptable) (tidx : list nat) : outcome ptable :=
  pots ← mfor (seq 0 (pt_size big)) (fun k pots =>
    j ← vget tidx k; x ← vget (pt_pots small) j; vset pots k x) (pt_pots big);
  Ok (mkPT (pt_vars big) pots (pt_dims big) (pt_cum big) (pt_nv big) (pt_size big)).

(** PotentialTableBase.cpp L803-840 [TableExtension]. *)
Definition table_extension (this : ptable) (variables dims : list nat) : outcome ptable :=
  new ← extension_pre variables dims;
  locs ← mcollect (seq 0 (pt_nv this)) (fun i => v ← vget (pt_vars this) i; get_variable_index new v);
  tidx ← mcollect (seq 0 (pt_size new)) (extension_main new (pt_nv this) (pt_cum this) locs);
  extension_post new this tidx.

(** The pointwise product loop of PotentialTableBase.cpp L902-904, L959-961, L1010-1012. *)
Definition mult_loop (this second : ptable) : outcome ptable :=
  pots ← mfor (seq 0 (pt_size this)) (fun i pots =>
    x ← vget pots i; y ← vget (pt_pots second) i; vset pots i (x * y)) (pt_pots this);
  Ok (mkPT (pt_vars this) pots (pt_dims this) (pt_cum this) (pt_nv this) (pt_size this)).

(** PotentialTableBase.cpp L884-905 [TableMultiplication]. *)
Definition table_multiplication (this second : ptable) : outcome ptable :=
  tmp ← (if bool_decide (pt_nv second < pt_nv this)%nat
         then table_extension second (pt_vars this) (pt_dims this) else Ok second);
  tmp ← (if bool_decide (pt_vars this ≠ pt_vars tmp)
         then table_reorganization tmp this else Ok tmp);
  mult_loop this tmp.

(** Insertion into a [std::set<int>] seen as an increasing list. *)
Fixpoint set_insert (x : nat) (l : list nat) : list nat :=
  match l with
  | [] => [x]
  | y :: l' => if bool_decide (x < y)%nat then x :: l
               else if bool_decide (x = y) then l else y :: set_insert x l'
  end.
Definition set_of_list (l : list nat) : list nat := foldr set_insert [] l.

(** PotentialTableBase.cpp L912-962 [TableMultiplicationTwoExtension].  Returns the new
    [this] and the (possibly extended) second table. *)
Definition table_multiplication_two (this0 second : ptable) : outcome (ptable * ptable) :=
  let this := if bool_decide (pt_vars this0 = []) then second else this0 in
  if bool_decide (pt_vars second = []) then Ok (this, second) else
  let all := set_of_list (pt_vars second ++ pt_vars this) in
  let d1 := (length all - pt_nv this)%nat in
  let d2 := (length all - pt_nv second)%nat in
  r ← (if bool_decide (d1 = 0%nat /\ d2 = 0%nat) then Ok (this, second)
       else if bool_decide (d2 = 0%nat) then
         t ← table_extension this (pt_vars second) (pt_dims second); Ok (t, second)
       else if bool_decide (d1 = 0%nat) then
         s ← table_extension second (pt_vars this) (pt_dims this); Ok (this, s)
       else
         dims ← mcollect all (fun v =>
           loc ← get_variable_index this v;
           if bool_decide (loc < pt_nv this)%nat then vget (pt_dims this) loc
           else loc2 ← get_variable_index second v; vget (pt_dims second) loc2);
         t ← table_extension this all dims;
         s ← table_extension second all dims;
         Ok (t, s));
  p ← mult_loop (fst r) (snd r);
  Ok (p, snd r).

(** PotentialTableBase.cpp L969-1014 [TableMultiplicationOneVariable].  The message printed
    when the second table has several variables is omitted. *)
Definition table_multiplication_one (this0 second : ptable) : outcome ptable :=
  let this := if bool_decide (pt_vars this0 = []) then second else this0 in
  if bool_decide (pt_vars second = []) then Ok this else
  v ← vget (pt_vars second) 0;
  if bool_decide (1 < pt_nv this)%nat then
    loc ← get_variable_index this v;
    pots ← mfor (seq 0 (pt_size this)) (fun i pots =>
      cfg ← get_config this i; c ← vget cfg loc; x ← vget pots i; y ← vget (pt_pots second) c;
      vset pots i (x * y)) (pt_pots this);
    Ok (mkPT (pt_vars this) pots (pt_dims this) (pt_cum this) (pt_nv this) (pt_size this))
  else mult_loop this second.

(** PotentialTableBase.cpp L1020-1035 [TableDivision]: x/0 is set to 0. *)
Definition table_division (this second : ptable) : outcome ptable :=
  pots ← mfor (seq 0 (pt_size this)) (fun i pots =>
    y ← vget (pt_pots second) i; x ← vget pots i;
    vset pots i (if bool_decide (y = 0) then 0 else x / y)) (pt_pots this);
  Ok (mkPT (pt_vars this) pots (pt_dims this) (pt_cum this) (pt_nv this) (pt_size this)).

(** PotentialTableBase.cpp L1037-1049 [Normalize].  A zero denominator (NaN/inf entries in
    the code) is the outcome [DivZero]. *)
Definition table_normalize (t : ptable) : outcome ptable :=
  denom ← mfor (seq 0 (pt_size t)) (fun i acc => x ← vget (pt_pots t) i; Ok (acc + x)) 0;
  pots ← mfor (seq 0 (pt_size t)) (fun i pots =>
    x ← vget pots i;
    if bool_decide (denom = 0) then Err DivZero else vset pots i (x / denom)) (pt_pots t);
  Ok (mkPT (pt_vars t) pots (pt_dims t) (pt_cum t) (pt_nv t) (pt_size t)).

(** PotentialTableBase.cpp L1057-1075 [NormalizeCPT]. *)
Definition table_normalize_cpt (t : ptable) : outcome ptable :=
  p_dim ← vget (pt_cum t) 0;
  n_dim ← vget (pt_dims t) 0;
  pots ← mfor (seq 0 p_dim) (fun i pots =>
    denom ← mfor (seq 0 n_dim) (fun j acc => x ← vget pots (i + j * p_dim)%nat; Ok (acc + x)) 0;
    if bool_decide (0 < denom) then
      mfor (seq 0 n_dim) (fun j pots =>
        x ← vget pots (i + j * p_dim)%nat; vset pots (i + j * p_dim)%nat (x / denom)) pots
    else Ok pots) (pt_pots t);
  Ok (mkPT (pt_vars t) pots (pt_dims t) (pt_cum t) (pt_nv t) (pt_size t)).

(** JunctionTree.cpp L1007-1010: a copy of a separator table with all entries set to 0. *)
Definition table_zero (t : ptable) : outcome ptable :=
  pots ← mfor (seq 0 (pt_size t)) (fun k pots => vset pots k 0) (pt_pots t);
  Ok (mkPT (pt_vars t) pots (pt_dims t) (pt_cum t) (pt_nv t) (pt_size t)).

(** JunctionTree.cpp L1020-1047, one separator of [SeparatorLevelCollectionOptimized] (before the
    division): marginalisation of the child clique onto the separator, assuming the separator
    variables are the clique's trailing ones; entry [k] goes to [k % common_dims]. *)
Definition table_marginalization_fast (clique sep : ptable) : outcome ptable :=
  new ← table_zero sep;
  tidx ← mcollect (seq 0 (pt_size clique)) (fun k => imod k (pt_size sep));
  marginalization_post new clique tidx.

(** JunctionTree.cpp L1086-1150, one clique of [CliqueLevelDistributionOptimized] (before
    normalisation): multiply the clique by its upstream separator, entry [k] by entry
    [k % common_dims]. *)
Definition table_multiplication_fast (clique sep : ptable) : outcome ptable :=
  tidx ← mcollect (seq 0 (pt_size clique)) (fun k => imod k (pt_size sep));
  tmp ← extension_post clique sep tidx;
  mult_loop clique tmp.
