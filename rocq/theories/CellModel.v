(** Model of CellTable.cpp (contingency tables) and IndependenceTest.cpp (the G-square test).

    [D] holds the columns of the data set, [ds] is [num_of_possible_values_of_disc_vars].
    [int] and [long] counters are unbounded. *)
From Verif Require Export LearnModel.
Local Open Scope nat_scope.

(** [l[i] += v]. *)
Definition add_at (l : list nat) (i v : nat) : outcome (list nat) := x ← vget l i; vset l i (x + v).
(** Two and three nested loops, written as one loop over the tuples in the same order. *)
Definition pairs (a b : nat) : list (nat * nat) := i ← seq 0 a; (fun j => (i, j)) <$> seq 0 b.
Definition triples (a b c : nat) : list (nat * nat * nat) := p ← pairs a b; (fun k => (p, k)) <$> seq 0 c.

(** ** CellTable.h [Counts3D] *)
Record counts3 := mkC3 { c3_dimz : nat; c3_n : list nat; c3_ni : list nat; c3_nj : list nat; c3_nk : list nat }.
(** CellTable.cpp L39-47: [cum_levels], filled from the right; the list is the part filled so far. *)
Definition levels_single (cd : list nat) : outcome (list nat) :=
  let m := length cd in
  d ← vget cd (m - 1);
  mfor (rev (seq 0 (m - 2))) (fun i cum => c ← vget cum 0; d ← vget cd (i + 1); Ok (c * d :: cum)) [d].
(** L39-53: [cum_levels] (unset for a single conditioning variable) and [dimz]. *)
Definition shape_single (cd : list nat) : outcome (list nat * nat) :=
  if bool_decide (1 < length cd) then
    cum ← levels_single cd; c ← vget cum 0; d ← vget cd 0; Ok (cum, c * d)
  else d ← vget cd 0; Ok ([], d).
(** L254-266 [CountLevel1], L268-291 [CountLevelN]: the position of row [k]'s conditioning values. *)
Definition zindex_single (D : columns) (zs cum : list nat) (k : nat) : outcome nat :=
  let m := length zs in
  if bool_decide (m = 1) then v ← vget zs 0; cell D v k
  else
    v ← vget zs (m - 1); z ← cell D v k;
    mfor (seq 0 (m - 1)) (fun j z => v ← vget zs j; x ← cell D v k; c ← vget cum j; Ok (z + x * c)) z.
(** L241-249, L310-324: the marginals of the [dz * dx * dy] cells starting at the given offsets. *)
Definition margins (dz dx dy oxy ox oy oz : nat) (n : list nat) (st : list nat * list nat * list nat) : outcome (list nat * list nat * list nat) :=
  mfor (triples dz dx dy) (fun e st =>
    let '(k, i, j) := e in let '(ni, nj, nk) := st in
    v ← vget n (k * dx * dy + i * dy + j + oxy);
    ni ← add_at ni (k * dx + i + ox) v;
    nj ← add_at nj (k * dy + j + oy) v;
    nk ← add_at nk (k + oz) v;
    Ok (ni, nj, nk)) st.
(** L23-72 constructor and L226-252 [FillTable]. *)
Definition counts3d (D : columns) (dx dy ix iy : nat) (cd zs : list nat) : outcome counts3 :=
  s ← shape_single cd;
  let '(cum, dz) := s in
  n ← mfor (seq 0 (co_rows D)) (fun k n =>
    x ← cell D ix k; y ← cell D iy k; z ← zindex_single D zs cum k;
    bump n (z * dx * dy + x * dy + y)) (replicate (dz * dx * dy) 0);
  m ← margins dz dx dy 0 0 0 0 n (replicate (dz * dx) 0, replicate (dz * dy) 0, replicate dz 0);
  let '(ni, nj, nk) := m in
  Ok (mkC3 dz n ni nj nk).

(** ** [Counts2D]: L174-194 and L430-455; [c3_nk] is not used *)
Definition counts2d (D : columns) (dx dy ix iy : nat) : outcome (list nat * list nat * list nat) :=
  n ← mfor (seq 0 (co_rows D)) (fun k n => x ← cell D ix k; y ← cell D iy k; bump n (x * dy + y)) (replicate (dx * dy) 0);
  m ← mfor (pairs dx dy) (fun e st =>
    let '(i, j) := e in let '(ni, nj) := st in
    v ← vget n (i * dy + j); ni ← add_at ni i v; nj ← add_at nj j v; Ok (ni, nj)) (replicate dx 0, replicate dy 0);
  let '(ni, nj) := m in Ok (n, ni, nj).

(** ** [Counts3DGroup] *)
Record counts3g := mkC3G { cg_dimz : list nat; cg_cum : list nat; cg_n : list nat; cg_ni : list nat; cg_nj : list nat; cg_nk : list nat }.
(** L107-117: [cum_levels] of group [j], filled from the right. *)
Definition levels_group (cd : list nat) (c j : nat) : outcome (list nat) :=
  if bool_decide (c = 0) then Err OutOfBounds
  else mfor (rev (seq (j * c) (c - 1))) (fun i cum => x ← vget cum 0; d ← vget cd (i + 1); Ok (x * d :: cum)) [1].
(** L104-121: [dimz] and [cum_levels] (unset when every conditioning set has one variable). *)
Definition shape_group (cd : list nat) (c g : nat) : outcome (list (list nat) * list nat) :=
  if bool_decide (c = 1) then Ok ([], cd)
  else
    cums ← mcollect (seq 0 g) (fun j => levels_group cd c j);
    dz ← mcollect (seq 0 g) (fun j => cum ← vget cums j; x ← vget cum 0; d ← vget cd (j * c); Ok (x * d));
    Ok (cums, dz).
(** L123-127: [cum_dims]. *)
Definition cum_dims (dz : list nat) (g : nat) : outcome (list nat) :=
  mfor (seq 1 (g - 1)) (fun m cum => x ← vget cum (m - 1); d ← vget dz (m - 1); Ok (cum ++ [x + d])) [0].
(** L339-380 [CountLevel1], L381-428 [CountLevelN]: conditioning values of group [i] in row [k];
    [cum_levels[i * c_depth + j]] is entry [j] of the levels of group [i]. *)
Definition zindex_group (D : columns) (zs : list nat) (cums : list (list nat)) (c i k : nat) : outcome nat :=
  if bool_decide (c = 1) then v ← vget zs i; cell D v k
  else mfor (seq 0 c) (fun j z => v ← vget zs (i * c + j); x ← cell D v k; cum ← vget cums i; l ← vget cum j; Ok (z + x * l)) 0.
(** L93-150 constructor and L293-337 [FillTableGroup]. *)
Definition counts3d_group (D : columns) (dx dy ix iy : nat) (cd zs : list nat) (g : nat) : outcome counts3g :=
  c ← idiv (length cd) g;
  s ← shape_group cd c g;
  let '(cums, dz) := s in
  cd0 ← cum_dims dz g;
  o ← vget cd0 (g - 1); d ← vget dz (g - 1);
  let total := o + d in
  n ← mfor (seq 0 (co_rows D)) (fun k n =>
    x ← cell D ix k; y ← cell D iy k;
    mfor (seq 0 g) (fun i n =>
      z ← zindex_group D zs cums c i k; o ← vget cd0 i;
      bump n (z * dx * dy + x * dy + y + o * dx * dy)) n) (replicate (total * dx * dy) 0);
  m ← mfor (seq 0 g) (fun m st =>
    o ← vget cd0 m; d ← vget dz m;
    margins d dx dy (o * dx * dy) (o * dx) (o * dy) o n st) (replicate (total * dx) 0, replicate (total * dy) 0, replicate total 0);
  let '(ni, nj, nk) := m in
  Ok (mkC3G dz cd0 n ni nj nk).

(** ** IndependenceTest.cpp *)
(** The summands 2 * observed * log(observed / (col * row / total)) of the statistic in the order in which
    they are added, as (observed, row, col, total), and the degrees of freedom. *)
Notation gterm := (nat * nat * nat * nat)%type.
(** L90-133, L206-257: [rn], [ri], [rj], [rk] read the cells and the marginals. *)
Definition count_positive (n : nat) (r : nat -> outcome nat) : outcome nat :=
  mfor (seq 0 n) (fun i s => v ← r i; Ok (s + if bool_decide (0 < v) then 1 else 0)) 0.
Definition row_terms (dy : nat) (row total : nat) (rj rn : nat -> outcome nat) (ts : list gterm) : outcome (list gterm) :=
  mfor (seq 0 dy) (fun j ts =>
    col ← rj j; obs ← rn j;
    if bool_decide (col = 0 \/ obs = 0) then Ok ts else Ok (ts ++ [(obs, row, col, total)])) ts.
Definition gtest (dz dx dy : nat) (rn ri rj rk : nat -> outcome nat) : outcome (list gterm * nat) :=
  mfor (seq 0 dz) (fun k st =>
    let '(ts, df) := st in
    alx ← count_positive dx (fun i => ri (k * dx + i));
    aly ← count_positive dy (fun j => rj (k * dy + j));
    let df := df + (Nat.max alx 1 - 1) * (Nat.max aly 1 - 1) in
    total ← rk k;
    if bool_decide (total = 0) then Ok (ts, df) else
    ts ← mfor (seq 0 dx) (fun i ts =>
      row ← ri (k * dx + i);
      if bool_decide (row = 0) then Ok ts
      else row_terms dy row total (fun j => rj (k * dy + j)) (fun j => rn (k * dx * dy + i * dy + j)) ts) ts;
    Ok (ts, df)) ([], 0).
(** [Result]: [is_independent] and [first]. *)
Record ci_result := mkCI { ci_indep : bool; ci_first : Z }.
Section test.
(** [accept ts df] stands for 1 - pchisq(g2, df) > alpha, where g2 is the sum of the terms [ts]
    (log, floating point and the chi-square distribution are not modelled). *)
Context (accept : list gterm -> nat -> bool) (D : columns) (ds : list nat).
(** L65-155 [ComputeGSquareXYZ]. *)
Definition gsquare_xyz (x y : nat) (zs : list nat) : outcome ci_result :=
  dx ← vget ds x; dy ← vget ds y; cd ← mcollect zs (vget ds);
  t ← counts3d D dx dy x y cd zs;
  r ← gtest (c3_dimz t) dx dy (vget (c3_n t)) (vget (c3_ni t)) (vget (c3_nj t)) (vget (c3_nk t));
  let '(ts, df) := r in
  if bool_decide (df = 0) then Ok (mkCI true 0) else Ok (mkCI (accept ts df) 0).
(** L163-287 [ComputeGSquareXYZGroup]; [results] has room for eight tests. *)
Definition gsquare_group (x y : nat) (zs : list nat) (g : nat) : outcome ci_result :=
  _ ← idiv (length zs) g;
  dx ← vget ds x; dy ← vget ds y; cd ← mcollect zs (vget ds);
  t ← counts3d_group D dx dy x y cd zs g;
  rs ← mfor (seq 0 g) (fun m rs =>
    o ← vget (cg_cum t) m; dz ← vget (cg_dimz t) m;
    r ← gtest dz dx dy (fun i => vget (cg_n t) (i + o * dx * dy)) (fun i => vget (cg_ni t) (i + o * dx))
                       (fun i => vget (cg_nj t) (i + o * dy)) (fun i => vget (cg_nk t) (i + o));
    let '(ts, df) := r in
    rs ← (if bool_decide (df = 0) then vset rs m true else Ok rs);
    vset rs m (accept ts df)) (replicate 8 false);
  r ← mfor (seq 0 g) (fun i (r : option nat) =>
    match r with
    | Some _ => Ok r
    | None => b ← vget rs i; Ok (if (b : bool) then Some i else None)
    end) None;
  match r with Some i => Ok (mkCI true (Z.of_nat i)) | None => Ok (mkCI false (-1)) end.
(** L295-364 [ComputeGSquareXY]. *)
Definition gsquare_xy (x y : nat) : outcome ci_result :=
  dx ← vget ds x; dy ← vget ds y;
  t ← counts2d D dx dy x y;
  let '(n, ni, nj) := t in
  alx ← count_positive dx (vget ni);
  aly ← count_positive dy (vget nj);
  let df := (Nat.max alx 1 - 1) * (Nat.max aly 1 - 1) in
  ts ← mfor (seq 0 dx) (fun i ts =>
    row ← vget ni i;
    if bool_decide (row = 0) then Ok ts
    else row_terms dy row (co_rows D) (vget nj) (fun j => vget n (i * dy + j)) ts) [];
  if bool_decide (df = 0) then Ok (mkCI true (-1)) else Ok (mkCI (accept ts df) (-1)).
(** L35-57 [IndependenceResult] for the metric "g square" (for any other the function returns nothing). *)
Definition independence_result (x y : nat) (zs : list nat) (g : nat) : outcome ci_result :=
  if bool_decide (zs = []) then gsquare_xy x y
  else if bool_decide (1 < g) then gsquare_group x y zs g
  else gsquare_xyz x y zs.
End test.
