(** The conditional-independence test (CellTable.cpp, IndependenceTest.cpp) with an [int] of limited range.

    In CellModel.v an [int] is a natural number.  Here [M] is the largest [int] and a product or a sum beyond
    it is the outcome [Overflow] (undefined behaviour in C++).  Checked are the numbers of cells, the strides,
    the offsets, the positions in the tables, the counts, the marginal counts and the degrees of freedom.  Loop
    counters are not checked, since they stay below one of these.  Each function is the function of the same
    name (without [_i]) in CellModel.v with the checks inserted. *)
From Verif Require Export CellModel IntModel.
Local Open Scope nat_scope.

Section limited.
Context (M : nat).
(** [l[i] += v] and [l[i]++]. *)
Definition add_at_i (l : list nat) (i v : nat) : outcome (list nat) := x ← vget l i; s ← iadd M x v; vset l i s.
(** [a * b * c], the number of cells of a table. *)
Definition imul3 (a b c : nat) : outcome nat := p ← imul M a b; imul M p c.
(** [z * dimx * dimy + x * dimy + y + offset] and [k * d + i + offset], positions in the tables (the offset
    is zero in [Counts3D], where nothing is added). *)
Definition position3_i (z dx dy x y off : nat) : outcome nat :=
  a ← imul3 z dx dy; b ← imul M x dy; s ← iadd M a b; s ← iadd M s y; iadd M s off.
Definition position2_i (k d i off : nat) : outcome nat := a ← imul M k d; s ← iadd M a i; iadd M s off.

(** ** CellTable.cpp *)
(** L39-47. *)
Definition levels_single_i (cd : list nat) : outcome (list nat) :=
  let m := length cd in
  d ← vget cd (m - 1);
  mfor (rev (seq 0 (m - 2))) (fun i cum => c ← vget cum 0; d ← vget cd (i + 1); p ← imul M c d; Ok (p :: cum)) [d].
(** L39-53. *)
Definition shape_single_i (cd : list nat) : outcome (list nat * nat) :=
  if bool_decide (1 < length cd) then
    cum ← levels_single_i cd; c ← vget cum 0; d ← vget cd 0; p ← imul M c d; Ok (cum, p)
  else d ← vget cd 0; Ok ([], d).
(** L254-266, L268-291. *)
Definition zindex_single_i (D : columns) (zs cum : list nat) (k : nat) : outcome nat :=
  let m := length zs in
  if bool_decide (m = 1) then v ← vget zs 0; cell D v k
  else
    v ← vget zs (m - 1); z ← cell D v k;
    mfor (seq 0 (m - 1)) (fun j z => v ← vget zs j; x ← cell D v k; c ← vget cum j; p ← imul M x c; iadd M z p) z.
(** L241-249, L310-324. *)
Definition margins_i (dz dx dy oxy ox oy oz : nat) (n : list nat) (st : list nat * list nat * list nat) : outcome (list nat * list nat * list nat) :=
  mfor (triples dz dx dy) (fun e st =>
    let '(k, i, j) := e in let '(ni, nj, nk) := st in
    p ← position3_i k dx dy i j oxy; v ← vget n p;
    p ← position2_i k dx i ox; ni ← add_at_i ni p v;
    p ← position2_i k dy j oy; nj ← add_at_i nj p v;
    p ← iadd M k oz; nk ← add_at_i nk p v;
    Ok (ni, nj, nk)) st.
(** L23-72, L226-252. *)
Definition counts3d_i (D : columns) (dx dy ix iy : nat) (cd zs : list nat) : outcome counts3 :=
  s ← shape_single_i cd;
  let '(cum, dz) := s in
  sn ← imul3 dz dx dy; si ← imul M dz dx; sj ← imul M dz dy;
  n ← mfor (seq 0 (co_rows D)) (fun k n =>
    x ← cell D ix k; y ← cell D iy k; z ← zindex_single_i D zs cum k;
    p ← position3_i z dx dy x y 0; add_at_i n p 1) (replicate sn 0);
  m ← margins_i dz dx dy 0 0 0 0 n (replicate si 0, replicate sj 0, replicate dz 0);
  let '(ni, nj, nk) := m in
  Ok (mkC3 dz n ni nj nk).
(** L174-194, L430-455. *)
Definition counts2d_i (D : columns) (dx dy ix iy : nat) : outcome (list nat * list nat * list nat) :=
  sn ← imul M dx dy;
  n ← mfor (seq 0 (co_rows D)) (fun k n => x ← cell D ix k; y ← cell D iy k; p ← position2_i x dy y 0; add_at_i n p 1) (replicate sn 0);
  m ← mfor (pairs dx dy) (fun e st =>
    let '(i, j) := e in let '(ni, nj) := st in
    p ← position2_i i dy j 0; v ← vget n p; ni ← add_at_i ni i v; nj ← add_at_i nj j v; Ok (ni, nj)) (replicate dx 0, replicate dy 0);
  let '(ni, nj) := m in Ok (n, ni, nj).
(** L107-117. *)
Definition levels_group_i (cd : list nat) (c j : nat) : outcome (list nat) :=
  if bool_decide (c = 0) then Err OutOfBounds
  else mfor (rev (seq (j * c) (c - 1))) (fun i cum => x ← vget cum 0; d ← vget cd (i + 1); p ← imul M x d; Ok (p :: cum)) [1].
(** L104-121. *)
Definition shape_group_i (cd : list nat) (c g : nat) : outcome (list (list nat) * list nat) :=
  if bool_decide (c = 1) then Ok ([], cd)
  else
    cums ← mcollect (seq 0 g) (fun j => levels_group_i cd c j);
    dz ← mcollect (seq 0 g) (fun j => cum ← vget cums j; x ← vget cum 0; d ← vget cd (j * c); imul M x d);
    Ok (cums, dz).
(** L123-127. *)
Definition cum_dims_i (dz : list nat) (g : nat) : outcome (list nat) :=
  mfor (seq 1 (g - 1)) (fun m cum => x ← vget cum (m - 1); d ← vget dz (m - 1); s ← iadd M x d; Ok (cum ++ [s])) [0].
(** L339-380, L381-428. *)
Definition zindex_group_i (D : columns) (zs : list nat) (cums : list (list nat)) (c i k : nat) : outcome nat :=
  if bool_decide (c = 1) then v ← vget zs i; cell D v k
  else mfor (seq 0 c) (fun j z => v ← vget zs (i * c + j); x ← cell D v k; cum ← vget cums i; l ← vget cum j; p ← imul M x l; iadd M z p) 0.
(** L93-150, L293-337; the offsets, arrays in the code, are computed where they are used. *)
Definition counts3d_group_i (D : columns) (dx dy ix iy : nat) (cd zs : list nat) (g : nat) : outcome counts3g :=
  c ← idiv (length cd) g;
  s ← shape_group_i cd c g;
  let '(cums, dz) := s in
  cd0 ← cum_dims_i dz g;
  o ← vget cd0 (g - 1); d ← vget dz (g - 1);
  total ← iadd M o d;
  sn ← imul3 total dx dy; si ← imul M total dx; sj ← imul M total dy;
  n ← mfor (seq 0 (co_rows D)) (fun k n =>
    x ← cell D ix k; y ← cell D iy k;
    mfor (seq 0 g) (fun i n =>
      z ← zindex_group_i D zs cums c i k; o ← vget cd0 i;
      oxy ← imul3 o dx dy; p ← position3_i z dx dy x y oxy; add_at_i n p 1) n) (replicate sn 0);
  m ← mfor (seq 0 g) (fun m st =>
    o ← vget cd0 m; d ← vget dz m;
    oxy ← imul3 o dx dy; ox ← imul M o dx; oy ← imul M o dy;
    margins_i d dx dy oxy ox oy o n st) (replicate si 0, replicate sj 0, replicate total 0);
  let '(ni, nj, nk) := m in
  Ok (mkC3G dz cd0 n ni nj nk).

(** ** IndependenceTest.cpp *)
(** L90-133, L206-257; [n], [ni], [nj] and [nk] are the tables, the other arguments the offsets (zero in
    [ComputeGSquareXYZ]). *)
Definition count_positive_i (n : nat) (r : nat -> outcome nat) : outcome nat :=
  mfor (seq 0 n) (fun i s => v ← r i; iadd M s (if bool_decide (0 < v) then 1 else 0)) 0.
Definition gtest_i (dz dx dy oxy ox oy oz : nat) (n ni nj nk : list nat) : outcome (list gterm * nat) :=
  mfor (seq 0 dz) (fun k st =>
    let '(ts, df) := st in
    alx ← count_positive_i dx (fun i => p ← position2_i k dx i ox; vget ni p);
    aly ← count_positive_i dy (fun j => p ← position2_i k dy j oy; vget nj p);
    q ← imul M (Nat.max alx 1 - 1) (Nat.max aly 1 - 1);
    df ← iadd M df q;
    p ← iadd M k oz; total ← vget nk p;
    if bool_decide (total = 0) then Ok (ts, df) else
    ts ← mfor (seq 0 dx) (fun i ts =>
      p ← position2_i k dx i ox; row ← vget ni p;
      if bool_decide (row = 0) then Ok ts
      else row_terms dy row total (fun j => p ← position2_i k dy j oy; vget nj p) (fun j => p ← position3_i k dx dy i j oxy; vget n p) ts) ts;
    Ok (ts, df)) ([], 0).
Section test.
Context (accept : list gterm -> nat -> bool) (D : columns) (ds : list nat).
(** L65-155. *)
Definition gsquare_xyz_i (x y : nat) (zs : list nat) : outcome ci_result :=
  dx ← vget ds x; dy ← vget ds y; cd ← mcollect zs (vget ds);
  t ← counts3d_i D dx dy x y cd zs;
  r ← gtest_i (c3_dimz t) dx dy 0 0 0 0 (c3_n t) (c3_ni t) (c3_nj t) (c3_nk t);
  let '(ts, df) := r in
  if bool_decide (df = 0) then Ok (mkCI true 0) else Ok (mkCI (accept ts df) 0).
(** L163-287. *)
Definition gsquare_group_i (x y : nat) (zs : list nat) (g : nat) : outcome ci_result :=
  _ ← idiv (length zs) g;
  dx ← vget ds x; dy ← vget ds y; cd ← mcollect zs (vget ds);
  t ← counts3d_group_i D dx dy x y cd zs g;
  rs ← mfor (seq 0 g) (fun m rs =>
    o ← vget (cg_cum t) m; dz ← vget (cg_dimz t) m;
    oxy ← imul3 o dx dy; ox ← imul M o dx; oy ← imul M o dy;
    r ← gtest_i dz dx dy oxy ox oy o (cg_n t) (cg_ni t) (cg_nj t) (cg_nk t);
    let '(ts, df) := r in
    rs ← (if bool_decide (df = 0) then vset rs m true else Ok rs);
    vset rs m (accept ts df)) (replicate 8 false);
  r ← mfor (seq 0 g) (fun i (r : option nat) =>
    match r with
    | Some _ => Ok r
    | None => b ← vget rs i; Ok (if (b : bool) then Some i else None)
    end) None;
  match r with Some i => Ok (mkCI true (Z.of_nat i)) | None => Ok (mkCI false (-1)) end.
(** L295-364. *)
Definition gsquare_xy_i (x y : nat) : outcome ci_result :=
  dx ← vget ds x; dy ← vget ds y;
  t ← counts2d_i D dx dy x y;
  let '(n, ni, nj) := t in
  alx ← count_positive_i dx (vget ni);
  aly ← count_positive_i dy (vget nj);
  df ← imul M (Nat.max alx 1 - 1) (Nat.max aly 1 - 1);
  ts ← mfor (seq 0 dx) (fun i ts =>
    row ← vget ni i;
    if bool_decide (row = 0) then Ok ts
    else row_terms dy row (co_rows D) (vget nj) (fun j => p ← position2_i i dy j 0; vget n p) ts) [];
  if bool_decide (df = 0) then Ok (mkCI true (-1)) else Ok (mkCI (accept ts df) (-1)).
(** L35-57. *)
Definition independence_result_i (x y : nat) (zs : list nat) (g : nat) : outcome ci_result :=
  if bool_decide (zs = []) then gsquare_xy_i x y
  else if bool_decide (1 < g) then gsquare_group_i x y zs g
  else gsquare_xyz_i x y zs.
End test.
End limited.
