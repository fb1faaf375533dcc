(** Model of the data files: Dataset.cpp, and Inference.cpp L15-47. Purely discrete data ([cont_vars] empty), string
    values for CSV ([str_val] true), a freshly constructed [Dataset]; files are their contents. *)
From Verif Require Export UtilModel.
From Coq Require Export DecimalZ.
Local Open Scope nat_scope.
Notation rowv := (list (nat * Z)).

(** ** Reading lines and numbers (standard library) *)
Definition newline : Z := 10.
Definition comma : Z := 44.
Definition blank : Z := 32.
Definition colon : Z := 58.
(** The characters before the first newline, and the rest starting with that newline. *)
Fixpoint upto_newline (t : str) : str * str :=
  match t with
  | [] => ([], [])
  | c :: t' => if bool_decide (c = newline) then ([], t) else let '(l, r) := upto_newline t' in (c :: l, r)
  end.
(** [std::getline]: the line, what is left of the file, whether it succeeded, and whether the end of the file was hit. *)
Definition getline (t : str) : str * str * bool * bool :=
  match upto_newline t with
  | (l, _ :: r) => (l, r, true, false)
  | (l, []) => (l, [], negb (bool_decide (l = [])), true)
  end.
(** [getline] into a string that holds [old]: when the end of the file was hit before, it fails and leaves the string as it is. *)
Definition line_after (old rest : str) (eof : bool) : str * str :=
  if eof then (old, rest) else let '(l, r, _, _) := getline rest in (l, r).
Definition is_space (c : Z) : bool := bool_decide (c = 32)%Z || bool_decide (9 <= c <= 13)%Z.
Definition is_digit (c : Z) : bool := bool_decide (48 <= c <= 57)%Z.
Fixpoint drop_spaces (s : str) : str :=
  match s with c :: s' => if is_space c then drop_spaces s' else s | [] => [] end.
(** The value of the leading digits; [seen]: there was one. *)
Fixpoint read_digits (acc : Z) (seen : bool) (s : str) : option Z :=
  match s with
  | c :: s' => if is_digit c then read_digits (acc * 10 + (c - 48))%Z true s' else if seen then Some acc else None
  | [] => if seen then Some acc else None
  end.
Definition read_int (s : str) : option Z :=
  match drop_spaces s with
  | 45%Z :: s' => Z.opp <$> read_digits 0 false s'
  | 43%Z :: s' => read_digits 0 false s'
  | s' => read_digits 0 false s'
  end.
Definition fits_int (z : Z) : bool := bool_decide (-2147483648 <= z <= 2147483647)%Z.
(** [std::stoi]: throws when there is no number and when it does not fit an [int]. *)
Definition stoi (s : str) : outcome Z :=
  match read_int s with Some z => if fits_int z then Ok z else Err Thrown | None => Err Thrown end.
(** [std::to_string] of an integer. *)
Fixpoint digit_chars (u : Decimal.uint) : str :=
  match u with
  | Decimal.Nil => []
  | Decimal.D0 u => 48%Z :: digit_chars u | Decimal.D1 u => 49%Z :: digit_chars u | Decimal.D2 u => 50%Z :: digit_chars u
  | Decimal.D3 u => 51%Z :: digit_chars u | Decimal.D4 u => 52%Z :: digit_chars u | Decimal.D5 u => 53%Z :: digit_chars u
  | Decimal.D6 u => 54%Z :: digit_chars u | Decimal.D7 u => 55%Z :: digit_chars u | Decimal.D8 u => 56%Z :: digit_chars u
  | Decimal.D9 u => 57%Z :: digit_chars u
  end.
Definition to_string (z : Z) : str :=
  match Z.to_int z with Decimal.Pos u => digit_chars u | Decimal.Neg u => 45%Z :: digit_chars u end.

(** ** CSV *)
(** [vars_possible_values_ids[i]] maps the strings seen so far to 0, 1, 2, ...; it is represented by the list of the
    strings in the order of their numbers. *)
Definition value_id (d : list str) (s : str) : option nat := fst <$> list_find (eq s) d.
(** Dataset.cpp L459-468: the number of a string; a new string gets the next number ([map_disc_vars_string_values] and
    [counter] always agree with the map and its size). *)
Definition code_value (d : list str) (s : str) : list str * nat :=
  match value_id d s with Some v => (d, v) | None => (d ++ [s], length d) end.
(** L447-486, one line: trimmed, split at commas; [parsed_sample[i]] is unchecked. *)
Definition csv_train_line (n : nat) (sample : str) (ds : list (list str)) : outcome (list (list str) * rowv) :=
  s ← trim_right sample; cells ← split_str s [comma];
  mfor (seq 0 n) (fun i st =>
    let '(ds, row) := st in
    c ← vget cells i; d ← vget ds i;
    let '(d', v) := code_value d c in
    ds' ← vset ds i d'; Ok (ds', row ++ [(i, Z.of_nat v)])) (ds, []).
(** L446-488: do { ... } while (getline(in_file, sample)). *)
Fixpoint csv_train_loop (fuel : nat) (n : nat) (sample rest : str) (ds : list (list str)) (rows : list rowv) : outcome (list (list str) * list rowv) :=
  match fuel with
  | O => Err OutOfFuel
  | S f =>
      r ← csv_train_line n sample ds;
      let '(ds', row) := r in
      let '(line, rest', ok, _) := getline rest in
      if (ok : bool) then csv_train_loop f n line rest' ds' (rows ++ [row]) else Ok (ds', rows ++ [row])
  end.
Record dataset := mkData {
  d_names : list str; d_nvars : nat; d_dicts : list (list str); d_sizes : list nat; d_rows : list rowv; d_columns : list (list Z) }.
(** L389-503 [LoadCSVTrainingData]. The two calls of [getline] before the loop are not checked; when the second one fails
    because the header ends the file, [sample] still holds the trimmed header. *)
Definition load_csv_training (text : str) : outcome dataset :=
  let '(header, rest, _, eof) := getline text in
  let n := length (filter (fun c => c = comma) header) + 1 in
  h ← trim_right header; names ← split_str h [comma];
  if bool_decide (NoDup names) then
    let '(line, rest) := line_after h rest eof in
    r ← csv_train_loop (S (length rest)) n line rest (replicate n []) [];
    let '(ds, rows) := r in
    dense ← dense_rows n (length rows) rows; cols ← column_major n (length rows) dense;
    Ok (mkData names n ds (length <$> ds) rows cols)
  else Err Exit1.
(** L553-591, one line of a test file: empty and unknown cells are skipped. *)
Definition csv_test_line (n : nat) (sample : str) (ds : list (list str)) : outcome rowv :=
  s ← trim_right sample; cells ← split_str s [comma];
  mfor (seq 0 n) (fun i row =>
    c ← vget cells i;
    if bool_decide (c = []) then Ok row else
    d ← vget ds i;
    match value_id d c with Some v => Ok (row ++ [(i, Z.of_nat v)]) | None => Ok row end) [].
Fixpoint csv_test_loop (fuel : nat) (n : nat) (sample rest : str) (ds : list (list str)) (rows : list rowv) : outcome (list rowv) :=
  match fuel with
  | O => Err OutOfFuel
  | S f =>
      row ← csv_test_line n sample ds;
      let '(line, rest', ok, _) := getline rest in
      if (ok : bool) then csv_test_loop f n line rest' ds (rows ++ [row]) else Ok (rows ++ [row])
  end.
(** L511-603 [LoadCSVTestingData]; [n] and [ds] come from the training data or the network. *)
Definition load_csv_testing (n : nat) (ds : list (list str)) (text : str) : outcome (list rowv) :=
  if bool_decide (ds = []) then Err Exit1 else
  let '(header, rest, _, eof) := getline text in
  let '(line, rest) := line_after header rest eof in
  csv_test_loop (S (length rest)) n line rest ds [].

(** L614-698 [StoreCSVData]. The string of a value number is searched in the map (the numbers are distinct, so the order of the search does not
    matter); an empty string counts as not found. The loops append a comma to every cell and [pop_back] removes the last one. *)
Definition csv_line (cells : list str) : str := let s := concat ((fun c => c ++ [comma]) <$> cells) in take (length s - 1) s.
Definition csv_values (n : nat) (ds : list (list str)) (row : rowv) : outcome (list str) :=
  mfor row (fun p (value : list str) =>
    d ← vget ds (fst p);
    let key : str := if bool_decide (snd p < 0)%Z then [] else default ([] : str) (d !! Z.to_nat (snd p)) in
    if bool_decide (key = []) then Err Exit1 else vset value (fst p) key) (replicate n ([] : str)).
Definition store_csv (names : list str) (n : nat) (ds : list (list str)) (rows : list rowv) : outcome str :=
  if bool_decide (names = []) || bool_decide (ds = []) then Err Exit1 else
  if negb (bool_decide (n = length names)) then Err Exit1 else
  ls ← mcollect rows (fun row => v ← csv_values n ds row; Ok (csv_line v));
  Ok (concat ((fun l => l ++ [newline]) <$> (csv_line names :: ls))).

(** ** LIBSVM *)
(** A feature "index:value". A negative index is an access outside the row, in [Vector2IntArray] at the latest. *)
Definition svm_feature (s : str) : outcome (nat * Z) :=
  p ← split_str s [colon];
  a ← vget p 0; i ← stoi a;
  b ← vget p 1; v ← stoi b;
  if bool_decide (i < 0)%Z then Err OutOfBounds else Ok (Z.to_nat i, v).
(** L76-118, one line: the label first, then the features. *)
Definition svm_train_line (cls : nat) (sample : str) : outcome rowv :=
  s ← trim_right sample; ps ← split_str s [blank];
  l ← vget ps 0; v ← stoi l;
  fs ← mcollect (drop 1 ps) svm_feature;
  Ok ((cls, v) :: fs).
Fixpoint svm_train_loop (fuel : nat) (cls : nat) (rest : str) (rows : list rowv) : outcome (list rowv) :=
  match fuel with
  | O => Err OutOfFuel
  | S f =>
      let '(line, rest', ok, _) := getline rest in
      if (ok : bool) then row ← svm_train_line cls line; svm_train_loop f cls rest' (rows ++ [row]) else Ok rows
  end.
Definition list_max_z (l : list Z) : Z := foldl Z.max (-1)%Z l.
(** L55-162 [LoadLIBSVMTrainingData]: the number of variables is one more than the largest feature index (the class
    variable does not count), the number of values one more than the largest value. *)
Definition load_svm_training (cls : nat) (text : str) : outcome dataset :=
  rows ← svm_train_loop (S (length text)) cls text [];
  let n := Z.to_nat (list_max_z ((fun p => Z.of_nat (fst p)) <$> concat (drop 1 <$> rows)) + 1) in
  dense ← dense_rows n (length rows) rows; cols ← column_major n (length rows) dense;
  Ok (mkData ((fun i => to_string (Z.of_nat i)) <$> seq 0 n) n (replicate n []) ((fun c => Z.to_nat (list_max_z c + 1)) <$> cols) rows cols).
(** L182-262, one line of a test file: unknown indices are skipped, missing values are zero. *)
Definition svm_test_line (n cls : nat) (sample : str) : outcome rowv :=
  s ← trim_right sample; ps ← split_str s [blank];
  l ← vget ps 0; v ← stoi l;
  row ← vset ((fun i => (i, 0%Z)) <$> seq 0 n) cls (cls, v);
  mfor (drop 1 ps) (fun s row =>
    p ← split_str s [colon];
    a ← vget p 0; i ← stoi a;
    if bool_decide (Z.of_nat n <= i)%Z then Ok row else
    b ← vget p 1; v ← stoi b;
    if bool_decide (i < 0)%Z then Err OutOfBounds else vset row (Z.to_nat i) (Z.to_nat i, v)) row.
(** L180-265: the line is used only if the end of the file was not hit while reading it. *)
Fixpoint svm_test_loop (fuel : nat) (n cls : nat) (rest : str) (rows : list rowv) : outcome (list rowv) :=
  match fuel with
  | O => Err OutOfFuel
  | S f =>
      let '(line, rest', _, eof) := getline rest in
      if (eof : bool) then Ok rows else row ← svm_test_line n cls line; svm_test_loop f n cls rest' (rows ++ [row])
  end.
(** L164-274 [LoadLIBSVMTestingData]. *)
Definition load_svm_testing (n cls : nat) (text : str) : outcome (list rowv) := svm_test_loop (S (length text)) n cls text [].
(** L307-354 [StoreLIBSVMData], the data file; the file with the names is not modelled. Without the class variable
    [label_pos] stays -1 and [erase] gets an iterator before the first element. *)
Definition svm_line (cls : nat) (row : rowv) : outcome str :=
  match list_find (fun p => fst p = cls) row with
  | None => Err OutOfBounds
  | Some (pos, (_, label)) =>
      Ok (to_string label ++ [blank] ++
          concat ((fun p => if bool_decide (snd p = 0%Z) then [] else to_string (Z.of_nat (fst p)) ++ [colon] ++ to_string (snd p) ++ [blank])
                  <$> (take pos row ++ drop (S pos) row)))
  end.
Definition store_svm (n cls : nat) (rows : list rowv) : outcome str :=
  ls ← mcollect rows (fun row => if bool_decide (length row = n) then svm_line cls row else Err Exit1);
  Ok (concat ((fun l => l ++ [newline]) <$> ls)).

(** SampleSetGenerator.cpp L52-83 [OutputLIBSVM]; a sample is the list of the values of all variables. *)
Definition output_svm (cls : nat) (samples : list (list Z)) : outcome str :=
  ls ← mcollect samples (fun x =>
    l ← vget x cls;
    fs ← mcollect (seq 0 (length x)) (fun j =>
      if bool_decide (j = cls) then Ok [] else
      v ← vget x j; Ok (if bool_decide (v = 0%Z) then [] else to_string (Z.of_nat j) ++ [colon] ++ to_string v ++ [blank]));
    Ok (to_string l ++ [blank] ++ concat fs));
  Ok (concat ((fun l => l ++ [newline]) <$> ls)).

(** ** Evidence: Inference.cpp L15-47 *)
(** One test row: all positions but [query] become evidence, position [query] becomes the ground truth ([.at]). A [set] of
    pairs is represented by the list of the inserted pairs. *)
Definition evidence_of (query : nat) (row : rowv) : outcome (list (nat * Z) * Z) :=
  let e := (fun jp => snd jp) <$> filter (fun jp => fst jp <> query) (zip (seq 0 (length row)) row) in
  g ← vat row query; Ok (e, snd g).
Definition make_queries (query : nat) (rows : list rowv) : outcome (list (list (nat * Z) * Z)) := mcollect rows (evidence_of query).
