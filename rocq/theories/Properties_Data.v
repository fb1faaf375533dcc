(** Data files, evidence and the command line. [csv_table text header rows] says that a text is a CSV file with these
    cells; [first_appearance], [codes], [codes_known], [complete_row], [blanked] and [right_evidence] are in DataSpec.v;
    [command_line], [good_option], [get] and [outcome_of] are in ParamSpec.v. *)
From Coq Require Import String.
From Verif Require Import DataModel DataSpec CSVTheorems SVMTheorems RowEvidence ParamModel ParamSpec ParamProofs DataWitness.
Local Open Scope nat_scope.

(** ** C27 *)
(** Loading a training file. *)
Theorem C27_training_partial : forall text header rows,
  csv_table text header rows -> NoDup header ->
  exists d, load_csv_training text = Ok d /\
    d_names d = header /\ d_nvars d = length header /\ length (d_dicts d) = length header /\ d_sizes d = length <$> d_dicts d /\
    (forall i dict, d_dicts d !! i = Some dict -> first_appearance (column i rows) dict) /\
    length (d_rows d) = length rows /\
    (forall j cells row, rows !! j = Some cells -> d_rows d !! j = Some row -> codes (d_dicts d) cells row) /\
    (forall i j cells c, rows !! j = Some cells -> cells !! i = Some c ->
       exists col dict v, d_columns d !! i = Some col /\ d_dicts d !! i = Some dict /\ dict !! v = Some c /\ col !! j = Some (Z.of_nat v)).
Proof. exact csv_training. Qed.
Print Assumptions C27_training_partial.
Example C27_training_partial_witness : csv_table weather weather_header weather_rows /\ NoDup weather_header /\
  exists d, load_csv_training weather = Ok d /\ d_dicts d = weather_dicts /\
    d_rows d = [[(0, 0%Z); (1, 0%Z)]; [(0, 1%Z); (1, 1%Z)]; [(0, 0%Z); (1, 1%Z)]].
Proof. exact (conj weather_table (conj weather_names weather_loaded)). Qed.
(** A header with a repeated name is rejected. *)
Theorem C27_duplicate_names : forall text header rows,
  csv_table text header rows -> ~ NoDup header -> load_csv_training text = Err Exit1.
Proof. exact csv_duplicate_names. Qed.
Print Assumptions C27_duplicate_names.
Example C27_duplicate_names_witness : exists text header rows, csv_table text header rows /\ ~ NoDup header.
Proof. exact twins_witness. Qed.
(** Loading a test file with a dictionary. *)
Theorem C27_testing_partial : forall text header rows ds,
  csv_table text header rows -> length ds = length header -> (forall d, d ∈ ds -> NoDup d) ->
  exists coded, load_csv_testing (length ds) ds text = Ok coded /\ length coded = length rows /\
    forall j cells row, rows !! j = Some cells -> coded !! j = Some row -> codes_known ds cells row.
Proof. exact csv_testing. Qed.
Print Assumptions C27_testing_partial.
Example C27_testing_partial_witness : csv_table weather_test weather_header weather_test_rows /\ (forall d, d ∈ weather_dicts -> NoDup d) /\
  load_csv_testing 2 weather_dicts weather_test = Ok [[(1, 1%Z)]; [(1, 0%Z)]; [(0, 1%Z); (1, 0%Z)]].
Proof. exact (conj weather_test_table (conj weather_dicts_NoDup weather_test_loaded)). Qed.
(** The training file read again as a test file gets the same codes. *)
Theorem C27_same_codes : forall text header rows d,
  csv_table text header rows -> (forall r c, r ∈ rows -> c ∈ r -> c <> []) -> load_csv_training text = Ok d ->
  load_csv_testing (d_nvars d) (d_dicts d) text = Ok (d_rows d).
Proof. exact csv_same_codes. Qed.
Print Assumptions C27_same_codes.
Example C27_same_codes_witness : csv_table weather weather_header weather_rows /\ forall r c, r ∈ weather_rows -> c ∈ r -> c <> [].
Proof. exact (conj weather_table weather_cells). Qed.
(** Refuted for a file without data rows: a row that is not there is read, past the end of an array for two columns,
    as an instance with an empty string for one. *)
Theorem C27_header_only_refuted : exists text, text = lines ["a,b"%string] /\ load_csv_training text = Err OutOfBounds.
Proof. exact (ex_intro _ _ (conj eq_refl header_only_2)). Qed.
Print Assumptions C27_header_only_refuted.
Theorem C27_phantom_refuted : exists text d, text = lines ["a"%string] /\ load_csv_training text = Ok d /\ d_rows d = [[(0, 0%Z)]].
Proof. exact header_only_phantom. Qed.
Print Assumptions C27_phantom_refuted.
(** Refuted for a line that ends in a blank: two different last cells get the same code. *)
Theorem C27_blank_refuted : exists d, load_csv_training (lines ["a,b"; "x,y"; "x,y "]%string) = Ok d /\
  d_rows d = [[(0, 0%Z); (1, 0%Z)]; [(0, 0%Z); (1, 0%Z)]].
Proof. exact blank_merged. Qed.
Print Assumptions C27_blank_refuted.

(** ** C28 *)
Theorem C28_testing : forall n cls rows,
  cls < n -> (Z.of_nat n <= 2147483648)%Z -> (forall row, row ∈ rows -> complete_row n row) ->
  exists text loaded, store_svm n cls rows = Ok text /\ load_svm_testing n cls text = Ok loaded /\ length loaded = length rows /\
    forall j row row', rows !! j = Some row -> loaded !! j = Some row' ->
      length row' = n /\ forall v x, (v, x) ∈ row -> row' !! v = Some (v, x).
Proof. exact svm_testing_round_trip. Qed.
Print Assumptions C28_testing.
Example C28_testing_witness : (forall row, row ∈ svm_rows -> complete_row 3 row) /\ store_svm 3 0 svm_rows = Ok (lines ["1 2:12 "; "0 1:3 "]%string).
Proof. exact (conj svm_rows_complete svm_rows_stored). Qed.
(** Loading a file of [m] variables for [n] variables: unknown variables are omitted, missing ones are zero. *)
Theorem C28_testing_sizes : forall m n cls rows,
  cls < m -> cls < n -> (Z.of_nat m <= 2147483648)%Z -> (forall row, row ∈ rows -> complete_row m row) ->
  exists text loaded, store_svm m cls rows = Ok text /\ load_svm_testing n cls text = Ok loaded /\ length loaded = length rows /\
    forall j row row', rows !! j = Some row -> loaded !! j = Some row' ->
      length row' = n /\ (forall v x, (v, x) ∈ row -> v < n -> row' !! v = Some (v, x)) /\ (forall v, m <= v -> v < n -> row' !! v = Some (v, 0%Z)).
Proof. exact svm_testing_sizes. Qed.
Print Assumptions C28_testing_sizes.
Example C28_testing_sizes_witness : (forall row, row ∈ svm_rows -> complete_row 3 row) /\ store_svm 3 0 svm_rows = Ok (lines ["1 2:12 "; "0 1:3 "]%string) /\
  load_svm_testing 2 0 (lines ["1 2:12 "; "0 1:3 "]%string) = Ok [[(0, 1%Z); (1, 0%Z)]; [(0, 0%Z); (1, 3%Z)]].
Proof. exact (conj svm_rows_complete (conj svm_rows_stored svm_rows_cut)). Qed.
(** Loading as training data, when the class variable is not the last one and the last one is not always zero. *)
Theorem C28_training_partial : forall n cls rows text,
  cls < n -> (Z.of_nat n <= 2147483648)%Z -> (forall row, row ∈ rows -> complete_row n row) -> cls <> n - 1 ->
  (exists row x, row ∈ rows /\ (n - 1, x) ∈ row /\ x <> 0%Z) -> store_svm n cls rows = Ok text ->
  exists d, load_svm_training cls text = Ok d /\ d_nvars d = n /\ length (d_rows d) = length rows /\
    length (d_columns d) = n /\
    forall i j row x, rows !! j = Some row -> (i, x) ∈ row -> exists col, d_columns d !! i = Some col /\ col !! j = Some x.
Proof. exact svm_training_round_trip. Qed.
Print Assumptions C28_training_partial.
Example C28_training_partial_witness : (forall row, row ∈ svm_rows -> complete_row 3 row) /\
  (exists row x, row ∈ svm_rows /\ (3 - 1, x) ∈ row /\ x <> 0%Z) /\ store_svm 3 0 svm_rows = Ok (lines ["1 2:12 "; "0 1:3 "]%string).
Proof. exact (conj svm_rows_complete (conj svm_rows_last svm_rows_stored)). Qed.
(** What happens otherwise: [m] is one more than the last variable with a nonzero value outside the class. *)
Theorem C28_training_general : forall n cls rows text,
  cls < n -> (Z.of_nat n <= 2147483648)%Z -> (forall row, row ∈ rows -> complete_row n row) -> store_svm n cls rows = Ok text ->
  exists m, m <= n /\
    (forall row v x, row ∈ rows -> (v, x) ∈ row -> v <> cls -> x <> 0%Z -> v < m) /\
    (m = 0 \/ exists row x, row ∈ rows /\ (m - 1, x) ∈ row /\ m - 1 <> cls /\ x <> 0%Z) /\
    (m <= cls -> rows <> [] -> load_svm_training cls text = Err OutOfBounds) /\
    (cls < m -> exists d, load_svm_training cls text = Ok d /\ d_nvars d = m /\ length (d_rows d) = length rows /\
       length (d_columns d) = m /\ length (d_sizes d) = m /\
       forall i j row x, i < m -> rows !! j = Some row -> (i, x) ∈ row ->
         exists col size, d_columns d !! i = Some col /\ col !! j = Some x /\ d_sizes d !! i = Some size /\ (x < Z.of_nat size)%Z).
Proof. exact svm_training. Qed.
Print Assumptions C28_training_general.
(** Refuted: a variable is lost, the class variable comes last, the loaded data is stored again, a test file ends
    without newline. *)
Theorem C28_last_zero_refuted : exists rows text d, (forall row, row ∈ rows -> complete_row 3 row) /\
  store_svm 3 0 rows = Ok text /\ load_svm_training 0 text = Ok d /\ d_nvars d = 2.
Proof. exact (ex_intro _ zero_rows (zero_rows_refutes)). Qed.
Print Assumptions C28_last_zero_refuted.
Theorem C28_class_last_refuted : exists rows text, (forall row, row ∈ rows -> complete_row 3 row) /\
  store_svm 3 2 rows = Ok text /\ load_svm_training 2 text = Err OutOfBounds.
Proof. exact (ex_intro _ last_rows (last_rows_refutes)). Qed.
Print Assumptions C28_class_last_refuted.
Theorem C28_store_again_refuted : exists text d, store_svm 3 0 svm_rows = Ok text /\ load_svm_training 0 text = Ok d /\ d_nvars d = 3 /\
  store_svm (d_nvars d) 0 (d_rows d) = Err Exit1.
Proof. exact svm_not_restored. Qed.
Print Assumptions C28_store_again_refuted.
Theorem C28_no_newline_refuted : exists text, load_svm_testing 3 0 text = Ok [] /\ exists d, load_svm_training 0 text = Ok d /\ length (d_rows d) = 1.
Proof. exact (ex_intro _ _ svm_test_truncated). Qed.
Print Assumptions C28_no_newline_refuted.
(** The samples written by the sample generator. *)
Theorem C28_samples : forall n cls samples,
  cls < n -> (forall x, x ∈ samples -> length x = n) ->
  output_svm cls samples = store_svm n cls ((fun x => zip (seq 0 (length x)) x) <$> samples).
Proof. exact output_svm_store. Qed.
Print Assumptions C28_samples.

(** ** C32 *)
(** Rows of a LIBSVM test file. *)
Theorem C32_svm : forall n cls text rows row,
  load_svm_testing n cls text = Ok rows -> cls < n -> row ∈ rows -> exists e g, evidence_of cls row = Ok (e, g) /\ right_evidence cls row e g.
Proof. exact evidence_svm. Qed.
Print Assumptions C32_svm.
Example C32_svm_witness : load_svm_testing 3 0 (lines ["1 2:12 "; "0 1:3 "]%string) =
  Ok [[(0, 1%Z); (1, 0%Z); (2, 12%Z)]; [(0, 0%Z); (1, 3%Z); (2, 0%Z)]] /\
  evidence_of 0 [(0, 1%Z); (1, 0%Z); (2, 12%Z)] = Ok ([(1, 0%Z); (2, 12%Z)], 1%Z).
Proof. exact svm_evidence_witness. Qed.
(** Rows of a CSV test file, when all the cells up to that of the class variable are known. *)
Theorem C32_csv_partial : forall q ds cells row,
  codes_known ds cells row -> q < length cells ->
  (forall i c, i <= q -> cells !! i = Some c -> c <> [] /\ exists d, ds !! i = Some d /\ c ∈ d) ->
  exists e g, evidence_of q row = Ok (e, g) /\ right_evidence q row e g.
Proof. exact evidence_csv. Qed.
Print Assumptions C32_csv_partial.
Example C32_csv_partial_witness : load_csv_testing 3 weather3_dicts (lines ["sky,ground,air"; "sun,dry,"]%string) = Ok [[(0, 1%Z); (1, 1%Z)]] /\
  evidence_of 1 [(0, 1%Z); (1, 1%Z)] = Ok ([(0, 1%Z)], 1%Z).
Proof. exact weather3_good. Qed.
(** Exactly when the class variable stands at its own position in the row. *)
Theorem C32_iff : forall q (row : rowv) e g,
  NoDup (fst <$> row) -> evidence_of q row = Ok (e, g) -> right_evidence q row e g <-> exists g', row !! q = Some (q, g').
Proof. exact evidence_iff. Qed.
Print Assumptions C32_iff.
(** Refuted for a missing cell before that of the class variable: the class value becomes evidence. *)
Theorem C32_missing_refuted : exists text row e g, load_csv_testing 3 weather3_dicts text = Ok [row] /\
  evidence_of 1 row = Ok (e, g) /\ (1, 1%Z) ∈ e /\ ~ right_evidence 1 row e g.
Proof. exact weather3_refutes. Qed.
Print Assumptions C32_missing_refuted.
(** A row that is too short raises an exception. *)
Theorem C32_short : forall q (row : rowv), length row <= q -> evidence_of q row = Err Thrown.
Proof. exact evidence_short. Qed.
Print Assumptions C32_short.

(** ** C40 *)
(** Every option acts on its own field only, for all the options that the parser handles. *)
Theorem C40_options_partial : forall D (stod : str -> outcome D) p os (tail : list str),
  (forall o, o ∈ os -> good_option stod o) -> (forall a : str, head tail = Some a -> head a <> Some 45%Z) ->
  exists q, (forall f, outcome_of stod f os (get p f) (get q f)) /\
    parse_parameters stod p (command_line os ++ tail) = if bool_decide (0 <= p_job q <= 5)%Z then Ok q else Err Exit0.
Proof. exact @parse_good. Qed.
Print Assumptions C40_options_partial.
Example C40_options_partial_witness : (forall o, o ∈ some_options -> good_option stod0 o) /\ NoDup (field_of <$> some_options) /\
  parse_parameters stod0 defaults (command_line some_options) =
    Ok (mkParams 3 0 8 10000 1 1%Z 0 true false (chars "a.bif") [] (chars "alarm/alarm_s5000") (chars "alarm/testing_alarm_1k_p20_csv") (chars "alarm/alarm_1k_pt")).
Proof. exact (conj some_options_good (conj some_options_distinct some_options_parsed)). Qed.
(** The order of the options does not matter. *)
Theorem C40_order_partial : forall D (stod : str -> outcome D) p os os',
  (forall o, o ∈ os -> good_option stod o) -> NoDup (field_of <$> os) -> os ≡ₚ os' ->
  parse_parameters stod p (command_line os) = parse_parameters stod p (command_line os').
Proof. exact @parse_order. Qed.
Print Assumptions C40_order_partial.
(** Refuted: a missing value is read through the null pointer that ends the argument list. *)
Theorem C40_missing : forall D (stod : str -> outcome D) p os o,
  (forall o, o ∈ os -> good_option stod o) -> parse_parameters stod p (command_line os ++ [option_name o]) = Err NullDeref.
Proof. exact @parse_missing. Qed.
Print Assumptions C40_missing.
Theorem C40_missing_refuted : exists args, args = chars <$> ["-j"]%string /\ parse_parameters stod0 defaults args = Err NullDeref.
Proof. exact missing_refutes. Qed.
Print Assumptions C40_missing_refuted.
(** Refuted: the documented values of the two save options read past the end of the string. *)
Theorem C40_save : forall D (stod : str -> outcome D) p os b c (rest : list str),
  (forall o, o ∈ os -> good_option stod o) ->
  parse_parameters stod p (command_line os ++ option_name (SaveOpt b [c]) :: [c] :: rest) = Err OutOfBounds.
Proof. exact @parse_save. Qed.
Print Assumptions C40_save.
Theorem C40_save_refuted : exists args, args = chars <$> ["-ss"; "0"]%string /\ parse_parameters stod0 defaults args = Err OutOfBounds.
Proof. exact save_refutes. Qed.
Print Assumptions C40_save_refuted.
(** Refuted: longer values fall through to the file options, which swallow the next option. *)
Theorem C40_fall_through_refuted : exists args q, args = chars <$> ["-ss"; "000"; "-t"; "8"]%string /\
  parse_parameters stod0 defaults args = Ok q /\ p_threads q = p_threads defaults /\ p_net q = chars "-t".
Proof. exact fall_through_refutes. Qed.
Print Assumptions C40_fall_through_refuted.
(** Refuted: documented options that the parser does not know. *)
Theorem C40_unknown_refuted : exists args, args = chars <$> ["-v"; "2"]%string /\ parse_parameters stod0 defaults args = Err Exit0.
Proof. exact (ex_intro _ _ (conj eq_refl documented_unknown)). Qed.
Print Assumptions C40_unknown_refuted.

(** ** C50 *)
(** Storing loaded training data gives the file back. *)
Theorem C50_training_partial : forall text header rows d,
  csv_table text header rows -> (forall r c, r ∈ rows -> c ∈ r -> c <> []) -> load_csv_training text = Ok d ->
  store_csv (d_names d) (d_nvars d) (d_dicts d) (d_rows d) = Ok (text_of (glue comma <$> header :: rows)).
Proof. exact csv_store_training. Qed.
Print Assumptions C50_training_partial.
Example C50_training_partial_witness : csv_table weather weather_header weather_rows /\ (forall r c, r ∈ weather_rows -> c ∈ r -> c <> []) /\
  exists d, load_csv_training weather = Ok d /\ d_dicts d = weather_dicts /\
    d_rows d = [[(0, 0%Z); (1, 0%Z)]; [(0, 1%Z); (1, 1%Z)]; [(0, 0%Z); (1, 1%Z)]].
Proof. exact (conj weather_table (conj weather_cells weather_loaded)). Qed.
(** Storing loaded test data gives the file back with the unknown cells emptied, and loading that gives the same data. *)
Theorem C50_testing : forall text header rows ds coded,
  csv_table text header rows -> length ds = length header -> (forall d, d ∈ ds -> NoDup d) ->
  load_csv_testing (length ds) ds text = Ok coded ->
  exists rows', length rows' = length rows /\
    (forall j cells cells', rows !! j = Some cells -> rows' !! j = Some cells' -> blanked ds cells cells') /\
    store_csv header (length header) ds coded = Ok (text_of (glue comma <$> header :: rows')) /\
    load_csv_testing (length ds) ds (text_of (glue comma <$> header :: rows')) = Ok coded.
Proof. exact csv_store_testing. Qed.
Print Assumptions C50_testing.
Example C50_testing_witness : csv_table weather_test weather_header weather_test_rows /\ (forall d, d ∈ weather_dicts -> NoDup d) /\
  load_csv_testing 2 weather_dicts weather_test = Ok [[(1, 1%Z)]; [(1, 0%Z)]; [(0, 1%Z); (1, 0%Z)]].
Proof. exact (conj weather_test_table (conj weather_dicts_NoDup weather_test_loaded)). Qed.
(** Refuted for training data with an empty cell: storing exits. *)
Theorem C50_empty_refuted : exists d, load_csv_training (lines ["a,b"; "x,"; ",y"]%string) = Ok d /\
  store_csv (d_names d) (d_nvars d) (d_dicts d) (d_rows d) = Err Exit1.
Proof. exact empty_cell_store. Qed.
Print Assumptions C50_empty_refuted.
