(** C69: CSV files of any form. [csv_lines], [line_cells] and [codes_rows] are in RaggedSpec.v, the notions they use in
    FieldSpec.v and DataSpec.v. *)
From Coq Require Import String.
From Verif Require Import DataModel DataSpec FieldSpec RaggedSpec DataWitness RaggedProofs RaggedWitness.
Local Open Scope nat_scope.

(** Every text has a header, data lines and cells. *)
Theorem C69_every_file : forall text, exists header ls names css, csv_lines text header ls /\ line_cells header names /\ Forall2 line_cells ls css.
Proof. exact every_csv. Qed.
Print Assumptions C69_every_file.
Example C69_every_file_witness : csv_lines ragged_text (chars "a,b") ragged_lines.
Proof. exact ragged_is. Qed.

(** Training: with distinct names and no row shorter than the header, the data set codes the first cells of every row;
    with a shorter row the program reads past the end of an array; repeated names are refused. *)
Theorem C69_training_partial : forall text header ls names css, csv_lines text header ls -> line_cells header names -> Forall2 line_cells ls css ->
  (NoDup names -> (forall cells, cells ∈ css -> length names <= length cells) ->
     exists d, load_csv_training text = Ok d /\ codes_rows names (take (length names) <$> css) d) /\
  (NoDup names -> (exists cells, cells ∈ css /\ length cells < length names) -> load_csv_training text = Err OutOfBounds) /\
  (~ NoDup names -> load_csv_training text = Err Exit1).
Proof. exact training_any. Qed.
Print Assumptions C69_training_partial.
Example C69_training_witness : csv_lines ragged_text (chars "a,b") ragged_lines /\ line_cells (chars "a,b") [chars "a"; chars "b"] /\ Forall2 line_cells ragged_lines ragged_cells /\
  NoDup [chars "a"; chars "b"] /\ (forall cells, cells ∈ ragged_cells -> 2 <= length cells) /\
  exists d, load_csv_training ragged_text = Ok d /\ d_rows d = [[(0, 0%Z); (1, 0%Z)]; [(0, 1%Z); (1, 0%Z)]; [(0, 0%Z); (1, 1%Z)]].
Proof. exact (conj ragged_is (conj ragged_names (conj ragged_rows (conj (proj1 ragged_wide) (conj (proj2 ragged_wide) ragged_loads))))). Qed.

(** Test files with the dictionaries of a data set. *)
Theorem C69_testing_partial : forall text header ls css ds, csv_lines text header ls -> Forall2 line_cells ls css -> ds <> [] -> (forall d, d ∈ ds -> NoDup d) ->
  ((forall cells, cells ∈ css -> length ds <= length cells) ->
     exists coded, load_csv_testing (length ds) ds text = Ok coded /\ Forall2 (fun cells row => codes_known ds (take (length ds) cells) row) css coded) /\
  ((exists cells, cells ∈ css /\ length cells < length ds) -> load_csv_testing (length ds) ds text = Err OutOfBounds).
Proof. exact testing_any. Qed.
Print Assumptions C69_testing_partial.
Example C69_testing_witness : load_csv_testing 2 [[chars "u"]; [chars "v"; chars "y"]] ragged_text = Ok [[(1, 1%Z)]; [(0, 0%Z); (1, 1%Z)]; [(1, 0%Z)]].
Proof. exact ragged_tests. Qed.

(** Refuted: cells beyond the header are dropped without a word, a short row is undefined behaviour, and the header of a
    file that ends with it is loaded as an instance. *)
Theorem C69_long_row_refuted : exists d, load_csv_training (lines ["a,b"; "x,y,z"]%string) = Ok d /\ d_dicts d = [[chars "x"]; [chars "y"]] /\ d_rows d = [[(0, 0%Z); (1, 0%Z)]].
Proof. exact long_row_lost. Qed.
Print Assumptions C69_long_row_refuted.
Theorem C69_short_row_refuted : load_csv_training (lines ["a,b"; "x,y"; "x"]%string) = Err OutOfBounds.
Proof. exact short_row_read. Qed.
Print Assumptions C69_short_row_refuted.
Theorem C69_header_row_refuted : exists d, load_csv_training (chars "a,b") = Ok d /\ d_names d = [chars "a"; chars "b"] /\ d_dicts d = [[chars "a"]; [chars "b"]] /\ d_rows d = [[(0, 0%Z); (1, 0%Z)]].
Proof. exact header_is_data. Qed.
Print Assumptions C69_header_row_refuted.
