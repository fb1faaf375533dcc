(** C68: the numbers of LIBSVM files. [starts_with_int], [int_field], [integer], [line_words], [feature_field],
    [training_line], [testing_line], [class_known] and [refusal] are in FieldSpec.v. *)
From Coq Require Import String.
From Verif Require Import DataModel DataSpec FieldSpec FieldProofs FieldTheorems DataWitness FieldWitness.
Local Open Scope nat_scope.

(** What is read as a number: white space, at most one sign, at least one digit, then anything. *)
Theorem C68_numbers : forall s, (forall z, stoi s = Ok z <-> int_field s z) /\ ((forall z, ~ int_field s z) -> stoi s = Err Thrown).
Proof. exact numbers. Qed.
Print Assumptions C68_numbers.
Example C68_numbers_witness : int_field (chars "+7") 7 /\ (forall z, ~ int_field (chars "-") z).
Proof. exact (conj plus_seven minus_alone). Qed.

(** Every text is a file with lines. *)
Theorem C68_every_file : forall text, exists ls, has_lines text ls /\ forall l, l ∈ ls -> newline ∉ l.
Proof. exact every_file. Qed.
Print Assumptions C68_every_file.
Example C68_every_file_witness : has_lines sample_text sample_lines.
Proof. exact (proj1 sample_has). Qed.

(** A training file is loaded exactly when every line reads as a label and features, and then the rows are these. *)
Theorem C68_training_partial : forall cls text ls, has_lines text ls -> (forall l, l ∈ ls -> newline ∉ l) ->
  (forall rows, (exists d, load_svm_training cls text = Ok d /\ d_rows d = rows) <-> Forall2 (training_line cls) ls rows /\ class_known cls rows) /\
  (forall e, load_svm_training cls text = Err e -> refusal e).
Proof. exact training_file. Qed.
Print Assumptions C68_training_partial.
Example C68_training_witness : has_lines sample_text sample_lines /\ (forall l, l ∈ sample_lines -> newline ∉ l) /\
  Forall2 (training_line 0) sample_lines [[(0, 1%Z); (1, 2%Z); (2, (-3)%Z)]; [(0, (-1)%Z); (2, 10%Z)]].
Proof. exact (conj (proj1 sample_has) (conj (proj2 sample_has) sample_reads)). Qed.

(** A test file likewise; what follows the last newline is not read. *)
Theorem C68_testing_partial : forall n cls ls tail, newline ∉ tail -> (forall l, l ∈ ls -> newline ∉ l) ->
  (forall rows, load_svm_testing n cls (text_of ls ++ tail) = Ok rows <-> Forall2 (testing_line n cls) ls rows) /\
  (forall e, load_svm_testing n cls (text_of ls ++ tail) = Err e -> refusal e).
Proof. exact testing_file. Qed.
Print Assumptions C68_testing_partial.
Example C68_testing_witness : load_svm_testing 3 0 (lines ["1 9:x 1:2"%string]) = Ok [[(0, 1%Z); (1, 2%Z); (2, 0%Z)]].
Proof. exact unknown_skipped. Qed.

(** One label or feature without numbers: the whole file is refused. *)
Theorem C68_bad_word : forall cls text ls l w ws x, has_lines text ls -> (forall l, l ∈ ls -> newline ∉ l) -> l ∈ ls -> line_words l (w :: ws) ->
  (x = w /\ (forall z, ~ int_field w z)) \/ (x ∈ ws /\ forall f, ~ feature_field x f) ->
  load_svm_training cls text = Err Thrown \/ load_svm_training cls text = Err OutOfBounds.
Proof. exact bad_word. Qed.
Print Assumptions C68_bad_word.
Theorem C68_bad_test_word : forall n cls ls tail l w ws x, newline ∉ tail -> (forall l, l ∈ ls -> newline ∉ l) -> l ∈ ls -> line_words l (w :: ws) ->
  (x = w /\ (forall z, ~ int_field w z)) \/
  (x ∈ ws /\ (forall a more i, parts 58%Z x (a :: more) -> int_field a i -> (i < Z.of_nat n)%Z) /\ forall f, ~ feature_field x f) ->
  load_svm_testing n cls (text_of ls ++ tail) = Err Thrown \/ load_svm_testing n cls (text_of ls ++ tail) = Err OutOfBounds.
Proof. exact bad_test_word. Qed.
Print Assumptions C68_bad_test_word.
Example C68_bad_word_witness : has_lines (text_of bad_lines) bad_lines /\ (forall l, l ∈ bad_lines -> newline ∉ l) /\ chars "0 1:-" ∈ bad_lines /\
  line_words (chars "0 1:-") [chars "0"; chars "1:-"] /\ chars "1:-" ∈ [chars "1:-"] /\ forall f, ~ feature_field (chars "1:-") f.
Proof. exact (conj (proj1 bad_has) (conj (proj2 bad_has) (conj (elem_of_list_further _ _ _ (elem_of_list_here _ _)) (conj bad_words (conj (elem_of_list_here _ _) bad_feature))))). Qed.

(** Refuted: a field that is not a number is read up to its first character that is not a digit; a third part is
    ignored; so is the value of an unknown variable of a test file. *)
Theorem C68_suffix_refuted : (forall z, ~ integer (chars "2x") z) /\
  exists d, load_svm_training 0 (lines ["1 1:2x"%string]) = Ok d /\ d_rows d = [[(0, 1%Z); (1, 2%Z)]].
Proof. exact (conj not_integer_2x suffix_read). Qed.
Print Assumptions C68_suffix_refuted.
Theorem C68_third_part_refuted : exists d, load_svm_training 0 (lines ["1 1:2:9"%string]) = Ok d /\ d_rows d = [[(0, 1%Z); (1, 2%Z)]].
Proof. exact third_part_read. Qed.
Print Assumptions C68_third_part_refuted.
Theorem C68_unknown_refuted : load_svm_testing 3 0 (lines ["1 9:x 1:2"%string]) = Ok [[(0, 1%Z); (1, 2%Z); (2, 0%Z)]].
Proof. exact unknown_skipped. Qed.
Print Assumptions C68_unknown_refuted.
