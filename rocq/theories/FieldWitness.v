(** Fields of LIBSVM files: examples. *)
From Coq Require Import Ascii String.
From Verif Require Import FieldSpec DataProofs UtilProofs EvalProofs SVMTheorems ParProofs FieldProofs FieldTheorems DataWitness.
Local Open Scope nat_scope.

(** "2x" is not an integer, "+7" is, "-" is not even the start of one. *)
Lemma not_integer_2x : forall z, ~ integer (chars "2x") z.
Proof.
  intros z (sign & ds & E & Hne & Hds & Hz). change (chars "2x") with [50%Z; 120%Z] in E.
  assert (120%Z ∈ sign ++ ds) as Hin by (rewrite <-E; right; left). apply elem_of_app in Hin as [Hin|Hin].
  - destruct Hz as [[[->| ->] _]|[-> _]]; [by apply elem_of_nil in Hin| |]; apply elem_of_list_singleton in Hin; done.
  - rewrite Forall_forall in Hds. apply Hds in Hin. unfold digit in Hin. lia.
Qed.
Lemma plus_seven : int_field (chars "+7") 7.
Proof. split; [|lia]. exists [], [43%Z], [55%Z], []. split_and!; try done; [repeat constructor; unfold digit; lia|]. left. split; [by right|done]. Qed.
Lemma minus_alone z : ~ int_field (chars "-") z.
Proof. intros H. by apply stoi_spec in H. Qed.

(** A tolerated suffix, a third part, the value of an unknown variable. *)
Lemma suffix_read : exists d, load_svm_training 0 (lines ["1 1:2x"%string]) = Ok d /\ d_rows d = [[(0, 1%Z); (1, 2%Z)]].
Proof. eexists. split; vm_compute; reflexivity. Qed.
Lemma third_part_read : exists d, load_svm_training 0 (lines ["1 1:2:9"%string]) = Ok d /\ d_rows d = [[(0, 1%Z); (1, 2%Z)]].
Proof. eexists. split; vm_compute; reflexivity. Qed.
Lemma unknown_skipped : load_svm_testing 3 0 (lines ["1 9:x 1:2"%string]) = Ok [[(0, 1%Z); (1, 2%Z); (2, 0%Z)]].
Proof. vm_compute. reflexivity. Qed.
(** One feature too many blanks: an empty word is refused. *)
Lemma two_blanks : load_svm_training 0 (lines ["1  1:2"%string]) = Err Thrown.
Proof. vm_compute. reflexivity. Qed.

(** A file with two lines, the last without newline, one with trailing blanks. *)
Definition sample_lines : list str := [chars "1 1:+2 2:-3  "; chars "-1 2:10"].
Definition sample_text : str := chars "1 1:+2 2:-3  " ++ [newline] ++ chars "-1 2:10".
Lemma sample_has : has_lines sample_text sample_lines /\ forall l, l ∈ sample_lines -> newline ∉ l.
Proof.
  split; [right; split; [done|by vm_compute]|]. intros l Hl. unfold sample_lines in Hl. repeat (apply elem_of_cons in Hl as [->|Hl]); [| |by apply elem_of_nil in Hl]; apply (bool_decide_unpack _); vm_compute; exact I.
Qed.
Lemma sample_loads : exists d, load_svm_training 0 sample_text = Ok d /\ d_rows d = [[(0, 1%Z); (1, 2%Z); (2, (-3)%Z)]; [(0, (-1)%Z); (2, 10%Z)]].
Proof. eexists. split; vm_compute; reflexivity. Qed.
Lemma sample_reads : Forall2 (training_line 0) sample_lines [[(0, 1%Z); (1, 2%Z); (2, (-3)%Z)]; [(0, (-1)%Z); (2, 10%Z)]].
Proof. destruct sample_has as [H1 H2]. destruct (training_file 0 _ _ H1 H2) as [T _]. apply T, sample_loads. Qed.
(** A file with a word that is not a number. *)
Definition bad_lines : list str := [chars "1 1:2"; chars "0 1:-"].
Lemma bad_has : has_lines (text_of bad_lines) bad_lines /\ forall l, l ∈ bad_lines -> newline ∉ l.
Proof.
  split; [by left|]. intros l Hl. unfold bad_lines in Hl. repeat (apply elem_of_cons in Hl as [->|Hl]); [| |by apply elem_of_nil in Hl]; apply (bool_decide_unpack _); vm_compute; exact I.
Qed.
Lemma bad_words : line_words (chars "0 1:-") [chars "0"; chars "1:-"].
Proof.
  exists (chars "0 1:-"), []. split_and!; [done|constructor|intros c [= <-]; done|]. split_and!; [done|done|]. intros p Hp.
  repeat (apply elem_of_cons in Hp as [->|Hp]); [| |by apply elem_of_nil in Hp]; apply (bool_decide_unpack _); vm_compute; exact I.
Qed.
Lemma bad_feature f : ~ feature_field (chars "1:-") f.
Proof. intros H. apply svm_feature_spec in H. by vm_compute in H. Qed.
Lemma bad_refused : load_svm_training 0 (text_of bad_lines) = Err Thrown.
Proof. vm_compute. reflexivity. Qed.
