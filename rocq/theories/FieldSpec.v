(** Specification of the fields of LIBSVM files. *)
From Verif Require Export DataSpec.
Local Open Scope nat_scope.

(** The value of a string of decimal digits. *)
Definition decimal (ds : str) : Z := foldl (fun acc c => acc * 10 + (c - 48))%Z 0%Z ds.
Definition digit (c : Z) : Prop := (48 <= c <= 57)%Z.
(** White space: blank, tab, newline, vertical tab, form feed, carriage return. *)
Definition white (c : Z) : Prop := (c = 32 \/ 9 <= c <= 13)%Z.
(** The string starts with an integer: white space, a sign, digits; then something that is not a digit. *)
Definition starts_with_int (s : str) (z : Z) : Prop := exists (sp sign ds rest : str),
  s = sp ++ sign ++ ds ++ rest /\ Forall white sp /\ ds <> [] /\ Forall digit ds /\ (forall c, head rest = Some c -> ~ digit c) /\
  ((sign = [] \/ sign = [43%Z]) /\ z = decimal ds \/ sign = [45%Z] /\ z = (- decimal ds)%Z).
(** An integer that fits. *)
Definition int_field (s : str) (z : Z) : Prop := starts_with_int s z /\ (-2147483648 <= z <= 2147483647)%Z.
(** The string is nothing but an integer. *)
Definition integer (s : str) (z : Z) : Prop := exists (sign ds : str), s = sign ++ ds /\ ds <> [] /\ Forall digit ds /\
  ((sign = [] \/ sign = [43%Z]) /\ z = decimal ds \/ sign = [45%Z] /\ z = (- decimal ds)%Z).

(** The string consists of these parts, separated by the character [sep]. *)
Definition parts (sep : Z) (s : str) (ps : list str) : Prop := s = glue sep ps /\ ps <> [] /\ forall p, p ∈ ps -> sep ∉ p.
(** The words of a line: what is left without the control characters and blanks at its end, split at blanks. *)
Definition line_words (l : str) (ws : list str) : Prop := exists s trail,
  l = s ++ trail /\ Forall (fun c => (c < 33)%Z) trail /\ no_trailing_blank s /\ parts 32%Z s ws.
(** A word "index:value". *)
Definition feature_field (w : str) (f : nat * Z) : Prop := exists a b more,
  parts 58%Z w (a :: b :: more) /\ int_field a (Z.of_nat (fst f)) /\ int_field b (snd f).
(** A line of a training file: the label, then features. *)
Definition training_line (cls : nat) (l : str) (row : rowv) : Prop := exists w ws label fs,
  line_words l (w :: ws) /\ int_field w label /\ Forall2 feature_field ws fs /\ row = (cls, label) :: fs.
(** A line of a test file for [n] variables: as above; features with an unknown index are skipped. *)
Inductive test_features (n : nat) : list str -> rowv -> rowv -> Prop :=
  | tf_nil row : test_features n [] row row
  | tf_skip w ws a more i row row' : parts 58%Z w (a :: more) -> int_field a i -> (Z.of_nat n <= i)%Z ->
      test_features n ws row row' -> test_features n (w :: ws) row row'
  | tf_set w ws f row row' : feature_field w f -> fst f < n ->
      test_features n ws (<[fst f := f]> row) row' -> test_features n (w :: ws) row row'.
Definition testing_line (n cls : nat) (l : str) (row : rowv) : Prop := exists w ws label,
  line_words l (w :: ws) /\ int_field w label /\ cls < n /\ test_features n ws (<[cls := (cls, label)]> ((fun i => (i, 0%Z)) <$> seq 0 n)) row.

(** The class variable is not beyond the last feature of the file, or the file is empty. *)
Definition class_known (cls : nat) (rows : list rowv) : Prop := rows = [] \/ exists row f, row ∈ rows /\ f ∈ drop 1 row /\ cls <= fst f.
(** How a file is refused: an exception, or an access outside an array. *)
Definition refusal (e : err) : Prop := e = Thrown \/ e = OutOfBounds.
