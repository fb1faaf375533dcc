(** Specification of CSV files of any form. *)
From Verif Require Export FieldSpec.
Local Open Scope nat_scope.

(** The cells of a line: what is left without the control characters and blanks at its end, split at commas. *)
Definition line_cells (l : str) (cells : list str) : Prop := exists s trail,
  l = s ++ trail /\ Forall (fun c => (c < 33)%Z) trail /\ no_trailing_blank s /\ parts 44%Z s cells.
(** The header of a text and the lines that are taken for data: the lines after the first; for a file with one line, an
    empty line if the line ends in a newline, and the line itself, once more, if it does not. *)
Inductive csv_lines (text : str) : str -> list str -> Prop :=
  | csv_some header l ls : has_lines text (header :: l :: ls) -> (forall x, x ∈ header :: l :: ls -> newline ∉ x) -> csv_lines text header (l :: ls)
  | csv_header header : text = header ++ [newline] -> newline ∉ header -> csv_lines text header [[]]
  | csv_open : newline ∉ text -> csv_lines text text [text].
(** The data set that codes these rows of cells. *)
Definition codes_rows (names : list str) (rows : list (list str)) (d : dataset) : Prop :=
  d_names d = names /\ d_nvars d = length names /\ length (d_dicts d) = length names /\ d_sizes d = length <$> d_dicts d /\
  (forall i dict, d_dicts d !! i = Some dict -> first_appearance (column i rows) dict) /\
  length (d_rows d) = length rows /\
  (forall j cells row, rows !! j = Some cells -> d_rows d !! j = Some row -> codes (d_dicts d) cells row) /\
  (forall i j cells c, rows !! j = Some cells -> cells !! i = Some c ->
     exists col dict v, d_columns d !! i = Some col /\ d_dicts d !! i = Some dict /\ dict !! v = Some c /\ col !! j = Some (Z.of_nat v)).
