(** Specification of the data files. *)
From Verif Require Export DataModel.
From Coq Require Export Sorted.
Local Open Scope nat_scope.

(** The cells of a line with separators between them; the text of a file with the given lines. *)
Fixpoint glue (sep : Z) (cells : list str) : str :=
  match cells with [] => [] | [c] => c | c :: cs => c ++ sep :: glue sep cs end.
Definition text_of (ls : list str) : str := concat ((fun l => l ++ [newline]) <$> ls).
(** A file contains these lines: every line ends in a newline, which may be missing at the end of a nonempty last line. *)
Definition has_lines (text : str) (ls : list str) : Prop :=
  text = text_of ls \/ (text ++ [newline] = text_of ls /\ last ls <> Some []).

(** A cell holds neither a comma nor a newline. *)
Definition clean_cell (c : str) : Prop := forall x, x ∈ c -> x <> comma /\ x <> newline.
(** A line does not end in a blank. *)
Definition no_trailing_blank (l : str) : Prop := forall c, last l = Some c -> (33 <= c)%Z.
Definition csv_row (n : nat) (r : list str) : Prop :=
  length r = n /\ (forall c, c ∈ r -> clean_cell c) /\ no_trailing_blank (glue comma r).
(** A CSV file with a header and at least one data row, all of the same width. *)
Definition csv_table (text : str) (header : list str) (rows : list (list str)) : Prop :=
  has_lines text (glue comma <$> header :: rows) /\
  header <> [] /\ csv_row (length header) header /\ rows <> [] /\ forall r, r ∈ rows -> csv_row (length header) r.

(** Column [i]. *)
Definition column {A} (i : nat) (rows : list (list A)) : list A := omap (.!! i) rows.
(** The distinct elements of [col] in the order in which they appear first. *)
Definition first_appearance (col d : list str) : Prop :=
  NoDup d /\ (forall s, s ∈ d <-> s ∈ col) /\
  forall k k' s s', d !! k = Some s -> d !! k' = Some s' -> k < k' ->
    exists p, col !! p = Some s /\ forall q, col !! q = Some s' -> p < q.

(** Row [row] codes the cells: position [i] holds variable [i] with the number of its string. *)
Definition codes (ds : list (list str)) (cells : list str) (row : rowv) : Prop :=
  length row = length cells /\
  forall i c, cells !! i = Some c -> exists d v, ds !! i = Some d /\ d !! v = Some c /\ row !! i = Some (i, Z.of_nat v).
(** Row [row] holds, in the order of the variables, exactly the nonempty cells with a known string. *)
Definition codes_known (ds : list (list str)) (cells : list str) (row : rowv) : Prop :=
  StronglySorted lt (fst <$> row) /\
  forall i z, (i, z) ∈ row <-> exists (c : str) d v, cells !! i = Some c /\ c <> [] /\ ds !! i = Some d /\ d !! v = Some c /\ z = Z.of_nat v.

(** A row that gives every variable below [n] exactly one value, all values fitting an [int]. *)
Definition complete_row (n : nat) (row : rowv) : Prop :=
  length row = n /\ NoDup (fst <$> row) /\ forall v x, (v, x) ∈ row -> v < n /\ (-2147483648 <= x <= 2147483647)%Z.
(** The cells with the unknown ones emptied. *)
Definition blanked (ds : list (list str)) (cells cells' : list str) : Prop :=
  length cells' = length cells /\
  forall i c d, cells !! i = Some c -> ds !! i = Some d -> (c ∈ d -> cells' !! i = Some c) /\ (c ∉ d -> cells' !! i = Some ([] : str)).

(** The evidence consists of the observed variables other than [q]; the ground truth is the value of [q]. *)
Definition right_evidence (q : nat) (row e : rowv) (g : Z) : Prop :=
  (forall v x, (v, x) ∈ e <-> (v, x) ∈ row /\ v <> q) /\ (q, g) ∈ row.
