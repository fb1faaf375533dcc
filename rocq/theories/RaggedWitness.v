(** CSV files of any form: examples. *)
From Coq Require Import Ascii String.
From Verif Require Import RaggedSpec DataProofs UtilProofs EvalProofs CSVTheorems FieldProofs FieldTheorems DataWitness RaggedProofs.
Local Open Scope nat_scope.

Theorem every_csv text : exists header ls names css, csv_lines text header ls /\ line_cells header names /\ Forall2 line_cells ls css.
Proof.
  destruct (csv_lines_exist text) as (header & ls & H). destruct (cells_of header) as [names Hn]. exists header, ls, names.
  assert (exists css, Forall2 line_cells ls css) as [css Hc]; [|by exists css].
  clear. induction ls as [|l ls [css IH]]; [exists []; constructor|]. destruct (cells_of l) as [cells Hc]. exists (cells :: css). by constructor.
Qed.

(** A line with its cells, decided by computation. *)
Lemma cells_by_split l cells : (s ← trim_right l; split_str s [comma]) = Ok cells -> line_cells l cells.
Proof. intros H. destruct (cells_of l) as [cells' Hc]. pose proof Hc as (s & H1 & H2 & _)%cells_split. rewrite H1 in H. cbn [mbind outcome_bind] in H. rewrite H2 in H. by injection H as <-. Qed.

(** The second row has a cell too many, the third ends in a blank; the last has no newline. *)
Definition ragged_lines : list str := [chars "x,y"; chars "u,y,w"; chars "x,v "].
Definition ragged_text : str := lines ["a,b"; "x,y"; "u,y,w"]%string ++ chars "x,v ".
Definition ragged_cells : list (list str) := [[chars "x"; chars "y"]; [chars "u"; chars "y"; chars "w"]; [chars "x"; chars "v"]].
Lemma ragged_is : csv_lines ragged_text (chars "a,b") ragged_lines.
Proof.
  apply csv_some; [right; split; [done|by vm_compute]|]. intros l Hl. repeat (apply elem_of_cons in Hl as [->|Hl]); [| | | |by apply elem_of_nil in Hl]; apply (bool_decide_unpack _); vm_compute; exact I.
Qed.
Lemma ragged_names : line_cells (chars "a,b") [chars "a"; chars "b"].
Proof. by apply cells_by_split. Qed.
Lemma ragged_rows : Forall2 line_cells ragged_lines ragged_cells.
Proof. repeat (constructor; [by apply cells_by_split|]). constructor. Qed.
Lemma ragged_wide : NoDup [chars "a"; chars "b"] /\ forall cells, cells ∈ ragged_cells -> 2 <= length cells.
Proof.
  split; [apply (bool_decide_unpack _); vm_compute; exact I|]. intros l Hl. repeat (apply elem_of_cons in Hl as [->|Hl]); [cbn; lia|cbn; lia|cbn; lia|by apply elem_of_nil in Hl].
Qed.
Lemma ragged_loads : exists d, load_csv_training ragged_text = Ok d /\ d_rows d = [[(0, 0%Z); (1, 0%Z)]; [(0, 1%Z); (1, 0%Z)]; [(0, 0%Z); (1, 1%Z)]].
Proof. eexists. split; vm_compute; reflexivity. Qed.
Lemma ragged_tests : load_csv_testing 2 [[chars "u"]; [chars "v"; chars "y"]] ragged_text = Ok [[(1, 1%Z)]; [(0, 0%Z); (1, 1%Z)]; [(1, 0%Z)]].
Proof. vm_compute. reflexivity. Qed.

Lemma long_row_lost : exists d, load_csv_training (lines ["a,b"; "x,y,z"]%string) = Ok d /\ d_dicts d = [[chars "x"]; [chars "y"]] /\ d_rows d = [[(0, 0%Z); (1, 0%Z)]].
Proof. eexists. split_and!; vm_compute; reflexivity. Qed.
Lemma short_row_read : load_csv_training (lines ["a,b"; "x,y"; "x"]%string) = Err OutOfBounds.
Proof. vm_compute. reflexivity. Qed.
Lemma header_is_data : exists d, load_csv_training (chars "a,b") = Ok d /\ d_names d = [chars "a"; chars "b"] /\ d_dicts d = [[chars "a"]; [chars "b"]] /\ d_rows d = [[(0, 0%Z); (1, 0%Z)]].
Proof. eexists. split_and!; vm_compute; reflexivity. Qed.
