(** Concrete files. *)
From Coq Require Import Ascii String.
From Verif Require Import DataProofs CSVTheorems SVMTheorems RowEvidence ParamSpec ParamProofs DataSpec UtilProofs.
Local Open Scope nat_scope.

Fixpoint chars (s : String.string) : str :=
  match s with String.EmptyString => [] | String.String c r => Z.of_N (Ascii.N_of_ascii c) :: chars r end.
Definition lines (l : list String.string) : str := text_of (chars <$> l).

Definition clean_cellb (c : str) : bool := forallb (fun x => negb (bool_decide (x = comma)) && negb (bool_decide (x = newline))) c.
Definition trailb (l : str) : bool := match last l with Some c => bool_decide (33 <= c)%Z | None => true end.
Definition csv_rowb (n : nat) (r : list str) : bool := bool_decide (length r = n) && forallb clean_cellb r && trailb (glue comma r).
Lemma csv_rowb_ok n r : csv_rowb n r = true -> csv_row n r.
Proof.
  unfold csv_rowb. intros [[H1 H2]%andb_prop H3]%andb_prop. apply bool_decide_eq_true in H1. split_and!; [done| |].
  - intros c Hc x Hx. rewrite forallb_forall in H2. specialize (H2 c). rewrite <-elem_of_list_In in H2. specialize (H2 Hc).
    unfold clean_cellb in H2. rewrite forallb_forall in H2. specialize (H2 x). rewrite <-elem_of_list_In in H2. specialize (H2 Hx).
    apply andb_prop in H2 as [A B]. apply negb_true_iff, bool_decide_eq_false in A, B. done.
  - intros c Hc. unfold trailb in H3. rewrite Hc in H3. by apply bool_decide_eq_true in H3.
Qed.
Definition csv_tableb (header : list str) (rows : list (list str)) : bool :=
  negb (bool_decide (header = [])) && csv_rowb (length header) header && negb (bool_decide (rows = [])) && forallb (csv_rowb (length header)) rows.
Lemma csv_tableb_ok text header rows : has_lines text (glue comma <$> header :: rows) -> csv_tableb header rows = true -> csv_table text header rows.
Proof.
  unfold csv_tableb. intros Hl [[[H1 H2]%andb_prop H3]%andb_prop H4]%andb_prop. apply negb_true_iff, bool_decide_eq_false in H1, H3.
  split_and!; try done; [by apply csv_rowb_ok|]. intros r Hr. apply csv_rowb_ok. rewrite forallb_forall in H4. apply H4. by apply elem_of_list_In.
Qed.

(** A training file of two columns and three rows, without final newline, and a test file with a missing and an unknown cell. *)
Definition weather_header : list str := chars <$> ["sky"; "ground"]%string.
Definition weather_rows : list (list str) := [chars <$> ["rain"; "wet"]; chars <$> ["sun"; "dry"]; chars <$> ["rain"; "dry"]]%string.
Definition weather : str := take (length (text_of (glue comma <$> weather_header :: weather_rows)) - 1) (text_of (glue comma <$> weather_header :: weather_rows)).
Lemma weather_table : csv_table weather weather_header weather_rows.
Proof.
  apply csv_tableb_ok; [|by vm_compute]. right. split; [|by vm_compute]. by vm_compute.
Qed.
Lemma weather_names : NoDup weather_header.
Proof. apply (bool_decide_unpack _). by vm_compute. Qed.
Lemma weather_cells : forall r c, r ∈ weather_rows -> c ∈ r -> c <> [].
Proof.
  assert (forallb (forallb (fun c => negb (bool_decide (c = [])))) weather_rows = true) as H by (by vm_compute).
  intros r c Hr Hc. rewrite forallb_forall in H. specialize (H r). rewrite <-elem_of_list_In in H. specialize (H Hr).
  rewrite forallb_forall in H. specialize (H c). rewrite <-elem_of_list_In in H. specialize (H Hc). by apply negb_true_iff, bool_decide_eq_false in H.
Qed.
Definition weather_dicts : list (list str) := [chars <$> ["rain"; "sun"]; chars <$> ["wet"; "dry"]]%string.
Lemma weather_dicts_NoDup d : d ∈ weather_dicts -> NoDup d.
Proof.
  assert (Forall NoDup weather_dicts) as H by (apply (bool_decide_unpack _); by vm_compute). rewrite Forall_forall in H. apply H.
Qed.
Lemma weather_loaded : exists d, load_csv_training weather = Ok d /\ d_dicts d = weather_dicts /\
  d_rows d = [[(0, 0%Z); (1, 0%Z)]; [(0, 1%Z); (1, 1%Z)]; [(0, 0%Z); (1, 1%Z)]].
Proof. eexists. split; [vm_compute; reflexivity|]. by split; vm_compute. Qed.
Definition weather_test_rows : list (list str) := [chars <$> [""; "dry"]; chars <$> ["snow"; "wet"]; chars <$> ["sun"; "wet"]]%string.
Definition weather_test : str := text_of (glue comma <$> weather_header :: weather_test_rows).
Lemma weather_test_table : csv_table weather_test weather_header weather_test_rows.
Proof. apply csv_tableb_ok; [by left|by vm_compute]. Qed.
Lemma weather_test_loaded : load_csv_testing 2 weather_dicts weather_test = Ok [[(1, 1%Z)]; [(1, 0%Z)]; [(0, 1%Z); (1, 0%Z)]].
Proof. by vm_compute. Qed.

(** A header without data rows: a phantom row is read. *)
Lemma header_only_2 : load_csv_training (lines ["a,b"%string]) = Err OutOfBounds.
Proof. by vm_compute. Qed.
Lemma header_only_1 : exists d, load_csv_training (lines ["a"%string]) = Ok d /\ d_rows d = [[(0, 0%Z)]].
Proof. eexists. split; [vm_compute; reflexivity|]. vm_compute; reflexivity. Qed.
Lemma blank_cell : load_csv_training (lines ["a,b"; "x, "]%string) = load_csv_training (lines ["a,b"; "x,"]%string).
Proof. by vm_compute. Qed.
(** Training data with an empty cell cannot be stored. *)
Lemma empty_cell_store : exists d, load_csv_training (lines ["a,b"; "x,"; ",y"]%string) = Ok d /\
  store_csv (d_names d) (d_nvars d) (d_dicts d) (d_rows d) = Err Exit1.
Proof. eexists. split; [vm_compute; reflexivity|]. vm_compute; reflexivity. Qed.

(** LIBSVM. *)
Lemma complete_rowb n row : bool_decide (length row = n /\ NoDup (fst <$> row) /\ Forall (fun p => fst p < n /\ (-2147483648 <= snd p <= 2147483647)%Z) row) = true ->
  complete_row n row.
Proof.
  intros H. apply bool_decide_eq_true in H as (H1 & H2 & H3). split_and!; try done. intros v x Hin. rewrite Forall_forall in H3. by apply (H3 _ Hin).
Qed.
Definition svm_rows : list rowv := [[(0, 1%Z); (1, 0%Z); (2, 12%Z)]; [(2, 0%Z); (0, 0%Z); (1, 3%Z)]].
Lemma svm_rows_complete row : row ∈ svm_rows -> complete_row 3 row.
Proof. intros [->|[->|H%elem_of_nil]%elem_of_cons]%elem_of_cons; [..|done]; apply complete_rowb; by vm_compute. Qed.
Lemma svm_rows_stored : store_svm 3 0 svm_rows = Ok (lines ["1 2:12 "; "0 1:3 "]%string).
Proof. by vm_compute. Qed.
Lemma svm_rows_cut : load_svm_testing 2 0 (lines ["1 2:12 "; "0 1:3 "]%string) = Ok [[(0, 1%Z); (1, 0%Z)]; [(0, 0%Z); (1, 3%Z)]].
Proof. by vm_compute. Qed.
Lemma svm_rows_last : exists row x, row ∈ svm_rows /\ (3 - 1, x) ∈ row /\ x <> 0%Z.
Proof. exists [(0, 1%Z); (1, 0%Z); (2, 12%Z)], 12%Z. split_and!; [left|right; right; left|done]. Qed.
(** The last column is zero everywhere: a variable is lost. *)
Definition zero_rows : list rowv := [[(0, 1%Z); (1, 5%Z); (2, 0%Z)]].
Lemma zero_rows_complete row : row ∈ zero_rows -> complete_row 3 row.
Proof. intros [->|H%elem_of_nil]%elem_of_cons; [|done]; apply complete_rowb; by vm_compute. Qed.
Lemma zero_rows_lost : exists text d, store_svm 3 0 zero_rows = Ok text /\ load_svm_training 0 text = Ok d /\ d_nvars d = 2.
Proof. eexists _, _. split; [vm_compute; reflexivity|]. split; [vm_compute; reflexivity|]. vm_compute; reflexivity. Qed.
(** The class variable comes last: out of bounds. *)
Definition last_rows : list rowv := [[(0, 1%Z); (1, 5%Z); (2, 1%Z)]].
Lemma last_rows_complete row : row ∈ last_rows -> complete_row 3 row.
Proof. intros [->|H%elem_of_nil]%elem_of_cons; [|done]; apply complete_rowb; by vm_compute. Qed.
Lemma last_rows_crash : exists text, store_svm 3 2 last_rows = Ok text /\ load_svm_training 2 text = Err OutOfBounds.
Proof. eexists. split; [vm_compute; reflexivity|]. vm_compute; reflexivity. Qed.
(** Data loaded from a LIBSVM training file cannot be stored again. *)
Lemma svm_not_restored : exists text d, store_svm 3 0 svm_rows = Ok text /\ load_svm_training 0 text = Ok d /\ d_nvars d = 3 /\
  store_svm (d_nvars d) 0 (d_rows d) = Err Exit1.
Proof. eexists _, _. split; [vm_compute; reflexivity|]. split; [vm_compute; reflexivity|]. split; [vm_compute; reflexivity|]. vm_compute; reflexivity. Qed.
(** A test file without final newline loses its last row. *)
Lemma svm_test_truncated : load_svm_testing 3 0 (chars "1 2:12"%string) = Ok [] /\ exists d, load_svm_training 0 (chars "1 2:12"%string) = Ok d /\ length (d_rows d) = 1.
Proof. split; [by vm_compute|]. eexists. split; [vm_compute; reflexivity|]. vm_compute; reflexivity. Qed.

(** Evidence: a missing cell before the class column. *)
Definition weather3_dicts : list (list str) := [chars <$> ["rain"; "sun"]; chars <$> ["wet"; "dry"]; chars <$> ["cold"; "warm"]]%string.
Definition weather3_test : str := lines ["sky,ground,air"; ",dry,warm"]%string.
Lemma weather3_loaded : load_csv_testing 3 weather3_dicts weather3_test = Ok [[(1, 1%Z); (2, 1%Z)]].
Proof. by vm_compute. Qed.
Lemma weather3_evidence : evidence_of 1 [(1, 1%Z); (2, 1%Z)] = Ok ([(1, 1%Z)], 1%Z).
Proof. by vm_compute. Qed.
Lemma weather3_wrong : ~ right_evidence 1 [(1, 1%Z); (2, 1%Z)] [(1, 1%Z)] 1%Z.
Proof. intros [H _]. destruct (H 1 1%Z) as [H1 _]. destruct H1 as [_ []]; [left|done]. Qed.

(** Command lines. *)
Definition stod0 (s : str) : outcome Z := stoi s.
Definition defaults : params Z :=
  mkParams 0 0 1 10000 1 0%Z 0 true true (chars "alarm/alarm.xml") [] (chars "alarm/alarm_s5000") (chars "alarm/testing_alarm_1k_p20_csv") (chars "alarm/alarm_1k_pt").
Definition some_options : list cl_option :=
  [IntOpt Job 3; FileOpt Net (chars "a.bif"%string); SaveOpt true (chars "00"%string); AlphaOpt (chars "1"%string); IntOpt Threads 8].
Lemma some_options_good o : o ∈ some_options -> good_option stod0 o.
Proof.
  unfold some_options. rewrite !elem_of_cons, elem_of_nil. intros [->|[->|[->|[->|[->|[]]]]]]; cbn [good_option].
  - lia.
  - done.
  - split_and!; [exists 0%Z; by vm_compute|cbn; lia|]. intros c Hc. discriminate Hc.
  - exists 1%Z. by vm_compute.
  - lia.
Qed.
Lemma some_options_distinct : NoDup (field_of <$> some_options).
Proof. apply (bool_decide_unpack _). by vm_compute. Qed.
Lemma some_options_parsed : parse_parameters stod0 defaults (command_line some_options) =
  Ok (mkParams 3 0 8 10000 1 1%Z 0 true false (chars "a.bif") [] (chars "alarm/alarm_s5000") (chars "alarm/testing_alarm_1k_p20_csv") (chars "alarm/alarm_1k_pt")).
Proof. by vm_compute. Qed.
Lemma fall_through : parse_parameters stod0 defaults (chars <$> ["-ss"; "000"; "-t"; "8"]%string) =
  Ok (mkParams 0 0 1 10000 1 0%Z 0 false true (chars "-t") [] (chars "alarm/alarm_s5000") (chars "alarm/testing_alarm_1k_p20_csv") (chars "alarm/alarm_1k_pt")).
Proof. by vm_compute. Qed.
Lemma documented_unknown : parse_parameters stod0 defaults (chars <$> ["-v"; "2"]%string) = Err Exit0.
Proof. by vm_compute. Qed.
Lemma missing_refutes : exists args, args = chars <$> ["-j"]%string /\ parse_parameters stod0 defaults args = Err NullDeref.
Proof. eexists. split; [reflexivity|]. by vm_compute. Qed.
Lemma save_refutes : exists args, args = chars <$> ["-ss"; "0"]%string /\ parse_parameters stod0 defaults args = Err OutOfBounds.
Proof. eexists. split; [reflexivity|]. by vm_compute. Qed.
Lemma fall_through_refutes : exists args q, args = chars <$> ["-ss"; "000"; "-t"; "8"]%string /\
  parse_parameters stod0 defaults args = Ok q /\ p_threads q = p_threads defaults /\ p_net q = chars "-t".
Proof. eexists _, _. split; [reflexivity|]. split; [exact fall_through|]. done. Qed.
Lemma header_only_phantom : exists text d, text = lines ["a"%string] /\ load_csv_training text = Ok d /\ d_rows d = [[(0, 0%Z)]].
Proof. destruct header_only_1 as (d & H1 & H2). eexists _, d. split; [reflexivity|]. done. Qed.
Lemma blank_merged : exists d, load_csv_training (lines ["a,b"; "x,y"; "x,y "]%string) = Ok d /\
  d_rows d = [[(0, 0%Z); (1, 0%Z)]; [(0, 0%Z); (1, 0%Z)]].
Proof. eexists. split; [vm_compute; reflexivity|]. vm_compute; reflexivity. Qed.
Lemma twins_witness : exists text header rows, csv_table text header rows /\ ~ NoDup header.
Proof.
  exists (lines ["a,a"; "x,y"]%string), (chars <$> ["a"; "a"]%string), [chars <$> ["x"; "y"]%string]. split.
  - apply csv_tableb_ok; [left|]; by vm_compute.
  - intros H. apply NoDup_cons in H as [H _]. apply H. left.
Qed.
Lemma zero_rows_refutes : exists text d, (forall row, row ∈ zero_rows -> complete_row 3 row) /\
  store_svm 3 0 zero_rows = Ok text /\ load_svm_training 0 text = Ok d /\ d_nvars d = 2.
Proof. destruct zero_rows_lost as (t & d & H). exists t, d. split; [exact zero_rows_complete|done]. Qed.
Lemma last_rows_refutes : exists text, (forall row, row ∈ last_rows -> complete_row 3 row) /\
  store_svm 3 2 last_rows = Ok text /\ load_svm_training 2 text = Err OutOfBounds.
Proof. destruct last_rows_crash as (t & H). exists t. split; [exact last_rows_complete|done]. Qed.
Lemma svm_evidence_witness : load_svm_testing 3 0 (lines ["1 2:12 "; "0 1:3 "]%string) =
  Ok [[(0, 1%Z); (1, 0%Z); (2, 12%Z)]; [(0, 0%Z); (1, 3%Z); (2, 0%Z)]] /\
  evidence_of 0 [(0, 1%Z); (1, 0%Z); (2, 12%Z)] = Ok ([(1, 0%Z); (2, 12%Z)], 1%Z).
Proof. split; by vm_compute. Qed.
Lemma weather3_good : load_csv_testing 3 weather3_dicts (lines ["sky,ground,air"; "sun,dry,"]%string) = Ok [[(0, 1%Z); (1, 1%Z)]] /\
  evidence_of 1 [(0, 1%Z); (1, 1%Z)] = Ok ([(0, 1%Z)], 1%Z).
Proof. split; by vm_compute. Qed.
Lemma weather3_refutes : exists text row e g, load_csv_testing 3 weather3_dicts text = Ok [row] /\
  evidence_of 1 row = Ok (e, g) /\ (1, 1%Z) ∈ e /\ ~ right_evidence 1 row e g.
Proof.
  exists weather3_test, [(1, 1%Z); (2, 1%Z)], [(1, 1%Z)], 1%Z. split; [exact weather3_loaded|]. split; [exact weather3_evidence|].
  split; [left|exact weather3_wrong].
Qed.
