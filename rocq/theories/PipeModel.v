(** The jobs of the command line program, put together from their parts: fastpgm_api.cpp. *)
From Verif Require Export EvalModel.
Local Open Scope nat_scope.

(** ** Test data for a network *)
(** Dataset.cpp L26-39 [Dataset(Network* )]: the number of variables and the maps from value names to value numbers are those
    of the network. L511-603 [LoadCSVTestingData] then reads a test file with them; see [csv_test_line] in DataModel.v, where
    the maps come from a training file instead. *)
Definition csv_test_line_map (n : nat) (sample : str) (ms : list (gmap str nat)) : outcome rowv :=
  s ← trim_right sample; cells ← split_str s [comma];
  mfor (seq 0 n) (fun i row =>
    c ← vget cells i;
    if bool_decide (c = []) then Ok row else
    m ← vget ms i;
    match m !! c with Some v => Ok (row ++ [(i, Z.of_nat v)]) | None => Ok row end) [].
Fixpoint csv_test_loop_map (fuel : nat) (n : nat) (sample rest : str) (ms : list (gmap str nat)) (rows : list rowv) : outcome (list rowv) :=
  match fuel with
  | O => Err OutOfFuel
  | S f =>
      row ← csv_test_line_map n sample ms;
      let '(line, rest', ok, _) := getline rest in
      if (ok : bool) then csv_test_loop_map f n line rest' ms (rows ++ [row]) else Ok (rows ++ [row])
  end.
Definition load_csv_testing_map (n : nat) (ms : list (gmap str nat)) (text : str) : outcome (list rowv) :=
  if bool_decide (ms = []) then Err Exit1 else
  let '(header, rest, _, eof) := getline text in
  let '(line, rest) := line_after header rest eof in
  csv_test_loop_map (S (length rest)) n line rest ms [].
(** The value numbers of a row are indices of table entries from here on. *)
Definition as_evidence (e : list (nat * Z)) : outcome (list (nat * nat)) :=
  mcollect e (fun p => if bool_decide (snd p < 0)%Z then Err OutOfBounds else Ok (fst p, Z.to_nat (snd p))).

(** ** fastpgm_api.cpp L77-94 [BNEI_JT]: exact inference with a reference file *)
(** The constructor of [Inference] (Inference.cpp L15-47) runs before the tree is built; the position that it leaves out is
    [class_var_index], here the constant 0 of the call of [LoadCSVTestingData]. *)
Definition exact_inference (sq : Qc -> Qc) (stod : str -> outcome Qc) (o : mem_order) (sch : nat -> scheduler)
    (vars : list xml_var) (probs : list xml_prob) (test reference : str) : outcome (Qc * Qc) :=
  L ← load_xmlbif stod vars probs;
  rows ← load_csv_testing_map (length (nt_nodes (ld_net L))) (ld_ids L) test;
  qs ← make_queries 0 rows;
  ts ← node_tables (ld_net L) (ld_counters L);
  T ← jt_build o (ld_net L) ts;
  Es ← mcollect qs (fun q => as_evidence (fst q));
  evaluate_errors sq stod sch T reference Es.
