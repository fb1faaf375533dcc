(** Comparison of the inferred probabilities with a reference file.  [std::sqrt] and [std::stod] are parameters. *)
From Verif Require Export BIFModel JTModel.
Local Open Scope nat_scope.

Section eval.
Context (sq : Qc -> Qc) (stod : str -> outcome Qc).

(** ** Inference.cpp L109-149 [LoadGroundTruthProbabilityTable] *)
(** One line of the file, for node [j]: the entries of one test case, the next entry [l], and the state of the stream. *)
Definition reference_node (doms : list nat) (j : nat) (st : list Qc * nat * (str * str * bool)) : outcome (list Qc * nat * (str * str * bool)) :=
  let '(tab, l, (line, rest, eof)) := st in
  let '(line, rest, eof) := next_line line rest eof in
  line ← trim_right line;
  if bool_decide (line = []) then tab ← vset tab l (qz (-1)); Ok (tab, S l, (line, rest, eof))
  else
    toks ← split_str line [blank];
    dim ← vget doms j;
    r ← mfor (seq 0 dim) (fun k (acc : list Qc * nat) => t ← vget toks k; x ← stod t; tab ← vset (fst acc) (snd acc) x; Ok (tab, S (snd acc))) (tab, l);
    Ok (r, (line, rest, eof)).
Definition load_reference (doms : list nat) (m : nat) (text : str) : outcome (list (list Qc)) :=
  let size := foldl Nat.add 0 doms in
  r ← mfor (seq 0 m) (fun _ (acc : list (list Qc) * (str * str * bool)) =>
    st ← mfor (seq 0 (length doms)) (reference_node doms) (replicate size 0%Qc, 0, snd acc);
    Ok (fst acc ++ [fst (fst st)], snd st)) ([], ([], text, false));
  Ok (fst r).

(** ** Inference.cpp L156-169 [CalculateMSE] *)
Definition calculate_mse (approx exact : list Qc) : outcome Qc :=
  r ← mfor (seq 0 (length exact)) (fun i (st : nat * Qc) =>
    e ← vget exact i;
    if bool_decide (0 < e)%Qc then a ← vget approx i; let d := (qround a 7 - e)%Qc in Ok (S (fst st), (snd st + d * d)%Qc)
    else Ok st) (0, 0%Qc);
  if bool_decide (fst r = 0) then Err DivZero else Ok (sq (snd r / qz (Z.of_nat (fst r)))%Qc).
(** ** Inference.cpp L176-191 [CalculateHellingerDistance] *)
Definition calculate_hd (approx exact : list Qc) : outcome Qc :=
  r ← mfor (seq 0 (length exact)) (fun i (st : nat * Qc) =>
    e ← vget exact i;
    if bool_decide (0 < e)%Qc then a ← vget approx i; let d := (sq (qround a 7) - sq e)%Qc in Ok (S (fst st), (snd st + d * d)%Qc)
    else Ok st) (0, 0%Qc);
  if bool_decide (fst r = 0) then Err DivZero else Ok (sq (snd r / qz (Z.of_nat (fst r)))%Qc).

(** ** JunctionTree.cpp L1438-1470 [Predict] with L1399-1432 [PredictUseJTInfer], inference mode: the two averages that are printed. *)
Definition predict_errors (sch : nat -> scheduler) (T : jtree) (tables : list (list Qc)) (evidences : list (list (nat * nat))) : outcome (Qc * Qc) :=
  let every := length evidences / 20 in
  r ← mfor (zip (seq 0 (length evidences)) evidences) (fun iE (acc : tabs * (Qc * Qc)) =>
    _ ← imod (S (fst iE)) every;
    r ← query_probs (sch (fst iE)) T (snd iE) (fst acc);
    exact ← vget tables (fst iE);
    m ← calculate_mse (snd r) exact;
    h ← calculate_hd (snd r) exact;
    Ok (fst r, (fst (snd acc) + m, snd (snd acc) + h)%Qc)) (jt_backup T, (0%Qc, 0%Qc));
  if bool_decide (length evidences = 0) then Err DivZero
  else Ok (fst (snd r) / qz (Z.of_nat (length evidences)), snd (snd r) / qz (Z.of_nat (length evidences)))%Qc.
(** ** Inference.cpp L51-71 [EvaluateAccuracy], inference mode with a reference file. *)
Definition evaluate_errors (sch : nat -> scheduler) (T : jtree) (text : str) (evidences : list (list (nat * nat))) : outcome (Qc * Qc) :=
  tables ← load_reference (jt_doms T) (length evidences) text;
  predict_errors sch T tables evidences.
End eval.
