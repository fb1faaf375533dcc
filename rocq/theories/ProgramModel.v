(** The command line program with the files that it reads and writes: main.cpp, fastpgm_api.cpp. *)
From Coq Require Import Ascii String.
From Verif Require Export JobModel GenModel ParamModel.
Local Open Scope nat_scope.

(** ** Files and output *)
(** [Whole]: a file with these contents. [Torn]: a file that was opened for writing by a program that failed before closing it; its
    contents depend on the buffers. *)
Inductive content := Whole (s : str) | Torn.
(** What is printed, as far as it is modelled: the results, and the messages that a job or method is not supported. *)
Inductive report := Distance (k : nat) | NoReference | Errors (mse hd : Qc) | Accuracy (a : Qc) | Complaint.
(** Files are identified by their paths: two different paths name different files. *)
Record world := mkWorld { w_files : gmap str content; w_out : list report }.
(** A program acts on the files and the output also if it fails. *)
Definition io (A : Type) := world -> world * outcome A.
Global Instance io_ret : MRet io := fun A a w => (w, Ok a).
Global Instance io_bind : MBind io := fun A B f m w =>
  let '(w', r) := m w in match r with Ok a => f a w' | Err e => (w', Err e) end.
Definition lift {A} (r : outcome A) : io A := fun w => (w, r).
Definition print (r : report) : io unit := fun w => (mkWorld (w_files w) (w_out w ++ [r]), Ok tt).
(** An [ifstream] (Dataset.cpp L57-63, L391-397, L518-524; CustomNetwork.cpp L18-23, L53-59; Inference.cpp L120-126): without the
    file, exit(1). *)
Definition read_file (path : str) : io str := fun w =>
  (w, match w_files w !! path with Some (Whole s) => Ok s | Some Torn => Err Uninit | None => Err Exit1 end).
(** An [ofstream] (StructureLearning.cpp L238-244, ParameterLearning.cpp L111-117, SampleSetGenerator.cpp L52-58, Dataset.cpp L625-630):
    if the file cannot be opened, exit(1); otherwise its old contents are lost, whatever happens while the text is written. *)
Definition write_file (writable : str -> bool) (path : str) (text : outcome str) : io unit := fun w =>
  if writable path then
    match text with
    | Ok s => (mkWorld (<[path := Whole s]> (w_files w)) (w_out w), Ok tt)
    | Err e => (mkWorld (<[path := Torn]> (w_files w)) (w_out w), Err e)
    end
  else (w, Err Exit1).

(** ** What the program depends on besides its arguments and files *)
(** [x_source] is [__FILE__]. [x_accept] compares the p-value with alpha. [x_fuel] bounds the loops of the structure learning. The schedules, the
    memory order, the coins and the draws are the choices of the threads, the allocator and the random generators; [x_show], [x_stod], [x_sqrt] are functions
    of the C++ library, [x_xml] is tinyxml2. [x_writable]: which files the operating system lets the program open for writing. *)
Record setting := mkSetting {
  x_source : str; x_accept : Qc -> list (nat * nat * nat * nat) -> nat -> bool; x_fuel : nat; x_ssch : nat -> schedule; x_coin : nat -> bool;
  x_flips : nat -> nat -> nat; x_show : Qc -> str; x_stod : str -> outcome Qc; x_sqrt : Qc -> Qc; x_order : mem_order; x_sched : nat -> scheduler;
  x_xml : str -> outcome (list xml_var * list xml_prob); x_draws : nat -> nat -> Qc; x_writable : str -> bool }.

(** ** The learning and classification jobs *)
(** fastpgm_api.cpp L32-41, L59-68, L112-121. [ref] is the path, empty without a reference; compare [compare_with]. *)
Definition compare_io (X : setting) (ref : str) (N : network) : io unit :=
  if bool_decide (ref = []) then print NoReference else
  text ← read_file ref;
  k ← lift (L ← load_bif (x_stod X) text; get_shd (ld_net L) N);
  print (Distance k).
(** The numbers of threads and tests in a group are positive: with others the code has no defined behaviour (num_threads clauses;
    sizes of arrays) and the model no result. *)
Definition checked_size (threads group : Z) : outcome nat :=
  if bool_decide (1 <= threads)%Z && bool_decide (1 <= group)%Z then Ok (Z.to_nat group) else Err Uninit.
(** L18-44 [BNSL_PCStable] *)
Definition structure_io (X : setting) (threads group : Z) (alpha : Qc) (ref train : str) (save_struct : bool) : io unit :=
  text ← read_file train;
  d ← lift (load_csv_training text);
  D ← lift (columns_of d);
  size ← lift (checked_size threads group);
  N ← lift (learn_structure (x_accept X alpha) 1000 (x_fuel X) size (x_ssch X) false (x_coin X) d D);
  _ ← (if save_struct then write_file (x_writable X) (train ++ lit "_struct") (structure_text (d_names d) N) else mret tt);
  compare_io X ref N.
(** L46-75 [BNL_PCStable] *)
Definition learning_io (X : setting) (threads group : Z) (alpha : Qc) (ref train : str) (save_struct save_param : bool) : io unit :=
  text ← read_file train;
  d ← lift (load_csv_training text);
  D ← lift (columns_of d);
  size ← lift (checked_size threads group);
  N ← lift (learn_structure (x_accept X alpha) 1000 (x_fuel X) size (x_ssch X) false (x_coin X) d D);
  _ ← (if save_struct then write_file (x_writable X) (train ++ lit "_struct") (structure_text (d_names d) N) else mret tt);
  _ ← compare_io X ref N;
  ts ← lift (learn_params N D 1 (x_flips X) []);
  if save_param then write_file (x_writable X) (train ++ lit "_param") (parameter_text (x_show X) (d_names d) (d_dicts d) N ts) else mret tt.
(** L96-135 [C_PCStable_JT] *)
Definition classification_io (X : setting) (threads group : Z) (alpha : Qc) (ref train test : str) (save_struct save_param : bool) : io unit :=
  text ← read_file train;
  d ← lift (load_csv_training text);
  ttext ← read_file test;
  rows ← lift (load_csv_testing (d_nvars d) (d_dicts d) ttext);
  D ← lift (columns_of d);
  size ← lift (checked_size threads group);
  N ← lift (learn_structure (x_accept X alpha) 1000 (x_fuel X) size (x_ssch X) true (x_coin X) d D);
  roots ← lift (find_roots N);
  N ← lift (add_root_node N roots);
  _ ← (if save_struct then write_file (x_writable X) (train ++ lit "_struct") (structure_text (d_names d ++ [root_name]) N) else mret tt);
  _ ← compare_io X ref N;
  ts ← lift (learn_params N D 1 (x_flips X) []);
  _ ← (if save_param then write_file (x_writable X) (train ++ lit "_param") (parameter_text (x_show X) (d_names d ++ [root_name]) (d_dicts d ++ [root_values]) N ts) else mret tt);
  a ← lift (qs ← make_queries 0 rows; T ← jt_build (x_order X) N ts; Es ← mcollect qs (fun q => as_evidence (fst q));
            labels ← predict (x_sched X) T 0 Es; accuracy (snd <$> qs) (Z.of_nat <$> labels));
  print (Accuracy a).

(** ** Exact inference *)
(** JunctionTree.cpp L1399-1470 in mode 2, without a reference file (Inference.cpp L52-54): the queries run, nothing is read from the tree. *)
Definition predict_nothing (sch : nat -> scheduler) (T : jtree) (evidences : list (list (nat * nat))) : outcome unit :=
  let every := length evidences / 20 in
  _ ← mfor (zip (seq 0 (length evidences)) evidences) (fun iE (st : tabs) =>
    _ ← imod (S (fst iE)) every;
    _ ← propagate (sch (fst iE)) T (snd iE) st;
    Ok (jt_backup T)) (jt_backup T);
  Ok tt.
(** fastpgm_api.cpp L77-94 [BNEI_JT]; [pt] is the path of the reference file, empty without one. *)
Definition inference_io (X : setting) (threads : Z) (net test pt : str) : io unit :=
  text ← read_file net;
  L ← lift (vp ← x_xml X text; load_xmlbif (x_stod X) (fst vp) (snd vp));
  ttext ← read_file test;
  rows ← lift (load_csv_testing_map (length (nt_nodes (ld_net L))) (ld_ids L) ttext);
  qs ← lift (make_queries 0 rows);
  T ← lift (ts ← node_tables (ld_net L) (ld_counters L); jt_build (x_order X) (ld_net L) ts);
  Es ← lift (mcollect qs (fun q => as_evidence (fst q)));
  _ ← lift (checked_size threads 1);
  if bool_decide (pt = []) then lift (predict_nothing (x_sched X) T Es) else
  reference ← read_file pt;
  r ← lift (evaluate_errors (x_sqrt X) (x_stod X) (x_sched X) T reference Es);
  print (Errors (fst r) (snd r)).

(** ** The sample generator *)
(** fastpgm_api.cpp L6-16 [GetLastPath]: the part before the last '/' (47), empty without one. *)
Fixpoint last_path (path : str) : str :=
  match path with
  | [] => []
  | c :: rest => if bool_decide (47%Z ∈ rest) then c :: last_path rest else []
  end.
(** L137-170 [Sample_Generator]. A negative number of samples makes [resize] throw; a negative class variable is an index before the
    array, if there is a sample (SampleSetGenerator.cpp L6-15, L60-66). The number of threads is not used. *)
Definition generator_io (X : setting) (net : str) (libsvm : bool) (samples cls : Z) : io unit :=
  text ← read_file net;
  L ← lift (vp ← x_xml X text; load_xmlbif (x_stod X) (fst vp) (snd vp));
  g ← lift (if bool_decide (samples < 0)%Z then Err Thrown else generate_samples (ld_net L) (ld_counters L) (x_draws X <$> seq 0 (Z.to_nat samples)));
  let svm_path := last_path net ++ lit "/sample_" ++ to_string samples ++ lit "_libsvm" in
  _ ← write_file (x_writable X) svm_path
        (if bool_decide (cls < 0)%Z && negb (bool_decide (snd g = [])) then Err OutOfBounds
         else output_svm (Z.to_nat cls) ((fun s : list nat => Z.of_nat <$> s) <$> snd g));
  if libsvm then mret tt else
  svm ← read_file svm_path;
  rows ← lift (load_svm_testing (length (nt_nodes (ld_net L))) (Z.to_nat cls) svm);
  _ ← lift (if bool_decide (ld_names L = []) || bool_decide (ld_ids L = []) || negb (bool_decide (length (nt_nodes (ld_net L)) = length (ld_names L))) then Err Exit1 else Ok tt);
  write_file (x_writable X) (last_path net ++ lit "/sample_" ++ to_string samples ++ lit "_csv")
    (store_csv_map (ld_names L) (length (nt_nodes (ld_net L))) (ld_ids L) rows).

(** ** main.cpp *)
(** [path.find(project)]: the position of the first occurrence. *)
Fixpoint find_in (what s : str) : option nat :=
  if bool_decide (take (length what) s = what) then Some 0 else
  match s with [] => None | _ :: r => S <$> find_in what r end.
(** L25-28: the directory of the data. If "FastPGM" is not found, [npos] + 7 + 1 wraps around to 7. *)
Definition data_directory (source : str) : str :=
  take (match find_in (lit "FastPGM") source with Some k => k + 8 | None => 7 end) source ++ lit "dataset/".
(** L47-50 and the like: an empty file name stays empty. *)
Definition in_directory (dir file : str) : str := if bool_decide (file = []) then [] else dir ++ file.
(** Parameter.cpp L6-37 [Parameter] *)
Definition default_params : params Qc :=
  mkParams 0 0 1 10000 1 (Q2Qc (QArith_base.Qmake 1 20)) 0 true true
    (lit "alarm/alarm.xml") [] (lit "alarm/alarm_s5000") (lit "alarm/testing_alarm_1k_p20_csv") (lit "alarm/alarm_1k_pt").
Definition complain (code : err) : io unit := _ ← print Complaint; lift (Err code).
(** main.cpp L20-233 [main]; the arguments without the name of the program. What the parser prints is not modelled. *)
Definition program (X : setting) (args : list str) : io unit :=
  p ← lift (parse_parameters (x_stod X) default_params args);
  let dir := data_directory (x_source X) in
  let ref := in_directory dir (p_ref p) in
  if bool_decide (p_job p = 0)%Z then
    if bool_decide (p_method p = 0)%Z then structure_io X (p_threads p) (p_group p) (p_alpha p) ref (dir ++ p_train p) (p_save_struct p)
    else complain Exit0
  else if bool_decide (p_job p = 1)%Z then
    if bool_decide (p_method p = 0)%Z then learning_io X (p_threads p) (p_group p) (p_alpha p) ref (dir ++ p_train p) (p_save_struct p) (p_save_param p)
    else complain Exit1
  else if bool_decide (p_job p = 2)%Z then
    if bool_decide (p_method p = 1)%Z then inference_io X (p_threads p) (dir ++ p_net p) (dir ++ p_test p) (in_directory dir (p_pt p))
    else complain Exit1
  else if bool_decide (p_job p = 3)%Z then
    if bool_decide (p_method p = 0)%Z then complain Exit1 else mret tt
  else if bool_decide (p_job p = 4)%Z then
    if bool_decide (p_method p = 1)%Z then classification_io X (p_threads p) (p_group p) (p_alpha p) ref (dir ++ p_train p) (dir ++ p_test p) (p_save_struct p) (p_save_param p)
    else mret tt
  else if bool_decide (p_job p = 5)%Z then
    if bool_decide (p_method p = 0)%Z || bool_decide (p_method p = 1)%Z
    then generator_io X (dir ++ p_net p) (bool_decide (p_method p <> 1)%Z) (p_samples p) (p_class p)
    else mret tt
  else mret tt.
