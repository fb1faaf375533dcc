(** Property theorems about the command line program as a whole: C62.
    Vocabulary: ParamSpec.v ([command_line], [good_option], [outcome_of]) - the options, see C40; ProgramSpec.v ([asked], [data_in], [holds], [optional_file], [put_file], [outputs],
    [supported], [announced], [listed_methods]); ProgramModel.v ([setting], [world]: what the program depends on, the files and the output). The jobs are those of C55 ([exact_inference]),
    C56 ([generate_svm], [generate_csv]), C57 and C60 ([classification_job]), C58 and C59 ([structure_job], [learning_job]); these theorems say what their results are. *)
From Coq Require Import Ascii String.
From Coq Require Import Field QArith.
From Verif Require Import ProgramSpec ProgramTheorems ProgramWritten PCWitness JTWitness ClassWitness SaveWitness BIFWitness PipeWitness GenWitness JobWitness ClassFileWitness ProgramWitness.
Local Open Scope nat_scope.

(** ** C62 *)
(** [-j 0]: structure learning on the training file; the structure is written beside it, the distance from the reference, if one is named, is printed. *)
Theorem C62_structure : forall X os p dir w, asked X os p -> data_in (x_source X) dir ->
  forall train ref, p_job p = 0%Z -> p_method p = 0%Z -> (1 <= p_threads p)%Z -> (1 <= p_group p)%Z -> holds w (dir ++ p_train p) train ->
  (p_save_struct p = true -> x_writable X (dir ++ p_train p ++ lit "_struct") = true) -> optional_file w dir (p_ref p) ref -> p_ref p <> p_train p ++ lit "_struct" ->
  match structure_job (x_accept X (p_alpha p)) 1000 (x_fuel X) (Z.to_nat (p_group p)) (x_ssch X) (x_coin X) (x_stod X) (p_save_struct p) ref train with
  | Ok (s, k) => program X (command_line os) w = (mkWorld (put_file (dir ++ p_train p ++ lit "_struct") s (w_files w)) (w_out w ++ [compared_report k]), Ok tt)
  | Err e => exists w', program X (command_line os) w = (w', Err e)
  end.
Proof. exact program_structure. Qed.
Print Assumptions C62_structure.
Example C62_structure_witness : asked (toy toy_source) structure_options structure_params /\ data_in (x_source (toy toy_source)) toy_dir /\
  (holds toy_world (toy_dir ++ lit "lamp") lamp_train /\ holds toy_world (toy_dir ++ lit "lamp_test") lamp_test /\ optional_file toy_world toy_dir (lit "lamp.bif") (Some (plain_bif lamp_net))) /\
  let r := program (toy toy_source) (command_line structure_options) toy_world in r.2 = Ok tt /\ w_out r.1 = [Distance 0] /\ holds r.1 (toy_dir ++ lit "lamp_struct") (text_of lamp_structure).
Proof. exact (conj structure_asked (conj toy_data (conj toy_held structure_run))). Qed.
(** [-j 1]: learning; structure and parameters are written. *)
Theorem C62_learning : forall X os p dir w, asked X os p -> data_in (x_source X) dir ->
  forall train ref, p_job p = 1%Z -> p_method p = 0%Z -> (1 <= p_threads p)%Z -> (1 <= p_group p)%Z -> holds w (dir ++ p_train p) train ->
  (p_save_struct p = true -> x_writable X (dir ++ p_train p ++ lit "_struct") = true) -> (p_save_param p = true -> x_writable X (dir ++ p_train p ++ lit "_param") = true) ->
  optional_file w dir (p_ref p) ref -> p_ref p <> p_train p ++ lit "_struct" ->
  match learning_job (x_accept X (p_alpha p)) 1000 (x_fuel X) (Z.to_nat (p_group p)) (x_ssch X) (x_coin X) (x_flips X) (x_show X) (x_stod X) (p_save_struct p) (p_save_param p) ref train with
  | Ok (s, k, q) => program X (command_line os) w =
      (mkWorld (put_file (dir ++ p_train p ++ lit "_param") q (put_file (dir ++ p_train p ++ lit "_struct") s (w_files w))) (w_out w ++ [compared_report k]), Ok tt)
  | Err e => exists w', program X (command_line os) w = (w', Err e)
  end.
Proof. exact program_learning. Qed.
Print Assumptions C62_learning.
Example C62_learning_witness : asked (toy toy_source) learning_options learning_params /\
  let r := program (toy toy_source) (command_line learning_options) toy_world in
  r.2 = Ok tt /\ w_out r.1 = [NoReference] /\ holds r.1 (toy_dir ++ lit "lamp_struct") (text_of lamp_structure) /\ holds r.1 (toy_dir ++ lit "lamp_param") (text_of lamp_parameters).
Proof. exact (conj learning_asked learning_run). Qed.
(** [-j 4 -m 1]: classification. *)
Theorem C62_classification : forall X os p dir w, asked X os p -> data_in (x_source X) dir ->
  forall train test ref, p_job p = 4%Z -> p_method p = 1%Z -> (1 <= p_threads p)%Z -> (1 <= p_group p)%Z -> holds w (dir ++ p_train p) train -> holds w (dir ++ p_test p) test ->
  (p_save_struct p = true -> x_writable X (dir ++ p_train p ++ lit "_struct") = true) -> (p_save_param p = true -> x_writable X (dir ++ p_train p ++ lit "_param") = true) ->
  optional_file w dir (p_ref p) ref -> p_ref p <> p_train p ++ lit "_struct" ->
  match classification_job (x_accept X (p_alpha p)) 1000 (x_fuel X) (Z.to_nat (p_group p)) (x_ssch X) (x_coin X) (x_flips X) (x_show X) (x_stod X) (x_order X) (x_sched X) (p_save_struct p) (p_save_param p) ref train test with
  | Ok (s, k, q, a) => program X (command_line os) w =
      (mkWorld (put_file (dir ++ p_train p ++ lit "_param") q (put_file (dir ++ p_train p ++ lit "_struct") s (w_files w))) (w_out w ++ [compared_report k; Accuracy a]), Ok tt)
  | Err e => exists w', program X (command_line os) w = (w', Err e)
  end.
Proof. exact program_classification. Qed.
Print Assumptions C62_classification.
Example C62_classification_witness : asked (toy toy_source) class_options class_params /\
  let r := program (toy toy_source) (command_line class_options) toy_world in
  r.2 = Ok tt /\ w_out r.1 = [NoReference; Accuracy ((1 + 1 + 1) / (1 + 1 + 1 + 1))%Qc] /\ holds r.1 (toy_dir ++ lit "lamp_struct") (text_of class_structure) /\ holds r.1 (toy_dir ++ lit "lamp_param") (text_of class_parameters).
Proof. exact (conj class_asked class_run). Qed.
(** [-j 2 -m 1]: exact inference; the two errors against the reference file are printed, no file is written. *)
Theorem C62_inference : forall X os p dir w, asked X os p -> data_in (x_source X) dir ->
  forall xml vars probs test reference, p_job p = 2%Z -> p_method p = 1%Z -> (1 <= p_threads p)%Z ->
  holds w (dir ++ p_net p) xml -> x_xml X xml = Ok (vars, probs) -> holds w (dir ++ p_test p) test -> p_pt p <> [] -> holds w (dir ++ p_pt p) reference ->
  program X (command_line os) w =
  match exact_inference (x_sqrt X) (x_stod X) (x_order X) (x_sched X) vars probs test reference with
  | Ok (m, h) => (mkWorld (w_files w) (w_out w ++ [Errors m h]), Ok tt)
  | Err e => (w, Err e)
  end.
Proof. exact program_inference. Qed.
Print Assumptions C62_inference.
Example C62_inference_witness : asked (toy toy_source) inference_options inference_params /\
  (holds toy_world (toy_dir ++ lit "garden/net.xml") (lit "<BIF>") /\ holds toy_world (toy_dir ++ lit "visits") visits /\ holds toy_world (toy_dir ++ lit "visits_pt") (reference_of used_numbers)) /\
  exists m, program (toy toy_source) (command_line inference_options) toy_world = (mkWorld toy_files [Errors m m], Ok tt) /\ (0 < m)%Qc.
Proof. exact (conj inference_asked (conj inference_held inference_run)). Qed.
(** Without a reference file the job reports nothing at all. *)
Theorem C62_inference_unreported : forall X os p dir w, asked X os p -> data_in (x_source X) dir ->
  p_job p = 2%Z -> p_method p = 1%Z -> p_pt p = [] -> exists r, program X (command_line os) w = (w, r).
Proof. exact program_nothing. Qed.
Print Assumptions C62_inference_unreported.
(** [-j 5]: the sample generator; the files are in the directory of the network file. *)
Theorem C62_generator : forall X os p dir w, asked X os p -> data_in (x_source X) dir ->
  forall folder file xml vars probs, p_job p = 5%Z -> p_method p = 0%Z \/ p_method p = 1%Z -> (0 <= p_samples p)%Z -> (0 <= p_class p)%Z ->
  dir ++ p_net p = folder ++ 47%Z :: file -> 47%Z ∉ file -> holds w (dir ++ p_net p) xml -> x_xml X xml = Ok (vars, probs) ->
  let svm_path := folder ++ lit "/sample_" ++ to_string (p_samples p) ++ lit "_libsvm" in
  let csv_path := folder ++ lit "/sample_" ++ to_string (p_samples p) ++ lit "_csv" in
  x_writable X svm_path = true -> (p_method p = 1%Z -> x_writable X csv_path = true) ->
  let us := x_draws X <$> seq 0 (Z.to_nat (p_samples p)) in
  forall svm table, generate_svm (x_stod X) vars probs (Z.to_nat (p_class p)) us = Ok svm -> generate_csv (x_stod X) vars probs (Z.to_nat (p_class p)) us = Ok table ->
  program X (command_line os) w = (mkWorld (put_file csv_path (if decide (p_method p = 1%Z) then Some table else None) (put_file svm_path (Some svm) (w_files w))) (w_out w), Ok tt).
Proof. exact program_generator. Qed.
Print Assumptions C62_generator.
Example C62_generator_witness : asked (toy toy_source) (sample_options 1) (sample_params 1) /\
  let r := program (toy toy_source) (command_line (sample_options 1)) toy_world in
  r.2 = Ok tt /\ w_out r.1 = [] /\ holds r.1 (toy_dir ++ lit "garden/sample_2_libsvm") garden_svm /\ holds r.1 (toy_dir ++ lit "garden/sample_2_csv") garden_csv.
Proof. exact (conj sample_asked sample_run). Qed.
(** Whatever the arguments, the files and the outcome: only the files of the job change. Of these, at most one is left incomplete, and none if the program succeeds. *)
Theorem C62_files : forall X args w w' r dir, data_in (x_source X) dir -> program X args w = (w', r) ->
  (forall path, w_files w' !! path <> w_files w !! path -> exists p, parse_parameters (x_stod X) initial args = Ok p /\ outputs dir p path) /\
  (exists q, forall path, w_files w' !! path <> w_files w !! path -> path <> q -> exists s, holds w' path s) /\
  (r = Ok tt -> forall path, w_files w' !! path <> w_files w !! path -> exists s, holds w' path s) /\
  exists l, w_out w' = w_out w ++ l.
Proof. exact program_frame. Qed.
Print Assumptions C62_files.
(** A program that succeeds has written every file of its job completely; a file that cannot be written is never passed over. *)
Theorem C62_success_means_written : forall X args w w' dir p path, data_in (x_source X) dir -> program X args w = (w', Ok tt) ->
  parse_parameters (x_stod X) initial args = Ok p -> outputs dir p path -> x_writable X path = true /\ exists s, holds w' path s.
Proof. exact program_written. Qed.
Print Assumptions C62_success_means_written.
Example C62_success_means_written_witness : data_in (x_source (toy toy_source)) toy_dir /\ (program (toy toy_source) (command_line learning_options) toy_world).2 = Ok tt /\
  asked (toy toy_source) learning_options learning_params /\ outputs toy_dir learning_params (toy_dir ++ lit "lamp_struct") /\ outputs toy_dir learning_params (toy_dir ++ lit "lamp_param").
Proof. exact written_run. Qed.
(** A reference file that is named but missing is noticed after the structure has been written. *)
Theorem C62_missing_reference : forall X os p dir w, asked X os p -> data_in (x_source X) dir ->
  forall train d D N s, p_job p = 0%Z \/ p_job p = 1%Z -> p_method p = 0%Z -> (1 <= p_threads p)%Z -> (1 <= p_group p)%Z -> holds w (dir ++ p_train p) train ->
  p_save_struct p = true -> x_writable X (dir ++ p_train p ++ lit "_struct") = true -> p_ref p <> [] -> w_files w !! (dir ++ p_ref p) = None -> p_ref p <> p_train p ++ lit "_struct" ->
  load_csv_training train = Ok d -> columns_of d = Ok D ->
  learn_structure (x_accept X (p_alpha p)) 1000 (x_fuel X) (Z.to_nat (p_group p)) (x_ssch X) false (x_coin X) d D = Ok N -> structure_text (d_names d) N = Ok s ->
  program X (command_line os) w = (mkWorld (<[dir ++ p_train p ++ lit "_struct" := Whole s]> (w_files w)) (w_out w), Err Exit1).
Proof. exact program_missing. Qed.
Print Assumptions C62_missing_reference.
Example C62_missing_reference_witness : asked (toy toy_source) missing_options missing_params /\
  let r := program (toy toy_source) (command_line missing_options) toy_world in r.2 = Err Exit1 /\ w_out r.1 = [] /\ holds r.1 (toy_dir ++ lit "lamp_struct") (text_of lamp_structure).
Proof. exact (conj missing_asked missing_run). Qed.
(** The other jobs and methods touch no file. Only some of them are refused with a message, and the refusal of a method of structure learning exits with 0. *)
Theorem C62_unsupported : forall X os p dir w, asked X os p -> data_in (x_source X) dir -> (0 <= p_job p <= 5)%Z -> ~ supported p ->
  program X (command_line os) w =
  if decide (p_job p = 0%Z) then (mkWorld (w_files w) (w_out w ++ [Complaint]), Err Exit0)
  else if decide (p_job p = 1 \/ p_job p = 2 \/ p_job p = 3 /\ p_method p = 0)%Z then (mkWorld (w_files w) (w_out w ++ [Complaint]), Err Exit1)
  else (w, Ok tt).
Proof. exact program_unsupported. Qed.
Print Assumptions C62_unsupported.
(** Refuted: a method that the help text lists does nothing, and the program ends with success. *)
Theorem C62_silent_refuted : exists X os p j ms m, asked X os p /\ (j, ms) ∈ listed_methods /\ m ∈ ms /\ p_job p = j /\ p_method p = m /\ forall w, program X (command_line os) w = (w, Ok tt).
Proof. exact silent. Qed.
Print Assumptions C62_silent_refuted.
(** Refuted: a request that is refused ends with exit code 0. *)
Theorem C62_exit_code_refuted : exists X os p w, asked X os p /\ ~ supported p /\ program X (command_line os) w = (mkWorld (w_files w) (w_out w ++ [Complaint]), Err Exit0).
Proof. exact exit_zero. Qed.
Print Assumptions C62_exit_code_refuted.
(** Refuted: the training file in the directory dataset of the project is not found if the directory of the project is not called FastPGM. *)
Theorem C62_directory_refuted : exists X root rest os p w text, x_source X = root ++ lit "/src/fastpgm/" ++ rest /\ asked X os p /\ p_job p = 0%Z /\ p_method p = 0%Z /\
  holds w (root ++ lit "/dataset/" ++ p_train p) text /\ program X (command_line os) w = (w, Err Exit1).
Proof. exact moved_checkout. Qed.
Print Assumptions C62_directory_refuted.
(** Refuted: without options the program does not use the default files that the help text announces. *)
Theorem C62_defaults_refuted : exists X dir w, data_in (x_source X) dir /\ (forall f, exists text, holds w (dir ++ announced f) text) /\ program X [] w = (w, Err Exit1).
Proof. exact defaults_differ. Qed.
Print Assumptions C62_defaults_refuted.
