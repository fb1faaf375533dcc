(** Runs of the program on a small set of files. *)
From Coq Require Import Ascii String.
From Coq Require Import Field QArith.
From Verif Require Import ProgramSpec ParamProofs ProgramProofs ProgramTheorems PCWitness JTWitness DataWitness ClassWitness SaveWitness BIFWitness PipeWitness EvalWitness GenWitness SampleWitness JobWitness ClassFileWitness.
Local Open Scope nat_scope.

Definition toy_source : str := lit "/home/u/FastPGM/src/fastpgm/main.cpp".
Definition toy_dir : str := lit "/home/u/FastPGM/dataset/".
Definition toy (source : str) : setting :=
  mkSetting source (fun _ => exactly_balanced) 1000 forwards (fun _ => true) some_flips show_fraction stod4 plain rev_order (fun _ => wild_sched)
    (fun _ => Ok (garden_vars, garden_probs)) (fun j => match j with 0 => some_draws | _ => high_draws end) (fun _ => true).
Definition toy_files : gmap str content :=
  list_to_map ((fun f : str * str => (toy_dir ++ fst f, Whole (snd f))) <$>
    [(lit "lamp", lamp_train); (lit "lamp_test", lamp_test); (lit "lamp.bif", plain_bif lamp_net); (lit "garden/net.xml", lit "<BIF>"); (lit "visits", visits); (lit "visits_pt", reference_of used_numbers)]).
Definition toy_world : world := mkWorld toy_files [].
Lemma toy_data : data_in (x_source (toy toy_source)) toy_dir.
Proof.
  exists (lit "/home/u/"), (lit "src/fastpgm/main.cpp"). split; [done|]. split; [done|]. intros k Hk. change (length (lit "/home/u/")) with 8 in Hk.
  do 8 (destruct k as [|k]; [by apply (bool_decide_unpack _)|]). lia.
Qed.
Lemma asked_by_parsing X os p : (forall o, o ∈ os -> good_option (x_stod X) o) -> parse_parameters (x_stod X) default_params (command_line os) = Ok p -> asked X os p.
Proof.
  intros Hg E. split; [done|]. destruct (parse_good (x_stod X) default_params os [] Hg) as (q & Hq & E'); [done|]. rewrite app_nil_r in E'.
  case_bool_decide; [|congruence]. assert (q = p) as -> by congruence. exact Hq.
Qed.
Definition job_options (j m : Z) (os : list cl_option) : list cl_option := IntOpt Job j :: IntOpt Method m :: os.
Ltac good := apply Forall_forall; repeat (apply Forall_cons_2; [cbn; first [exact I | lia]|]); apply Forall_nil_2.
Ltac asking := apply asked_by_parsing; [good|vm_compute; reflexivity].

(** Structure learning with a reference. *)
Definition structure_options : list cl_option := job_options 0 0 [FileOpt Train (lit "lamp"); FileOpt Ref (lit "lamp.bif")].
Definition structure_params : params Qc :=
  mkParams 0 0 1 10000 1 (Q2Qc (1 # 20)) 0 true true (lit "alarm/alarm.xml") (lit "lamp.bif") (lit "lamp") (lit "alarm/testing_alarm_1k_p20_csv") (lit "alarm/alarm_1k_pt").
Lemma structure_asked : asked (toy toy_source) structure_options structure_params. Proof. asking. Qed.
Lemma structure_run : let r := program (toy toy_source) (command_line structure_options) toy_world in
  r.2 = Ok tt /\ w_out r.1 = [Distance 0] /\ holds r.1 (toy_dir ++ lit "lamp_struct") (text_of lamp_structure).
Proof. split; [|split]; vm_compute; reflexivity. Qed.
Lemma toy_held : holds toy_world (toy_dir ++ lit "lamp") lamp_train /\ holds toy_world (toy_dir ++ lit "lamp_test") lamp_test /\ optional_file toy_world toy_dir (lit "lamp.bif") (Some (plain_bif lamp_net)).
Proof. split; [|split; [|split]]; try (vm_compute; reflexivity). done. Qed.
(** Learning. *)
Definition learning_options : list cl_option := job_options 1 0 [FileOpt Train (lit "lamp")].
Definition learning_params : params Qc :=
  mkParams 1 0 1 10000 1 (Q2Qc (1 # 20)) 0 true true (lit "alarm/alarm.xml") [] (lit "lamp") (lit "alarm/testing_alarm_1k_p20_csv") (lit "alarm/alarm_1k_pt").
Lemma learning_asked : asked (toy toy_source) learning_options learning_params. Proof. asking. Qed.
Lemma learning_run : let r := program (toy toy_source) (command_line learning_options) toy_world in
  r.2 = Ok tt /\ w_out r.1 = [NoReference] /\ holds r.1 (toy_dir ++ lit "lamp_struct") (text_of lamp_structure) /\ holds r.1 (toy_dir ++ lit "lamp_param") (text_of lamp_parameters).
Proof. split; [|split; [|split]]; vm_compute; reflexivity. Qed.
(** Classification. *)
Definition class_options : list cl_option := job_options 4 1 [FileOpt Train (lit "lamp"); FileOpt Test (lit "lamp_test")].
Definition class_params : params Qc :=
  mkParams 4 1 1 10000 1 (Q2Qc (1 # 20)) 0 true true (lit "alarm/alarm.xml") [] (lit "lamp") (lit "lamp_test") (lit "alarm/alarm_1k_pt").
Lemma class_asked : asked (toy toy_source) class_options class_params. Proof. asking. Qed.
Lemma class_run : let r := program (toy toy_source) (command_line class_options) toy_world in
  r.2 = Ok tt /\ w_out r.1 = [NoReference; Accuracy ((1 + 1 + 1) / (1 + 1 + 1 + 1))%Qc] /\ holds r.1 (toy_dir ++ lit "lamp_struct") (text_of class_structure) /\ holds r.1 (toy_dir ++ lit "lamp_param") (text_of class_parameters).
Proof. split; [vm_compute; reflexivity|split; [|split; vm_compute; reflexivity]]. vm_compute. do 3 f_equal. apply (bool_decide_unpack _); vm_compute; exact I. Qed.
(** Exact inference. *)
Definition inference_options : list cl_option := job_options 2 1 [FileOpt Net (lit "garden/net.xml"); FileOpt Test (lit "visits"); FileOpt Pt (lit "visits_pt")].
Definition inference_params : params Qc :=
  mkParams 2 1 1 10000 1 (Q2Qc (1 # 20)) 0 true true (lit "garden/net.xml") [] (lit "alarm/alarm_s5000") (lit "visits") (lit "visits_pt").
Lemma inference_asked : asked (toy toy_source) inference_options inference_params. Proof. asking. Qed.
Lemma inference_held : holds toy_world (toy_dir ++ lit "garden/net.xml") (lit "<BIF>") /\ holds toy_world (toy_dir ++ lit "visits") visits /\ holds toy_world (toy_dir ++ lit "visits_pt") (reference_of used_numbers).
Proof. split; [|split]; vm_compute; reflexivity. Qed.
Lemma inference_run : exists m, program (toy toy_source) (command_line inference_options) toy_world = (mkWorld toy_files [Errors m m], Ok tt) /\ (0 < m)%Qc.
Proof.
  destruct garden_run_ok as (m & Hm & Hpos). exists m. split; [|done].
  destruct inference_held as (H1 & H2 & H3).
  assert (Ht : (1 <= 1)%Z) by lia. assert (Hne : lit "visits_pt" <> []) by discriminate.
  pose proof (program_inference (toy toy_source) inference_options inference_params toy_dir toy_world inference_asked toy_data (lit "<BIF>") garden_vars garden_probs visits (reference_of used_numbers)) as E.
  specialize (E eq_refl eq_refl Ht).
  specialize (E H1 eq_refl H2 Hne H3).
  unfold garden_run in Hm. cbn [toy x_sqrt x_stod x_order x_sched] in E. rewrite Hm in E. exact E.
Qed.
(** Sampling. *)
Definition sample_options (m : Z) : list cl_option := job_options 5 m [FileOpt Net (lit "garden/net.xml"); IntOpt Samples 2].
Definition sample_params (m : Z) : params Qc :=
  mkParams 5 m 1 2 1 (Q2Qc (1 # 20)) 0 true true (lit "garden/net.xml") [] (lit "alarm/alarm_s5000") (lit "alarm/testing_alarm_1k_p20_csv") (lit "alarm/alarm_1k_pt").
Lemma sample_asked : asked (toy toy_source) (sample_options 1) (sample_params 1). Proof. asking. Qed.
Lemma sample_run : let r := program (toy toy_source) (command_line (sample_options 1)) toy_world in
  r.2 = Ok tt /\ w_out r.1 = [] /\ holds r.1 (toy_dir ++ lit "garden/sample_2_libsvm") garden_svm /\ holds r.1 (toy_dir ++ lit "garden/sample_2_csv") garden_csv.
Proof. split; [|split; [|split]]; vm_compute; reflexivity. Qed.
(** A reference file that is missing. *)
Definition missing_options : list cl_option := job_options 0 0 [FileOpt Train (lit "lamp"); FileOpt Ref (lit "none.bif")].
Definition missing_params : params Qc :=
  mkParams 0 0 1 10000 1 (Q2Qc (1 # 20)) 0 true true (lit "alarm/alarm.xml") (lit "none.bif") (lit "lamp") (lit "alarm/testing_alarm_1k_p20_csv") (lit "alarm/alarm_1k_pt").
Lemma missing_asked : asked (toy toy_source) missing_options missing_params. Proof. asking. Qed.
Lemma missing_run : let r := program (toy toy_source) (command_line missing_options) toy_world in
  r.2 = Err Exit1 /\ w_out r.1 = [] /\ holds r.1 (toy_dir ++ lit "lamp_struct") (text_of lamp_structure).
Proof. split; [|split]; vm_compute; reflexivity. Qed.

(** ** Refutations *)
Definition plain_params (j m : Z) : params Qc :=
  mkParams j m 1 10000 1 (Q2Qc (1 # 20)) 0 true true (lit "alarm/alarm.xml") [] (lit "alarm/alarm_s5000") (lit "alarm/testing_alarm_1k_p20_csv") (lit "alarm/alarm_1k_pt").
Lemma silent : exists X os p j ms m, asked X os p /\ (j, ms) ∈ listed_methods /\ m ∈ ms /\ p_job p = j /\ p_method p = m /\ forall w, program X (command_line os) w = (w, Ok tt).
Proof.
  exists (toy toy_source), (job_options 3 1 []), (plain_params 3 1), 3%Z, [0; 1; 2; 3; 4; 5; 6]%Z, 1%Z.
  assert (asked (toy toy_source) (job_options 3 1 []) (plain_params 3 1)) as Ha by asking.
  split; [exact Ha|]. split; [by apply (bool_decide_unpack _)|]. split; [by apply (bool_decide_unpack _)|]. split; [done|]. split; [done|].
  intros w. rewrite (program_unsupported _ _ _ toy_dir w Ha toy_data); [done|cbn; lia|]. unfold supported. by apply (bool_decide_unpack _).
Qed.
Lemma exit_zero : exists X os p w, asked X os p /\ ~ supported p /\ program X (command_line os) w = (mkWorld (w_files w) (w_out w ++ [Complaint]), Err Exit0).
Proof.
  exists (toy toy_source), (job_options 0 1 []), (plain_params 0 1), toy_world.
  assert (asked (toy toy_source) (job_options 0 1 []) (plain_params 0 1)) as Ha by asking.
  assert (~ supported (plain_params 0 1)) as Hs by (unfold supported; by apply (bool_decide_unpack _)).
  split; [exact Ha|]. split; [done|]. rewrite (program_unsupported _ _ _ toy_dir _ Ha toy_data); [done|cbn; lia|done].
Qed.
(** A checkout in a directory of another name. *)
Definition moved_world : world := mkWorld {[lit "/home/u/code/dataset/lamp" := Whole lamp_train]} [].
Lemma moved_checkout : exists X root rest os p w text, x_source X = root ++ lit "/src/fastpgm/" ++ rest /\ asked X os p /\ p_job p = 0%Z /\ p_method p = 0%Z /\
  holds w (root ++ lit "/dataset/" ++ p_train p) text /\ program X (command_line os) w = (w, Err Exit1).
Proof.
  exists (toy (lit "/home/u/code/src/fastpgm/main.cpp")), (lit "/home/u/code"), (lit "main.cpp"), (job_options 0 0 [FileOpt Train (lit "lamp")]),
    (mkParams 0 0 1 10000 1 (Q2Qc (1 # 20)) 0 true true (lit "alarm/alarm.xml") [] (lit "lamp") (lit "alarm/testing_alarm_1k_p20_csv") (lit "alarm/alarm_1k_pt")), moved_world, lamp_train.
  split; [done|]. split; [asking|]. split; [done|]. split; [done|]. split; [vm_compute; reflexivity|].
  assert (E : (program (toy (lit "/home/u/code/src/fastpgm/main.cpp")) (command_line (job_options 0 0 [FileOpt Train (lit "lamp")])) moved_world).2 = Err Exit1) by (vm_compute; reflexivity).
  assert (E' : forall X a b c d e f w, w_files w !! e = None -> structure_io X a b c d e f w = (w, Err Exit1)).
  { intros. unfold structure_io. by apply bind_read_none. }
  unfold program. rewrite bind_lift. change (parse_parameters _ _ _) with (Ok (mkParams 0 0 1 10000 1 (Q2Qc (1 # 20)) 0 true true (lit "alarm/alarm.xml") [] (lit "lamp") (lit "alarm/testing_alarm_1k_p20_csv") (lit "alarm/alarm_1k_pt"))).
  apply E'. vm_compute. reflexivity.
Qed.
(** The announced files are there. *)
Definition announced_world : world := mkWorld (list_to_map ((fun f => (toy_dir ++ announced f, Whole lamp_train)) <$> [Net; Ref; Train; Test; Pt])) [].
Lemma defaults_differ : exists X dir w, data_in (x_source X) dir /\ (forall f, exists text, holds w (dir ++ announced f) text) /\ program X [] w = (w, Err Exit1).
Proof.
  exists (toy toy_source), toy_dir, announced_world. split; [exact toy_data|]. split.
  - intros f. exists lamp_train. destruct f; vm_compute; reflexivity.
  - unfold program. rewrite bind_lift. change (parse_parameters _ _ _) with (Ok default_params).
    unfold structure_io. apply bind_read_none. vm_compute. reflexivity.
Qed.
Lemma written_run : data_in (x_source (toy toy_source)) toy_dir /\ (program (toy toy_source) (command_line learning_options) toy_world).2 = Ok tt /\
  asked (toy toy_source) learning_options learning_params /\ outputs toy_dir learning_params (toy_dir ++ lit "lamp_struct") /\ outputs toy_dir learning_params (toy_dir ++ lit "lamp_param").
Proof.
  split; [exact toy_data|]. split; [exact (proj1 learning_run)|]. split; [exact learning_asked|].
  split; right; left; (split; [done|]); (split; [done|]); [left|right]; done.
Qed.
