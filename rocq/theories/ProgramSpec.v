(** Specification of the command line program. *)
From Coq Require Import Ascii String.
From Verif Require Export ProgramModel ParamSpec.
Local Open Scope nat_scope.

(** ** Options *)
(** The values that the program uses if no option sets them (Parameter.cpp L6-37). *)
Definition initial : params Qc :=
  mkParams 0 0 1 10000 1 (Q2Qc (QArith_base.Qmake 1 20)) 0 true true
    (lit "alarm/alarm.xml") [] (lit "alarm/alarm_s5000") (lit "alarm/testing_alarm_1k_p20_csv") (lit "alarm/alarm_1k_pt").
(** The options, which the parser handles, ask for the values [p]; see C40. *)
Definition asked (X : setting) (os : list cl_option) (p : params Qc) : Prop :=
  (forall o, o ∈ os -> good_option (x_stod X) o) /\ forall f, outcome_of (x_stod X) f os (get initial f) (get p f).
(** The defaults that the help text announces for the files (Parameter.cpp L116-120). *)
Definition announced (f : file_field) : str :=
  match f with
  | Net => lit "alarm/alarm.xml" | Ref => lit "alarm/alarm.bif" | Train => lit "alarm/alarm_s5000.txt"
  | Test => lit "alarm/testing_alarm_1k_p20" | Pt => lit "alarm/alarm_1k_pt"
  end.
(** What the help text says about the jobs and methods (Parameter.cpp L125-167): "-j" and "-m" of everything it lists. *)
Definition listed_methods : list (Z * list Z) :=
  [(0, [0]); (1, [0]); (2, [0; 1; 2]); (3, [0; 1; 2; 3; 4; 5; 6]); (4, [0; 1; 2; 3; 4; 5; 6; 7; 8; 9]); (5, [0; 1])]%Z.

(** ** Files *)
(** The project is checked out in a directory named FastPGM, the first of that name in the path of the source file. [dir]: its subdirectory of the data. *)
Definition data_in (source dir : str) : Prop :=
  exists root rest, source = root ++ lit "FastPGM/" ++ rest /\ dir = root ++ lit "FastPGM/dataset/" /\
  forall k, k < length root -> take 7 (drop k source) <> lit "FastPGM".
Definition holds (w : world) (path : str) (text : str) : Prop := w_files w !! path = Some (Whole text).
(** The optional file [name] in [dir]: not named, or with this text. *)
Definition optional_file (w : world) (dir name : str) (text : option str) : Prop :=
  match text with None => name = [] | Some s => name <> [] /\ holds w (dir ++ name) s end.
(** The files after writing a text, if there is one. *)
Definition put_file (path : str) (text : option str) (files : gmap str content) : gmap str content :=
  match text with Some s => <[path := Whole s]> files | None => files end.
(** The distance, or a message that there is no reference. *)
Definition compared_report (k : option nat) : report := match k with Some n => Distance n | None => NoReference end.

(** The files that a run may write. *)
Definition outputs (dir : str) (p : params Qc) (path : str) : Prop :=
  (p_job p = 0%Z /\ p_method p = 0%Z /\ p_save_struct p = true /\ path = dir ++ p_train p ++ lit "_struct") \/
  (p_job p = 1%Z /\ p_method p = 0%Z /\ (p_save_struct p = true /\ path = dir ++ p_train p ++ lit "_struct" \/ p_save_param p = true /\ path = dir ++ p_train p ++ lit "_param")) \/
  (p_job p = 4%Z /\ p_method p = 1%Z /\ (p_save_struct p = true /\ path = dir ++ p_train p ++ lit "_struct" \/ p_save_param p = true /\ path = dir ++ p_train p ++ lit "_param")) \/
  (p_job p = 5 /\ exists folder file, dir ++ p_net p = folder ++ 47 :: file /\ 47 ∉ file /\
     ((p_method p = 0 \/ p_method p = 1) /\ path = folder ++ lit "/sample_" ++ to_string (p_samples p) ++ lit "_libsvm" \/
      p_method p = 1 /\ path = folder ++ lit "/sample_" ++ to_string (p_samples p) ++ lit "_csv"))%Z.
(** The jobs and methods that are implemented. *)
Definition supported (p : params Qc) : Prop :=
  ((p_job p, p_method p) ∈ [(0, 0); (1, 0); (2, 1); (4, 1); (5, 0); (5, 1)])%Z.
