(** The learning and classification jobs of the command line program with all their outputs: fastpgm_api.cpp L18-135. *)
From Coq Require Import Ascii String.
From Verif Require Export SaveModel.
Local Open Scope nat_scope.

(** ** The comparison with a reference network *)
(** fastpgm_api.cpp L32-41, L59-68, L112-121: [ref] is the text of the BIF file, if a file is named. The reference is loaded anew,
    and the comparison changes only the reference. [BNSLComparison] is given the reference first (BNSLComparison.cpp L7-10). *)
Definition compare_with (stod : str -> outcome Qc) (ref : option str) (N : network) : outcome (option nat) :=
  match ref with
  | None => Ok None
  | Some text => L ← load_bif stod text; k ← get_shd (ld_net L) N; Ok (Some k)
  end.

(** ** fastpgm_api.cpp L18-44 [BNSL_PCStable] *)
(** The structure file, if demanded, and the distance. *)
Definition structure_job (accept : list (nat * nat * nat * nat) -> nat -> bool) (depth fuel size : nat) (ssch : nat -> schedule) (coin : nat -> bool)
    (stod : str -> outcome Qc) (save_struct : bool) (ref : option str) (train : str) : outcome (option str * option nat) :=
  d ← load_csv_training train;
  D ← columns_of d;
  N ← learn_structure accept depth fuel size ssch false coin d D;
  s ← (if save_struct then Some <$> structure_text (d_names d) N else Ok None);
  k ← compare_with stod ref N;
  Ok (s, k).

(** ** fastpgm_api.cpp L46-75 [BNL_PCStable] *)
Definition learning_job (accept : list (nat * nat * nat * nat) -> nat -> bool) (depth fuel size : nat) (ssch : nat -> schedule) (coin : nat -> bool)
    (flips : nat -> nat -> nat) (show : Qc -> str) (stod : str -> outcome Qc) (save_struct save_param : bool) (ref : option str) (train : str) :
    outcome (option str * option nat * option str) :=
  d ← load_csv_training train;
  D ← columns_of d;
  N ← learn_structure accept depth fuel size ssch false coin d D;
  s ← (if save_struct then Some <$> structure_text (d_names d) N else Ok None);
  k ← compare_with stod ref N;
  ts ← learn_params N D 1 flips [];
  p ← (if save_param then Some <$> parameter_text show (d_names d) (d_dicts d) N ts else Ok None);
  Ok (s, k, p).

(** ** fastpgm_api.cpp L96-135 [C_PCStable_JT] *)
(** StructureLearning.cpp L217-222: the node ROOT is named "ROOT" and has the values "0" and "1". PCStable.cpp L39-53: it is added
    before the structure is saved. *)
Definition root_name : str := lit "ROOT".
Definition root_values : list str := [lit "0"; lit "1"].
Definition classification_job (accept : list (nat * nat * nat * nat) -> nat -> bool) (depth fuel size : nat) (ssch : nat -> schedule) (coin : nat -> bool)
    (flips : nat -> nat -> nat) (show : Qc -> str) (stod : str -> outcome Qc) (o : mem_order) (sch : nat -> scheduler)
    (save_struct save_param : bool) (ref : option str) (train test : str) : outcome (option str * option nat * option str * Qc) :=
  d ← load_csv_training train;
  rows ← load_csv_testing (d_nvars d) (d_dicts d) test;
  D ← columns_of d;
  N ← learn_structure accept depth fuel size ssch true coin d D;
  roots ← find_roots N;
  N ← add_root_node N roots;
  s ← (if save_struct then Some <$> structure_text (d_names d ++ [root_name]) N else Ok None);
  k ← compare_with stod ref N;
  ts ← learn_params N D 1 flips [];
  p ← (if save_param then Some <$> parameter_text show (d_names d ++ [root_name]) (d_dicts d ++ [root_values]) N ts else Ok None);
  qs ← make_queries 0 rows;
  T ← jt_build o N ts;
  Es ← mcollect qs (fun q => as_evidence (fst q));
  labels ← predict sch T 0 Es;
  a ← accuracy (snd <$> qs) (Z.of_nat <$> labels);
  Ok (s, k, p, a).
