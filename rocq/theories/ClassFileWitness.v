(** A run of the classification job with its files. *)
From Coq Require Import Ascii String.
From Coq Require Import Field QArith.
From Verif Require Import ClassFileSpec ClassFiles CellSpec PCWitness JTSpec JTWitness DataWitness ClassWitness SaveWitness.
From Verif Require Import DSepWitness.
Local Open Scope nat_scope.

Definition lamp_tests_rows : list (list str) := List.concat (replicate 5 [chars <$> ["on"; "off"; "yes"]; chars <$> ["off"; "off"; "no"]; chars <$> ["off"; "on"; ""]; chars <$> ["on"; ""; "no"]]%string).
Definition lamp_test : str := text_of (glue comma <$> lamp_header :: lamp_tests_rows).
Lemma lamp_test_table : csv_table lamp_test lamp_header lamp_tests_rows /\ 20 <= length lamp_tests_rows /\ class_known lamp_rows lamp_tests_rows.
Proof. split; [apply csv_tableb_ok; [by left|by vm_compute]|]. split; [vm_compute; lia|]. apply class_known_check. vm_compute. reflexivity. Qed.
(** Left and right get ROOT through one of them: they are connected by alarm. *)
Definition class_structure : list str := chars <$> ["number of nodes = 4, number of edges = 3"; "0: right/v1 -> alarm/v2"; "1: ROOT/v3 -> left/v0"; "2: left/v0 -> alarm/v2"]%string.
Definition class_parameters : list str := chars <$> ["P (left/v0=off/0 | ROOT/v3=0/0) = 1/2"; "P (left/v0=off/0 | ROOT/v3=1/1) = 1/2"; "P (left/v0=on/1 | ROOT/v3=0/0) = 1/2"; "P (left/v0=on/1 | ROOT/v3=1/1) = 1/2"; "P (right/v1=off/0) = 1/2"; "P (right/v1=on/1) = 1/2";
  "P (alarm/v2=no/0 | left/v0=off/0, right/v1=off/0) = 2/3"; "P (alarm/v2=no/0 | left/v0=off/0, right/v1=on/1) = 1/3"; "P (alarm/v2=no/0 | left/v0=on/1, right/v1=off/0) = 1/3"; "P (alarm/v2=no/0 | left/v0=on/1, right/v1=on/1) = 1/3";
  "P (alarm/v2=yes/1 | left/v0=off/0, right/v1=off/0) = 1/3"; "P (alarm/v2=yes/1 | left/v0=off/0, right/v1=on/1) = 2/3"; "P (alarm/v2=yes/1 | left/v0=on/1, right/v1=off/0) = 2/3"; "P (alarm/v2=yes/1 | left/v0=on/1, right/v1=on/1) = 2/3";
  "P (ROOT/v3=0/0) = 1/2"; "P (ROOT/v3=1/1) = 1/2"]%string.
Lemma lamp_class_files : classification_job exactly_balanced 1000 1000 1 forwards (fun _ => true) some_flips show_fraction (fun _ => Err Thrown) addr_order (fun _ => wild_sched) true true None lamp_train lamp_test =
  Ok (Some (text_of class_structure), None, Some (text_of class_parameters), (1 + 1 + 1) / (1 + 1 + 1 + 1))%Qc.
Proof. vm_compute. do 2 f_equal. apply (bool_decide_unpack _); vm_compute; exact I. Qed.
(** Two columns that are always equal: the graph between them is complete, and learning the structure fails. *)
Definition both_header : list str := chars <$> ["left"; "right"]%string.
Definition both_rows : list (list str) := [chars <$> ["off"; "off"]; chars <$> ["on"; "on"]]%string.
Definition both_train : str := text_of (glue comma <$> both_header :: both_rows).
Lemma both_fails : csv_table both_train both_header both_rows /\ NoDup both_header /\ exists d D, load_csv_training both_train = Ok d /\ columns_of d = Ok D /\
  learn_structure exactly_balanced 1000 1000 1 forwards true (fun _ => true) d D = Err OutOfBounds.
Proof.
  split; [apply csv_tableb_ok; [by left|by vm_compute]|]. split; [apply (bool_decide_unpack _); vm_compute; exact I|].
  assert (match load_csv_training both_train with Ok d => match columns_of d with Ok D => match learn_structure exactly_balanced 1000 1000 1 forwards true (fun _ => true) d D with
    Err OutOfBounds => true | _ => false end | Err _ => false end | Err _ => false end = true) as H by (vm_compute; reflexivity).
  destruct (load_csv_training both_train) as [d|]; [|discriminate H]. destruct (columns_of d) as [D|] eqn:HD; [|discriminate H]. exists d, D. split; [done|]. split; [done|].
  destruct (learn_structure exactly_balanced 1000 1000 1 forwards true (fun _ => true) d D) as [N|[]]; try discriminate H. reflexivity.
Qed.
