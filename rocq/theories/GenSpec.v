(** Specification of the sample generator job. *)
From Coq Require Import Field QArith.
From Verif Require Export GenModel PipeSpec SampleSpec.
Local Open Scope nat_scope.

(** One value per variable of the file. *)
Definition file_sample (B : bnet) (s : list nat) : Prop := Forall2 (fun x w => x < length (bv_values w)) s (bn_vars B).
(** All of them. *)
Definition file_samples (B : bnet) : list (list nat) := configs ((fun w => length (bv_values w)) <$> bn_vars B).
(** The names of its values. *)
Definition sample_names (B : bnet) (s : list nat) : list str := imap (bn_value B) s.
(** A sample with the positions of its values. *)
Definition sample_row (s : list nat) : list (nat * nat) := zip (seq 0 (length s)) s.
(** A name that can be written to a CSV file: no commas, no newlines, no blank at the end. *)
Definition csv_name (w : str) : Prop := clean_cell w /\ no_trailing_blank w.
Definition csv_names (B : bnet) : Prop := Forall (fun w => csv_name (bv_name w) /\ Forall csv_name (bv_values w)) (bn_vars B).
