(** Specification vocabulary for potential tables: what a table means, independently of
    how its operations are programmed. *)
From Verif Require Export Sums TableModel.
Local Open Scope Qc_scope.

(** Position of a configuration in [configs dims] (lexicographic order, first variable
    most significant). *)
Fixpoint lex_index (dims cfg : list nat) : nat :=
  match dims, cfg with
  | _ :: ds, c :: cs => (c * prod_list ds + lex_index ds cs)%nat
  | _, _ => 0%nat
  end.

(** Strides of each variable. *)
Fixpoint strides (dims : list nat) : list nat :=
  match dims with
  | [] => []
  | _ :: ds => prod_list ds :: strides ds
  end.

(** A table is well formed over domain sizes [dom]: one entry per configuration of distinct
    variables, and consistent cached fields. *)
Record wf (dom : nat -> nat) (T : ptable) : Prop := {
  wf_nodup : NoDup (pt_vars T);
  wf_dims  : pt_dims T = dom <$> pt_vars T;
  wf_cum   : pt_cum T = strides (pt_dims T);
  wf_nv    : pt_nv T = length (pt_vars T);
  wf_size  : pt_size T = length (configs (pt_dims T));
  wf_pots  : length (pt_pots T) = length (configs (pt_dims T));
}.

(** The number stored for assignment [a]: the entry at the position of [a]'s values. The
    default is never used on a well-formed table and a valid assignment
    ([tval_lookup] in TableProofs.v). *)
Definition tval (T : ptable) (a : asg) : Qc :=
  default 0 (pt_pots T !! lex_index (pt_dims T) (a <$> pt_vars T)).
