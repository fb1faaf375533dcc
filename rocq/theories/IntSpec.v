(** Vocabulary for integer overflow. *)
From Verif Require Import JTModel.
Local Open Scope nat_scope.

(** All tables of an engine: cliques and separators. *)
Definition engine_tables (T : jtree) : list ptable := t_c (jt_backup T) ++ t_s (jt_backup T).
(** A computation with ints of limited range, against the same computation with unlimited ones: the
    same result, or it overflowed. *)
Definition unless_overflow {A} (unlimited limited : outcome A) : Prop := limited = unlimited \/ limited = Err Overflow.
