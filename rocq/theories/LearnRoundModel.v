(** Model of ParameterLearning.cpp with rounded arithmetic: LearnModel.v with [rnd] applied to every
    sum and quotient of doubles.  The conversions of the [int] counters, of [alpha] and of the [int]
    product [alpha * pt.var_dims[0]] to [double] are exact, as every [int] is a [double]. *)
From Verif Require Export LearnModel.
Local Open Scope nat_scope.

Section rounded.
Context (rnd : Qc -> Qc).
(** ParameterLearning.cpp L81, L100, L101:
    [((double)num1 + alpha) / ((double)num2 + alpha * pt.var_dims[0])]. *)
Definition estimate_r (alpha : Z) (n1 n2 d0 : nat) : outcome Qc :=
  p ← qdiv (rnd (qn n1 + qz alpha)%Qc) (rnd (qn n2 + qz (alpha * Z.of_nat d0))%Qc);
  Ok (rnd p).
(** L25-84: the table of variable [x]. *)
Definition learn_node_r (N : network) (D : columns) (alpha : Z) (root : option nat) (coin : nat -> nat) (x : nat) : outcome ptable :=
  t ← empty_node_table N x;
  c0 ← vget (pt_cum t) 0;
  st ← mfor (seq 0 (co_rows D)) (count_row D root coin t) (replicate (pt_size t) 0, replicate c0 0);
  pots ← mcollect (seq 0 (pt_size t)) (fun j =>
    n1 ← vget (fst st) j;
    n2 ← (if bool_decide (pt_nv t = 1) then vget (snd st) 0 else i2 ← imod j c0; vget (snd st) i2);
    d0 ← vget (pt_dims t) 0;
    estimate_r alpha n1 n2 d0);
  Ok (set_pots t pots).
(** L87-104: the table of ROOT.  [0.5 * num_instance] is exact in binary arithmetic and then
    truncated. *)
Definition learn_root_r (N : network) (D : columns) (alpha : Z) (root : nat) : outcome ptable :=
  t ← empty_node_table N root;
  let n1 := co_rows D / 2 in
  let n2 := co_rows D in
  d0 ← vget (pt_dims t) 0;
  p ← estimate_r alpha n1 n2 d0;
  pots ← vset (pt_pots t) 0 p;
  pots ← vset pots 1 p;
  Ok (set_pots t pots).
(** L10-109 [LearnParamsKnowStructCompData]. *)
Definition learn_params_r (N : network) (D : columns) (alpha : Z) (coin : nat -> nat -> nat) (pts : list ptable) : outcome (list ptable) :=
  let root := if bool_decide (length (nt_nodes N) = co_vars D) then None else Some (co_vars D) in
  pts ← mfor (seq 0 (co_vars D)) (fun x pts => t ← learn_node_r N D alpha root (coin x) x; Ok (pts ++ [t])) pts;
  match root with
  | None => Ok pts
  | Some r => t ← learn_root_r N D alpha r; Ok (pts ++ [t])
  end.
End rounded.
