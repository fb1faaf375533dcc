(** Specification of the comparison with a reference file. *)
From Coq Require Import Field QArith.
From Verif Require Export EvalModel BIFSpec JTSpec.
Local Open Scope nat_scope.

(** One line of the reference file, for a node with [dim] values: white space for an observed node, otherwise the numbers,
    separated by blanks. [ref k] is the number of value [k]. *)
Definition reference_line (stod : str -> outcome Qc) (observed : bool) (dim : nat) (ref : nat -> Qc) (line : str) : Prop :=
  newline ∉ line /\
  if observed then Forall (fun c => (c < 33)%Z) line
  else exists es b, es <> [] /\ Forall (fun e => e <> [] /\ Forall (fun c => (33 <= c)%Z) e) es /\ Forall (fun c => (c < 33)%Z) b /\ line = words es ++ b /\
    forall k, k < dim -> exists e, es !! k = Some e /\ stod e = Ok (ref k).
(** One line per node, for each test case [E] in turn; [ref v k] is the reference probability of value [k] of node [v]. *)
Definition reference_lines (stod : str -> outcome Qc) (N : network) (E : list (nat * nat)) (ref : nat -> nat -> Qc) (ls : list str) : Prop :=
  length ls = net_size N /\ forall v l, ls !! v = Some l -> reference_line stod (bool_decide (v ∈ fst <$> E)) (net_dom N v) (ref v) l.
Definition is_reference (stod : str -> outcome Qc) (N : network) (Es : list (list (nat * nat))) (refs : list (nat -> nat -> Qc)) (text : str) : Prop :=
  length refs = length Es /\ exists lss, Forall2 (fun p ls => reference_lines stod N p.1 p.2 ls) (zip Es refs) lss /\
  ((exists rest, text = text_of (concat lss) ++ rest) \/ text ++ [newline] = text_of (concat lss)).

(** The pairs that are compared: the posterior probability, rounded to seven decimals, and the reference probability, for
    every value of every unobserved node whose reference probability is positive. *)
Definition compared (N : network) (pts : list ptable) (E : list (nat * nat)) (ref : nat -> nat -> Qc) : list (Qc * Qc) :=
  v ← filter (fun v => v ∉ fst <$> E) (seq 0 (net_size N));
  k ← filter (fun k => 0 < ref v k)%Qc (seq 0 (net_dom N v));
  [(qround (posterior N pts E v k) 7, ref v k)].
(** The root of the mean of the squared differences of [f]. *)
Definition root_mean_square (sq f : Qc -> Qc) (l : list (Qc * Qc)) : Qc :=
  sq (qsum l (fun p => (f p.1 - f p.2) * (f p.1 - f p.2)) / qz (Z.of_nat (length l)))%Qc.
Definition average (l : list Qc) : Qc := (qsum l (fun x => x) / qz (Z.of_nat (length l)))%Qc.
(** What is needed of [std::sqrt] for the criteria. *)
Definition root_like (sq : Qc -> Qc) : Prop :=
  (forall x, (0 <= x)%Qc -> (0 <= sq x)%Qc) /\ (forall x, (0 <= x)%Qc -> sq x = 0%Qc -> x = 0%Qc) /\ sq 0%Qc = 0%Qc /\
  (forall x y, (0 <= x)%Qc -> (0 <= y)%Qc -> sq x = sq y -> x = y).
