(** Specification of the jobs of the command line program. *)
From Coq Require Import Field QArith.
From Verif Require Export PipeModel EvalSpec.
Local Open Scope nat_scope.

(** ** The distribution of a network file *)
(** The entry of [D] for an assignment: that of the row for the values of the parents, as the loader smooths it (C38). *)
Definition file_entry (num : str -> Qc) (D : bdist) (a : asg) : Qc :=
  match list_find (fun r => r.1 = a <$> bd_parents D) (bd_rows D) with
  | Some (_, r) => smoothed_entry (num <$> r.2) (a (bd_node D))
  | None => 0%Qc
  end.
Definition file_joint (num : str -> Qc) (B : bnet) (a : asg) : Qc := qprod (bn_dists B) (fun D => file_entry num D a).
(** The sum of the joint over all assignments that agree with the evidence and with [fixed]. *)
Definition file_weight (num : str -> Qc) (B : bnet) (E fixed : list (nat * nat)) : Qc :=
  sumv (bn_dom B) (filter (fun v => v ∉ fst <$> fixed ++ E) (seq 0 (bn_size B))) (fun a => file_joint num B (set_evidence E a)) (set_evidence fixed (fun _ => 0)).
Definition file_posterior (num : str -> Qc) (B : bnet) (E : list (nat * nat)) (q x : nat) : Qc :=
  (file_weight num B E [(q, x)] / file_weight num B E [])%Qc.
(** All variables are connected by arcs, in whatever direction. *)
Definition file_connected (B : bnet) : Prop :=
  forall x y, x < bn_size B -> y < bn_size B -> rtc (fun a b => bn_arc B a b \/ bn_arc B b a) x y.
(** The variables of the file without any arcs (only their number and the numbers of their values are used). *)
Definition file_shape (B : bnet) : network := new_network ((fun w => length (bv_values w)) <$> bn_vars B).

(** ** The test file *)
(** The observed cells of a row, in the order of the variables: the nonempty ones that name a value of their variable. *)
Definition observed (B : bnet) (cells : list str) (E : list (nat * nat)) : Prop :=
  StronglySorted lt (fst <$> E) /\
  forall v x, (v, x) ∈ E <-> exists (c : str) w, cells !! v = Some c /\ c <> [] /\ bn_vars B !! v = Some w /\ bv_values w !! x = Some c.
(** The pairs that are compared: see [compared] in EvalSpec.v. *)
Definition file_compared (num : str -> Qc) (B : bnet) (E : list (nat * nat)) (ref : nat -> nat -> Qc) : list (Qc * Qc) :=
  v ← filter (fun v => v ∉ fst <$> E) (seq 0 (bn_size B));
  k ← filter (fun k => 0 < ref v k)%Qc (seq 0 (bn_dom B v));
  [(qround (file_posterior num B E v k) 7, ref v k)].
