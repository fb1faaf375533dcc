(** Specification of forward sampling. *)
From Verif Require Export SampleModel LearnSpec.
Local Open Scope nat_scope.

(** A table of conditional probabilities of [x] given its parents: no entry is negative, and the entries for fixed
    parents sum to one. *)
Definition distribution_of (N : network) (x : nat) (t : ptable) : Prop :=
  TableSpec.wf (net_dom N) t /\ pt_vars t = x :: parents_of N x /\ nonneg (net_dom N) t /\
  forall a, valid (net_dom N) a -> qsum (seq 0 (net_dom N x)) (fun y => tval t (upd a x y)) = 1%Qc.
Definition distributions (N : network) (ts : list ptable) : Prop :=
  length ts = net_size N /\ forall x t, ts !! x = Some t -> distribution_of N x t.
(** A value within its domain for every variable. *)
Definition full_sample (N : network) (s : list nat) : Prop := length s = net_size N /\ forall v x, s !! v = Some x -> x < net_dom N v.
(** The sample as an assignment. *)
Definition values (s : list nat) : asg := fun v => default 0 (s !! v).
(** The interval of length P(value of [v] | values of its parents), placed above the intervals of the smaller values. *)
Definition below (t : ptable) (v : nat) (s : list nat) : Qc :=
  qsum (seq 0 (values s v)) (fun y => tval t (upd (values s) v y)).
Definition interval (ts : list ptable) (s : list nat) (v : nat) : Qc * Qc :=
  match ts !! v with
  | Some t => (below t v s, (below t v s + tval t (values s))%Qc)
  | None => (0%Qc, 0%Qc)
  end.
(** A box of draws, and its volume. *)
Definition in_box (u : nat -> Qc) (box : list (Qc * Qc)) : Prop := forall k b, box !! k = Some b -> (fst b < u k)%Qc /\ (u k <= snd b)%Qc.
Definition volume (box : list (Qc * Qc)) : Qc := qprod box (fun b => (snd b - fst b)%Qc).
(** Uniform draws. *)
Definition uniform (u : nat -> Qc) : Prop := forall k, (0 < u k)%Qc /\ (u k <= 1)%Qc.
