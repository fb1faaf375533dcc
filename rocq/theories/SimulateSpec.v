(** Evenly spread random numbers, and samples as data. *)
From Verif Require Export SampleSpec RecoverSpec.
Local Open Scope nat_scope.

Lemma in_box_cons u b box : in_box u (b :: box) <-> ((fst b < u 0%nat)%Qc /\ (u 0%nat <= snd b)%Qc) /\ in_box (fun k => u (S k)) box.
Proof. unfold in_box. split; [intros H; split; [by apply (H 0)|intros k b' Hb; by apply (H (S k))]|intros [H1 H2] [|k] b' Hb; [injection Hb as <-; done|by apply H2]]. Qed.
Global Instance in_box_dec box : forall u, Decision (in_box u box).
Proof.
  induction box as [|b box IH]; intros u; [left; by intros k b Hb|].
  destruct (decide ((fst b < u 0%nat)%Qc /\ (u 0%nat <= snd b)%Qc)) as [H|H]; [|right; by intros [? ?]%in_box_cons]. destruct (IH (fun k => u (S k))) as [H'|H']; [left; by apply in_box_cons|right; by intros [_ ?]%in_box_cons].
Defined.
(** A box with [d] sides within the unit cube. *)
Definition unit_box (d : nat) (box : list (Qc * Qc)) : Prop := length box = d /\ Forall (fun b => (0 <= fst b)%Qc /\ (fst b <= snd b)%Qc /\ (snd b <= 1)%Qc) box.
(** The number of draws in a box. *)
Definition hits (us : list (nat -> Qc)) (box : list (Qc * Qc)) : nat := length (filter (fun u => in_box u box) us).
(** The discrepancy of the draws: the fraction of them in a box differs from its volume by at most [e]. *)
Definition discrepancy (e : Qc) (d : nat) (us : list (nat -> Qc)) : Prop :=
  forall box, unit_box d box -> differ_by e (qn (hits us box) / qn (length us))%Qc (volume box).
(** The samples, one column for each variable. *)
Definition sample_columns (n : nat) (samples : list (list nat)) : columns :=
  mkCols ((fun v => (fun s => values s v) <$> samples) <$> seq 0 n) (length samples) n.
(** A regular grid of draws. *)
Definition before (r : Qc) (u : nat -> Qc) (k : nat) : Qc := match k with 0 => r | S k => u k end.
Fixpoint grid (m d : nat) : list (nat -> Qc) :=
  match d with
  | 0 => [fun _ => 1%Qc]
  | S d => x ← seq 0 m; before (qn (S x) / qn m)%Qc <$> grid m d
  end.
