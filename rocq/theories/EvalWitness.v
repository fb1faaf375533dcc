(** A reference file for twenty test cases. *)
From Coq Require Import Ascii String.
From Coq Require Import Field QArith.
From Verif Require Import BIFModel BIFSpec BIFWitness EvalModel EvalSpec EvalTheorems JTSpec JTWitness DataProofs.
Local Open Scope nat_scope.

Definition case_evidence : list (nat * nat) := [(0, 1); (2, 0)].
Definition case_lines : list str := [lit ""; lit "0.7 0.3 "; lit " "; lit "0.5 0.25 0.25"].
Definition case_ref (v k : nat) : Qc :=
  match v, k with 1, 0 => frac 7 10 | 1, 1 => frac 3 10 | 3, 0 => frac 1 2 | 3, 1 => frac 1 4 | 3, 2 => frac 1 4 | _, _ => 0%Qc end.
Definition cases (n : nat) : list (list (nat * nat)) := replicate n case_evidence.
Definition case_refs (n : nat) : list (nat -> nat -> Qc) := replicate n case_ref.
Definition case_text (n : nat) : str := text_of (List.concat (replicate n case_lines)).
Definition plain (x : Qc) : Qc := x.

Lemma case_evidence_ok : evidence_in_range jt_net case_evidence /\ evidence_weight jt_net jt_pts case_evidence <> 0%Qc.
Proof.
  split.
  - intros v x [[= -> ->]|[[= -> ->]|H%elem_of_nil]%elem_of_cons]%elem_of_cons _; [vm_compute; lia..|done].
  - apply (bool_decide_unpack _). vm_compute. exact I.
Qed.
Lemma cases_ok n : Forall (fun E => evidence_in_range jt_net E /\ evidence_weight jt_net jt_pts E <> 0%Qc) (cases n).
Proof. apply Forall_replicate, case_evidence_ok. Qed.
Lemma case_lines_ok : reference_lines stod4 jt_net case_evidence case_ref case_lines.
Proof.
  split; [done|]. intros v l Hl.
  assert (forall es b dim ref, newline ∉ words es ++ b -> es <> [] -> Forall (fun e => e <> [] /\ Forall (fun c => (33 <= c)%Z) e) es -> Forall (fun c => (c < 33)%Z) b -> mapM (fun e => match stod4 e with Ok x => Some x | Err _ => None end) es = Some (ref <$> seq 0 dim) -> reference_line stod4 false dim ref (words es ++ b)) as Hnum.
  { intros es b dim ref Hnl Hne Hes Hb Hm. split; [done|]. exists es, b. split_and!; try done. intros k Hk. apply mapM_Some_1 in Hm. assert ((ref <$> seq 0 dim) !! k = Some (ref k)) as Hk' by (by rewrite list_lookup_fmap, lookup_seq_lt).
    destruct (Forall2_lookup_r _ _ _ _ _ Hm Hk') as (e & He & Hx). exists e. split; [done|]. destruct (stod4 e); congruence. }
  destruct v as [|[|[|[|v]]]]; [injection Hl as <-..|done].
  - split; [by intros ?%elem_of_nil|]. vm_compute. constructor.
  - refine (Hnum [lit "0.7"; lit "0.3"] [blank] 2 _ _ _ _ _ _); [|done|..]; apply (bool_decide_unpack _); vm_compute; exact I.
  - split; [apply (bool_decide_unpack _); vm_compute; exact I|]. apply (bool_decide_unpack _); vm_compute; exact I.
  - refine (Hnum [lit "0.5"; lit "0.25"; lit "0.25"] [] 3 _ _ _ _ _ _); [|done|..]; apply (bool_decide_unpack _); vm_compute; exact I.
Qed.
Lemma case_reference n : is_reference stod4 jt_net (cases n) (case_refs n) (case_text n).
Proof.
  split; [unfold case_refs, cases; by rewrite !replicate_length|]. exists (replicate n case_lines). split.
  - unfold cases, case_refs. induction n as [|n IH]; [constructor|]. cbn. constructor; [exact case_lines_ok|exact IH].
  - left. exists []. by rewrite app_nil_r.
Qed.
Lemma case_compared : compared jt_net jt_pts case_evidence case_ref <> [].
Proof. apply (bool_decide_unpack _). vm_compute. exact I. Qed.
Lemma cases_compared n i E ref : cases n !! i = Some E -> case_refs n !! i = Some ref -> compared jt_net jt_pts E ref <> [].
Proof. unfold cases, case_refs. intros [-> _]%lookup_replicate [-> _]%lookup_replicate. exact case_compared. Qed.
Lemma plain_root : root_like plain.
Proof. unfold root_like, plain. split_and!; auto. Qed.
Lemma cases_evaluated : exists m, evaluate_errors plain stod4 (fun _ => wild_sched) jt_tree (case_text 20) (cases 20) = Ok (m, m) /\ (0 < m)%Qc.
Proof. eexists. split; [vm_compute; reflexivity|]. apply (bool_decide_unpack _). vm_compute. exact I. Qed.
Lemma nothing_compared : compared jt_net jt_pts [(0, 0); (1, 0); (2, 0); (3, 0)] (fun _ _ => 0%Qc) = [].
Proof. vm_compute. reflexivity. Qed.
Lemma few_cases : length (cases 3) < 20 /\ evaluate_errors plain stod4 (fun _ => wild_sched) jt_tree (case_text 3) (cases 3) = Err DivZero.
Proof. split; [vm_compute; lia|vm_compute; reflexivity]. Qed.
