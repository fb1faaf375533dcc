(** Samples from the garden network. *)
From Coq Require Import Ascii String.
From Coq Require Import Field QArith.
From Verif Require Import BIFModel BIFSpec BIFWitness GenModel GenSpec SampleWitness PipeWitness DataWitness.
Local Open Scope nat_scope.

Definition high_draws : nat -> Qc := fun _ => 1%Qc.
Lemma high_draws_uniform : uniform high_draws.
Proof. intros k; split; by vm_compute. Qed.
Lemma garden_draws u : u ∈ [some_draws; high_draws] -> uniform u.
Proof. intros [->|[->|?%elem_of_nil]%elem_of_cons]%elem_of_cons; [exact some_draws_uniform|exact high_draws_uniform|done]. Qed.
Lemma garden_csv_names : csv_names garden.
Proof.
  assert (forall w : str, Forall (fun c => c <> comma /\ (33 <= c)%Z) w -> csv_name w) as Hb.
  { intros w Hw. rewrite Forall_forall in Hw. split.
    - intros x Hx. destruct (Hw x Hx) as [H1 H2]. split; [done|]. intros ->. by vm_compute in H2.
    - intros c Hc. apply Hw. by apply last_Some_elem_of. }
  apply (Forall_impl (fun w => Forall (fun c => c <> comma /\ (33 <= c)%Z) (bv_name w) /\ Forall (Forall (fun c => c <> comma /\ (33 <= c)%Z)) (bv_values w))).
  - apply (bool_decide_unpack _); vm_compute; exact I.
  - intros w [H1 H2]. split; [by apply Hb|]. eapply Forall_impl; [exact H2|]. exact Hb.
Qed.
Definition garden_svm : str := lines ["1 2:2 "; "1 1:1 2:2 "]%string.
Definition garden_csv : str := lines ["Rain,Sprinkler,Grass"; "no,on,wet"; "no,off,wet"]%string.
Lemma garden_generated : generate_svm stod4 garden_vars garden_probs 0 [some_draws; high_draws] = Ok garden_svm /\
  generate_csv stod4 garden_vars garden_probs 0 [some_draws; high_draws] = Ok garden_csv.
Proof. split; vm_compute; reflexivity. Qed.
Lemma garden_two : Forall (file_sample garden) [[1; 0; 2]; [1; 1; 2]].
Proof. unfold file_sample. apply (bool_decide_unpack _); vm_compute; exact I. Qed.
