(** Training on the 16 rows of the collider 0 -> 2 <- 1 and testing on 32 rows. *)
From Coq Require Import QArith.
From Verif Require Import BayesSpec GSquareSpec OrientSafe NetProofs2 LearnTheorems EquivTheorems LearnWitness LikelihoodWitness IndepWitness RecoverWitness ExtendWitness BayesWitness TableProofs.
Local Open Scope nat_scope.

Definition rows32 : columns := Eval vm_compute in pick_rows (seq 0 16 ++ seq 0 16) rows16.
Lemma rows32_hyps : complete meet_net rows32 /\ co_vars rows32 = net_size meet_net /\ representative meet_net meet_tables rows32 /\ 20 <= co_rows rows32.
Proof.
  split_and!; [apply complete_check; [reflexivity|vm_compute; lia|vm_compute; reflexivity]|reflexivity| |vm_compute; lia].
  apply representative_check; [exact meet_inv|exact meet_doms|exact meet_distributions|reflexivity|vm_compute; lia|vm_compute; reflexivity].
Qed.
