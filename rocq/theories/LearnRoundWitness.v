(** Concrete cases for Properties_LearnRound.v: five rows, 53 binary digits. *)
From Coq Require Import Field QArith.
From Verif Require Import LearnRoundModel LearnSpec RoundModel RoundSpec JTWitness LearnWitness RoundWitness.
Local Open Scope nat_scope.

Definition rows5_rounded : list ptable := Eval vm_compute in get [] (learn_params_r (round_bits 53) jt_net rows5 1 (fun _ _ => 0) []).
Lemma rows5_rounded_ok : learn_params_r (round_bits 53) jt_net rows5 1 (fun _ _ => 0) [] = Ok rows5_rounded.
Proof. vm_compute. reflexivity. Qed.
Definition learned_tree : jtree := Eval vm_compute in get (mkTree [] [] (mkMarks [] [] [] []) (mkTabs [] [])) (jt_build_r (round_bits 53) rev_order jt_net rows5_rounded).
Lemma learned_tree_built : jt_build_r (round_bits 53) rev_order jt_net rows5_rounded = Ok learned_tree.
Proof. vm_compute. reflexivity. Qed.
(** The entries 1/3, and a posterior, are not met exactly. *)
Lemma rows5_inexact : exists t t', rows5_learned !! 3 = Some t /\ rows5_rounded !! 3 = Some t' /\ pt_pots t !! 0 = Some (frac 1 3) /\ exists p, pt_pots t' !! 0 = Some p /\ p <> frac 1 3.
Proof.
  eexists _, _. split; [reflexivity|]. split; [reflexivity|]. split; [apply (bool_decide_unpack _); vm_compute; exact I|]. eexists. split; [vm_compute; reflexivity|]. vm_compute. discriminate.
Qed.
Lemma rows5_sum : exists ts t, learn_params_r (round_bits 53) jt_net rows5 1 (fun _ _ => 0) [] = Ok ts /\ ts !! 0 = Some t /\ pt_vars t = [0] /\ qsum (pt_pots t) (fun p => p) <> 1%Qc.
Proof. eexists _, _. split; [exact rows5_rounded_ok|]. split; [reflexivity|]. split; [reflexivity|]. vm_compute. discriminate. Qed.
Lemma learned_errors : errors_of answer_errors learned_tree (net_size jt_net) 3 = 1033 /\ errors_of marginal_errors learned_tree (net_size jt_net) 3 = 513.
Proof. split; vm_compute; reflexivity. Qed.
(** Node 2 given 3 = 0. *)
Lemma learned_clear : posterior jt_net rows5_learned [(3, 0)] 2 0 = frac 775 1192 /\ ((1 + frac 1 (2 ^ 53)) ^ (2 * 513) * posterior jt_net rows5_learned [(3, 0)]%nat 2 1 < posterior jt_net rows5_learned [(3, 0)]%nat 2 0)%Qc /\
  query_label_r (round_bits 53) wild_sched learned_tree 2 [(3, 0)] (jt_backup learned_tree) = Ok (jt_backup learned_tree, 0).
Proof. split; [apply (bool_decide_unpack _); vm_compute; exact I|]. split; [apply (bool_decide_unpack _); vm_compute; exact I|vm_compute; reflexivity]. Qed.
Lemma learned_inexact : exists ps, query_probs_r (round_bits 53) wild_sched learned_tree [(3, 0)] (jt_backup learned_tree) = Ok (jt_backup learned_tree, ps) /\ length ps = 9 /\ ps !! 0 <> Some (frac 63 149).
Proof. eexists. split; [vm_compute; reflexivity|]. split; [reflexivity|vm_compute; discriminate]. Qed.
