(** Concrete cases for Properties_Equiv.v: 0 -> 1 -> 2 and 2 -> 1 -> 0, and 0 -> 1 and 1 -> 0. *)
From Coq Require Import Field QArith.
From Verif Require Import LikelihoodSpec SampleSpec EssentialSpec JTWitness LearnWitness SampleWitness GraphWitness NetProofs2 NetProofs3 LikelihoodProofs ShdTheorems LikelihoodWitness TableProofs.
Local Open Scope nat_scope.

Definition down_net : network := Eval vm_compute in get (new_network []) (run (new_network [2;3;2]) [AddD 0 1; AddD 1 2]).
Definition up_net : network := Eval vm_compute in get (new_network []) (run (new_network [2;3;2]) [AddD 2 1; AddD 1 0]).
Definition back_net : network := Eval vm_compute in get (new_network []) (run (new_network [2;2]) [AddD 1 0]).
Lemma down_inv : netinv down_net.
Proof. eapply (proj1 (reach [2;3;2] [AddD 0 1; AddD 1 2] down_net _ _ _)). Unshelve. all: vm_compute; reflexivity. Qed.
Lemma up_inv : netinv up_net.
Proof. eapply (proj1 (reach [2;3;2] [AddD 2 1; AddD 1 0] up_net _ _ _)). Unshelve. all: vm_compute; reflexivity. Qed.
Lemma back_inv : netinv back_net.
Proof. eapply (proj1 (reach [2;2] [AddD 1 0] back_net _ _ _)). Unshelve. all: vm_compute; reflexivity. Qed.
Lemma down_arcs x y : arcs_of down_net x y = true <-> (x = 0 /\ y = 1) \/ (x = 1 /\ y = 2).
Proof. unfold arcs_of. rewrite bool_decide_eq_true. change (directed_pairs (nt_edges down_net)) with [(0, 1); (1, 2)]. set_solver. Qed.
Lemma up_arcs x y : arcs_of up_net x y = true <-> (x = 2 /\ y = 1) \/ (x = 1 /\ y = 0).
Proof. unfold arcs_of. rewrite bool_decide_eq_true. change (directed_pairs (nt_edges up_net)) with [(2, 1); (1, 0)]. set_solver. Qed.
Lemma arrow_arcs x y : arcs_of arrow_net x y = true <-> x = 0 /\ y = 1.
Proof. unfold arcs_of. rewrite bool_decide_eq_true. change (directed_pairs (nt_edges arrow_net)) with [(0, 1)]. set_solver. Qed.
Lemma back_arcs x y : arcs_of back_net x y = true <-> x = 1 /\ y = 0.
Proof. unfold arcs_of. rewrite bool_decide_eq_true. change (directed_pairs (nt_edges back_net)) with [(1, 0)]. set_solver. Qed.
Lemma chain_equivalent : markov_equivalent (arcs_of down_net) (arcs_of up_net).
Proof. split; intros; unfold v_structure, meets, adjacent; rewrite ?down_arcs, ?up_arcs; lia. Qed.
Lemma arrow_equivalent : markov_equivalent (arcs_of arrow_net) (arcs_of back_net).
Proof. split; intros; unfold v_structure, meets, adjacent; rewrite ?arrow_arcs, ?back_arcs; lia. Qed.
Lemma down_connected : weakly_connected down_net.
Proof.
  intros x y Hx Hy. assert (forall z, z < 3 -> rtc (fun a b => child_rel down_net a b \/ child_rel down_net b a) z 1 /\ rtc (fun a b => child_rel down_net a b \/ child_rel down_net b a) 1 z) as H.
  { intros z Hz. assert (child_rel down_net 0 1) as H01 by (eexists; split; [reflexivity|vm_compute; by left]). assert (child_rel down_net 1 2) as H12 by (eexists; split; [reflexivity|vm_compute; by left]).
    destruct z as [|[|[|z]]]; [..|lia]; (split; [|]); try apply rtc_refl; apply rtc_once; tauto. }
  etransitivity; [apply H, Hx|apply H, Hy].
Qed.
Definition rows8 : columns := mkCols [[0;0;1;1;1;0;1;0];[0;1;2;0;2;1;1;0];[0;1;1;0;0;0;1;1]] 8 3.
Lemma rows8_hyps : doms_positive down_net /\ 0 < net_size down_net /\ domain_sizes down_net = domain_sizes up_net /\ complete down_net rows8 /\ co_vars rows8 = net_size down_net.
Proof. split_and!; [apply (bool_decide_unpack _); vm_compute; exact I|vm_compute; lia|reflexivity| |reflexivity]. apply complete_check; [reflexivity|vm_compute; lia|vm_compute; reflexivity]. Qed.
Definition down8 : list ptable := Eval vm_compute in get [] (learn_params down_net rows8 0 (fun _ _ => 0) []).
Definition up8 : list ptable := Eval vm_compute in get [] (learn_params up_net rows8 0 (fun _ _ => 0) []).
Lemma down8_learn : learn_params down_net rows8 0 (fun _ _ => 0) [] = Ok down8.
Proof. vm_compute. reflexivity. Qed.
Lemma up8_learn : learn_params up_net rows8 0 (fun _ _ => 0) [] = Ok up8.
Proof. vm_compute. reflexivity. Qed.
(** Different tables. *)
Lemma tables8 : pt_pots <$> down8 = [[frac 1 2; frac 1 2]; [frac 1 2; frac 1 4; frac 1 2; frac 1 4; frac 0 1; frac 1 2]; [frac 2 3; frac 1 3; frac 1 2; frac 1 3; frac 2 3; frac 1 2]] /\
  pt_vars <$> down8 = [[0]; [1; 0]; [2; 1]] /\ pt_vars <$> up8 = [[0; 1]; [1; 2]; [2]] /\ posterior down_net down8 [(2, 0)] 0 1 = posterior up_net up8 [(2, 0)] 0 1 /\ evidence_weight down_net down8 [(2, 0)] = frac 1 2.
Proof. split_and!; try reflexivity; apply (bool_decide_unpack _); vm_compute; exact I. Qed.
(** With smoothing: one row, (0, 0). *)
Lemma smoothing_refutes : exists N1 N2 D k coin ts1 ts2 a, netinv N1 /\ netinv N2 /\ doms_positive N1 /\ domain_sizes N1 = domain_sizes N2 /\ markov_equivalent (arcs_of N1) (arcs_of N2) /\ complete N1 D /\ co_vars D = net_size N1 /\ (0 < k)%Z /\
  learn_params N1 D k coin [] = Ok ts1 /\ learn_params N2 D k coin [] = Ok ts2 /\ valid (net_dom N1) a /\ joint ts1 a = frac 2 9 /\ joint ts2 a = frac 1 6.
Proof.
  exists arrow_net, back_net, row1, 1%Z, (fun _ _ => 0), (get [] (learn_params arrow_net row1 1 (fun _ _ => 0) [])), (get [] (learn_params back_net row1 1 (fun _ _ => 0) [])), (upd (fun _ => 0) 1 1).
  split_and!; [exact arrow_inv|exact back_inv|exact arrow_doms|reflexivity|exact arrow_equivalent|exact row1_complete|reflexivity|lia|vm_compute; reflexivity|vm_compute; reflexivity| | |]; try (apply (bool_decide_unpack _); vm_compute; exact I).
  apply valid_upd; [|vm_compute; lia]. intros v. apply (LearnProofs.dpos arrow_net arrow_inv arrow_doms).
Qed.
(** Only one of the two nodes takes all its values. *)
Definition rows2 : columns := mkCols [[0;1];[0;0]] 2 2.
Lemma failure_refutes : exists N1 N2 D coin ts1, netinv N1 /\ netinv N2 /\ doms_positive N1 /\ domain_sizes N1 = domain_sizes N2 /\ markov_equivalent (arcs_of N1) (arcs_of N2) /\ complete N1 D /\ co_vars D = net_size N1 /\
  learn_params N1 D 0 coin [] = Ok ts1 /\ learn_params N2 D 0 coin [] = Err DivZero.
Proof.
  exists arrow_net, back_net, rows2, (fun _ _ => 0), (get [] (learn_params arrow_net rows2 0 (fun _ _ => 0) [])).
  split_and!; [exact arrow_inv|exact back_inv|exact arrow_doms|reflexivity|exact arrow_equivalent| |reflexivity|vm_compute; reflexivity|vm_compute; reflexivity]. apply complete_check; [reflexivity|vm_compute; lia|vm_compute; reflexivity].
Qed.
(** Graphs with the same adjacencies only: 0 -> 1 -> 2 and 0 -> 1 <- 2. *)
Definition meet_net : network := Eval vm_compute in get (new_network []) (run (new_network [2;3;2]) [AddD 0 1; AddD 2 1]).
Lemma adjacency_refutes : exists ts1 ts2 a, (forall x y, adjacent (arcs_of down_net) x y <-> adjacent (arcs_of meet_net) x y) /\ learn_params down_net rows8 0 (fun _ _ => 0) [] = Ok ts1 /\ learn_params meet_net rows8 0 (fun _ _ => 0) [] = Ok ts2 /\ joint ts1 a <> joint ts2 a.
Proof.
  eexists _, _, (fun _ => 0). split_and!; [|vm_compute; reflexivity|vm_compute; reflexivity|vm_compute; discriminate].
  intros x y. unfold adjacent. rewrite !down_arcs. unfold arcs_of. rewrite !bool_decide_eq_true. change (directed_pairs (nt_edges meet_net)) with [(0, 1); (2, 1)]. set_solver by lia.
Qed.
