(** 0 -> 1, sampled on the grid of 400 x 400 draws. *)
From Coq Require Import QArith.
From Verif Require Import SimulateSpec SimulateTheorems GraphWitness NetProofs2 NetProofs3 LearnProofs LearnTheorems SampleProofs JTWitness LearnWitness LikelihoodWitness SampleWitness RecoverWitness BayesWitness TableProofs.
Local Open Scope nat_scope.

Definition wire_histories : list history := [[]; [((0, [(0, 0)]), 2%Z); ((1, [(0, 1)]), 2%Z)]].
Definition wire_counters : list counters := imap (fun x h => add_counts (default (new_node 0) (nt_nodes arrow_net !! x)) h new_counters) wire_histories.
Definition wire_cpts : list ptable := Eval vm_compute in match node_tables arrow_net wire_counters with Ok ts => ts | _ => [] end.
Lemma wire_cpts_ok : node_tables arrow_net wire_counters = Ok wire_cpts.
Proof. vm_compute. reflexivity. Qed.
Lemma wire_cpts_distributions : distributions arrow_net wire_cpts.
Proof.
  destruct (generated_samples arrow_net wire_histories [] arrow_inv eq_refl arrow_doms eq_refl) as (ts & _ & _ & _ & H1 & H2 & _); [|vm_compute; lia|].
  - intros x h Hx. destruct x as [|[|x]]; [..|done]; injection Hx as <-; [constructor|]. repeat constructor; vm_compute; try lia; done.
  - pose proof wire_cpts_ok as H. unfold wire_counters in H. rewrite H1 in H. injection H as <-. exact H2.
Qed.
Lemma wire_hyps : netinv arrow_net /\ nt_topo arrow_net = [] /\ doms_positive arrow_net /\ 0 < net_size arrow_net /\ weakly_connected arrow_net /\ node_tables arrow_net wire_counters = Ok wire_cpts /\ distributions arrow_net wire_cpts /\
  (exists t, wire_cpts !! 1 = Some t /\ tval t (fun _ => 0) = frac 3 4).
Proof.
  split_and!; [exact arrow_inv|reflexivity|exact arrow_doms|vm_compute; lia| |exact wire_cpts_ok|exact wire_cpts_distributions|].
  - assert (child_rel arrow_net 0 1) as H01 by (eexists; split; [reflexivity|vm_compute; by left]). intros x y Hx Hy. change (net_size arrow_net) with 2 in *. destruct x as [|[|x]]; [..|lia]; destruct y as [|[|y]]; try lia; try apply rtc_refl; apply rtc_once; tauto.
  - eexists. split; [reflexivity|]. apply (bool_decide_unpack _); vm_compute; exact I.
Qed.
Lemma wire_even : forall x a, x < net_size arrow_net -> valid (net_dom arrow_net) a -> (frac 1 2 <= chance arrow_net wire_cpts (parents_of arrow_net x) a)%Qc.
Proof. apply chance_check; [exact arrow_inv|exact arrow_doms|exact wire_cpts_distributions|reflexivity|vm_compute; reflexivity]. Qed.
(** Every row is within 1/200 of its probability, every learned entry within 3201/38400. *)
Lemma wire_grid : discrepancy (frac 1 200) (net_size arrow_net) (grid 400 2) /\ (qn (prod_list (domain_sizes arrow_net)) * frac 1 200 = frac 1 50)%Qc /\
  (((1 + 1) * frac 1 50 + qn 1 / qn (400 ^ 2)%nat * qn (net_dom arrow_net 1)) / (frac 1 2 - frac 1 50) = frac 3201 38400)%Qc.
Proof.
  split_and!; [|apply (bool_decide_unpack _); vm_compute; exact I..]. replace (frac 1 200) with (qn 2 / qn 400)%Qc by (apply (bool_decide_unpack _); vm_compute; exact I). apply grid_discrepancy. lia.
Qed.
Lemma wire_positive x a : x < net_size arrow_net -> valid (net_dom arrow_net) a -> (0 < chance arrow_net wire_cpts (parents_of arrow_net x) a)%Qc.
Proof. intros Hx Ha. apply (Qclt_le_trans _ (frac 1 2)); [done|]. by apply wire_even. Qed.
