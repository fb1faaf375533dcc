(** Concrete cases for Properties_Likelihood.v: two nodes 0 -> 1. *)
From Coq Require Import Field QArith.
From Verif Require Import LikelihoodSpec SampleSpec JTWitness LearnWitness SampleWitness GraphWitness NetProofs2 NetProofs3 LikelihoodProofs TableProofs.
Local Open Scope nat_scope.

Definition arrow_net : network := Eval vm_compute in get (new_network []) (run (new_network [2;2]) [AddD 0 1]).
Lemma arrow_inv : netinv arrow_net.
Proof. eapply (proj1 (reach [2;2] [AddD 0 1] arrow_net _ _ _)). Unshelve. all: vm_compute; reflexivity. Qed.
Definition rows6 : columns := mkCols [[0;0;0;1;1;0];[0;1;0;1;1;1]] 6 2.
Definition row1 : columns := mkCols [[0];[0]] 1 2.
Lemma arrow_doms : doms_positive arrow_net.
Proof. apply (bool_decide_unpack _); vm_compute; exact I. Qed.
Lemma rows6_hyps : netinv arrow_net /\ doms_positive arrow_net /\ complete arrow_net rows6 /\ co_vars rows6 = net_size arrow_net.
Proof. split_and!; [exact arrow_inv|exact arrow_doms| |reflexivity]. apply complete_check; [reflexivity|vm_compute; lia|vm_compute; reflexivity]. Qed.
Lemma row1_complete : complete arrow_net row1.
Proof. apply complete_check; [reflexivity|vm_compute; lia|vm_compute; reflexivity]. Qed.
(** Relative frequencies, with and without smoothing. *)
Definition arrow_tables (p0 p1 p00 p01 p10 p11 : Qc) : list ptable := [mk_table [0] [2] [p0; p1]; mk_table [1;0] [2;2] [p00; p01; p10; p11]].
Definition plain6 : list ptable := Eval vm_compute in get [] (learn_params arrow_net rows6 0 (fun _ _ => 0) []).
Definition smooth6 : list ptable := Eval vm_compute in get [] (learn_params arrow_net rows6 1 (fun _ _ => 0) []).
Lemma plain6_learn : learn_params arrow_net rows6 0 (fun _ _ => 0) [] = Ok plain6.
Proof. vm_compute. reflexivity. Qed.
Lemma smooth6_learn : learn_params arrow_net rows6 (Z.of_nat 1) (fun _ _ => 0) [] = Ok smooth6.
Proof. vm_compute. reflexivity. Qed.
Definition even_tables : list ptable := arrow_tables (frac 1 2) (frac 1 2) (frac 1 2) (frac 1 2) (frac 1 2) (frac 1 2).
Definition sure_tables : list ptable := arrow_tables 1 0 1 1 0 0.
Lemma arrow_distributions p0 p1 p00 p01 p10 p11 : (0 <= p0 /\ 0 <= p1 /\ 0 <= p00 /\ 0 <= p01 /\ 0 <= p10 /\ 0 <= p11 /\ p0 + p1 = 1 /\ p00 + p10 = 1 /\ p01 + p11 = 1)%Qc -> distributions arrow_net (arrow_tables p0 p1 p00 p01 p10 p11).
Proof.
  intros (A0 & A1 & A2 & A3 & A4 & A5 & S0 & S1 & S2). split; [reflexivity|]. intros x t Ht. destruct x as [|[|x]]; [..|done]; injection Ht as <-.
  - split_and!; [repeat constructor; try (intros []%elem_of_nil); try reflexivity|reflexivity| |].
    + intros a Ha. assert (a 0 < 2) as H0 by apply Ha. unfold tval. cbn. destruct (a 0) as [|[|?]]; [exact A0|exact A1|lia].
    + intros a Ha. unfold tval. cbn. rewrite Qcplus_0_r. exact S0.
  - split_and!; [repeat constructor; try (intros []%elem_of_nil); try reflexivity|reflexivity| |].
    + set_solver.
    + intros a Ha. assert (a 0 < 2 /\ a 1 < 2) as [H0 H1] by (split; apply Ha). unfold tval. cbn. destruct (a 0) as [|[|?]]; [| |lia]; (destruct (a 1) as [|[|?]]; [| |lia]); done.
    + intros a Ha. assert (a 0 < 2) as H0 by apply Ha. unfold tval, upd. cbn. destruct (a 0) as [|[|?]]; [| |lia]; cbn; rewrite Qcplus_0_r; [exact S1|exact S2].
Qed.
Lemma even_distributions : distributions arrow_net even_tables.
Proof. apply arrow_distributions. apply (bool_decide_unpack _). vm_compute. exact I. Qed.
Lemma sure_distributions : distributions arrow_net sure_tables.
Proof. apply arrow_distributions. apply (bool_decide_unpack _). vm_compute. exact I. Qed.
Lemma rows6_values : likelihood rows6 plain6 = frac 1 729 /\ likelihood rows6 even_tables = frac 1 4096 /\ (likelihood rows6 smooth6 < likelihood rows6 plain6)%Qc /\
  (likelihood rows6 plain6 * imagined 1 plain6 = 0)%Qc /\ (likelihood rows6 even_tables * imagined 1 even_tables = frac 1 262144)%Qc /\ (likelihood rows6 smooth6 * imagined 1 smooth6 = frac 2278125 274877906944)%Qc.
Proof. split_and!; apply (bool_decide_unpack _); vm_compute; exact I. Qed.
(** A likeliest choice exists, and learning divides by zero: the parent's value 1 does not occur. *)
Lemma row1_refutes : exists N D ts, netinv N /\ doms_positive N /\ complete N D /\ co_vars D = net_size N /\ distributions N ts /\ (forall qs, distributions N qs -> (likelihood D qs <= likelihood D ts)%Qc) /\
  forall coin, learn_params N D 0 coin [] = Err DivZero.
Proof.
  exists arrow_net, row1, sure_tables. split_and!; [exact arrow_inv|exact arrow_doms|exact row1_complete|reflexivity|exact sure_distributions| |intros coin; vm_compute; reflexivity].
  intros qs Hq. replace (likelihood row1 sure_tables) with 1%Qc by (apply (bool_decide_unpack _); vm_compute; exact I).
  by apply (likelihood_at_most_one arrow_net arrow_inv arrow_doms row1 row1_complete eq_refl).
Qed.
Lemma rows6_refutes : exists N D k coin ts qs, netinv N /\ doms_positive N /\ complete N D /\ co_vars D = net_size N /\ 0 < k /\ learn_params N D (Z.of_nat k) coin [] = Ok ts /\ distributions N qs /\ (likelihood D ts < likelihood D qs)%Qc.
Proof.
  destruct rows6_hyps as (H1 & H2 & H3 & H4). exists arrow_net, rows6, 1, (fun _ _ => 0), smooth6, plain6. split_and!; [done|done|done|done|lia|exact smooth6_learn| |apply rows6_values].
  by apply (learned_likeliest arrow_net H1 H2 rows6 H3 H4 _ _ plain6_learn).
Qed.
