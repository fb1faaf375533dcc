(** What is learned without smoothing does not depend on the member of the equivalence class. *)
From Coq Require Import Field QArith.
From Verif Require Import LikelihoodSpec SampleSpec EssentialSpec NetProofs2 BuildProofs CountProofs QueryProofs Sums BeliefProofs LearnProofs LearnTheorems JTTheorems ShdTheorems GibbsProofs LikelihoodProofs CoverProofs TableProofs.
Local Open Scope nat_scope.

Lemma occurrences_set cols rows l1 l2 a : (forall v, v ∈ l1 <-> v ∈ l2) -> occurrences cols rows l1 a = occurrences cols rows l2 a.
Proof. intros H. unfold occurrences. f_equal. apply LearnProofs.filter_ext_in. intros j _. unfold agrees. rewrite !Forall_forall. split; intros Hv v Hin; apply Hv; by apply H. Qed.
Lemma occurrences_none cols rows v l a : occurrences cols rows l a = 0 -> occurrences cols rows (v :: l) a = 0.
Proof.
  unfold occurrences. intros H. apply nil_length_inv in H. destruct (filter (agrees cols (v :: l) a) (seq 0 rows)) as [|j r] eqn:E; [done|]. exfalso.
  assert (j ∈ filter (agrees cols (v :: l) a) (seq 0 rows)) as Hj by (rewrite E; left). apply elem_of_list_filter in Hj as [Hj Hin]. apply (elem_of_nil j). rewrite <-H. apply elem_of_list_filter. split; [|done]. by inversion Hj.
Qed.
Lemma parents_of_arcs N v p : netinv N -> p ∈ parents_of N v <-> p ∈ dag_parents (net_size N) (arcs_of N) v.
Proof.
  intros HN. rewrite dag_parents_elem, arcs_of_spec. pose proof (proj2 (ni_consistent _ HN p v)) as HC. assert (p ∈ parents_of N v <-> parent_rel N p v) as HP.
  { unfold parents_of, parent_rel. destruct (nt_nodes N !! v) as [nd|] eqn:E; [|split; [by intros []%elem_of_nil|by intros (nd & ? & _)]]. split; [intros Hp; by exists nd|]. by intros (nd' & [= <-] & Hp). }
  rewrite HP, <-HC. split; [|by intros [? _]]. intros H. split; [done|]. apply (proj1 (fresh_dag_dag N HN) p v). by apply arcs_of_spec.
Qed.
Definition frequencies (D : columns) (a : asg) (l : list nat) : Qc := qn (occurrences (co_cols D) (co_rows D) l a).
Lemma joint_families N : netinv N -> doms_positive N -> forall D, complete N D -> co_vars D = net_size N -> forall coin ts, learn_params N D 0 coin [] = Ok ts ->
  forall a, valid (net_dom N) a -> joint ts a = families (net_size N) (frequencies D a) (arcs_of N).
Proof.
  intros HN Hd D HD Hs coin ts Hts a Ha. destruct (learned_cpts N HN Hd D HD Hs 0 coin ts Hts) as [Hl Hall].
  rewrite (joint_product ts (fun x a => smoothed N (co_cols D) (co_rows D) 0 x (parents_of N x) a)).
  - rewrite Hl. apply qprod_ext. intros v Hv. unfold smoothed, frequencies. f_equal.
    + rewrite Qcplus_0_r. f_equal. apply occurrences_set. intros w. by rewrite !elem_of_cons, (parents_of_arcs N v w HN).
    + rewrite Qcmult_0_l, Qcplus_0_r. f_equal. apply occurrences_set. intros w. apply (parents_of_arcs N v w HN).
  - intros x t Ht. destruct (lookup_lt_is_Some_2 (nt_nodes N) x) as [nd Hx]; [apply lookup_lt_Some in Ht; unfold net_size in *; lia|]. destruct (Hall x nd Hx) as (t' & Ht' & (_ & _ & HC) & _). rewrite (parents_lookup N x nd Hx). replace t with t' by congruence. by apply HC.
Qed.

Lemma learned_vars D N coin ts : netinv N -> doms_positive N -> complete N D -> co_vars D = net_size N -> learn_params N D 0 coin [] = Ok ts -> distributions N ts /\ forall t v, t ∈ ts -> v ∈ pt_vars t -> v < net_size N.
Proof.
  intros HN Hd HD Hs L. pose proof (proj1 (learned_maximise N HN Hd D HD Hs 0 coin ts L)) as Hdist. split; [done|]. intros t v Ht Hv. apply elem_of_list_lookup in Ht as [x Ht]. destruct (proj2 Hdist x t Ht) as (_ & Hvars & _). rewrite Hvars in Hv.
  apply elem_of_cons in Hv as [->|Hv]; [rewrite <-(proj1 Hdist); by eapply lookup_lt_Some|]. rewrite (parents_of_arcs N x v HN), dag_parents_elem in Hv. apply Hv.
Qed.
Lemma learned_family N ts : netinv N -> doms_positive N -> distributions N ts -> Forall (table_of_family N) ts /\ Forall (nonneg (net_dom N)) ts.
Proof.
  intros HN Hd [Hl H]. split; apply Forall_forall; intros t Ht; apply elem_of_list_lookup in Ht as [x Ht]; destruct (H x t Ht) as (Hw & Hv & Hn & _); [|done].
  destruct (lookup_lt_is_Some_2 (nt_nodes N) x) as [nd Hx]; [apply lookup_lt_Some in Ht; unfold net_size in *; lia|].
  apply (is_cpt_family N HN Hd) with x nd (tval t); [done|]. rewrite (parents_lookup N x nd Hx) in Hv. by split_and!.
Qed.
Section equivalent.
Context (N1 N2 : network) (HN1 : netinv N1) (HN2 : netinv N2) (Hd : doms_positive N1) (Hdom : domain_sizes N1 = domain_sizes N2) (HE : markov_equivalent (arcs_of N1) (arcs_of N2)).
Context (D : columns) (HD : complete N1 D) (Hs : co_vars D = net_size N1).
Context (coin1 coin2 : nat -> nat -> nat) (ts1 ts2 : list ptable) (L1 : learn_params N1 D 0 coin1 [] = Ok ts1) (L2 : learn_params N2 D 0 coin2 [] = Ok ts2).
Set Default Proof Using "All".
Lemma same_size : net_size N1 = net_size N2.
Proof. pose proof (f_equal length Hdom) as H. unfold domain_sizes in H. by rewrite !fmap_length in H. Qed.
Lemma same_dom : net_dom N1 = net_dom N2.
Proof. unfold net_dom. by rewrite Hdom. Qed.
Lemma complete_2 : complete N2 D.
Proof. destruct HD as (H1 & H2 & H3). split_and!; [done|rewrite <-same_size; done|]. by rewrite <-same_dom. Qed.
Lemma same_joint a : valid (net_dom N1) a -> joint ts1 a = joint ts2 a.
Proof.
  intros Ha. rewrite (joint_families N1 HN1 Hd D HD Hs coin1 ts1 L1 a Ha).
  rewrite (joint_families N2 HN2) with (D := D) (coin := coin2); [|unfold doms_positive; by rewrite <-Hdom|exact complete_2|by rewrite <-same_size|done|by rewrite <-same_dom].
  rewrite <-same_size. apply families_equivalent; [| | | |done].
  - intros l1 l2 H. unfold frequencies. f_equal. by apply occurrences_set.
  - intros v l H. unfold frequencies in *. destruct (decide (occurrences (co_cols D) (co_rows D) l a = 0)) as [E|E]; [by rewrite occurrences_none|]. exfalso. revert H. apply qn_ne. lia.
  - by apply fresh_dag_dag.
  - rewrite same_size. by apply fresh_dag_dag.
Qed.
(** ** Posteriors *)
Definition within (a : asg) : asg := fun v => if decide (v < net_size N1) then a v else 0.
Lemma joint_within ts a : (forall t v, t ∈ ts -> v ∈ pt_vars t -> v < net_size N1) -> joint ts (within a) = joint ts a.
Proof. intros H. apply qprod_ext. intros t Ht. apply tval_dep. intros v Hv. unfold within. rewrite decide_True; [done|]. by eapply H. Qed.
Lemma vars_1 t v : t ∈ ts1 -> v ∈ pt_vars t -> v < net_size N1.
Proof. by apply (learned_vars D N1 coin1 ts1 HN1 Hd HD Hs L1). Qed.
Lemma learned_2 : distributions N2 ts2 /\ forall t v, t ∈ ts2 -> v ∈ pt_vars t -> v < net_size N2.
Proof. apply (learned_vars D N2 coin2 ts2 HN2); [unfold doms_positive; by rewrite <-Hdom|exact complete_2|by rewrite <-same_size|done]. Qed.
Lemma same_joint_range a : (forall v, v < net_size N1 -> a v < net_dom N1 v) -> joint ts1 a = joint ts2 a.
Proof.
  intros Ha. rewrite <-(joint_within ts1 a vars_1), <-(joint_within ts2 a) by (rewrite same_size; apply learned_2).
  apply same_joint. intros v. unfold within. destruct (decide (v < net_size N1)); [by apply Ha|]. apply (dpos N1 HN1 Hd).
Qed.
Lemma evidence_range E a : evidence_in_range N1 E -> valid (net_dom N1) a -> forall v, v < net_size N1 -> set_evidence E a v < net_dom N1 v.
Proof.
  clear. intros H Ha v Hv. unfold set_evidence. induction E as [|[w x] E IH]; [apply Ha|]. cbn. destruct (decide (v = w)) as [->|]; [rewrite upd_same; by apply H; [left|]|]. rewrite upd_other by done. apply IH. intros w' x' Hin. apply H. by right.
Qed.
Lemma same_sum E vs a : evidence_in_range N1 E -> valid (net_dom N1) a ->
  sumv (net_dom N1) vs (fun a => joint ts1 (set_evidence E a)) a = sumv (net_dom N2) vs (fun a => joint ts2 (set_evidence E a)) a.
Proof. intros H Ha. rewrite <-same_dom. apply sumv_ext; [done|]. intros b Hb _. apply same_joint_range. by apply evidence_range. Qed.
Lemma same_evidence_weight E : evidence_in_range N1 E -> evidence_weight N1 ts1 E = evidence_weight N2 ts2 E.
Proof. intros H. unfold evidence_weight. rewrite <-same_size. apply same_sum; [done|]. intros v. apply (dpos N1 HN1 Hd). Qed.
Lemma same_posterior E q x : evidence_in_range N1 E -> x < net_dom N1 q -> posterior N1 ts1 E q x = posterior N2 ts2 E q x.
Proof. intros H Hx. unfold posterior. rewrite same_evidence_weight by done. f_equal. unfold JTSpec.weight. rewrite <-same_size. apply same_sum; [done|]. apply valid_upd; [|done]. intros v. apply (dpos N1 HN1 Hd). Qed.
Lemma same_answer E : evidence_in_range N1 E -> answer_all N1 ts1 E = answer_all N2 ts2 E.
Proof.
  intros H. unfold answer_all. rewrite <-Hdom, <-same_size.
  assert (seq 0 (net_size N1) ≫= answer_block N1 ts1 E = seq 0 (net_size N1) ≫= answer_block N2 ts2 E) as ->; [|done].
  assert (forall q, answer_block N1 ts1 E q = answer_block N2 ts2 E q) as Hb; [|induction (seq 0 (net_size N1)) as [|q l IH]; [done|]; cbn; by rewrite Hb, IH].
  intros q. unfold answer_block. destruct (bool_decide (q ∈ fst <$> E)); [done|]. rewrite <-same_dom. apply list_fmap_ext. intros i x Hx. apply lookup_seq in Hx as [-> Hx]. by apply same_posterior.
Qed.
Lemma same_likelihood : likelihood D ts1 = likelihood D ts2.
Proof. apply qprod_ext. intros j Hj. apply elem_of_seq in Hj. apply same_joint. apply (data_row_valid N1 HN1 Hd D HD Hs 0). lia. Qed.
Lemma connected_2 : weakly_connected N1 -> weakly_connected N2.
Proof.
  intros H x y Hx Hy. rewrite <-same_size in Hx, Hy. specialize (H x y Hx Hy). induction H as [|x z y Hxz _ IH]; [done|].
  assert (z < net_size N1) as Hz.
  { destruct Hxz as [Hc|Hc]; apply (proj1 (ni_consistent _ HN1 _ _)), arcs_of_spec, (proj1 (fresh_dag_dag N1 HN1)) in Hc; apply Hc. }
  eapply rtc_l; [|by apply IH]. assert (adjacent (arcs_of N1) x z) as Ha.
  { destruct Hxz as [Hc|Hc]; apply (proj1 (ni_consistent _ HN1 _ _)), arcs_of_spec in Hc; [by left|by right]. }
  apply HE in Ha as [Ha|Ha]; apply arcs_of_spec, (proj1 (ni_consistent _ HN2 _ _)) in Ha; [by left|by right].
Qed.
End equivalent.

Theorem class_distribution N1 N2 : netinv N1 -> netinv N2 -> doms_positive N1 -> domain_sizes N1 = domain_sizes N2 -> markov_equivalent (arcs_of N1) (arcs_of N2) ->
  forall D, complete N1 D -> co_vars D = net_size N1 -> forall coin1 coin2 ts1 ts2, learn_params N1 D 0 coin1 [] = Ok ts1 -> learn_params N2 D 0 coin2 [] = Ok ts2 ->
  (forall a, valid (net_dom N1) a -> joint ts1 a = joint ts2 a) /\ likelihood D ts1 = likelihood D ts2 /\
  forall E q x, evidence_in_range N1 E -> x < net_dom N1 q -> posterior N1 ts1 E q x = posterior N2 ts2 E q x.
Proof.
  intros HN1 HN2 Hd Hdom HE D HD Hs coin1 coin2 ts1 ts2 L1 L2. split_and!.
  - intros a. by apply (same_joint N1 N2 HN1 HN2 Hd Hdom HE D HD Hs coin1 coin2 ts1 ts2 L1 L2).
  - by apply (same_likelihood N1 N2 HN1 HN2 Hd Hdom HE D HD Hs coin1 coin2 ts1 ts2 L1 L2).
  - intros E q x. by apply (same_posterior N1 N2 HN1 HN2 Hd Hdom HE D HD Hs coin1 coin2 ts1 ts2 L1 L2).
Qed.
Theorem class_answers N1 N2 : netinv N1 -> netinv N2 -> doms_positive N1 -> 0 < net_size N1 -> domain_sizes N1 = domain_sizes N2 -> markov_equivalent (arcs_of N1) (arcs_of N2) -> weakly_connected N1 ->
  forall D, complete N1 D -> co_vars D = net_size N1 -> forall coin1 coin2 ts1 ts2, learn_params N1 D 0 coin1 [] = Ok ts1 -> learn_params N2 D 0 coin2 [] = Ok ts2 ->
  forall o1 o2, valid_order o1 -> valid_order o2 -> exists T1 T2, jt_build o1 N1 ts1 = Ok T1 /\ jt_build o2 N2 ts2 = Ok T2 /\
  forall sch1 sch2 E, valid_scheduler sch1 -> valid_scheduler sch2 -> evidence_in_range N1 E -> evidence_weight N1 ts1 E <> 0%Qc ->
    exists ps, query_probs sch1 T1 E (jt_backup T1) = Ok (jt_backup T1, ps) /\ query_probs sch2 T2 E (jt_backup T2) = Ok (jt_backup T2, ps).
Proof.
  intros HN1 HN2 Hd Hn Hdom HE Hc D HD Hs coin1 coin2 ts1 ts2 L1 L2 o1 o2 Ho1 Ho2.
  pose proof (same_size N1 N2 HN1 HN2 Hd Hdom HE D HD Hs coin1 coin2 ts1 ts2 L1 L2) as Hsz. pose proof (same_dom N1 N2 HN1 HN2 Hd Hdom HE D HD Hs coin1 coin2 ts1 ts2 L1 L2) as Hdm.
  pose proof (connected_2 N1 N2 HN1 HN2 Hd Hdom HE D HD Hs coin1 coin2 ts1 ts2 L1 L2 Hc) as Hc2.
  assert (doms_positive N2) as Hd2 by (unfold doms_positive; by rewrite <-Hdom).
  destruct (learned_family N1 ts1 HN1 Hd (proj1 (learned_vars D N1 coin1 ts1 HN1 Hd HD Hs L1))) as [F1 G1].
  destruct (learned_family N2 ts2 HN2 Hd2 (proj1 (learned_2 N1 N2 HN1 HN2 Hd Hdom HE D HD Hs coin1 coin2 ts1 ts2 L1 L2))) as [F2 G2].
  assert (net_ok N1) as O1 by (by apply netinv_ok). assert (net_ok N2) as O2 by (by apply netinv_ok). assert (0 < net_size N2) as Hn2 by (by rewrite <-Hsz).
  destruct (build_iff N1 o1 ts1 O1 Hn Ho1 F1 G1) as [B1 _]. destruct (proj2 B1 Hc) as [T1 HT1]. destruct (build_iff N2 o2 ts2 O2 Hn2 Ho2 F2 G2) as [B2 _]. destruct (proj2 B2 Hc2) as [T2 HT2].
  exists T1, T2. split_and!; [done|done|]. intros sch1 sch2 E S1 S2 HEv HW. exists (answer_all N1 ts1 E). split; [by apply (exact_probs N1 O1 Hn o1 Ho1 ts1 F1 G1 T1 HT1 sch1 E S1 HEv)|].
  rewrite (same_answer N1 N2 HN1 HN2 Hd Hdom HE D HD Hs coin1 coin2 ts1 ts2 L1 L2 E HEv). apply (exact_probs N2 O2 Hn2 o2 Ho2 ts2 F2 G2 T2 HT2 sch2 E S2).
  - intros v x Hin. rewrite <-Hsz, <-Hdm. by apply HEv.
  - by rewrite <-(same_evidence_weight N1 N2 HN1 HN2 Hd Hdom HE D HD Hs coin1 coin2 ts1 ts2 L1 L2 E HEv).
Qed.
