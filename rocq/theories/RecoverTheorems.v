(** The network is recovered from representative data. *)
From Coq Require Import Field QArith Lqa.
From Verif Require Import RecoverSpec EssentialSpec NetProofs2 BuildProofs CountProofs QueryProofs Sums BeliefProofs LearnProofs LearnTheorems JTTheorems ShdTheorems SampleProofs GibbsProofs LikelihoodProofs CoverProofs EquivTheorems RecoverProofs FlowProofs TableProofs2 TableProofs.
Local Open Scope nat_scope.

Lemma evidence_within N E a : evidence_in_range N E -> valid (net_dom N) a -> forall v, v < net_size N -> set_evidence E a v < net_dom N v.
Proof.
  intros H Ha v Hv. unfold set_evidence. induction E as [|[w x] E IH]; [apply Ha|]. cbn. destruct (decide (v = w)) as [->|]; [rewrite upd_same; by apply H; [left|]|]. rewrite upd_other by done. apply IH. intros w' x' Hin. apply H. by right.
Qed.
(** ** Networks with the same joint distribution have the same answers *)
Section same.
Context (N1 N2 : network) (HN1 : netinv N1) (HN2 : netinv N2) (Hd : doms_positive N1) (Hdom : domain_sizes N1 = domain_sizes N2).
Context (ts1 ts2 : list ptable) (H1 : distributions N1 ts1) (H2 : distributions N2 ts2) (HJ : forall a, valid (net_dom N1) a -> joint ts1 a = joint ts2 a).
Set Default Proof Using "All".
Lemma size_eq : net_size N1 = net_size N2.
Proof. pose proof (f_equal length Hdom) as H. unfold domain_sizes in H. by rewrite !fmap_length in H. Qed.
Lemma dom_eq : net_dom N1 = net_dom N2.
Proof. unfold net_dom. by rewrite Hdom. Qed.
Lemma doms_2 : doms_positive N2.
Proof. unfold doms_positive. by rewrite <-Hdom. Qed.
Lemma joint_range a : (forall v, v < net_size N1 -> a v < net_dom N1 v) -> joint ts1 a = joint ts2 a.
Proof.
  intros Ha. destruct (topo_exists N1 HN1) as [o1 O1]. destruct (topo_exists N2 HN2) as [o2 O2]. set (b := fun v => if decide (v < net_size N1) then a v else 0).
  rewrite (SampleProofs.joint_dep N1 HN1 Hd ts1 H1 o1 O1 a b), (SampleProofs.joint_dep N2 HN2 doms_2 ts2 H2 o2 O2 a b).
  - apply HJ. intros v. unfold b. destruct (decide (v < net_size N1)); [by apply Ha|]. apply (dpos N1 HN1 Hd).
  - intros v Hv. rewrite <-size_eq in Hv. unfold b. by rewrite decide_True.
  - intros v Hv. unfold b. by rewrite decide_True.
Qed.
Lemma sum_eq E vs a : evidence_in_range N1 E -> valid (net_dom N1) a ->
  sumv (net_dom N1) vs (fun a => joint ts1 (set_evidence E a)) a = sumv (net_dom N2) vs (fun a => joint ts2 (set_evidence E a)) a.
Proof. intros H Ha. rewrite <-dom_eq. apply sumv_ext; [done|]. intros b Hb _. apply joint_range. by apply evidence_within. Qed.
Lemma evidence_weight_eq E : evidence_in_range N1 E -> evidence_weight N1 ts1 E = evidence_weight N2 ts2 E.
Proof. intros H. unfold evidence_weight. rewrite <-size_eq. apply sum_eq; [done|]. intros v. apply (dpos N1 HN1 Hd). Qed.
Lemma posterior_eq E q x : evidence_in_range N1 E -> x < net_dom N1 q -> posterior N1 ts1 E q x = posterior N2 ts2 E q x.
Proof. intros H Hx. unfold posterior. rewrite evidence_weight_eq by done. f_equal. unfold JTSpec.weight. rewrite <-size_eq. apply sum_eq; [done|]. apply valid_upd; [|done]. intros v. apply (dpos N1 HN1 Hd). Qed.
Lemma answer_eq E : evidence_in_range N1 E -> answer_all N1 ts1 E = answer_all N2 ts2 E.
Proof.
  intros H. unfold answer_all. rewrite <-Hdom, <-size_eq.
  assert (seq 0 (net_size N1) ≫= answer_block N1 ts1 E = seq 0 (net_size N1) ≫= answer_block N2 ts2 E) as ->; [|done].
  assert (forall q, answer_block N1 ts1 E q = answer_block N2 ts2 E q) as Hb; [|induction (seq 0 (net_size N1)) as [|q l IH]; [done|]; cbn; by rewrite Hb, IH].
  intros q. unfold answer_block. destruct (bool_decide (q ∈ fst <$> E)); [done|]. rewrite <-dom_eq. apply list_fmap_ext. intros i x Hx. apply lookup_seq in Hx as [-> Hx]. by apply posterior_eq.
Qed.
Lemma queries_eq o : 0 < net_size N1 -> weakly_connected N2 -> valid_order o -> exists T, jt_build o N2 ts2 = Ok T /\
  forall sch E, valid_scheduler sch -> evidence_in_range N1 E -> evidence_weight N1 ts1 E <> 0%Qc -> query_probs sch T E (jt_backup T) = Ok (jt_backup T, answer_all N1 ts1 E).
Proof.
  intros Hn Hc Ho. destruct (learned_family N2 ts2 HN2 doms_2 H2) as [F2 G2]. assert (net_ok N2) as O2 by (apply netinv_ok; [done|exact doms_2]). assert (0 < net_size N2) as Hn2 by (by rewrite <-size_eq).
  destruct (build_iff N2 o ts2 O2 Hn2 Ho F2 G2) as [B2 _]. destruct (proj2 B2 Hc) as [T HT]. exists T. split; [done|]. intros sch E S HEv HW. rewrite (answer_eq E HEv). apply (exact_probs N2 O2 Hn2 o Ho ts2 F2 G2 T HT sch E S).
  - intros v x Hin. rewrite <-size_eq, <-dom_eq. by apply HEv.
  - by rewrite <-(evidence_weight_eq E HEv).
Qed.
End same.

(** ** The chain rule *)
Section rule.
Context (N : network) (HN : netinv N) (Hd : doms_positive N) (ts : list ptable) (Hts : distributions N ts).
Notation dom := (net_dom N).
Notation n := (net_size N).
Set Default Proof Using "All".
Lemma chance_family' x t a : ts !! x = Some t -> valid dom a -> chance N ts (x :: parents_of N x) a = (tval t a * chance N ts (parents_of N x) a)%Qc.
Proof. destruct (topo_exists N HN) as [topo Htopo]. by apply (chance_family N HN Hd ts Hts topo Htopo). Qed.
Lemma chance_set l1 l2 a : (forall v, v ∈ l1 <-> v ∈ l2) -> chance N ts l1 a = chance N ts l2 a.
Proof. intros H. unfold chance. f_equal. apply list_filter_iff. intros v. by rewrite H. Qed.
Lemma entry_bounds x t a : ts !! x = Some t -> valid dom a -> (0 <= tval t a)%Qc /\ (tval t a <= 1)%Qc.
Proof.
  intros Ht Ha. destruct (proj2 Hts x t Ht) as (_ & _ & Hnn & Hone). split; [by apply Hnn|]. rewrite <-(Hone a Ha). replace (tval t a) with (tval t (upd a x (a x))).
  - apply (qsum_term (seq 0 (dom x)) (fun y => tval t (upd a x y)) (a x)); [|apply elem_of_seq; specialize (Ha x); lia]. intros z Hz. apply elem_of_seq in Hz. apply Hnn. apply valid_upd; [done|lia].
  - apply tval_dep. intros w _. unfold upd. case_bool_decide; [by subst|done].
Qed.
Lemma joint_nn a : valid dom a -> (0 <= joint ts a)%Qc.
Proof. intros Ha. apply qprod_nonneg. intros t Ht. apply elem_of_list_lookup in Ht as [x Ht]. by apply (entry_bounds x t a Ht Ha). Qed.
Lemma chance_zero l a : valid dom a -> chance N ts l a = 0%Qc -> joint ts a = 0%Qc.
Proof.
  intros Ha Hz. apply (sumv_nonneg_zero dom (filter (fun v => v ∉ l) (seq 0 n)) (joint ts) a Ha joint_nn Hz); [|apply NoDup_filter, NoDup_seq|done|done].
  intros b b' H. apply qprod_ext. intros t _. by apply tval_proper.
Qed.
Lemma joint_chances a : valid dom a -> joint ts a = families n (fun l => chance N ts l a) (arcs_of N).
Proof.
  intros Ha. unfold families.
  assert (forall v, v < n -> (chance N ts (v :: dag_parents n (arcs_of N) v) a / chance N ts (dag_parents n (arcs_of N) v) a = chance N ts (v :: parents_of N v) a / chance N ts (parents_of N v) a)%Qc) as E.
  { intros v _. rewrite (chance_set (dag_parents n (arcs_of N) v) (parents_of N v)), (chance_set (v :: dag_parents n (arcs_of N) v) (v :: parents_of N v)); [done| |]; intros w; rewrite ?elem_of_cons; by rewrite (parents_of_arcs N v w HN). }
  rewrite (qprod_ext (seq 0 n) _ (fun v => chance N ts (v :: parents_of N v) a / chance N ts (parents_of N v) a)%Qc) by (intros v Hv; apply elem_of_seq in Hv; apply E; lia).
  destruct (decide (Exists (fun v => chance N ts (parents_of N v) a = 0%Qc) (seq 0 n))) as [Hex|Hno].
  - apply Exists_exists in Hex as (v & Hv & Hz). rewrite (chance_zero _ a Ha Hz). symmetry. destruct (elem_of_Permutation (seq 0 n) v) as [HP _]. destruct (HP Hv) as [l El]. rewrite (qprod_perm _ _ _ El), qprod_cons, Hz. unfold Qcdiv. change (/ 0)%Qc with 0%Qc. ring.
  - assert (forall v, v < n -> chance N ts (parents_of N v) a <> 0%Qc) as Hnz. { intros v Hv H. apply Hno. apply Exists_exists. exists v. split; [apply elem_of_seq; lia|done]. }
    rewrite (joint_product ts (fun v a => chance N ts (v :: parents_of N v) a / chance N ts (parents_of N v) a)%Qc); [by rewrite (proj1 Hts)|].
    intros x t Ht. rewrite (chance_family' x t a Ht Ha). field. apply Hnz. rewrite <-(proj1 Hts). by eapply lookup_lt_Some.
Qed.
End rule.

(** ** Learning from representative data *)
Section recover.
Context (N1 N2 : network) (HN1 : netinv N1) (HN2 : netinv N2) (Hd : doms_positive N1) (Hdom : domain_sizes N1 = domain_sizes N2) (HE : markov_equivalent (arcs_of N1) (arcs_of N2)).
Context (ts : list ptable) (Hts : distributions N1 ts) (D : columns) (HD : complete N1 D) (Hs : co_vars D = net_size N1) (HR : representative N1 ts D).
Context (coin : nat -> nat -> nat) (ts2 : list ptable) (L : learn_params N2 D 0 coin [] = Ok ts2).
Set Default Proof Using "All".
Lemma recovered_joint a : valid (net_dom N1) a -> joint ts a = joint ts2 a.
Proof.
  intros Ha. assert (net_size N1 = net_size N2) as Hsz. { pose proof (f_equal length Hdom) as H. unfold domain_sizes in H. by rewrite !fmap_length in H. }
  assert (net_dom N1 = net_dom N2) as Hdm by (unfold net_dom; by rewrite Hdom).
  assert (complete N2 D) as HD2. { destruct HD as (C1 & C2 & C3). split_and!; [done|rewrite <-Hsz; done|]. by rewrite <-Hdm. }
  rewrite (joint_families N2 HN2) with (D := D) (coin := coin) (ts := ts2); [|unfold doms_positive; by rewrite <-Hdom|done|by rewrite <-Hsz|done|by rewrite <-Hdm].
  rewrite <-Hsz. transitivity (families (net_size N1) (frequencies D a) (arcs_of N1)).
  - rewrite (joint_chances N1 HN1 Hd ts Hts a Ha). apply qprod_ext. intros v Hv. apply elem_of_seq in Hv. destruct HR as [Hm _]. pose proof (qn_ne (co_rows D) Hm) as Hm0.
    assert (forall l, (forall w, w ∈ l -> w < net_size N1) -> frequencies D a l = (qn (co_rows D) * chance N1 ts l a)%Qc) as Hf.
    { intros l Hl. rewrite <-(representative_chance N1 HN1 Hd D HD Hs ts l a HR Hl Ha). unfold fraction, frequencies. field. done. }
    assert (forall w, w ∈ dag_parents (net_size N1) (arcs_of N1) v -> w < net_size N1) as Hp by (intros w Hw; apply dag_parents_elem in Hw as [_ Hw]; done).
    rewrite !Hf; [|done|intros w [->|Hw]%elem_of_cons; [lia|by apply Hp]]. destruct (decide (chance N1 ts (dag_parents (net_size N1) (arcs_of N1) v) a = 0%Qc)) as [->|Hz].
    + rewrite Qcmult_0_r. unfold Qcdiv. change (/ 0)%Qc with 0%Qc. ring.
    + field. done.
  - apply families_equivalent; [| | | |done].
    + intros l1 l2 H. unfold frequencies. f_equal. by apply occurrences_set.
    + intros v l H. unfold frequencies in *. destruct (decide (occurrences (co_cols D) (co_rows D) l a = 0)) as [E|E]; [by rewrite occurrences_none|]. exfalso. revert H. apply qn_ne. lia.
    + by apply fresh_dag_dag.
    + rewrite Hsz. by apply fresh_dag_dag.
Qed.
Lemma recovered_distributions : distributions N2 ts2.
Proof.
  assert (net_size N1 = net_size N2) as Hsz. { pose proof (f_equal length Hdom) as H. unfold domain_sizes in H. by rewrite !fmap_length in H. }
  assert (net_dom N1 = net_dom N2) as Hdm by (unfold net_dom; by rewrite Hdom).
  eapply (learned_vars D N2 coin ts2 HN2); [unfold doms_positive; by rewrite <-Hdom| |by rewrite <-Hsz|done]. destruct HD as (C1 & C2 & C3). split_and!; [done|rewrite <-Hsz; done|]. by rewrite <-Hdm.
Qed.
Lemma recovered_connected : weakly_connected N1 -> weakly_connected N2.
Proof.
  assert (net_size N1 = net_size N2) as Hsz. { pose proof (f_equal length Hdom) as H. unfold domain_sizes in H. by rewrite !fmap_length in H. }
  intros H x y Hx Hy. rewrite <-Hsz in Hx, Hy. specialize (H x y Hx Hy). induction H as [|x z y Hxz _ IH]; [done|].
  assert (z < net_size N1) as Hz.
  { destruct Hxz as [Hc|Hc]; apply (proj1 (ni_consistent _ HN1 _ _)), arcs_of_spec, (proj1 (fresh_dag_dag N1 HN1)) in Hc; apply Hc. }
  eapply rtc_l; [|by apply IH]. assert (adjacent (arcs_of N1) x z) as Ha.
  { destruct Hxz as [Hc|Hc]; apply (proj1 (ni_consistent _ HN1 _ _)), arcs_of_spec in Hc; [by left|by right]. }
  apply HE in Ha as [Ha|Ha]; apply arcs_of_spec, (proj1 (ni_consistent _ HN2 _ _)) in Ha; [by left|by right].
Qed.
End recover.

Theorem recovered N1 N2 : netinv N1 -> netinv N2 -> doms_positive N1 -> 0 < net_size N1 -> domain_sizes N1 = domain_sizes N2 -> markov_equivalent (arcs_of N1) (arcs_of N2) ->
  forall ts D, distributions N1 ts -> complete N1 D -> co_vars D = net_size N1 -> representative N1 ts D -> forall coin ts2, learn_params N2 D 0 coin [] = Ok ts2 ->
  (forall a, valid (net_dom N1) a -> joint ts2 a = joint ts a) /\
  (forall E q x, evidence_in_range N1 E -> x < net_dom N1 q -> posterior N2 ts2 E q x = posterior N1 ts E q x) /\
  (weakly_connected N1 -> forall o, valid_order o -> exists T, jt_build o N2 ts2 = Ok T /\
     forall sch E, valid_scheduler sch -> evidence_in_range N1 E -> evidence_weight N1 ts E <> 0%Qc -> query_probs sch T E (jt_backup T) = Ok (jt_backup T, answer_all N1 ts E)).
Proof.
  intros HN1 HN2 Hd Hn Hdom HE ts D Hts HD Hs HR coin ts2 L.
  pose proof (recovered_joint N1 N2 HN1 HN2 Hd Hdom HE ts Hts D HD Hs HR coin ts2 L) as HJ. pose proof (recovered_distributions N1 N2 HN1 HN2 Hd Hdom HE ts Hts D HD Hs HR coin ts2 L) as H2. split_and!.
  - intros a Ha. by rewrite HJ.
  - intros E q x HEv Hx. symmetry. by apply posterior_eq.
  - intros Hc o Ho. apply queries_eq; try done. by apply (recovered_connected N1 N2 HN1 HN2 Hd Hdom HE ts Hts D HD Hs HR coin ts2 L).
Qed.
(** On the structure itself the tables are the network's own. *)
Theorem recovered_tables N : netinv N -> doms_positive N ->
  forall ts D, distributions N ts -> complete N D -> co_vars D = net_size N -> representative N ts D -> forall coin ts2, learn_params N D 0 coin [] = Ok ts2 ->
  forall x q t a, ts !! x = Some q -> ts2 !! x = Some t -> valid (net_dom N) a -> tval t a = tval q a.
Proof.
  intros HN Hd ts D Hts HD Hs HR coin ts2 L x q t a Hq Ht Ha. destruct (learned_cpts N HN Hd D HD Hs 0 coin ts2 L) as [Hl Hall].
  destruct (lookup_lt_is_Some_2 (nt_nodes N) x) as [nd Hx]; [apply lookup_lt_Some in Ht; unfold net_size in *; lia|]. destruct (Hall x nd Hx) as (t' & Ht' & (_ & _ & HC) & Ho). assert (t' = t) as -> by congruence.
  rewrite (HC a Ha). unfold smoothed. change (qz (Z.of_nat 0)) with 0%Qc. specialize (Ho a Ha). rewrite <-(parents_lookup N x nd Hx) in *.
  destruct HR as [Hm HR]. pose proof (qn_ne (co_rows D) Hm) as Hm0. assert (qn (occurrences (co_cols D) (co_rows D) (parents_of N x) a) <> 0)%Qc as Ho0 by (apply qn_ne; lia).
  assert (x < net_size N) as Hxn by (unfold net_size; by eapply lookup_lt_Some).
  assert (forall w, w ∈ parents_of N x -> w < net_size N) as Hp. { intros w Hw. rewrite (parents_of_arcs N x w HN), dag_parents_elem in Hw. apply Hw. }
  pose proof (representative_chance N HN Hd D HD Hs ts (parents_of N x) a (conj Hm HR) Hp Ha) as E1.
  assert (forall w, w ∈ x :: parents_of N x -> w < net_size N) as Hp' by (intros w [->|Hw]%elem_of_cons; [done|by apply Hp]).
  pose proof (representative_chance N HN Hd D HD Hs ts (x :: parents_of N x) a (conj Hm HR) Hp' Ha) as E2. rewrite (chance_family' N HN Hd ts Hts x q a Hq Ha), <-E1 in E2.
  unfold fraction in E2. apply (f_equal (fun z => z * qn (co_rows D))%Qc) in E2.
  assert (qn (occurrences (co_cols D) (co_rows D) (x :: parents_of N x) a) = tval q a * qn (occurrences (co_cols D) (co_rows D) (parents_of N x) a))%Qc as E3.
  { transitivity (qn (occurrences (co_cols D) (co_rows D) (x :: parents_of N x) a) / qn (co_rows D) * qn (co_rows D))%Qc; [field; done|]. rewrite E2. field. done. }
  rewrite E3, Qcmult_0_l, !Qcplus_0_r. field. done.
Qed.
