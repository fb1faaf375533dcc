(** Evidence about separated variables does not change an answer. *)
From Coq Require Import Field QArith.
From Verif Require Import IndepSpec IndepGraph IndepProofs NetProofs2 BuildProofs CountProofs QueryProofs Sums BeliefProofs LearnProofs LearnTheorems JTTheorems ShdTheorems SampleProofs LikelihoodProofs CoverProofs EquivTheorems RecoverProofs RecoverTheorems TableProofs2 TableProofs.
Local Open Scope nat_scope.

Lemma set_evidence_app E F a : set_evidence (E ++ F) a = set_evidence E (set_evidence F a).
Proof. unfold set_evidence. by rewrite foldr_app. Qed.
Lemma set_evidence_other E a v : v ∉ fst <$> E -> set_evidence E a v = a v.
Proof. induction E as [|[w x] E IH]; [done|]. rewrite fmap_cons, not_elem_of_cons. intros [H1 H2]. cbn. rewrite upd_other by done. by apply IH. Qed.
Lemma set_evidence_same E a b v : v ∈ fst <$> E -> set_evidence E a v = set_evidence E b v.
Proof.
  induction E as [|[w x] E IH]; [by intros []%elem_of_nil|]. rewrite fmap_cons, elem_of_cons. intros H. cbn. unfold upd. case_bool_decide as Hw; [done|]. destruct H as [H|H]; [by destruct Hw|by apply IH].
Qed.
Lemma sumv_evidence dom E vs (F : asg -> Qc) a : proper F -> (forall v, v ∈ vs -> v ∉ fst <$> E) -> sumv dom vs (fun b => F (set_evidence E b)) a = sumv dom vs F (set_evidence E a).
Proof.
  intros HF. revert a. induction vs as [|v vs IH]; intros a Hv; cbn [sumv]; [done|]. apply qsum_ext. intros x _. rewrite IH by (intros w Hw; apply Hv; by right). apply sumv_proper; [done|]. intros w.
  destruct (decide (w ∈ fst <$> E)) as [Hw|Hw].
  - rewrite upd_other by (intros ->; apply (Hv v); [left|done]). by apply set_evidence_same.
  - rewrite set_evidence_other by done. unfold upd. case_bool_decide; [done|]. by rewrite set_evidence_other.
Qed.

Section answers.
Context (N : network) (HN : netinv N) (Hd : doms_positive N) (ts : list ptable) (Hts : distributions N ts).
Notation dom := (net_dom N).
Notation n := (net_size N).
Set Default Proof Using "All".
Lemma chance_dep l a b : (forall v, v ∈ l -> a v = b v) -> chance N ts l a = chance N ts l b.
Proof.
  intros H. destruct (learned_family N ts HN Hd Hts) as [F _]. unfold chance. eapply sumv_dep; [apply (BuildProofs.joint_dep N ts); [by apply netinv_ok|done]|].
  intros v [Hv Hn]%elem_of_list_filter. apply H. destruct (decide (v ∈ l)); [done|]. destruct Hv. by apply elem_of_list_filter.
Qed.
Lemma joint_proper' : proper (joint ts).
Proof. intros a b H. apply qprod_ext. intros t _. by apply tval_proper. Qed.
Lemma weight_chance E q i : JTSpec.weight N ts E q i = chance N ts (q :: (fst <$> E)) (set_evidence E (upd (fun _ => 0) q i)).
Proof. unfold JTSpec.weight, chance. apply sumv_evidence; [apply joint_proper'|]. intros v [[_ Hv]%not_elem_of_cons _]%elem_of_list_filter. done. Qed.
Lemma evidence_chance E : evidence_weight N ts E = chance N ts (fst <$> E) (set_evidence E (fun _ => 0)).
Proof. unfold evidence_weight, chance. apply sumv_evidence; [apply joint_proper'|]. by intros v [Hv _]%elem_of_list_filter. Qed.
Lemma chance_zero l s a : valid dom a -> chance N ts s a = 0%Qc -> chance N ts (l ++ s) a = 0%Qc.
Proof.
  intros Ha H0. unfold chance in *. pose proof (sumv_nonneg_zero dom _ _ a Ha (joint_nn N HN Hd ts Hts) H0 joint_proper' (NoDup_filter _ _ (NoDup_seq _ _))) as Hz.
  rewrite (sumv_ext dom _ _ (fun _ => 0 * 0)%Qc a Ha).
  - rewrite (sumv_scal dom _ 0 (fun _ => 0%Qc) a). apply Qcmult_0_l.
  - intros b Hb Hbv. rewrite Qcmult_0_l. apply Hz; [done|]. intros v Hv. apply Hbv. intros Hin. apply Hv. apply elem_of_list_filter in Hin as [H1 H2]. apply elem_of_list_filter. split; [|done]. intros Hs. apply H1, elem_of_app. by right.
Qed.
Theorem separated_posterior q X E : q < n -> (forall v, v ∈ fst <$> X ++ E -> v < n) -> evidence_in_range N (X ++ E) -> q ∉ fst <$> X ++ E -> (forall v, v ∈ fst <$> X -> v ∉ fst <$> E) ->
  (forall y, y ∈ fst <$> X -> ~ d_connected (arcs_of N) q y (fst <$> E)) -> evidence_weight N ts (X ++ E) <> 0%Qc ->
  evidence_weight N ts E <> 0%Qc /\ forall i, i < dom q -> posterior N ts (X ++ E) q i = posterior N ts E q i.
Proof.
  intros Hq Hin HE HqE Hdis Hsep Hw. rewrite fmap_app in *. apply not_elem_of_app in HqE as [HqX HqE].
  assert (forall i, i < dom q -> valid dom (set_evidence (X ++ E) (upd (fun _ => 0) q i))) as Hval.
  { intros i Hi v. assert (valid dom (upd (fun _ => 0) q i)) as H0 by (apply valid_upd; [intros w; apply (LearnProofs.dpos N HN Hd)|done]). destruct (decide (v < n)) as [Hv|Hv]; [by apply (evidence_within N)|].
    rewrite set_evidence_other; [apply H0|]. rewrite fmap_app. intros H%Hin. lia. }
  assert (forall i, i < dom q -> let a := set_evidence (X ++ E) (upd (fun _ => 0) q i) in
    JTSpec.weight N ts (X ++ E) q i = chance N ts (q :: (fst <$> X) ++ (fst <$> E)) a /\ evidence_weight N ts E = chance N ts (fst <$> E) a /\
    JTSpec.weight N ts E q i = chance N ts (q :: (fst <$> E)) a /\ evidence_weight N ts (X ++ E) = chance N ts ((fst <$> X) ++ (fst <$> E)) a) as Hall.
  { intros i Hi a. assert (forall b v, v ∈ fst <$> E -> a v = set_evidence E b v) as HaE. { intros b v Hv. unfold a. rewrite set_evidence_app, set_evidence_other by (intros H; by apply (Hdis v H)). by apply set_evidence_same. } split_and!.
    - rewrite weight_chance, fmap_app. done.
    - rewrite evidence_chance. apply chance_dep. intros v Hv. symmetry. by apply HaE.
    - rewrite weight_chance. apply chance_dep. intros v [->|Hv]%elem_of_cons; [|symmetry; by apply HaE]. unfold a. rewrite set_evidence_app, !set_evidence_other by done. done.
    - rewrite evidence_chance, fmap_app. apply chance_dep. intros v Hv. unfold a. apply set_evidence_same. by rewrite fmap_app. }
  assert (0 < dom q) as H0 by apply (LearnProofs.dpos N HN Hd).
  assert (evidence_weight N ts E <> 0%Qc) as HwE. { intros H. apply Hw. destruct (Hall 0 H0) as (_ & H2 & _ & H4). rewrite H4. apply chance_zero; [by apply Hval|]. by rewrite <-H2. }
  split; [done|]. intros i Hi. destruct (Hall i Hi) as (H1 & H2 & H3 & H4). cbn zeta in *. set (a := set_evidence (X ++ E) (upd (fun _ => 0) q i)) in *.
  pose proof (markov N HN Hd ts Hts q (fst <$> X) (fst <$> E) a Hq Hin HqX HqE Hdis Hsep (Hval i Hi)) as HM. rewrite <-H1, <-H2, <-H3, <-H4 in HM. unfold posterior.
  transitivity (JTSpec.weight N ts (X ++ E) q i * evidence_weight N ts E / (evidence_weight N ts (X ++ E) * evidence_weight N ts E))%Qc; [field; done|]. rewrite HM. field. done.
Qed.
End answers.

Theorem separated_answers N : netinv N -> doms_positive N -> 0 < net_size N -> forall ts, distributions N ts -> forall o, valid_order o -> forall T, jt_build o N ts = Ok T ->
  forall q X E, q < net_size N -> (forall v, v ∈ fst <$> X ++ E -> v < net_size N) -> evidence_in_range N (X ++ E) -> q ∉ fst <$> X ++ E -> (forall v, v ∈ fst <$> X -> v ∉ fst <$> E) ->
  (forall y, y ∈ fst <$> X -> ~ d_connected (arcs_of N) q y (fst <$> E)) -> evidence_weight N ts (X ++ E) <> 0%Qc ->
  forall sch sch', valid_scheduler sch -> valid_scheduler sch' ->
  (exists st st' p p', propagate sch T E (jt_backup T) = Ok st /\ propagate sch' T (X ++ E) (jt_backup T) = Ok st' /\ calculate_marginal T st q = Ok p /\ calculate_marginal T st' q = Ok p' /\ pt_pots p = pt_pots p') /\
  (exists l, query_label sch T q E (jt_backup T) = Ok (jt_backup T, l) /\ query_label sch' T q (X ++ E) (jt_backup T) = Ok (jt_backup T, l)) /\
  query_probs sch T E (jt_backup T) = Ok (jt_backup T, answer_all N ts E) /\ query_probs sch' T (X ++ E) (jt_backup T) = Ok (jt_backup T, answer_all N ts (X ++ E)) /\ answer_block N ts (X ++ E) q = answer_block N ts E q.
Proof.
  intros HN Hd Hn ts Hts o Ho T HT q X E Hq Hin HE HqE Hdis Hsep Hw sch sch' S S'.
  destruct (separated_posterior N HN Hd ts Hts q X E Hq Hin HE HqE Hdis Hsep Hw) as [HwE HP]. destruct (learned_family N ts HN Hd Hts) as [F G]. assert (net_ok N) as OK by (by apply netinv_ok).
  assert (evidence_in_range N E) as HEE. { intros v x Hv. apply HE, elem_of_app. by right. }
  assert (q ∉ fst <$> E) as HqE' by (intros H; apply HqE; rewrite fmap_app; apply elem_of_app; by right).
  assert (posterior N ts (X ++ E) q <$> seq 0 (net_dom N q) = posterior N ts E q <$> seq 0 (net_dom N q)) as HL. { apply list_fmap_ext. intros k i Hi. apply HP. apply lookup_seq in Hi. lia. }
  destruct (exact_marginal N OK Hn o Ho ts F G T HT sch E q S HEE HwE Hq HqE') as (st & p & H1 & H2 & H3). destruct (exact_marginal N OK Hn o Ho ts F G T HT sch' (X ++ E) q S' HE Hw Hq HqE) as (st' & p' & H1' & H2' & H3').
  assert (pt_pots p = pt_pots p') as Hpp by (rewrite H3, H3'; done). split_and!.
  - by exists st, st', p, p'.
  - destruct (exact_label N OK Hn o Ho ts F G T HT sch E q S HEE HwE Hq HqE') as (l & Hl & _). exists l. split; [done|]. unfold query_label in *. rewrite H1 in Hl. rewrite H1'. cbn [mbind outcome_bind] in *. rewrite H2 in Hl. rewrite H2'. cbn [mbind outcome_bind] in *. by rewrite <-Hpp.
  - by apply (exact_probs N OK Hn o Ho ts F G T HT sch E S).
  - by apply (exact_probs N OK Hn o Ho ts F G T HT sch' (X ++ E) S').
  - unfold answer_block. by rewrite !bool_decide_false.
Qed.

(** ** Two separating sets *)
Lemma parents_separate N q y s : netinv N -> (forall p, p ∈ parents_of N q -> p ∈ s) -> (forall d, d ∈ y :: s -> ~ descendant (arcs_of N) q d) -> y <> q -> y ∉ s -> ~ d_connected (arcs_of N) q y s.
Proof.
  intros HN Hp Hnd Hyq Hys (mid & HP & Hdup & HU). assert (forall v, arcs_of N v q = true -> v ∈ s) as Hps. { intros v Hv. apply Hp, (parents_of_arcs N q v HN), dag_parents_elem. split; [done|]. apply (proj1 (fresh_dag_dag N HN) v q Hv). }
  assert (exists v r, mid ++ [y] = v :: r) as (v & r & E) by (destruct mid; cbn; eauto). rewrite E in HP, HU. assert (last (v :: r) = Some y) as HL by (rewrite <-E; apply last_snoc). destruct (arcs_of N q v) eqn:Hqv.
  - destruct (forwards_or (arcs_of N) s r q v HP HU Hqv) as [(d & Hd & Hqd)|(z & Hz & Hqz)].
    + apply (Hnd d); [by right|done].
    + rewrite last_cons_cons, HL in Hz. injection Hz as <-. apply (Hnd y); [left|done].
  - destruct HP as [[H|Hvq] HP]; [congruence|]. specialize (Hps v Hvq). destruct r as [|w r]; [cbn in HL; congruence|]. destruct HU as (_ & HU & _). apply HU; [|done]. intros [H _]. congruence.
Qed.
Lemma arcs_asym N u v : netinv N -> arcs_of N u v = true -> arcs_of N v u = true -> False.
Proof.
  intros HN Huv Hvu. destruct (fresh_dag_dag N HN) as [Hb [ord [HP HO]]]. destruct (Hb u v Huv) as [Hu Hv]. assert (u ∈ ord) as [i Hi]%elem_of_list_lookup by (rewrite HP; apply elem_of_seq; lia). assert (v ∈ ord) as [j Hj]%elem_of_list_lookup by (rewrite HP; apply elem_of_seq; lia).
  pose proof (HO _ _ _ _ Hi Hj Huv). pose proof (HO _ _ _ _ Hj Hi Hvu). lia.
Qed.
(** Parents, children, and the other parents of the children. *)
Lemma blanket_separates N q y s : netinv N -> (forall p, p ∈ parents_of N q -> p ∈ s) -> (forall c, c < net_size N -> q ∈ parents_of N c -> c ∈ s /\ forall p, p ∈ parents_of N c -> p = q \/ p ∈ s) -> y <> q -> y ∉ s -> ~ d_connected (arcs_of N) q y s.
Proof.
  intros HN Hp Hc Hyq Hys (mid & HP & Hdup & HU). pose proof (proj1 (fresh_dag_dag N HN)) as Hb.
  assert (forall u v, arcs_of N u v = true -> u ∈ parents_of N v) as Hpa. { intros u v Huv. apply (parents_of_arcs N v u HN), dag_parents_elem. split; [done|]. apply (Hb u v Huv). }
  assert (exists v r, mid ++ [y] = v :: r) as (v & r & E) by (destruct mid; cbn; eauto). rewrite E in HP, HU, Hdup. assert (last (v :: r) = Some y) as HL by (rewrite <-E; apply last_snoc).
  assert (v ∈ s) as Hvs. { destruct HP as [[H|H] _]; [apply (Hc v); [apply (Hb q v H)|by apply Hpa]|by apply Hp, Hpa]. }
  destruct r as [|w r]; [cbn in HL; congruence|]. destruct HU as (_ & HU & HU').
  assert (arcs_of N q v = true /\ arcs_of N w v = true) as [Hqv Hwv]. { destruct (arcs_of N q v) eqn:E1, (arcs_of N w v) eqn:E2; try done; exfalso; apply HU; try done; intros [? ?]; congruence. }
  assert (w ∈ s) as Hws. { destruct (Hc v) as [_ H]; [apply (Hb q v Hqv)|by apply Hpa|]. destruct (H w (Hpa w v Hwv)) as [->|]; [|done]. apply NoDup_cons in Hdup as [Hdup _]. destruct Hdup. right. left. }
  destruct r as [|z r]; [cbn in HL; congruence|]. destruct HU' as (_ & HU' & _). apply HU'; [|done]. intros [H _]. apply (arcs_asym N v w HN); done.
Qed.

(** ** What the answers are: the entries of the tables *)
Section entries.
Context (N : network) (HN : netinv N) (Hd : doms_positive N) (ts : list ptable) (Hts : distributions N ts).
Notation dom := (net_dom N).
Notation n := (net_size N).
Set Default Proof Using "All".
Theorem entry_posterior q t E : ts !! q = Some t -> q < n -> (forall v, v ∈ fst <$> E -> v < n) -> evidence_in_range N E -> q ∉ fst <$> E -> (forall p, p ∈ parents_of N q -> p ∈ fst <$> E) -> (forall d, d ∈ fst <$> E -> ~ descendant (arcs_of N) q d) ->
  evidence_weight N ts E <> 0%Qc -> forall i, i < dom q -> posterior N ts E q i = tval t (set_evidence E (upd (fun _ => 0) q i)).
Proof.
  intros Ht Hq Hin HE HqE Hp Hnd Hw i Hi. set (a := set_evidence E (upd (fun _ => 0) q i)). set (s := parents_of N q). set (ys := filter (fun v => v ∉ s) (fst <$> E)).
  assert (valid dom a) as Hval.
  { intros v. assert (valid dom (upd (fun _ => 0) q i)) as H0 by (apply valid_upd; [intros w; apply (LearnProofs.dpos N HN Hd)|done]). destruct (decide (v < n)) as [Hv|Hv]; [by apply (evidence_within N)|].
    unfold a. rewrite set_evidence_other; [apply H0|]. intros H%Hin. lia. }
  assert (forall v, v ∈ ys ++ s <-> v ∈ fst <$> E) as Hset. { intros v. rewrite elem_of_app. unfold ys. rewrite elem_of_list_filter. split; [intros [[_ H]|H]; [done|by apply Hp]|]. intros H. destruct (decide (v ∈ s)); [by right|by left]. }
  assert (q ∉ s) as Hqs by (intros H; by apply HqE, Hp).
  assert ((chance N ts (q :: ys ++ s) a * chance N ts s a)%Qc = (chance N ts (q :: s) a * chance N ts (ys ++ s) a)%Qc) as HM.
  { apply (markov N HN Hd ts Hts); try done.
    - intros v Hv. by apply Hin, Hset.
    - intros H. apply HqE, Hset, elem_of_app. by left.
    - by intros v [Hv _]%elem_of_list_filter.
    - intros y [Hy HyE]%elem_of_list_filter. apply parents_separate; try done; [|intros ->; done]. intros d [->|Hds]%elem_of_cons; [by apply Hnd|]. by apply Hnd, Hp. }
  pose proof (chance_family' N HN Hd ts Hts q t a Ht Hval) as HF. fold s in HF. rewrite HF in HM. rewrite (chance_set N HN Hd ts Hts (ys ++ s) (fst <$> E) a Hset), (chance_set N HN Hd ts Hts (q :: ys ++ s) (q :: (fst <$> E)) a) in HM by (intros v; rewrite !elem_of_cons, Hset; done).
  assert (chance N ts (fst <$> E) a = evidence_weight N ts E) as HW. { rewrite (evidence_chance N HN Hd ts Hts). apply (chance_dep N HN Hd ts Hts). intros v Hv. by apply set_evidence_same. }
  rewrite HW in HM. rewrite <-(weight_chance N HN Hd ts Hts E q i : _ = chance N ts (q :: (fst <$> E)) a) in HM.
  assert (chance N ts s a <> 0%Qc) as Hs. { intros H. apply Hw. rewrite <-HW, <-(chance_set N HN Hd ts Hts (ys ++ s) (fst <$> E) a Hset). by apply (chance_zero N HN Hd ts Hts). }
  unfold posterior. transitivity (JTSpec.weight N ts E q i * chance N ts s a / (evidence_weight N ts E * chance N ts s a))%Qc; [field; done|]. rewrite HM. field. done.
Qed.
Lemma observed_vars s a : fst <$> observed s a = s.
Proof. unfold observed. rewrite <-list_fmap_compose. apply list_fmap_id. Qed.
Lemma observed_value s a b v : v ∈ s -> set_evidence (observed s a) b v = a v.
Proof. induction s as [|w s IH]; [by intros []%elem_of_nil|]. intros Hv. cbn. unfold upd. case_bool_decide as Hw; [by rewrite Hw|]. apply elem_of_cons in Hv as [Hv|Hv]; [done|by apply IH]. Qed.
Theorem independent_posterior x y s : x < n -> y < n -> Forall (fun v => v < n) s -> NoDup (x :: y :: s) ->
  independent N ts x [y] s <-> forall a, valid dom a -> evidence_weight N ts (observed (y :: s) a) <> 0%Qc -> forall i, i < dom x -> posterior N ts (observed (y :: s) a) x i = posterior N ts (observed s a) x i.
Proof.
  intros Hx Hy Hs Hdup. apply NoDup_cons in Hdup as [Hxs [Hys Hdup]%NoDup_cons]. apply not_elem_of_cons in Hxs as [Hxy Hxs].
  assert (forall l a, evidence_weight N ts (observed l a) = chance N ts l a) as HW. { intros l a. rewrite (evidence_chance N HN Hd ts Hts), observed_vars. apply (chance_dep N HN Hd ts Hts). intros v Hv. by apply observed_value. }
  assert (forall l a i, x ∉ l -> JTSpec.weight N ts (observed l a) x i = chance N ts (x :: l) (upd a x i)) as HP.
  { intros l a i Hl. rewrite (weight_chance N HN Hd ts Hts), observed_vars. apply (chance_dep N HN Hd ts Hts). intros v [->|Hv]%elem_of_cons; [rewrite set_evidence_other by (by rewrite observed_vars); by rewrite !upd_same|]. rewrite observed_value by done. rewrite upd_other; [done|]. by intros ->. }
  assert (forall l a i, x ∉ l -> chance N ts l (upd a x i) = chance N ts l a) as HC. { intros l a i Hl. apply (chance_dep N HN Hd ts Hts). intros v Hv. rewrite upd_other; [done|]. by intros ->. }
  assert (x ∉ y :: s) as Hxys by (by apply not_elem_of_cons). split.
  - intros H a Ha Hw i Hi. assert (valid dom (upd a x i)) as Hv by (by apply valid_upd). specialize (H _ Hv). cbn [app] in H. rewrite (HC s), (HC (y :: s)) in H by done. unfold posterior. rewrite !HP, !HW by done. rewrite HW in Hw.
    assert (chance N ts s a <> 0%Qc) as Hz. { intros H0. apply Hw. exact (chance_zero N HN Hd ts Hts [y] s a Ha H0). }
    transitivity (chance N ts (x :: y :: s) (upd a x i) * chance N ts s a / (chance N ts (y :: s) a * chance N ts s a))%Qc; [field; done|]. rewrite H. field. done.
  - intros H a Ha. cbn [app]. destruct (decide (chance N ts (y :: s) a = 0%Qc)) as [H0|H0].
    + rewrite H0. change (x :: y :: s) with ([x] ++ y :: s). rewrite (chance_zero N HN Hd ts Hts [x] _ a Ha H0). ring.
    + assert (chance N ts s a <> 0%Qc) as Hz. { intros Hz. apply H0. exact (chance_zero N HN Hd ts Hts [y] s a Ha Hz). }
      specialize (H a Ha). rewrite HW in H. specialize (H H0 (a x) (Ha x)). unfold posterior in H. rewrite !HP, !HW in H by done.
      assert (forall l, chance N ts l (upd a x (a x)) = chance N ts l a) as HU. { intros l. apply (chance_dep N HN Hd ts Hts). intros v _. unfold upd. case_bool_decide; by subst. }
      rewrite !HU in H. transitivity (chance N ts (x :: y :: s) a / chance N ts (y :: s) a * (chance N ts (y :: s) a * chance N ts s a))%Qc; [field; done|]. rewrite H. field. done.
Qed.
Theorem informative : faithful N ts -> forall x y s, x < n -> y < n -> Forall (fun v => v < n) s -> NoDup (x :: y :: s) ->
  ~ d_connected (arcs_of N) x y s <-> forall a, valid dom a -> evidence_weight N ts (observed (y :: s) a) <> 0%Qc -> forall i, i < dom x -> posterior N ts (observed (y :: s) a) x i = posterior N ts (observed s a) x i.
Proof.
  intros HF x y s Hx Hy Hs Hdup. rewrite <-independent_posterior by done. split.
  - intros Hsep a Ha. apply NoDup_cons in Hdup as [Hxs [Hys Hdup]%NoDup_cons]. apply not_elem_of_cons in Hxs as [Hxy Hxs]. rewrite Forall_forall in Hs. apply (markov N HN Hd ts Hts); try done.
    + intros v [->%elem_of_list_singleton|Hv]%elem_of_app; [done|by apply Hs].
    + by intros ->%elem_of_list_singleton.
    + by intros v ->%elem_of_list_singleton.
    + by intros v ->%elem_of_list_singleton.
  - intros HI Hc. by apply (HF x y s).
Qed.
End entries.
