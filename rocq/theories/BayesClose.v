(** Predictions of a network that is only nearly right about the rows it is asked about. *)
From Coq Require Import Field QArith Lqa.
From Verif Require Import BayesSpec BayesProofs BayesTheorems UtilProofs NetProofs2 BuildProofs CountProofs QueryProofs Sums LearnProofs LearnTheorems JTTheorems LikelihoodProofs EquivTheorems RecoverProofs RecoverTheorems RecoverClose GibbsProofs IndepProofs IndepTheorems IndepData TableProofs2 TableProofs.
Local Open Scope nat_scope.

(** ** Counting with slack *)
Lemma close_count {A C} `{EqDecision C} (f : A -> C) (t pred lab : A -> Z) (d : Qc) : (0 <= d)%Qc -> forall cs l, (forall j, j ∈ l -> f j ∈ cs) ->
  (forall i j, i ∈ l -> j ∈ l -> f i = f j -> pred i = pred j) -> (forall i j, i ∈ l -> j ∈ l -> f i = f j -> lab i = lab j) ->
  (forall j x, j ∈ l -> (qn (length (filter (fun i => f i = f j /\ t i = x) l)) <= qn (length (filter (fun i => f i = f j /\ t i = lab j) l)) + d)%Qc) ->
  (qn (length (filter (fun i => t i = pred i) l)) <= qn (length (filter (fun i => t i = lab i) l)) + qn (length cs) * d)%Qc.
Proof.
  intros Hd0 cs. induction cs as [|c cs IH]; intros l Hcs Hp Hl HB.
  { destruct l as [|j l]; [|exfalso; assert (f j ∈ []) as H by (apply Hcs; left); by apply elem_of_nil in H]. cbn [filter list_filter length]. change (qn 0) with 0%Qc. to_q. lra. }
  rewrite (filter_split (fun i => t i = pred i) (fun i => f i = c) l), (filter_split (fun i => t i = lab i) (fun i => f i = c) l). rewrite !qn_add. cbn [length]. replace (S (length cs)) with (length cs + 1) by lia. rewrite qn_add. change (qn 1) with 1%Qc.
  assert (qn (length (filter (fun i => t i = pred i) (filter (fun i => f i ≠ c) l))) <= qn (length (filter (fun i => t i = lab i) (filter (fun i => f i ≠ c) l))) + qn (length cs) * d)%Qc as Hrest.
  { apply IH.
    + intros j [Hj Hjl]%elem_of_list_filter. specialize (Hcs j Hjl). apply elem_of_cons in Hcs as [?|?]; done.
    + intros a b [_ Ha]%elem_of_list_filter [_ Hb]%elem_of_list_filter. by apply Hp.
    + intros a b [_ Ha]%elem_of_list_filter [_ Hb]%elem_of_list_filter. by apply Hl.
    + intros k x [Hk Hkl]%elem_of_list_filter. specialize (HB k x Hkl). rewrite !list_filter_filter. rewrite (filter_same _ (fun i => f i = f k /\ t i = x)), (filter_same (fun i => (f i = f k /\ t i = lab k) /\ _) (fun i => f i = f k /\ t i = lab k)); [done| |];
        intros i _; split; try tauto; intros [H1 H2]; split; [done|by rewrite H1|done|by rewrite H1]. }
  assert (qn (length (filter (fun i => t i = pred i) (filter (fun i => f i = c) l))) <= qn (length (filter (fun i => t i = lab i) (filter (fun i => f i = c) l))) + d)%Qc as Hone.
  { destruct (filter (fun i => f i = c) l) as [|j r] eqn:E; [cbn [filter list_filter length]; change (qn 0) with 0%Qc; to_q; lra|]. assert (j ∈ filter (fun i => f i = c) l) as Hj by (rewrite E; left). rewrite <-E. apply elem_of_list_filter in Hj as [Hjc Hj].
    specialize (HB j (pred j) Hj). rewrite !list_filter_filter. rewrite (filter_same _ (fun i => f i = f j /\ t i = pred j)), (filter_same (fun i => t i = lab i /\ _) (fun i => f i = f j /\ t i = lab j)); [done| |].
    + intros i Hi. rewrite Hjc. split; intros [H1 H2]; [rewrite (Hl j i) by congruence; done|rewrite (Hl i j) by congruence; done].
    + intros i Hi. rewrite Hjc. split; intros [H1 H2]; [rewrite (Hp j i) by congruence; done|rewrite (Hp i j) by congruence; done]. }
  match type of Hrest with (?a <= ?b + ?c)%Qc => set (A1 := a) in *; set (A2 := b) in * end. match type of Hone with (?a <= ?b + ?c)%Qc => set (B1 := a) in *; set (B2 := b) in * end. replace ((qn (length cs) + 1) * d)%Qc with (qn (length cs) * d + d)%Qc by ring. set (A3 := (qn (length cs) * d)%Qc) in *. clearbody A1 A2 A3 B1 B2. to_q. lra.
Qed.
Lemma prod_two (dom : nat -> nat) (P Q : nat -> Prop) `{forall v, Decision (P v)} `{forall v, Decision (Q v)} (l : list nat) : (forall v, 0 < dom v) -> (forall v, P v -> ~ Q v) ->
  prod_list (dom <$> filter P l) * prod_list (dom <$> filter Q l) <= prod_list (dom <$> l).
Proof.
  intros Hd HPQ. induction l as [|v l IH]; [done|]. cbn [fmap list_fmap prod_list foldr]. fold (prod_list (dom <$> l)). specialize (Hd v). destruct (decide (P v)) as [HP|HP].
  - rewrite filter_cons_True, filter_cons_False by auto. cbn [fmap list_fmap prod_list foldr]. fold (prod_list (dom <$> filter P l)). fold (fmap (M := list) dom (filter P l)). rewrite <-Nat.mul_assoc. by apply Nat.mul_le_mono_l.
  - rewrite filter_cons_False by done. destruct (decide (Q v)) as [HQ|HQ].
    + rewrite filter_cons_True by done. cbn [fmap list_fmap prod_list foldr]. fold (fmap (M := list) dom (filter Q l)). fold (prod_list (dom <$> filter Q l)). fold (fmap (M := list) dom l). nia.
    + rewrite filter_cons_False by done. fold (fmap (M := list) dom l). nia.
Qed.
Lemma prod_perm l l' : l ≡ₚ l' -> prod_list l = prod_list l'.
Proof. induction 1; cbn; [done|unfold prod_list in *; congruence|unfold prod_list; lia|congruence]. Qed.
Lemma observed_zip xs a : observed xs a = zip xs (a <$> xs).
Proof. induction xs as [|x xs IH]; [done|]. cbn. f_equal. exact IH. Qed.

(** ** Rows that are nearly as frequent as the network says *)
Section near.
Context (N : network) (HN : netinv N) (Hd : doms_positive N) (ts : list ptable) (Hts : distributions N ts) (D : columns) (HD : complete N D) (Hsize : co_vars D = net_size N).
Context (Hm : 0 < co_rows D) (e : Qc) (Hnear : forall a, valid (net_dom N) a -> differ_by e (fraction D (seq 0 (net_size N)) a) (joint ts a)) (Hposs : forall j, j < co_rows D -> joint ts (data_row D j) <> 0%Qc).
Context (q : nat) (xs : list nat) (Hq : q < net_size N) (Hxs : forall v, v ∈ xs -> v < net_size N) (Hqx : q ∉ xs).
Notation dom := (net_dom N).
Notation n := (net_size N).
Notation m := (co_rows D).
Notation W := (prod_list (net_dom N <$> filter (fun v => v ∉ q :: xs) (seq 0 (net_size N)))).
Set Default Proof Using "All".
Lemma near_margin l a : (forall v, v ∈ l -> v < n) -> valid dom a -> differ_by (qn (prod_list (dom <$> filter (fun v => v ∉ l) (seq 0 n))) * e)%Qc (fraction D l a) (chance N ts l a).
Proof.
  intros Hl Ha. assert (fraction D l a = sumv dom (filter (fun v => v ∉ l) (seq 0 n)) (fraction D (seq 0 n)) a) as ->; [|by apply sumv_close].
  unfold fraction at 1. rewrite (occurrences_margin N HN Hd D HD Hsize l a Hl Ha). assert (qn m <> 0)%Qc as Hne by (by apply qn_ne). unfold Qcdiv. rewrite Qcmult_comm, <-(sumv_scal dom). apply sumv_ext; [done|]. intros b _ _. unfold fraction, Qcdiv. ring.
Qed.
Lemma near_weight j k : j < m -> k < dom q ->
  (qn (occurrences (co_cols D) m (q :: xs) (upd (data_row D j) q k)) <= (JTSpec.weight N ts (observed xs (data_row D j)) q k + qn W * e) * qn m)%Qc /\
  (JTSpec.weight N ts (observed xs (data_row D j)) q k * qn m <= qn (occurrences (co_cols D) m (q :: xs) (upd (data_row D j) q k)) + qn W * e * qn m)%Qc.
Proof.
  intros Hj Hk. assert (valid dom (upd (data_row D j) q k)) as Hv. { intros v. unfold upd. case_bool_decide as E; [by rewrite E|by apply (BayesProofs.row_valid N HN Hd D HD Hsize q xs Hq Hxs Hqx)]. }
  assert (qn m <> 0)%Qc as Hne by (by apply qn_ne). rewrite (weight_chance N HN Hd ts Hts), vars_observed.
  rewrite (chance_dep N HN Hd ts Hts _ _ (upd (data_row D j) q k)).
  - destruct (near_margin (q :: xs) (upd (data_row D j) q k)) as [C1 C2]; [intros v [->|Hv']%elem_of_cons; auto|done|]. unfold fraction in C1, C2. apply (Qcmult_le_compat_r _ _ (qn m)) in C1, C2; try apply qn_nn.
    assert (forall z : Qc, z / qn m * qn m = z)%Qc as Hz by (intros z; by field). rewrite Hz in C1. rewrite Qcmult_plus_distr_l, Hz in C2. done.
  - intros v [->|Hv']%elem_of_cons; [|rewrite value_observed by done; unfold upd; rewrite bool_decide_false; [done|by intros ->]]. rewrite set_evidence_other by (by rewrite vars_observed). unfold upd. by rewrite !bool_decide_true.
Qed.
Lemma near_evidence j : j < m -> evidence_in_range N (observed xs (data_row D j)) /\ (0 < evidence_weight N ts (observed xs (data_row D j)))%Qc /\ q ∉ fst <$> observed xs (data_row D j).
Proof.
  intros Hj. pose proof (BayesProofs.row_valid N HN Hd D HD Hsize q xs Hq Hxs Hqx j Hj) as Hv. split_and!; [| |by rewrite vars_observed].
  - intros v x Hin _. unfold observed in Hin. apply elem_of_list_fmap in Hin as (w & [= -> ->] & _). apply Hv.
  - rewrite (evidence_chance N HN Hd ts Hts), vars_observed, (chance_dep N HN Hd ts Hts _ _ (data_row D j)) by (intros v Hv'; by apply value_observed).
    assert (0 <= chance N ts xs (data_row D j))%Qc as H0 by (unfold chance; apply sumv_nonneg; [done|apply (joint_nn N HN Hd ts Hts)]).
    apply Qcle_lt_or_eq in H0 as [H0|H0]; [done|]. exfalso. apply (Hposs j Hj). by apply (RecoverTheorems.chance_zero N HN Hd ts Hts xs).
Qed.
Lemma gap_nonneg : (0 <= e)%Qc.
Proof. destruct (Hnear (data_row D 0)) as [C1 C2]; [by apply (BayesProofs.row_valid N HN Hd D HD Hsize q xs Hq Hxs Hqx)|]. set (u := fraction D (seq 0 n) (data_row D 0)) in *. set (w := joint ts (data_row D 0)) in *. clearbody u w. to_q. lra. Qed.
Lemma near_label j l x : j < m -> best_label N ts (observed xs (data_row D j)) q l ->
  (qn (length (filter (fun i => observed xs (data_row D i) = observed xs (data_row D j) /\ Z.of_nat (data_row D i q) = x) (seq 0 m))) <=
  qn (length (filter (fun i => observed xs (data_row D i) = observed xs (data_row D j) /\ Z.of_nat (data_row D i q) = Z.of_nat l) (seq 0 m))) + (1 + 1) * (qn W * e) * qn m)%Qc.
Proof.
  intros Hj (Hl & Hbest & _). assert ((exists k, k < dom q /\ x = Z.of_nat k) \/ ~ exists k, k < dom q /\ x = Z.of_nat k) as [(k & Hk & ->)|Hno].
  { destruct (decide (0 <= x < Z.of_nat (dom q))%Z) as [H|H]; [left; exists (Z.to_nat x); lia|right; intros (k & Hk & ->); lia]. }
  - rewrite !(value_count N HN Hd D HD Hsize q xs Hq Hxs Hqx) by done. destruct (near_weight j k Hj Hk) as [A1 _]. destruct (near_weight j l Hj Hl) as [_ B2]. specialize (Hbest k Hk). unfold posterior in Hbest. destruct (near_evidence j Hj) as (_ & Hw & _).
    apply (Qcmult_le_compat_r _ _ (evidence_weight N ts (observed xs (data_row D j)))) in Hbest; [|by apply Qclt_le_weak]. assert (evidence_weight N ts (observed xs (data_row D j)) <> 0)%Qc as Hne by (intros E; rewrite E in Hw; by apply (Qclt_not_eq 0 0)).
    assert (forall z : Qc, z / evidence_weight N ts (observed xs (data_row D j)) * evidence_weight N ts (observed xs (data_row D j)) = z)%Qc as Hz by (intros z; by field). rewrite !Hz in Hbest.
    apply (Qcmult_le_compat_r _ _ (qn m)) in Hbest; [|apply qn_nn]. rewrite Qcmult_plus_distr_l in A1. replace ((1 + 1) * (qn W * e) * qn m)%Qc with (qn W * e * qn m + qn W * e * qn m)%Qc by ring.
    set (g := (qn W * e * qn m)%Qc) in *. set (w1 := (JTSpec.weight N ts (observed xs (data_row D j)) q k * qn m)%Qc) in *. set (w2 := (JTSpec.weight N ts (observed xs (data_row D j)) q l * qn m)%Qc) in *. set (c1 := qn (occurrences _ _ _ (upd (data_row D j) q k))) in *. set (c2 := qn (occurrences _ _ _ (upd (data_row D j) q l))) in *. clearbody g w1 w2 c1 c2. to_q. lra.
  - rewrite (filter_same _ (fun _ => False)); [|].
    + rewrite none_left. change (qn 0) with 0%Qc. match goal with |- (_ <= qn ?c + _)%Qc => pose proof (qn_nn c) as Hc; set (u := qn c) in * end. assert (0 <= (1 + 1) * (qn W * e) * qn m)%Qc as Hg. { apply Qc_le_mul_nonneg; [|apply qn_nn]. apply Qc_le_mul_nonneg; [done|]. apply Qc_le_mul_nonneg; [apply qn_nn|apply gap_nonneg]. } set (g := ((1 + 1) * (qn W * e) * qn m)%Qc) in *. clearbody u g. to_q. lra.
    + intros i Hi. split; [|done]. intros [_ <-]. apply Hno. exists (data_row D i q). split; [|done]. apply elem_of_seq in Hi. apply (BayesProofs.row_valid N HN Hd D HD Hsize q xs Hq Hxs Hqx i). lia.
Qed.
End near.

Theorem nearly_best N : netinv N -> doms_positive N -> forall ts, distributions N ts -> forall o, valid_order o -> forall T, jt_build o N ts = Ok T ->
  forall D, complete N D -> co_vars D = net_size N -> 20 <= co_rows D -> forall e, (forall a, valid (net_dom N) a -> differ_by e (fraction D (seq 0 (net_size N)) a) (joint ts a)) ->
  (forall j, j < co_rows D -> joint ts (data_row D j) <> 0%Qc) ->
  forall q xs, q < net_size N -> (forall v, v ∈ xs -> v < net_size N) -> NoDup xs -> q ∉ xs -> forall sch, (forall i, valid_scheduler (sch i)) ->
  exists labels p, predict sch T q (row_questions D xs) = Ok labels /\ accuracy (row_truths D q) (Z.of_nat <$> labels) = Ok p /\ from_evidence (row_questions D xs) (Z.of_nat <$> labels) /\
  forall ps, from_evidence (row_questions D xs) ps -> exists p', accuracy (row_truths D q) ps = Ok p' /\ (p' <= p + (1 + 1) * qn (prod_list (domain_sizes N)) * e)%Qc.
Proof.
  intros HN Hd ts Hts o Ho T HT D HD Hs Hm e Hnear Hposs q xs Hq Hxs Hnd Hqx sch Hsch. assert (0 < co_rows D) as Hm0 by lia.
  assert (exists labels, predict sch T q (row_questions D xs) = Ok labels /\ length labels = co_rows D /\ forall j, j < co_rows D -> best_label N ts (observed xs (data_row D j)) q (default 0 (labels !! j))) as (labels & HP & HL & HB).
  { destruct (learned_family N ts HN Hd Hts) as [F G].
    destruct (predict_ok N o ts T sch q (row_questions D xs)) as (labels & HP & HL); try done; [by apply netinv_ok|lia|right; unfold row_questions; by rewrite fmap_length, seq_length| |].
    { unfold row_questions. apply Forall_fmap, Forall_forall. intros j Hj. apply elem_of_seq in Hj. destruct (near_evidence N HN Hd ts Hts D HD Hs Hm0 e Hnear Hposs q xs Hq Hxs Hqx j ltac:(lia)) as (H1 & H2 & H3). cbn. split_and!; [done| |done]. intros E. rewrite E in H2. by apply (Qclt_not_eq 0 0). }
    exists labels. split; [done|]. pose proof (Forall2_length _ _ _ HL) as Hlen. unfold row_questions in Hlen. rewrite fmap_length, seq_length in Hlen. split; [done|]. intros j Hj. destruct (lookup_lt_is_Some_2 labels j ltac:(lia)) as [l Hl]. rewrite Hl. cbn.
    apply (Forall2_lookup_lr _ _ _ j _ _ HL); [|done]. unfold row_questions. rewrite list_lookup_fmap, lookup_seq_lt by done. done. }
  assert (forall j, j < co_rows D -> row_questions D xs !! j = Some (observed xs (data_row D j))) as HQ. { intros j Hj. unfold row_questions. by rewrite list_lookup_fmap, lookup_seq_lt. }
  assert (length (row_questions D xs) = co_rows D) as HQL. { unfold row_questions. by rewrite fmap_length, seq_length. }
  set (lab := fun j => Z.of_nat (default 0 (labels !! j))). assert (Z.of_nat <$> labels = lab <$> seq 0 (co_rows D)) as Hlab.
  { apply list_eq. intros i. rewrite !list_lookup_fmap. destruct (labels !! i) as [l|] eqn:E; [|apply lookup_ge_None in E; by rewrite lookup_seq_ge by lia]. rewrite lookup_seq_lt by (apply lookup_lt_Some in E; lia). cbn. unfold lab. by rewrite E. }
  set (t := fun j => Z.of_nat (data_row D j q)). exists labels, (qn (length (filter (fun i => t i = lab i) (seq 0 (co_rows D)))) / qn (co_rows D))%Qc. split; [done|]. split; [rewrite Hlab; apply (accuracy_function t lab); lia|].
  assert (forall i j, i < co_rows D -> j < co_rows D -> observed xs (data_row D i) = observed xs (data_row D j) -> lab i = lab j) as Hsame.
  { intros i j Hi Hj E. unfold lab. f_equal. pose proof (HB i Hi) as H1. pose proof (HB j Hj) as H2. rewrite E in H1. by apply (best_unique _ _ _ _ _ _ H1). }
  split.
  - split; [by rewrite fmap_length, HL, HQL|]. intros i j E Hi Hj. pose proof (lookup_lt_Some _ _ _ Hi) as Li. pose proof (lookup_lt_Some _ _ _ Hj) as Lj. rewrite HQL in Li, Lj. rewrite HQ in Hi, Hj by done. rewrite Hlab, !list_lookup_fmap, !lookup_seq_lt by done. cbn. f_equal. apply Hsame; [done|done|congruence].
  - intros ps [Hps1 Hps2]. rewrite HQL in Hps1. set (pr := fun j => default 0%Z (ps !! j)). exists (qn (length (filter (fun i => t i = pr i) (seq 0 (co_rows D)))) / qn (co_rows D))%Qc. split; [rewrite (as_function ps (co_rows D) Hps1); apply (accuracy_function t pr); lia|].
    pose proof (gap_nonneg N HN Hd ts Hts D HD Hs Hm0 e Hnear Hposs q xs Hq Hxs Hqx) as He. set (W := prod_list (net_dom N <$> filter (fun v => v ∉ q :: xs) (seq 0 (net_size N)))).
    assert (0 <= (1 + 1) * (qn W * e) * qn (co_rows D))%Qc as Hg. { apply Qc_le_mul_nonneg; [|apply qn_nn]. apply Qc_le_mul_nonneg; [done|]. by apply Qc_le_mul_nonneg; [apply qn_nn|]. }
    assert (forall v, 0 < net_dom N v) as Hdp by apply (dpos N HN Hd).
    pose proof (close_count (fun j => observed xs (data_row D j)) t pr lab _ Hg (zip xs <$> configs (net_dom N <$> xs)) (seq 0 (co_rows D))) as HC. rewrite fmap_length, configs_length in HC.
    assert (prod_list (net_dom N <$> xs) * W <= prod_list (domain_sizes N)) as HK.
    { rewrite <-doms_seq. assert (xs ≡ₚ filter (fun v => v ∈ xs) (seq 0 (net_size N))) as HX.
      { apply NoDup_Permutation; [done|apply NoDup_filter, NoDup_seq|]. intros v. rewrite elem_of_list_filter, elem_of_seq. split; [intros Hv; specialize (Hxs v Hv); split; [done|lia]|tauto]. }
      rewrite (prod_perm (net_dom N <$> xs) (net_dom N <$> filter (fun v => v ∈ xs) (seq 0 (net_size N)))) by (by apply fmap_Permutation). apply prod_two; [done|]. intros v Hv Hn. apply Hn. by right. }
    set (K := prod_list (domain_sizes N)) in *. set (P := prod_list (net_dom N <$> xs)) in *.
    assert (qn (length (filter (fun i => t i = pr i) (seq 0 (co_rows D)))) <= qn (length (filter (fun i => t i = lab i) (seq 0 (co_rows D)))) + qn P * ((1 + 1) * (qn W * e) * qn (co_rows D)))%Qc as HC'.
    { apply HC.
      + intros j Hj%elem_of_seq. rewrite observed_zip. apply elem_of_list_fmap. eexists. split; [reflexivity|]. apply elem_of_configs. unfold in_range. apply Forall2_fmap_2, Forall_Forall2_diag, Forall_forall. intros v _. apply (BayesProofs.row_valid N HN Hd D HD Hs q xs Hq Hxs Hqx j). lia.
      + intros i j Hi%elem_of_seq Hj%elem_of_seq E. unfold pr. f_equal. apply (Hps2 i j (observed xs (data_row D i))); [apply HQ; lia|rewrite E; apply HQ; lia].
      + intros i j Hi%elem_of_seq Hj%elem_of_seq E. apply Hsame; [lia|lia|done].
      + intros j x Hj%elem_of_seq. apply (near_label N HN Hd ts Hts D HD Hs Hm0 e Hnear Hposs q xs Hq Hxs Hqx); [lia|apply HB; lia]. }
    clear HC. assert (0 < qn (co_rows D))%Qc as Hmq by (by apply qn_pos). assert (qn (co_rows D) <> 0)%Qc as Hne by (by apply qn_ne).
    apply (Qcmult_le_compat_r _ _ (/ qn (co_rows D))%Qc) in HC'. 2:{ apply Qclt_le_weak. assert (/ qn (co_rows D) = 1 / qn (co_rows D))%Qc as -> by (by field). by apply Qc_div_pos. }
    eapply Qcle_trans; [exact HC'|]. rewrite Qcmult_plus_distr_l. replace (qn P * ((1 + 1) * (qn W * e) * qn (co_rows D)) * / qn (co_rows D))%Qc with ((1 + 1) * (qn (P * W) * e))%Qc by (rewrite qn_mul; by field).
    assert (qn (P * W) * e <= qn K * e)%Qc as Hle by (apply Qcmult_le_compat_r; [by apply qn_mono|done]). unfold Qcdiv. set (u := (qn (length (filter (fun i => t i = lab i) (seq 0 (co_rows D)))) * / qn (co_rows D))%Qc). replace ((1 + 1) * qn K * e)%Qc with ((1 + 1) * (qn K * e))%Qc by ring. set (x1 := (qn (P * W) * e)%Qc) in *. set (x2 := (qn K * e)%Qc) in *. clearbody u x1 x2. to_q. lra.
Qed.
(** A network learned with smoothing. *)
Theorem learned_nearly_best N : netinv N -> doms_positive N -> 0 < net_size N -> weakly_connected N ->
  forall ts train, distributions N ts -> complete N train -> co_vars train = net_size N -> forall e p, nearly_representative e N ts train ->
  (forall x a, x < net_size N -> valid (net_dom N) a -> (p <= chance N ts (parents_of N x) a)%Qc) -> (e < p)%Qc ->
  forall k c, 0 < k -> (forall x, x < net_size N -> (((1 + 1) * e + qn k / qn (co_rows train) * qn (net_dom N x)) / (p - e) <= c)%Qc) -> forall coin,
  forall test, complete N test -> co_vars test = net_size N -> 20 <= co_rows test -> forall e', (forall a, valid (net_dom N) a -> differ_by e' (fraction test (seq 0 (net_size N)) a) (joint ts a)) ->
  forall o, valid_order o -> exists ts2 T, learn_params N train (Z.of_nat k) coin [] = Ok ts2 /\ jt_build o N ts2 = Ok T /\
  forall q xs, q < net_size N -> (forall v, v ∈ xs -> v < net_size N) -> NoDup xs -> q ∉ xs -> forall sch, (forall i, valid_scheduler (sch i)) ->
  exists labels acc, predict sch T q (row_questions test xs) = Ok labels /\ accuracy (row_truths test q) (Z.of_nat <$> labels) = Ok acc /\
  forall ps, from_evidence (row_questions test xs) ps -> exists acc', accuracy (row_truths test q) ps = Ok acc' /\ (acc' <= acc + (1 + 1) * qn (prod_list (domain_sizes N)) * (e' + qn (net_size N) * c))%Qc.
Proof.
  intros HN Hd Hn Hc ts train Hts HD Hs e p HR Hp Hep k c Hk Hcb coin test HD' Hs' Hm e' Hnear o Ho.
  destruct (close_tables N HN Hd ts train Hts HD Hs e p HR Hp Hep k coin) as (ts2 & L & H2 & HC). destruct (learn_then_query N train (Z.of_nat k) coin o HN Hd Hn HD Hs ltac:(lia) Hc Ho) as (ts3 & T & L' & HT & HJ & _). rewrite L in L'. injection L' as <-. exists ts2, T. split; [done|]. split; [done|].
  intros q xs Hq Hxs Hnd Hqx sch Hsch. destruct (nearly_best N HN Hd ts2 H2 o Ho T HT test HD' Hs' Hm (e' + qn (net_size N) * c)%Qc) with (q := q) (xs := xs) (sch := sch) as (labels & acc & P1 & P2 & _ & P3); try done.
  - intros a Ha. destruct (Hnear a Ha) as [A1 A2]. destruct (joint_close N HN Hd Hn ts ts2 Hts H2 c) with (a := a) as [B1 B2]; [|done|].
    + intros x qt t b Hx Ht Hb. destruct (HC x qt t b Hx Ht Hb) as [C1 C2]. specialize (Hcb x ltac:(apply lookup_lt_Some in Hx; by rewrite (proj1 Hts) in Hx)). set (g := (((1 + 1) * e + qn k / qn (co_rows train) * qn (net_dom N x)) / (p - e))%Qc) in *. set (y1 := tval t b) in *. set (y2 := tval qt b) in *. clearbody g y1 y2. clear -C1 C2 Hcb. split; to_q; lra.
    + set (g := (qn (net_size N) * c)%Qc) in *. set (y1 := fraction test (seq 0 (net_size N)) a) in *. set (y2 := joint ts a) in *. set (y3 := joint ts2 a) in *. clearbody g y1 y2 y3. clear -A1 A2 B1 B2. split; to_q; lra.
  - intros j Hj. pose proof (BayesProofs.row_valid N HN Hd test HD' Hs' q xs Hq Hxs Hqx j Hj) as Hv. destruct (learn_params_plain N HN Hd train HD (Z.of_nat k) Hs ltac:(lia) coin) as (ts3 & L3 & Hlen & Hall). rewrite L in L3. injection L3 as <-.
    apply Qc_pos_ne, BeliefProofs.qprod_pos. intros t Ht. apply elem_of_list_lookup in Ht as [x Ht]. destruct (lookup_lt_is_Some_2 (nt_nodes N) x) as [nd Hnd']; [apply lookup_lt_Some in Ht; unfold net_size in *; lia|]. destruct (Hall x nd Hnd') as (t' & Ht' & (_ & HC' & _)). replace t with t' by congruence. by apply HC'.
  - by exists labels, acc.
Qed.
