(** The most probable value is right at least as often as any other prediction from the same evidence. *)
From Coq Require Import Field QArith.
From Verif Require Import BayesSpec UtilProofs NetProofs2 BuildProofs CountProofs QueryProofs Sums LearnProofs LearnTheorems JTTheorems LikelihoodProofs EquivTheorems RecoverProofs RecoverTheorems RecoverClose GibbsProofs IndepProofs IndepTheorems IndepData TableProofs2 TableProofs.
Local Open Scope nat_scope.

(** ** Counting *)
Lemma filter_split {A} (P Q : A -> Prop) `{forall x, Decision (P x)} `{forall x, Decision (Q x)} (l : list A) :
  length (filter P l) = length (filter P (filter Q l)) + length (filter P (filter (fun x => ~ Q x) l)).
Proof.
  induction l as [|x l IH]; [done|]. destruct (decide (Q x)) as [HQ|HQ].
  - rewrite (filter_cons_True Q) by done. rewrite (filter_cons_False (fun x => ~ Q x)) by naive_solver. destruct (decide (P x)); [rewrite !filter_cons_True by done; cbn [length]; lia|rewrite !filter_cons_False by done; done].
  - rewrite (filter_cons_False Q) by done. rewrite (filter_cons_True (fun x => ~ Q x)) by done. destruct (decide (P x)); [rewrite !(filter_cons_True P) by done; cbn [length]; lia|rewrite !(filter_cons_False P) by done; done].
Qed.
Lemma filter_same {A} (P Q : A -> Prop) `{forall x, Decision (P x)} `{forall x, Decision (Q x)} (l : list A) : (forall x, x ∈ l -> P x <-> Q x) -> filter P l = filter Q l.
Proof.
  induction l as [|x l IH]; intros HL; [done|]. assert (filter P l = filter Q l) as IH' by (apply IH; intros y Hy; apply HL; by right). destruct (decide (P x)) as [HP|HP].
  - rewrite !filter_cons_True, IH'; [done|by apply HL; [left|]|done].
  - rewrite !filter_cons_False, IH'; [done|intros HQ; apply HP, HL; [left|done]|done].
Qed.
Lemma best_count {A C} `{EqDecision C} (f : A -> C) (t pred lab : A -> Z) m : forall l, length l <= m ->
  (forall i j, i ∈ l -> j ∈ l -> f i = f j -> pred i = pred j) -> (forall i j, i ∈ l -> j ∈ l -> f i = f j -> lab i = lab j) ->
  (forall j x, j ∈ l -> length (filter (fun i => f i = f j /\ t i = x) l) <= length (filter (fun i => f i = f j /\ t i = lab j) l)) ->
  length (filter (fun i => t i = pred i) l) <= length (filter (fun i => t i = lab i) l).
Proof.
  induction m as [|m IH]; intros l Hm Hp Hl HB; [destruct l; [done|cbn in Hm; lia]|]. destruct l as [|j l']; [done|]. set (l := j :: l') in *. assert (j ∈ l) as Hj by left.
  rewrite (filter_split (fun i => t i = pred i) (fun i => f i = f j) l), (filter_split (fun i => t i = lab i) (fun i => f i = f j) l). apply Nat.add_le_mono.
  - specialize (HB j (pred j) Hj). rewrite !list_filter_filter. rewrite (filter_same _ (fun i => f i = f j /\ t i = pred j)), (filter_same (fun i => t i = lab i /\ _) (fun i => f i = f j /\ t i = lab j)); [done| |].
    + intros i Hi. split; intros [H1 H2]; [rewrite (Hl j i) by done; done|rewrite (Hl i j) by done; done].
    + intros i Hi. split; intros [H1 H2]; [rewrite (Hp j i) by done; done|rewrite (Hp i j) by done; done].
  - apply IH.
    + assert (length (filter (fun i => f i ≠ f j) l) <= length l') as HL; [|cbn in Hm; lia]. unfold l. rewrite filter_cons_False by naive_solver. apply filter_length.
    + intros a b [_ Ha]%elem_of_list_filter [_ Hb]%elem_of_list_filter. by apply Hp.
    + intros a b [_ Ha]%elem_of_list_filter [_ Hb]%elem_of_list_filter. by apply Hl.
    + intros k x [Hk Hkl]%elem_of_list_filter. specialize (HB k x Hkl). rewrite !list_filter_filter. rewrite (filter_same _ (fun i => f i = f k /\ t i = x)), (filter_same (fun i => (f i = f k /\ t i = lab k) /\ _) (fun i => f i = f k /\ t i = lab k)); [done| |];
        intros i _; split; try tauto; intros [H1 H2]; split; [done|by rewrite H1|done|by rewrite H1].
Qed.
Lemma zip_count (t pred : nat -> Z) l : length (filter (fun gp : Z * Z => fst gp = snd gp) (zip (t <$> l) (pred <$> l))) = length (filter (fun i => t i = pred i) l).
Proof. induction l as [|j l IH]; [done|]. cbn [fmap list_fmap zip zip_with]. destruct (decide (t j = pred j)); [rewrite !filter_cons_True by done; cbn [length]; by rewrite IH|by rewrite !filter_cons_False]. Qed.
Lemma as_function (ps : list Z) m : length ps = m -> ps = (fun j => default 0%Z (ps !! j)) <$> seq 0 m.
Proof. intros <-. apply list_eq. intros i. rewrite list_lookup_fmap. destruct (ps !! i) as [z|] eqn:E; [|apply lookup_ge_None in E; by rewrite lookup_seq_ge]. rewrite lookup_seq_lt by (by eapply lookup_lt_Some). cbn. by rewrite E. Qed.
Lemma accuracy_function (t pred : nat -> Z) m : 0 < m -> accuracy (t <$> seq 0 m) (pred <$> seq 0 m) = Ok (qn (length (filter (fun i => t i = pred i) (seq 0 m))) / qn m)%Qc.
Proof. intros Hm. rewrite accuracy_spec, zip_count, fmap_length, seq_length; [done|destruct m; [lia|done]|by rewrite !fmap_length]. Qed.

Lemma vars_observed s a : fst <$> observed s a = s.
Proof. unfold observed. rewrite <-list_fmap_compose. apply list_fmap_id. Qed.
Lemma value_observed s a b v : v ∈ s -> set_evidence (observed s a) b v = a v.
Proof. induction s as [|w s IH]; [by intros []%elem_of_nil|]. intros Hv. cbn. unfold upd. case_bool_decide as Hw; [by rewrite Hw|]. apply elem_of_cons in Hv as [Hv|Hv]; [done|by apply IH]. Qed.
Lemma qn_le a b : (qn a <= qn b)%Qc -> a <= b.
Proof. intros H. unfold qn, LearnModel.qz, Qcle in H. cbn [this Q2Qc] in H. rewrite !Qred_correct in H. unfold Qle in H. cbn in H. lia. Qed.
Lemma qn_mono a b : a <= b -> (qn a <= qn b)%Qc.
Proof. intros H. unfold qn, LearnModel.qz, Qcle. cbn [this Q2Qc]. rewrite !Qred_correct. unfold Qle. cbn. lia. Qed.
Lemma qn_div_le a b m : 0 < m -> a <= b -> (qn a / qn m <= qn b / qn m)%Qc.
Proof. intros Hm H. unfold Qcdiv. apply Qcmult_le_compat_r; [by apply qn_mono|]. apply Qclt_le_weak. assert (/ qn m = 1 / qn m)%Qc as -> by (field; by apply qn_ne). apply Qc_div_pos; [done|by apply qn_pos]. Qed.
Lemma none_left {A} (l : list A) : length (filter (fun _ => False) l) = 0.
Proof. induction l as [|x l IH]; [done|]. rewrite filter_cons_False by tauto. exact IH. Qed.

(** ** Rows that are as frequent as the network says *)
Section counts.
Context (N : network) (HN : netinv N) (Hd : doms_positive N) (D : columns) (HD : complete N D) (Hsize : co_vars D = net_size N).
Context (q : nat) (xs : list nat) (Hq : q < net_size N) (Hxs : forall v, v ∈ xs -> v < net_size N) (Hqx : q ∉ xs).
Notation dom := (net_dom N).
Notation n := (net_size N).
Notation m := (co_rows D).
Set Default Proof Using "All".
Lemma row_valid j : j < m -> valid dom (data_row D j).
Proof. intros Hj. by apply (data_row_valid N HN Hd D HD Hsize 0). Qed.
Lemma value_count j k : j < m -> k < dom q ->
  length (filter (fun i => observed xs (data_row D i) = observed xs (data_row D j) /\ Z.of_nat (data_row D i q) = Z.of_nat k) (seq 0 m)) = occurrences (co_cols D) m (q :: xs) (upd (data_row D j) q k).
Proof.
  intros Hj Hk. unfold occurrences. f_equal. apply filter_same. intros i Hi. apply elem_of_seq in Hi. rewrite (agrees_row N HN Hd D HD Hsize); [|intros v [->|Hv]%elem_of_cons; auto|lia]. cbn [fmap list_fmap].
  assert (upd (data_row D j) q k <$> xs = data_row D j <$> xs) as Hx. { apply list_fmap_ext. intros ? v Hv. unfold upd. rewrite bool_decide_false; [done|]. intros ->. apply Hqx. by eapply elem_of_list_lookup_2. } fold (fmap (M := list) (upd (data_row D j) q k) xs). rewrite Hx. unfold upd. rewrite bool_decide_true by done. split.
  - intros [H1 H2]. f_equal; [lia|]. apply (f_equal (fmap snd)) in H1. unfold observed in H1. rewrite <-!list_fmap_compose in H1. symmetry. exact H1.
  - intros [= H1 H2]. split; [|by rewrite H1]. unfold observed. apply list_fmap_ext. intros a v Hv. f_equal. apply (f_equal (.!! a)) in H2. rewrite !list_lookup_fmap, Hv in H2. cbn in H2. congruence.
Qed.
End counts.
Section rows.
Context (N : network) (HN : netinv N) (Hd : doms_positive N) (ts : list ptable) (Hts : distributions N ts) (D : columns) (HD : complete N D) (Hsize : co_vars D = net_size N) (HR : representative N ts D).
Context (q : nat) (xs : list nat) (Hq : q < net_size N) (Hxs : forall v, v ∈ xs -> v < net_size N) (Hqx : q ∉ xs).
Notation dom := (net_dom N).
Notation n := (net_size N).
Notation m := (co_rows D).
Set Default Proof Using "All".
Lemma value_weight j k : j < m -> k < dom q -> qn (occurrences (co_cols D) m (q :: xs) (upd (data_row D j) q k)) = (JTSpec.weight N ts (observed xs (data_row D j)) q k * qn m)%Qc.
Proof.
  intros Hj Hk. assert (valid dom (upd (data_row D j) q k)) as Hv. { intros v. unfold upd. case_bool_decide as E; [by rewrite E|by apply (row_valid N HN Hd D HD Hsize q xs Hq Hxs Hqx)]. }
  assert (qn m <> 0)%Qc as Hm by (apply qn_ne, HR). rewrite (weight_chance N HN Hd ts Hts), vars_observed.
  rewrite (chance_dep N HN Hd ts Hts _ _ (upd (data_row D j) q k)).
  - rewrite <-(representative_chance N HN Hd D HD Hsize ts (q :: xs)); [|done|intros v [->|Hv']%elem_of_cons; auto|done]. unfold fraction. by field.
  - intros v [->|Hv']%elem_of_cons; [|rewrite value_observed by done; unfold upd; rewrite bool_decide_false; [done|by intros ->]]. rewrite set_evidence_other by (by rewrite vars_observed). unfold upd. by rewrite !bool_decide_true.
Qed.
Lemma row_evidence j : j < m -> evidence_in_range N (observed xs (data_row D j)) /\ (0 < evidence_weight N ts (observed xs (data_row D j)))%Qc /\ q ∉ fst <$> observed xs (data_row D j).
Proof.
  intros Hj. pose proof (row_valid N HN Hd D HD Hsize q xs Hq Hxs Hqx j Hj) as Hv. assert (qn m <> 0)%Qc as Hm by (apply qn_ne, HR). split_and!; [| |by rewrite vars_observed].
  - intros v x Hin _. unfold observed in Hin. apply elem_of_list_fmap in Hin as (w & [= -> ->] & _). apply Hv.
  - rewrite (evidence_chance N HN Hd ts Hts), vars_observed, (chance_dep N HN Hd ts Hts _ _ (data_row D j)) by (intros v Hv'; by apply value_observed). rewrite <-(representative_chance N HN Hd D HD Hsize ts xs) by done. unfold fraction.
    apply Qc_div_pos; [|apply qn_pos, HR]. apply qn_pos. unfold occurrences. destruct (filter (agrees (co_cols D) xs (data_row D j)) (seq 0 m)) as [|? ?] eqn:E; [|cbn; lia]. exfalso. assert (j ∈ filter (agrees (co_cols D) xs (data_row D j)) (seq 0 m)) as Hin; [|rewrite E in Hin; by apply elem_of_nil in Hin].
    apply elem_of_list_filter. split; [|apply elem_of_seq; lia]. by apply (agrees_row N HN Hd D HD Hsize).
Qed.
Lemma label_count j l x : j < m -> best_label N ts (observed xs (data_row D j)) q l ->
  length (filter (fun i => observed xs (data_row D i) = observed xs (data_row D j) /\ Z.of_nat (data_row D i q) = x) (seq 0 m)) <=
  length (filter (fun i => observed xs (data_row D i) = observed xs (data_row D j) /\ Z.of_nat (data_row D i q) = Z.of_nat l) (seq 0 m)).
Proof.
  intros Hj (Hl & Hbest & _). assert ((exists k, k < dom q /\ x = Z.of_nat k) \/ ~ exists k, k < dom q /\ x = Z.of_nat k) as [(k & Hk & ->)|Hno].
  { destruct (decide (0 <= x < Z.of_nat (dom q))%Z) as [H|H]; [left; exists (Z.to_nat x); lia|right; intros (k & Hk & ->); lia]. }
  - rewrite !(value_count N HN Hd D HD Hsize q xs Hq Hxs Hqx) by done. apply qn_le. rewrite !value_weight by done. apply Qcmult_le_compat_r; [|apply qn_nonneg]. specialize (Hbest k Hk). unfold posterior in Hbest. destruct (row_evidence j Hj) as (_ & Hw & _).
    apply (Qcmult_le_compat_r _ _ (evidence_weight N ts (observed xs (data_row D j)))) in Hbest; [|by apply Qclt_le_weak]. assert (evidence_weight N ts (observed xs (data_row D j)) <> 0)%Qc as Hne by (intros E; rewrite E in Hw; by apply (Qclt_not_eq 0 0)).
    assert (forall z : Qc, z / evidence_weight N ts (observed xs (data_row D j)) * evidence_weight N ts (observed xs (data_row D j)) = z)%Qc as Hz by (intros z; by field). by rewrite !Hz in Hbest.
  - rewrite (filter_same _ (fun _ => False)); [|].
    + rewrite none_left. lia.
    + intros i Hi. split; [|done]. intros [_ <-]. apply Hno. exists (data_row D i q). split; [|done]. apply elem_of_seq in Hi. apply (row_valid N HN Hd D HD Hsize q xs Hq Hxs Hqx i). lia.
Qed.
End rows.
Lemma best_unique N ts E q l l' : best_label N ts E q l -> best_label N ts E q l' -> l = l'.
Proof.
  intros (H1 & H2 & H3) (H1' & H2' & H3'). destruct (Nat.lt_trichotomy l l') as [H|[H|H]]; [|done|]; exfalso.
  - apply H3' in H. specialize (H2 l' H1'). by apply (Qclt_not_le _ _ H).
  - apply H3 in H. specialize (H2' l H1). by apply (Qclt_not_le _ _ H).
Qed.
