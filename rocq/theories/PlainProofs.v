(** Entering evidence without removing the observed variables: entries that contradict the
    evidence become zero. *)
From Coq Require Import Field.
From Verif Require Import MessageModel TableSpec TableProofs TableProofs2 TableProofs4 ParProofs SchedProofs PassProofs.
From Verif Require Import BeliefSpec BeliefProofs FlowProofs EvidenceProofs.
Local Open Scope Qc_scope.

(** [a] agrees with the evidence on the variables [vs]. *)
Definition agrees (E : list (nat * nat)) (vs : list nat) (a : asg) : Prop := Forall (fun e => e.1 ∈ vs -> a e.1 = e.2) E.
Global Instance agrees_dec E vs a : Decision (agrees E vs a).
Proof. unfold agrees. apply _. Defined.
Lemma agrees_sub E vs ws a : (forall v, v ∈ vs -> v ∈ ws) -> agrees E ws a -> agrees E vs a.
Proof. unfold agrees. rewrite !Forall_forall. naive_solver. Qed.
Lemma agrees_ext E vs a b : (forall v, v ∈ vs -> a v = b v) -> agrees E vs a -> agrees E vs b.
Proof. unfold agrees. rewrite !Forall_forall. intros Hab H e He Hv. rewrite <-Hab by done. by apply H. Qed.

Section plain.
Context (dom : nat -> nat) (dom_pos : forall v, (0 < dom v)%nat).
Notation wf := (TableSpec.wf dom).
Notation valid := (valid dom).
Notation sumv := (sumv dom).
Set Default Proof Using "All".

Definition masked (E : list (nat * nat)) (t t' : ptable) : Prop :=
  wf t' /\ pt_vars t' = pt_vars t /\ forall a, valid a -> tval t' a = if bool_decide (agrees E (pt_vars t) a) then tval t a else 0.
Lemma masked_trans e E t t1 t2 : masked [e] t t1 -> masked E t1 t2 -> masked (e :: E) t t2.
Proof.
  intros (_ & V1 & H1) (W2 & V2 & H2). split_and!; [done|congruence|]. intros a Ha. rewrite (H2 a Ha), V1, (H1 a Ha). clear. unfold agrees.
  repeat case_bool_decide; rewrite ?Forall_cons, ?Forall_nil in *; naive_solver.
Qed.
Lemma masked_other v x t : wf t -> v ∉ pt_vars t -> masked [(v, x)] t t.
Proof. intros Hw Hv. split_and!; [done|done|]. intros a Ha. rewrite bool_decide_true; [done|]. apply Forall_singleton. cbn. naive_solver. Qed.

Lemma mask_spec t v x : wf t -> v ∈ pt_vars t ->
  exists loc vi t', get_variable_index t v = Ok loc /\ mcollect (seq 0 (pt_size t)) (reduction_main t loc) = Ok vi /\ zero_out t x vi = Ok t' /\ masked [(v, x)] t t'.
Proof.
  intros Ht Hv. destruct (get_variable_index_in dom dom_pos t v Ht Hv) as (loc & Hloc & Hlk & Hlt). exists loc.
  destruct (mcollect_exists (fun k w => forall a, valid a -> lex_index (pt_dims t) (a <$> pt_vars t) = k -> a v = w) (seq 0 (pt_size t)) (reduction_main t loc)) as (vi & Hvi & Hl & Hw).
  { intros k i Hi. apply lookup_seq in Hi as [-> Hi]. cbn [Nat.add]. destruct (slot_asg dom dom_pos t k Ht Hi) as (a & Ha & Hk & Hc). exists (a v). unfold reduction_main. rewrite Hc. cbn [mbind outcome_bind].
    rewrite (vget_ok _ _ (a v)) by (by rewrite list_lookup_fmap, Hlk). split; [done|]. intros b Hb Hkb.
    assert (b <$> pt_vars t = a <$> pt_vars t) as He. { eapply (lex_index_inj (pt_dims t)); [| |congruence]; rewrite (wf_dims _ _ Ht); by apply valid_in_range. }
    apply (f_equal (fun l => l !! loc)) in He. rewrite !list_lookup_fmap, Hlk in He. by injection He. }
  rewrite seq_length in Hl. assert (length (pt_pots t) = pt_size t) as Hps by (rewrite (wf_pots _ _ Ht), (wf_size _ _ Ht); done).
  exists vi. unfold zero_out.
  destruct (mfor_inv (fun (done : list nat) (pots : list Qc) => length pots = pt_size t /\ forall k c w, pt_pots t !! k = Some c -> vi !! k = Some w -> pots !! k = Some (if bool_decide (k < length done /\ w <> x)%nat then 0 else c))
    (seq 0 (pt_size t)) (fun i pots => v0 ← vget vi i; if bool_decide (v0 <> x) then vset pots i 0 else Ok pots) (pt_pots t)) as (pots & Hm & Hlen & Hpots).
  { split; [done|]. intros k c w Hk _. rewrite bool_decide_false; [done|]. cbn. lia. }
  { intros ds i rest pots Es [Hlen Hp]. assert (length ds = i /\ i < pt_size t)%nat as [Hi Hi'].
    { assert (seq 0 (pt_size t) !! length ds = Some i) as Hk by (rewrite Es; by apply list_lookup_middle). apply lookup_seq in Hk as [-> ?]. lia. }
    destruct (lookup_lt_is_Some_2 vi i) as [w Hwi]; [lia|]. rewrite (vget_ok _ _ _ Hwi). cbn [mbind outcome_bind]. rewrite app_length, Hi. cbn [length]. case_bool_decide as Hwx.
    - rewrite vset_ok by lia. eexists. split; [done|]. rewrite insert_length. split; [done|]. intros k c w' Hk Hk'. destruct (decide (k = i)) as [->|Hne].
      + rewrite list_lookup_insert by lia. replace w' with w by congruence. rewrite bool_decide_true; [done|]. split; [lia|done].
      + rewrite list_lookup_insert_ne by done. rewrite (Hp k c w') by done. f_equal. rewrite (bool_decide_ext (k < length ds /\ w' <> x)%nat (k < i + 1 /\ w' <> x)%nat); [done|]. lia.
    - eexists. split; [done|]. split; [done|]. intros k c w' Hk Hk'. rewrite (Hp k c w') by done. rewrite Hi. destruct (decide (k = i)) as [->|Hne].
      + replace w' with w by congruence. rewrite !bool_decide_false by naive_solver. done.
      + f_equal. rewrite (bool_decide_ext (k < i /\ w' <> x)%nat (k < i + 1 /\ w' <> x)%nat); [done|]. lia. }
  rewrite Hm. cbn [mbind outcome_bind]. exists (with_pots t pots). split_and!; [done|done|done|]. split_and!; [|done|].
  - destruct Ht. split; cbn; try done. congruence.
  - intros a Ha. unfold tval at 1. cbn [with_pots pt_pots pt_dims pt_vars]. pose proof (tval_lookup dom dom_pos t a Ht Ha) as Hta. pose proof (lex_index_lt_size dom dom_pos t a Ht Ha) as Hlx.
    destruct (lookup_lt_is_Some_2 vi (lex_index (pt_dims t) (a <$> pt_vars t))) as [w Hwi]; [lia|]. rewrite (Hpots _ _ _ Hta Hwi). cbn [default from_option id].
    assert (a v = w) as <- by (apply (Hw _ _ Hwi a Ha eq_refl)). rewrite seq_length. unfold agrees.
    destruct (decide (a v = x)) as [Hx|Hx].
    + rewrite bool_decide_false by naive_solver. rewrite bool_decide_true; [done|]. by apply Forall_singleton.
    + rewrite bool_decide_true by done. rewrite bool_decide_false; [done|]. intros H. rewrite Forall_singleton in H. by apply Hx, H.
Qed.
Lemma load_nodes_plain_spec sch tag st nodes v x : valid_scheduler sch -> NoDup nodes ->
  (forall y, y ∈ nodes -> exists t, tabof st y = Some t /\ wf t /\ v ∈ pt_vars t) ->
  exists st', load_evidence_to_nodes_plain sch tag st nodes v x = Ok st' /\ length (t_c st') = length (t_c st) /\ length (t_s st') = length (t_s st) /\
    (forall y, y ∉ nodes -> tabof st' y = tabof st y) /\ (forall y t, y ∈ nodes -> tabof st y = Some t -> exists t', tabof st' y = Some t' /\ masked [(v, x)] t t').
Proof.
  intros Hsch Hnd H. unfold load_evidence_to_nodes_plain.
  destruct (mcollect_exists (fun k t => forall y, nodes !! k = Some y -> tabof st y = Some t /\ wf t /\ v ∈ pt_vars t) nodes (get_tab st)) as (ts & -> & Hl & Hts).
  { intros k y Hk. destruct (H y) as (t & Ht & Hw & Hv); [by eapply elem_of_list_lookup_2|]. exists t. split; [by apply get_tab_ok|]. intros y' Hy'. replace y' with y by congruence. done. }
  cbn [mbind outcome_bind].
  assert (forall k t, ts !! k = Some t -> wf t /\ v ∈ pt_vars t) as Hk.
  { intros k t Ht. pose proof (lookup_lt_Some _ _ _ Ht). destruct (lookup_lt_is_Some_2 nodes k) as [y Hy]; [lia|]. by destruct (Hts k t Ht y Hy) as (_ & ? & ?). }
  assert (exists locs, par1_fill (sch (tag ++ [0%nat]) (length ts)) (length ts) (fun k => t ← vget ts k; get_variable_index t v) = Ok locs /\ length locs = length ts /\
    forall k t, ts !! k = Some t -> exists loc, locs !! k = Some loc /\ get_variable_index t v = Ok loc) as (locs & -> & Hll & Hlocs).
  { destruct (mcollect_exists (fun k loc => forall t, ts !! k = Some t -> get_variable_index t v = Ok loc) (seq 0 (length ts)) (fun k => t ← vget ts k; get_variable_index t v)) as (locs & Hlo & Hll & Hlocs).
    - intros k i Hi. apply lookup_seq in Hi as [-> Hi]. cbn [Nat.add]. destruct (lookup_lt_is_Some_2 ts k Hi) as [t Ht]. rewrite (vget_ok _ _ _ Ht). cbn [mbind outcome_bind]. destruct (Hk k t Ht) as [Hw Hv].
      destruct (get_variable_index_in dom dom_pos t v Hw Hv) as (loc & Hloc & _). exists loc. split; [done|]. intros t' Ht'. replace t' with t by congruence. done.
    - rewrite seq_length in Hll. exists locs. split_and!; [|done|]. { by apply (par1_fill_spec (length ts) _ _ (Hsch _ _)). }
      intros k t Ht. pose proof (lookup_lt_Some _ _ _ Ht). destruct (lookup_lt_is_Some_2 locs k) as [loc Hloc]; [lia|]. exists loc. split; [done|]. by apply (Hlocs k loc Hloc). }
  cbn [mbind outcome_bind].
  destruct (par2_fill_exists (fun k vi => forall t, ts !! k = Some t -> exists t', zero_out t x vi = Ok t' /\ masked [(v, x)] t t') (pt_size <$> ts)
     (sch (tag ++ [1%nat]) (snd (cum_sums (pt_size <$> ts)))) (fun k i => t ← vget ts k; loc ← vget locs k; reduction_main t loc i)) as (vidx & -> & Hvl & Hvidx).
  { apply Hsch. }
  { intros j n Hj. rewrite list_lookup_fmap in Hj. destruct (ts !! j) as [t|] eqn:Ht; [|done]. injection Hj as <-. destruct (Hk j t Ht) as [Hw Hv].
    destruct (Hlocs j t Ht) as (loc & Hloc & Hgi). destruct (mask_spec t v x Hw Hv) as (loc' & vi & t' & Hgi' & Hm & Hz & Hr). assert (loc' = loc) as -> by congruence. exists vi. split.
    - rewrite <-Hm. apply mcollect_ext. intros k _. rewrite (vget_ok _ _ _ Ht). cbn [mbind outcome_bind]. rewrite (vget_ok _ _ _ Hloc). done.
    - intros t2 Ht2. replace t2 with t by congruence. by exists t'. }
  cbn [mbind outcome_bind]. rewrite fmap_length in Hvl.
  assert (exists ts', par1 (sch (tag ++ [2%nat]) (length ts)) (fun k t => vi ← vget vidx k; zero_out t x vi) ts = Ok ts' /\ length ts' = length ts /\
    forall k t, ts !! k = Some t -> exists t', ts' !! k = Some t' /\ masked [(v, x)] t t') as (ts' & -> & Hl' & Hts').
  { destruct (mcollect_exists (fun k t' => forall t, ts !! k = Some t -> masked [(v, x)] t t') (seq 0 (length ts)) (fun s => t ← vget ts s; vi ← vget vidx s; zero_out t x vi)) as (ts' & Hm & Hl' & Hts').
    - intros k i Hi. apply lookup_seq in Hi as [-> Hi]. cbn [Nat.add]. destruct (lookup_lt_is_Some_2 ts k Hi) as [t Ht].
      destruct (lookup_lt_is_Some_2 vidx k) as [vi Hvi]; [lia|]. destruct (Hvidx k vi Hvi t Ht) as (t' & Hp & Hr). exists t'. split.
      + rewrite (vget_ok _ _ _ Ht). cbn [mbind outcome_bind]. rewrite (vget_ok _ _ _ Hvi). done.
      + intros t2 Ht2. replace t2 with t by congruence. done.
    - rewrite seq_length in Hl'. exists ts'. split_and!; [|done|]. { by apply (par1_spec (length ts) _ _ ts (Hsch _ _) eq_refl). }
      intros k t Ht. pose proof (lookup_lt_Some _ _ _ Ht). destruct (lookup_lt_is_Some_2 ts' k) as [t' Ht']; [lia|]. exists t'. split; [done|]. by apply (Hts' k t' Ht'). }
  cbn [mbind outcome_bind].
  destruct (set_tabs_spec nodes ts' st) as (st' & -> & H1 & H2 & H3 & H4); [lia|done| |].
  { intros y Hy. destruct (H y Hy) as (t & -> & _). by eexists. }
  exists st'. split_and!; try done. intros y t Hy Ht. apply elem_of_list_lookup in Hy as [k Hy]. pose proof (lookup_lt_Some _ _ _ Hy). destruct (lookup_lt_is_Some_2 ts k) as [t2 Ht2]; [lia|].
  destruct (Hts k t2 Ht2 y Hy) as (Hty & _). replace t2 with t in * by congruence. destruct (Hts' k t Ht2) as (t' & Ht' & Hr). exists t'. split; [by eapply H4|done].
Qed.
Lemma load_plain_spec sch tag n E : valid_scheduler sch -> forall st, (forall y t, tabof st y = Some t -> wf t /\ forall v, v ∈ pt_vars t -> v < n)%nat ->
  exists st', load_evidence_plain sch tag n E st = Ok st' /\ length (t_c st') = length (t_c st) /\ length (t_s st') = length (t_s st) /\
    forall y t, tabof st y = Some t -> exists t', tabof st' y = Some t' /\ masked E t t'.
Proof.
  intros Hsch. unfold load_evidence_plain. generalize 0%nat. induction E as [|[v x] E IH]; intros k st Hst; cbn [length seq zip zip_with mfor].
  - exists st. split_and!; try done. intros y t Ht. exists t. split; [done|]. split_and!; [by eapply Hst|done|]. intros a Ha. rewrite bool_decide_true; [done|]. by apply Forall_nil.
  - assert (exists st1, (if bool_decide (n <= v)%nat then Ok st else nodes ← tables_with st v; load_evidence_to_nodes_plain sch (tag ++ [k]) st nodes v x) = Ok st1 /\ length (t_c st1) = length (t_c st) /\ length (t_s st1) = length (t_s st) /\
      forall y t, tabof st y = Some t -> exists t', tabof st1 y = Some t' /\ masked [(v, x)] t t') as (st1 & -> & L1 & L2 & H1).
    { case_bool_decide as Hv.
      - exists st. split_and!; try done. intros y t Ht. exists t. split; [done|]. destruct (Hst y t Ht) as [Hw HU]. apply masked_other; [done|]. intros Hin. specialize (HU v Hin). lia.
      - assert (Forall wf (t_c st)) as Hwc by (apply Forall_lookup_2; intros i t Ht; by apply (Hst (TC i))). assert (Forall wf (t_s st)) as Hws by (apply Forall_lookup_2; intros i t Ht; by apply (Hst (TS i))).
        destruct (tables_with_spec dom dom_pos st v Hwc Hws) as (nodes & -> & Hnd & Hnodes). cbn [mbind outcome_bind].
        destruct (load_nodes_plain_spec sch (tag ++ [k]) st nodes v x Hsch Hnd) as (st' & -> & H1 & H2 & H3 & H4).
        { intros y Hy. apply Hnodes in Hy as (t & Ht & Hvt). exists t. split_and!; [done|by apply (Hst y)|done]. }
        exists st'. split_and!; try done. intros y t Ht. destruct (decide (v ∈ pt_vars t)) as [Hin|Hin].
        + apply H4; [|done]. apply Hnodes. by exists t.
        + exists t. split; [|apply masked_other; [by apply (Hst y)|done]]. rewrite H3; [done|]. intros Hy. apply Hnodes in Hy as (t2 & Ht2 & Hv2). replace t2 with t in Hv2 by congruence. done. }
    assert (forall y, is_Some (tabof st1 y) -> is_Some (tabof st y)) as Hback.
    { intros [i|s]; cbn; rewrite !lookup_lt_is_Some; lia. }
    cbn [mbind outcome_bind]. destruct (IH (S k) st1) as (st' & Hst' & L3 & L4 & H').
    { intros y t1 Ht1. destruct (Hback y) as [t Ht]; [by eexists|]. destruct (H1 y t Ht) as (t' & Ht' & Hw & Hv & _). replace t1 with t' by congruence. split; [done|]. rewrite Hv. by apply (Hst y). }
    exists st'. split; [exact Hst'|]. split; [lia|]. split; [lia|]. intros y t Ht. destruct (H1 y t Ht) as (t1 & Ht1 & M1). destruct (H' y t1 Ht1) as (t2 & Ht2 & M2). exists t2. split; [done|]. by eapply masked_trans.
Qed.
End plain.
