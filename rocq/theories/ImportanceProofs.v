(** Proofs about the second and third array of a factor, and about the factor of an observation. *)
From Coq Require Import Field QArith.
From Verif Require Import CountProofs ImportanceSpec TableProofs5.
From Verif Require Import TableProofs.
Local Open Scope Qc_scope.

Section s.
Context (dom : nat -> nat) (dom_pos : forall v, (0 < dom v)%nat).
Notation wf := (TableSpec.wf dom).
Notation valid := (Sums.valid dom).

(** The same factor with [l] as its numbers. *)
Definition other (t : ptable) (l : list Qc) : ptable :=
  mkPT (pt_vars t) l (pt_dims t) (pt_cum t) (pt_nv t) (pt_size t).
Lemma other_wf t l : wf t -> sized t l -> wf (other t l).
Proof. intros [H1 H2 H3 H4 H5 H6] Hs. constructor; cbn; try done. by rewrite Hs. Qed.
Lemma other_tval t l a : tval (other t l) a = entry t l a.
Proof. done. Qed.

Lemma fill_all {A} (x : A) l : mfor (seq 0 (length l)) (fun i l => vset l i x) l = Ok (replicate (length l) x).
Proof.
  destruct (mfor_inv (fun (dn : list nat) l' => l' = replicate (length dn) x ++ drop (length dn) l) (seq 0 (length l)) (fun i l => vset l i x) l) as (l' & Hok & Hl').
  - done.
  - intros dn i rest l' Hs ->. assert (i = length dn) as ->.
    { assert (seq 0 (length l) !! length dn = Some i) as H by (rewrite Hs, lookup_app_r, Nat.sub_diag by lia; done).
      apply lookup_seq in H. lia. }
    assert (length dn < length l)%nat as Hlt.
    { assert (length (seq 0 (length l)) = length (dn ++ length dn :: rest)) as H by (by rewrite Hs). rewrite seq_length, app_length in H. cbn in H. lia. }
    eexists. split.
    + rewrite vset_ok; [done|]. rewrite app_length, replicate_length, drop_length. lia.
    + rewrite insert_app_r_alt, replicate_length, Nat.sub_diag by (rewrite replicate_length; lia).
      destruct (lookup_lt_is_Some_2 _ _ Hlt) as [y Hy]. rewrite (drop_S l y (length dn) Hy). cbn [insert list_insert].
      rewrite app_length. cbn [length]. rewrite replicate_add. cbn [replicate]. rewrite <-app_assoc. cbn [app]. by rewrite Nat.add_1_r.
  - rewrite Hok, Hl', seq_length, drop_ge, app_nil_r by lia. done.
Qed.

Lemma qn_pos_ne d : (0 < d)%nat -> qn d <> 0.
Proof. intros Hd H. unfold qn in H. rewrite <-CountProofs.qz_0 in H. apply CountProofs.qz_inj in H. lia. Qed.

Lemma uniform_full f v vs : wf (ft_base f) -> pt_vars (ft_base f) = v :: vs -> sized (ft_base f) (ft_icpt f) ->
  exists f', uniform_distribution f = Ok f' /\ ft_base f' = ft_base f /\ ft_scores f' = ft_scores f /\ sized (ft_base f) (ft_icpt f') /\
    (forall a, valid a -> entry (ft_base f) (ft_icpt f') a = 1 / qn (dom v)) /\
    column_sums_one dom (ft_base f) v (ft_icpt f').
Proof.
  intros HT E Hs. unfold uniform_distribution.
  rewrite (vget_ok (pt_dims (ft_base f)) 0%nat (dom v)) by (by rewrite (wf_dims _ _ HT), E). cbn [mbind outcome_bind].
  pose proof (dom_pos v) as Hv. rewrite bool_decide_false by lia. rewrite <-Hs, fill_all. cbn [mbind outcome_bind].
  eexists. split; [done|]. cbn [ft_base ft_scores ft_icpt].
  assert (forall a, valid a -> entry (ft_base f) (replicate (length (ft_icpt f)) (1 / qn (dom v))) a = 1 / qn (dom v)) as He.
  { intros a Ha. unfold entry. rewrite lookup_replicate_2; [done|]. rewrite Hs. by apply (lex_index_lt_size dom dom_pos). }
  split_and!; [done|done|unfold sized; by rewrite replicate_length|done|].
  intros a Ha. rewrite (qsum_ext _ _ (fun _ => 1 / qn (dom v))).
  - rewrite CountProofs.qsum_const, seq_length. field. by apply qn_pos_ne.
  - intros x Hx. apply elem_of_seq in Hx. apply He. apply valid_upd; [done|lia].
Qed.

Lemma uniform_constructed t : wf t -> pt_vars t <> [] -> uniform_distribution (constructed t) = Err OutOfBounds.
Proof.
  intros HT Hne. destruct (pt_vars t) as [|v vs] eqn:E; [done|]. unfold uniform_distribution. cbn [ft_base constructed ft_icpt].
  rewrite (vget_ok (pt_dims t) 0%nat (dom v)) by (by rewrite (wf_dims _ _ HT), E). cbn [mbind outcome_bind].
  pose proof (dom_pos v) as Hv. rewrite bool_decide_false by lia.
  assert (0 < pt_size t)%nat as Hsz.
  { rewrite (wf_size _ _ HT), configs_length. apply prod_list_pos. rewrite (wf_dims _ _ HT). by apply dims_positive. }
  destruct (pt_size t) as [|k] eqn:Ek; [lia|]. done.
Qed.

Lemma normalize_columns_other t l : normalize_columns t l = (T ← table_normalize_cpt (other t l); Ok (pt_pots T)).
Proof.
  unfold normalize_columns, table_normalize_cpt. cbn [pt_cum pt_dims pt_pots other].
  destruct (vget (pt_cum t) 0) as [p|e]; cbn [mbind outcome_bind]; [|done].
  destruct (vget (pt_dims t) 0) as [d|e]; cbn [mbind outcome_bind]; [|done].
  match goal with |- ?x = _ => destruct x end; done.
Qed.
Lemma normalize_columns_full t l v vs : wf t -> pt_vars t = v :: vs -> sized t l ->
  exists l', normalize_columns t l = Ok l' /\ sized t l' /\ columns_scaled dom t v l l'.
Proof.
  intros HT E Hs. rewrite normalize_columns_other.
  destruct (normalize_cpt_full dom dom_pos (other t l) v vs (other_wf t l HT Hs) E) as (T' & Hok & HT' & Hvars & H).
  rewrite Hok. cbn [mbind outcome_bind]. exists (pt_pots T'). split; [done|].
  assert (pt_dims T' = pt_dims t) as Hd by (rewrite (wf_dims _ _ HT'), Hvars, (wf_dims _ _ HT); done).
  split. { unfold sized. rewrite (wf_pots _ _ HT'), Hd. symmetry. apply HT. }
  assert (forall a, tval T' a = entry t (pt_pots T') a) as Heq. { intros a. unfold tval, entry. by rewrite Hd, Hvars. }
  intros a Ha. specialize (H a Ha). cbv zeta in H |- *. destruct H as [H1 H2]. split.
  - intros Hz. destruct (H1 Hz) as [H3 H4]. split.
    + intros x Hx. rewrite <-Heq. exact (H3 x Hx).
    + rewrite <-H4. apply qsum_ext. intros x _. symmetry. apply Heq.
  - intros Hz x Hx. rewrite <-Heq. exact (H2 Hz x Hx).
Qed.
Lemma normalize_icpt_full f v vs : wf (ft_base f) -> pt_vars (ft_base f) = v :: vs -> sized (ft_base f) (ft_icpt f) ->
  exists f', normalize_icpt f = Ok f' /\ ft_base f' = ft_base f /\ ft_scores f' = ft_scores f /\
    sized (ft_base f) (ft_icpt f') /\ columns_scaled dom (ft_base f) v (ft_icpt f) (ft_icpt f').
Proof.
  intros HT E Hs. unfold normalize_icpt. destruct (normalize_columns_full _ _ v vs HT E Hs) as (l' & -> & H1 & H2).
  cbn [mbind outcome_bind]. by eexists.
Qed.
Lemma normalize_scores_full f v vs : wf (ft_base f) -> pt_vars (ft_base f) = v :: vs -> sized (ft_base f) (ft_scores f) ->
  exists f', normalize_scores f = Ok f' /\ ft_base f' = ft_base f /\ ft_icpt f' = ft_icpt f /\
    sized (ft_base f) (ft_scores f') /\ columns_scaled dom (ft_base f) v (ft_scores f) (ft_scores f').
Proof.
  intros HT E Hs. unfold normalize_scores. destruct (normalize_columns_full _ _ v vs HT E Hs) as (l' & -> & H1 & H2).
  cbn [mbind outcome_bind]. by eexists.
Qed.

Lemma reduced_icpt_full f v vs evidence rlen :
  wf (ft_base f) -> pt_vars (ft_base f) = v :: vs -> sized (ft_base f) (ft_icpt f) -> rlen = dom v ->
  (forall u, u ∈ vs -> (u < length evidence)%nat) -> valid (asg_of_list evidence) ->
  exists r, get_reduced_icpt_potentials f rlen evidence = Ok r /\ length r = dom v /\
    forall x, (x < dom v)%nat -> r !! x = Some (entry (ft_base f) (ft_icpt f) (upd (asg_of_list evidence) v x)).
Proof.
  intros HT E Hs Hr Hu Hv.
  exact (get_reduced_potentials_spec dom dom_pos (other (ft_base f) (ft_icpt f)) v vs evidence rlen (other_wf _ _ HT Hs) E Hr Hu Hv).
Qed.

Lemma index_and_potential_full T evidence :
  wf T -> (forall v, v ∈ pt_vars T -> (v < length evidence)%nat) -> pt_vars T <> [] -> valid (asg_of_list evidence) ->
  exists k, get_reduced_index_and_potential T evidence = Ok (k, tval T (asg_of_list evidence)) /\
    get_config T k = Ok (asg_of_list evidence <$> pt_vars T).
Proof.
  intros HT Hlt Hne Hval. destruct (proj1 (table_slots dom dom_pos T HT) _ Hval) as (k & Hk & _ & Hcfg & Hx). exists k. split; [|done].
  unfold get_reduced_index_and_potential. case_bool_decide as Hone.
  - rewrite (wf_nv _ _ HT) in Hone. destruct (pt_vars T) as [|v [|w vs]] eqn:E; [done| |cbn in Hone; lia].
    change (vget [v] 0) with (Ok v). cbn [mbind outcome_bind].
    destruct (lookup_lt_is_Some_2 evidence v) as [x Hxv]; [apply Hlt; by left|].
    rewrite (vget_ok _ _ _ Hxv). cbn [mbind outcome_bind].
    assert (k = x) as ->.
    { rewrite <-E in Hk. rewrite (get_index_ok dom dom_pos T _ HT) in Hk. injection Hk as <-.
      rewrite (wf_dims _ _ HT), E. cbn. unfold asg_of_list. rewrite Hxv. cbn. lia. }
    by rewrite (vget_ok _ _ _ Hx).
  - rewrite (collect_evidence (pt_vars T) evidence); [|done|apply HT|].
    + cbn [mbind outcome_bind]. rewrite Hk. cbn [mbind outcome_bind]. by rewrite (vget_ok _ _ _ Hx).
    + intros i v Hi. cbn. by rewrite (vget_ok _ _ _ Hi).
Qed.

Lemma marginalized_full f v vs result :
  wf (ft_base f) -> pt_vars (ft_base f) = v :: vs -> vs <> [] -> sized (ft_base f) (ft_icpt f) -> length result = dom v ->
  exists r, get_marginalized_probabilities f result = Ok r /\ length r = dom v /\
    forall a, valid a -> r !! a v = Some (default 0 (result !! a v) + sumv dom vs (entry (ft_base f) (ft_icpt f)) a).
Proof.
  intros HT0 E Hvs Hs Hres. pose proof (other_wf _ _ HT0 Hs) as HT. set (T := other (ft_base f) (ft_icpt f)) in *.
  change (pt_vars T = v :: vs) in E.
  unfold get_marginalized_probabilities. change (pt_nv (ft_base f)) with (pt_nv T). change (pt_size (ft_base f)) with (pt_size T).
  change (pt_cum (ft_base f)) with (pt_cum T). change (ft_icpt f) with (pt_pots T) at 2.
  change (entry (ft_base f) (ft_icpt f)) with (tval T). clearbody T.
  assert (pt_dims T = dom v :: (dom <$> vs)) as Hdims by (by rewrite (wf_dims _ _ HT), E).
  rewrite bool_decide_false. 2: { rewrite (wf_nv _ _ HT), E. destruct vs; [done|]. cbn. lia. }
  set (p := prod_list (dom <$> vs)).
  assert (0 < p)%nat as Hp by (apply prod_list_pos; by apply dims_positive).
  set (tidx := (fun k => (k / p)%nat) <$> seq 0 (pt_size T)).
  assert (forall b, valid b -> tidx !! lex_index (pt_dims T) (b <$> pt_vars T) = Some (b v)) as Htv.
  { intros b Hb. pose proof (lex_index_lt_size dom dom_pos T b HT Hb) as Hlt.
    unfold tidx. rewrite list_lookup_fmap, lookup_seq_lt by done. cbn. f_equal.
    rewrite E, Hdims. cbn. fold p. rewrite Nat.add_comm, Nat.div_add by lia.
    rewrite Nat.div_small; [done|]. apply lex_index_lt. by apply valid_in_range. }
  rewrite (mfor_ext _ _ (fun k pots => j ← vget tidx k; x ← vget (pt_pots T) k; y ← vget pots j; vset pots j (y + x))).
  2: { intros k s0 Hk. apply elem_of_seq in Hk.
       rewrite (vget_ok (pt_cum T) 0%nat p) by (by rewrite (wf_cum _ _ HT), Hdims). cbn [mbind outcome_bind].
       unfold idiv. rewrite bool_decide_false by lia.
       rewrite (vget_ok tidx k (k / p)%nat); [done|].
       unfold tidx. rewrite list_lookup_fmap, lookup_seq_lt by lia. done. }
  destruct (mfor_scatter_add (pt_size T) (dom v) tidx (pt_pots T) result) as (pots & Hok2 & Hpl & Hpv).
  - unfold tidx. by rewrite fmap_length, seq_length.
  - rewrite (wf_pots _ _ HT). symmetry; apply HT.
  - done.
  - intros k j Hj. pose proof (lookup_lt_Some _ _ _ Hj) as Hk. unfold tidx in Hk. rewrite fmap_length, seq_length in Hk.
    destruct (slot_asg dom dom_pos T k HT Hk) as (a & Ha & <- & _). rewrite Htv in Hj by done. injection Hj as <-. apply Ha.
  - rewrite Hok2. exists pots. split_and!; [done|done|]. intros a Ha. rewrite Hpv by apply Ha. do 2 f_equal.
    rewrite (qsum_slots dom dom_pos T a (fun b => if bool_decide (b <$> [v] = a <$> [v]) then tval T b else 0)); [|done|done|].
    + rewrite E. change (v :: vs) with ([v] ++ vs). rewrite (sumv_indicator dom dom_pos); [done|apply tval_proper| |done].
      change ([v] ++ vs) with (v :: vs). rewrite <-E. apply HT.
    + intros b Hb _. rewrite Htv by done. cbn.
      destruct (decide (b v = a v)) as [Eq|Eq].
      * rewrite !bool_decide_true by congruence. by rewrite (tval_lookup dom dom_pos T b HT Hb).
      * rewrite !bool_decide_false; [done|congruence|congruence].
Qed.

(** ** The factor of an observation *)
Lemma observation_full nd v x : nd_dom nd = dom v ->
  wf (evidence_table nd v x) /\ pt_vars (evidence_table nd v x) = [v] /\
  forall a, valid a -> tval (evidence_table nd v x) a = if bool_decide (a v = x) then 1 else 0.
Proof.
  intros Hd. unfold evidence_table. rewrite Hd. split_and!; [|done|].
  - constructor; cbn [pt_vars pt_pots pt_dims pt_cum pt_nv pt_size]; [apply NoDup_singleton|done|done|done| |].
    + rewrite configs_length. cbn. lia.
    + rewrite configs_length, fmap_length, seq_length. cbn. lia.
  - intros a Ha. unfold tval. cbn [pt_vars pt_pots pt_dims fmap list_fmap lex_index]. cbn [prod_list foldr].
    rewrite Nat.mul_1_r, Nat.add_0_r. change (list_fmap nat Qc) with (@fmap list _ nat Qc).
    rewrite list_lookup_fmap, lookup_seq_lt by apply Ha. done.
Qed.
Lemma observation_conditions nd T v x : nd_dom nd = dom v -> wf T -> v ∈ pt_vars T -> (x < dom v)%nat ->
  exists P S R, table_multiplication T (evidence_table nd v x) = Ok P /\ table_marginalization_one P v = Ok S /\
    table_reduction T v x = Ok R /\ pt_vars S = pt_vars R /\ forall a, valid a -> tval S a = tval R a.
Proof.
  intros Hd HT Hv Hx. destruct (observation_full nd v x Hd) as (HE & HEv & HEt).
  destruct (table_multiplication_spec dom dom_pos T (evidence_table nd v x) HT HE) as (P & HP & HPw & HPv & HPt).
  { intros w Hw. rewrite HEv in Hw. apply elem_of_list_singleton in Hw as ->. done. }
  destruct (table_marginalization_one_spec dom dom_pos P v HPw) as (S & HS & HSw & HSv & HSt); [by rewrite HPv|].
  destruct (table_reduction_spec dom dom_pos T v x HT Hv Hx) as (R & HR & HRw & HRv & HRt).
  exists P, S, R. split_and!; [done|done|done|by rewrite HSv, HRv, HPv|]. intros a Ha. rewrite HSt, HRt by done.
  rewrite (qsum_ext _ _ (fun y => if bool_decide (y = x) then tval T (upd a v y) else 0)).
  - apply (qsum_select _ _ (fun y => tval T (upd a v y))); [apply NoDup_seq|apply elem_of_seq; lia].
  - intros y Hy. apply elem_of_seq in Hy. rewrite HPt, HEt by (apply valid_upd; [done|lia]). rewrite upd_same. case_bool_decide; ring.
Qed.
End s.
