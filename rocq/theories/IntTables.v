(** Table operations with checks: nothing overflows while the tables are small. *)
From Verif Require Import IntModel ParProofs IntProofs TableSpec TableProofs.
Local Open Scope nat_scope.

Section tables.
Context (dom : nat -> nat) (dom_pos : forall v, 0 < dom v) (M B V : nat) (HBV : B * V <= M) (HB : B <= M).
Notation wf := (wf dom).
Notation valid := (valid dom).
(** A table of the run: well formed, with at most [B] entries and [V] variables. *)
Definition small (t : ptable) : Prop := wf t /\ pt_size t <= B /\ pt_nv t <= V.

Lemma wf_prod t : wf t -> prod_list (pt_dims t) = pt_size t.
Proof using All. intros H. by rewrite (wf_size _ _ H), configs_length. Qed.
Lemma wf_positive t : wf t -> positive (pt_dims t).
Proof using All. intros H. rewrite (wf_dims _ _ H). by apply dims_positive. Qed.
Lemma wf_lengths t : wf t -> length (pt_dims t) = pt_nv t /\ length (pt_vars t) = pt_nv t.
Proof using All. intros H. rewrite (wf_dims _ _ H), (wf_nv _ _ H), fmap_length. done. Qed.
Lemma index_wf t cfg : wf t -> in_range (pt_dims t) cfg -> pt_size t <= M -> get_index_i M t cfg = get_index t cfg.
Proof using All.
  intros H Hr Hs. unfold get_index_i, get_index. destruct (wf_lengths t H) as [Hl _].
  assert (get_index_nv cfg (pt_nv t) (pt_cum t) = Ok (lex_index (pt_dims t) cfg)) as E.
  { rewrite (wf_cum _ _ H), <-Hl. apply get_index_spec. by apply in_range_length. }
  rewrite E. apply (get_index_within M); [done|]. apply lex_index_lt in Hr. rewrite wf_prod in Hr by done. lia.
Qed.

(** Locations of the variables [ws] in the table [C]; the number of variables stands for a missing one. *)
Definition located (C : ptable) (ws locs : list nat) : Prop :=
  length locs = length ws /\ forall l loc v, locs !! l = Some loc -> ws !! l = Some v -> loc <= pt_nv C /\ (loc < pt_nv C -> pt_vars C !! loc = Some v).
Lemma variable_index_range C v loc : wf C -> get_variable_index C v = Ok loc -> loc <= pt_nv C /\ (loc < pt_nv C -> pt_vars C !! loc = Some v).
Proof using All.
  intros H E. destruct (decide (v ∈ pt_vars C)) as [Hv|Hv].
  - unfold get_variable_index in E. apply elem_of_list_lookup in Hv as [i Hi]. pose proof (lookup_lt_Some _ _ _ Hi) as Hlt.
    rewrite (find_var_spec (pt_vars C) (pt_nv C) 0 (pt_nv C) v i) in E; [injection E as <-| | |done|apply H].
    + rewrite (wf_nv _ _ H). split; [lia|done].
    + by rewrite (wf_nv _ _ H).
    + rewrite (wf_nv _ _ H). lia.
  - unfold get_variable_index in E. rewrite find_var_absent in E; [injection E as <-; lia| |done]. by rewrite (wf_nv _ _ H).
Qed.
Lemma located_collect C ws n locs : wf C -> n = length ws -> mcollect (seq 0 n) (fun i => v ← vget ws i; get_variable_index C v) = Ok locs -> located C ws locs.
Proof using All.
  intros H -> E. apply mcollect_lookup in E as [Hl E]. rewrite seq_length in Hl. split; [done|]. intros l loc v Hloc Hv.
  assert (seq 0 (length ws) !! l = Some l) as Hs by (apply lookup_seq; split; [done|by eapply lookup_lt_Some]).
  destruct (E l l Hs) as (x & Hx & Hb). rewrite Hloc in Hx. injection Hx as <-. rewrite (vget_ok _ _ _ Hv) in Hb. by apply variable_index_range in Hb.
Qed.
Lemma located_bound C ws locs : located C ws locs -> forall l loc, locs !! l = Some loc -> loc <= pt_nv C.
Proof using All.
  intros [Hl H] l loc Hloc. destruct (lookup_lt_is_Some_2 ws l) as [v Hv]; [rewrite <-Hl; by eapply lookup_lt_Some|]. by apply (H l loc v).
Qed.
Lemma projected C k ws locs full part n : wf C -> k < pt_size C -> get_config C k = Ok full -> located C ws locs -> n = length ws ->
  mcollect (seq 0 n) (fun l => loc ← vget locs l; vget full loc) = Ok part -> in_range (dom <$> ws) part.
Proof using All.
  intros H Hk Hf [Hl Hloc] -> E. destruct (slot_asg dom dom_pos C k H Hk) as (a & Ha & _ & Hc). rewrite Hc in Hf. injection Hf as <-.
  apply mcollect_lookup in E as [Hlen E]. rewrite seq_length in Hlen. assert (part = a <$> ws) as ->.
  - apply list_eq. intros l. destruct (ws !! l) as [v|] eqn:Hv.
    + assert (seq 0 (length ws) !! l = Some l) as Hs by (apply lookup_seq; split; [done|by eapply lookup_lt_Some]).
      destruct (E l l Hs) as (x & Hx & Hb). rewrite Hx, list_lookup_fmap, Hv. cbn. apply bind_ok in Hb as (loc & Hlc%vget_inv & Hb%vget_inv).
      apply list_lookup_fmap_inv in Hb as (w & -> & Hw). destruct (Hloc l loc v Hlc Hv) as [_ Hat].
      rewrite (wf_nv _ _ H) in Hat. rewrite Hat in Hw; [by injection Hw as ->|by eapply lookup_lt_Some].
    + rewrite list_lookup_fmap, Hv. apply lookup_ge_None in Hv. apply lookup_ge_None. lia.
  - by apply valid_in_range.
Qed.
Lemma project_within full nv1 nv2 locs k : k < B -> nv1 <= V -> nv2 <= V -> (forall l loc, locs !! l = Some loc -> loc <= nv1) ->
  project_i M full nv1 nv2 locs k = mcollect (seq 0 nv2) (fun l => loc ← vget locs l; vget full loc).
Proof using All.
  intros Hk H1 H2 Hloc. unfold project_i. apply TableProofs.mcollect_ext. intros l Hl%elem_of_seq. destruct (vget locs l) as [loc|] eqn:E; cbn [mbind outcome_bind]; [|done].
  apply vget_inv in E. apply Hloc in E. assert ((k + 1) * V <= B * V) by (apply Nat.mul_le_mono_r; lia). assert (k * nv1 <= k * V) by (by apply Nat.mul_le_mono_l). assert (k * nv2 <= k * V) by (by apply Nat.mul_le_mono_l).
  rewrite imul_ok by lia. rewrite iadd_ok by lia. rewrite imul_ok by lia. rewrite iadd_ok by lia. done.
Qed.
Lemma offset_within k nv : k < B -> nv <= V -> k * nv <= M.
Proof using All. intros H1 H2. assert (k * nv <= B * V); [|lia]. apply Nat.mul_le_mono; lia. Qed.
Lemma area_within n nv : n <= B -> nv <= V -> n * nv <= M.
Proof using All. intros H1 H2. assert (n * nv <= B * V); [|lia]. by apply Nat.mul_le_mono. Qed.
Lemma marginalization_main_within N C locs k : small N -> small C -> located C (pt_vars N) locs -> k < pt_size C ->
  marginalization_main_i M N (pt_nv C) (pt_cum C) locs k = marginalization_main N (pt_nv C) (pt_cum C) locs k.
Proof using All.
  intros (HN & HN1 & HN2) (HC & HC1 & HC2) Hloc Hk. unfold marginalization_main_i, marginalization_main.
  rewrite imul_ok by (apply offset_within; lia). change (get_config_nv k (pt_nv C) (pt_cum C)) with (get_config C k).
  apply (guarded_step (fun _ => True)). intros full Hf. rewrite project_within; [|lia|done|done|by eapply located_bound].
  apply (guarded_step (fun _ => True)). intros part Hp. rewrite imul_ok by (apply offset_within; lia).
  rewrite index_wf; [by apply guarded_self|done| |lia]. rewrite (wf_dims _ _ HN).
  eapply (projected C k (pt_vars N) locs full part (pt_nv N)); try done. by rewrite (wf_nv _ _ HN).
Qed.
Lemma extension_main_within C S locs k : small S -> small C -> located C (pt_vars S) locs -> k < pt_size C ->
  extension_main_i M C (pt_nv S) (pt_cum S) locs k = extension_main C (pt_nv S) (pt_cum S) locs k.
Proof using All.
  intros (HN & HN1 & HN2) (HC & HC1 & HC2) Hloc Hk. unfold extension_main_i, extension_main.
  rewrite imul_ok by (apply offset_within; lia).
  apply (guarded_step (fun _ => True)). intros full Hf. rewrite project_within; [|lia|done|done|by eapply located_bound].
  apply (guarded_step (fun _ => True)). intros part Hp. rewrite imul_ok by (apply offset_within; lia).
  change (get_index_nv_i M part (pt_nv S) (pt_cum S)) with (get_index_i M S part). change (get_index_nv part (pt_nv S) (pt_cum S)) with (get_index S part).
  rewrite index_wf; [by apply guarded_self|done| |lia]. rewrite (wf_dims _ _ HN).
  eapply (projected C k (pt_vars S) locs full part (pt_nv S)); try done. by rewrite (wf_nv _ _ HN).
Qed.
Lemma reorganization_main_within N C locs k : small N -> small C -> located C (pt_vars N) locs -> k < pt_size C ->
  reorganization_main_i M N C locs k = reorganization_main N C locs k.
Proof using All.
  intros (HN & HN1 & HN2) (HC & HC1 & HC2) Hloc Hk. unfold reorganization_main_i, reorganization_main.
  apply (guarded_step (fun _ => True)). intros full Hf. apply (guarded_step (fun _ => True)). intros part Hp.
  rewrite index_wf; [by apply guarded_self|done| |lia]. rewrite (wf_dims _ _ HN).
  eapply (projected C k (pt_vars N) locs full part (pt_nv N)); try done. by rewrite (wf_nv _ _ HN).
Qed.

(** Loops that only store into an array keep its length. *)
Lemma mfor_keeps {I S} (Inv : S -> Prop) (l : list I) f s s' : Inv s -> (forall i s s', Inv s -> f i s = Ok s' -> Inv s') -> mfor l f s = Ok s' -> Inv s'.
Proof using All.
  intros Hs H. revert s Hs. induction l as [|i l IH]; intros s Hs E; cbn in E; [by injection E as <-|].
  apply bind_ok in E as (s1 & E1 & E2). eapply IH; [|done]. by eapply H.
Qed.
Ltac stores := let i := fresh "i" in let p := fresh "p" in let p1 := fresh "p" in let Hp := fresh "Hp" in let F := fresh "F" in intros i p p1 Hp F; repeat (apply bind_ok in F as (? & _ & F)); apply vset_inv in F as [_ ->]; by rewrite insert_length.
Lemma same_shape t pots : small t -> length pots = length (pt_pots t) -> small (mkPT (pt_vars t) pots (pt_dims t) (pt_cum t) (pt_nv t) (pt_size t)).
Proof using All. intros (H & H1 & H2) Hl. split; [|done]. apply (wf_set_pots dom dom_pos); [done|]. by rewrite Hl, (wf_pots _ _ H), (wf_size _ _ H). Qed.
(** The result has the shape of [t]. *)
Definition shaped (t t' : ptable) : Prop := small t' /\ pt_vars t' = pt_vars t /\ pt_size t' = pt_size t /\ pt_nv t' = pt_nv t.
Lemma reorganization_post_shape N C tidx t : small N -> reorganization_post N C tidx = Ok t -> shaped N t.
Proof using All.
  intros HN E. unfold reorganization_post in E. apply bind_ok in E as (pots & E & [= <-]). split_and!; try done. apply same_shape; [done|].
  eapply (mfor_keeps (fun p => length p = length (pt_pots N))); [done| |exact E]. stores.
Qed.
Lemma marginalization_post_shape N C tidx t : small N -> marginalization_post N C tidx = Ok t -> shaped N t.
Proof using All.
  intros HN E. unfold marginalization_post in E. apply bind_ok in E as (pots & E & [= <-]). split_and!; try done. apply same_shape; [done|].
  eapply (mfor_keeps (fun p => length p = length (pt_pots N))); [done| |exact E]. stores.
Qed.
Lemma extension_post_shape N C tidx t : small N -> extension_post N C tidx = Ok t -> shaped N t.
Proof using All.
  intros HN E. unfold extension_post in E. apply bind_ok in E as (pots & E & [= <-]). split_and!; try done. apply same_shape; [done|].
  eapply (mfor_keeps (fun p => length p = length (pt_pots N))); [done| |exact E]. stores.
Qed.
Lemma mult_loop_shape N C t : small N -> mult_loop N C = Ok t -> shaped N t.
Proof using All.
  intros HN E. unfold mult_loop in E. apply bind_ok in E as (pots & E & [= <-]). split_and!; try done. apply same_shape; [done|].
  eapply (mfor_keeps (fun p => length p = length (pt_pots N))); [done| |exact E]. stores.
Qed.
Lemma zero_shape N t : small N -> table_zero N = Ok t -> shaped N t.
Proof using All.
  intros HN E. unfold table_zero in E. apply bind_ok in E as (pots & E & [= <-]). split_and!; try done. apply same_shape; [done|].
  eapply (mfor_keeps (fun p => length p = length (pt_pots N))); [done| |exact E]. stores.
Qed.
Lemma normalize_shape N t : small N -> table_normalize N = Ok t -> shaped N t.
Proof using All.
  intros HN E. unfold table_normalize in E. apply bind_ok in E as (d & _ & E). apply bind_ok in E as (pots & E & [= <-]). split_and!; try done. apply same_shape; [done|].
  eapply (mfor_keeps (fun p => length p = length (pt_pots N))); [done| |exact E].
  intros i p p' Hp F. apply bind_ok in F as (x & _ & F). case_bool_decide; [done|]. apply vset_inv in F as [_ ->]. by rewrite insert_length.
Qed.

(** Whole operations. *)
Lemma prod_app_le l k : positive k -> prod_list l <= prod_list (l ++ k).
Proof using All.
  intros Hk. apply prod_list_pos in Hk. induction l as [|d l IH]; [change (1 <= prod_list k); lia|]. cbn. by apply Nat.mul_le_mono_l.
Qed.
Lemma small_fresh t ws : small t -> NoDup ws -> ws ⊆+ pt_vars t -> small (fresh dom ws).
Proof using All.
  intros (H & H1 & H2) Hn Hs. split; [by apply wf_fresh|]. cbn [fresh pt_size pt_nv]. rewrite (wf_nv _ _ H) in H2. rewrite (wf_size _ _ H) in H1.
  split; [|apply submseteq_length in Hs; lia]. rewrite configs_length. rewrite configs_length, (wf_dims _ _ H) in H1.
  apply submseteq_Permutation in Hs as [k Hk]. rewrite (prod_list_perm (dom <$> pt_vars t) (dom <$> (ws ++ k))) in H1 by (by rewrite Hk).
  rewrite fmap_app in H1. etransitivity; [|exact H1]. apply prod_app_le. by apply dims_positive.
Qed.
Lemma fresh_prod t ws : small t -> ws ⊆+ pt_vars t -> prod_list (dom <$> ws) <= M.
Proof using All.
  intros Ht Hs. assert (NoDup ws) as Hn. { destruct Ht as (H & _). apply submseteq_Permutation in Hs as [k Hk]. pose proof (wf_nodup _ _ H) as Hn. rewrite Hk in Hn. by apply NoDup_app in Hn as (? & _). }
  destruct (small_fresh t ws Ht Hn Hs) as (_ & H & _). cbn [fresh pt_size] in H. rewrite configs_length in H. lia.
Qed.
Lemma cum_size_within ws {X} (f : list nat -> nat -> outcome X) : positive ws -> prod_list ws <= M ->
  (cum ← construct_cum_levels_i M (length ws) ws; c0 ← vget cum 0; d0 ← vget ws 0; n ← imul M c0 d0; f cum n) =
  (cum ← construct_cum_levels (length ws) ws; c0 ← vget cum 0; d0 ← vget ws 0; f cum (c0 * d0)).
Proof using All.
  intros Hp HM. rewrite cum_levels_within by done. destruct ws as [|d ws]; [done|]. rewrite construct_cum_levels_spec by done. cbn [mbind outcome_bind].
  cbn [strides]. unfold vget at 1. cbn [lookup list_lookup mbind outcome_bind]. unfold vget at 1. cbn [lookup list_lookup mbind outcome_bind].
  rewrite imul_ok; [done|]. rewrite Nat.mul_comm. exact HM.
Qed.
Lemma extension_pre_within t ws : small t -> ws ⊆+ pt_vars t -> extension_pre_i M ws (dom <$> ws) = extension_pre ws (dom <$> ws).
Proof using All.
  intros Ht Hs. unfold extension_pre_i, extension_pre. replace (length ws) with (length (dom <$> ws)) by apply fmap_length.
  rewrite (cum_size_within (dom <$> ws) (fun cum n => Ok (mkPT ws (replicate n 0%Qc) (dom <$> ws) cum (length (dom <$> ws)) n))); [done|by apply dims_positive|by eapply fresh_prod].
Qed.
Lemma marginalization_pre_within t ws : small t -> ws ⊆+ pt_vars t -> marginalization_pre_i M ws (dom <$> ws) = marginalization_pre ws (dom <$> ws).
Proof using All.
  intros Ht Hs. unfold marginalization_pre_i, marginalization_pre. case_bool_decide; [|done]. replace (length ws) with (length (dom <$> ws)) by apply fmap_length.
  rewrite (cum_size_within (dom <$> ws) (fun cum n => Ok (mkPT ws (replicate n 0%Qc) (dom <$> ws) cum (length (dom <$> ws)) n))); [done|by apply dims_positive|by eapply fresh_prod].
Qed.
Lemma extension_within this t : small t -> small this -> guarded (fun t' => small t' /\ pt_vars t' = pt_vars t) (table_extension this (pt_vars t) (pt_dims t)) (table_extension_i M this (pt_vars t) (pt_dims t)).
Proof using All.
  intros Ht Hthis. destruct Ht as (Ht & Ht1 & Ht2). assert (small t) as Hst by done. destruct Hthis as (H & H1 & H2). assert (small this) as Hsm by done.
  unfold table_extension, table_extension_i. rewrite (wf_dims _ _ Ht). rewrite (extension_pre_within t) by done.
  apply guarded_step. intros new Hnew. destruct (decide (pt_vars t = [])) as [E|E].
  { rewrite E in Hnew. done. }
  rewrite (extension_pre_spec dom dom_pos) in Hnew by done. injection Hnew as <-. set (N := mkPT _ _ _ _ _ _).
  assert (N = fresh dom (pt_vars t)) as HN by done. assert (small N) as HsN. { rewrite HN. apply (small_fresh t); [done|apply Ht|done]. }
  apply guarded_step. intros locs Hlocs. apply (located_collect N (pt_vars this)) in Hlocs; [|apply HsN|apply H].
  pose proof HsN as (HN0 & HN1 & HN2). rewrite imul_ok by (by apply area_within). rewrite imul_ok by (by apply area_within).
  rewrite (TableProofs.mcollect_ext (seq 0 (pt_size N)) (extension_main_i M N (pt_nv this) (pt_cum this) locs) (extension_main N (pt_nv this) (pt_cum this) locs)).
  2:{ intros k Hk%elem_of_seq. apply extension_main_within; try done. lia. }
  apply guarded_step. intros tidx _. apply guarded_self. intros t' Ht'. by apply extension_post_shape in Ht' as (? & ? & _).
Qed.
Lemma reorganization_within this t : small t -> small this -> guarded (fun t' => small t' /\ pt_vars t' = pt_vars t) (table_reorganization this t) (table_reorganization_i M this t).
Proof using All.
  intros Ht Hthis. pose proof Ht as (Ht0 & Ht1 & Ht2). pose proof Hthis as (H & H1 & H2).
  unfold table_reorganization, table_reorganization_i. apply guarded_step. intros locs Hlocs.
  assert (located this (pt_vars t) locs) as Hl.
  { apply (located_collect this (pt_vars t) (pt_nv t)); [done|apply Ht0|]. rewrite <-Hlocs.
    apply mcollect_inv in Hlocs as Hf. symmetry. apply ParProofs.mcollect_ext. intros i Hi.
    apply elem_of_list_lookup in Hi as [k Hk]. apply mcollect_lookup in Hlocs as [_ Hb]. destruct (Hb k i Hk) as (x & _ & Hx). case_bool_decide; done. }
  rewrite (TableProofs.mcollect_ext (seq 0 (pt_size t)) (fun k => if bool_decide (k < pt_size this) then reorganization_main_i M t this locs k else Err OutOfBounds)
    (fun k => if bool_decide (k < pt_size this) then reorganization_main t this locs k else Err OutOfBounds)).
  2:{ intros k _. case_bool_decide; [|done]. by apply reorganization_main_within. }
  apply guarded_step. intros tidx _. apply guarded_self. intros t' Ht'. by apply reorganization_post_shape in Ht' as (? & ? & _).
Qed.
Lemma multiplication_within this t : small t -> small this -> guarded (shaped t) (table_multiplication t this) (table_multiplication_i M t this).
Proof using All.
  intros Ht Hthis. unfold table_multiplication, table_multiplication_i.
  apply (guarded_bind small).
  { case_bool_decide; [|by apply guarded_ok]. eapply guarded_weaken; [|by apply extension_within]. by intros ? []. }
  intros tmp _ Htmp. apply (guarded_bind small).
  { case_bool_decide; [|by apply guarded_ok]. eapply guarded_weaken; [|by apply reorganization_within]. by intros ? []. }
  intros tmp' _ Htmp'. apply guarded_self. intros t' Ht'. by apply mult_loop_shape in Ht'.
Qed.
Lemma marginalization_within t ws : small t -> NoDup ws -> ws ⊆+ pt_vars t -> guarded (fun t' => small t' /\ pt_vars t' = ws) (table_marginalization t ws (dom <$> ws)) (table_marginalization_i M t ws (dom <$> ws)).
Proof using All.
  intros Ht Hn Hs. pose proof Ht as (H & H1 & H2). unfold table_marginalization, table_marginalization_i. rewrite (marginalization_pre_within t) by done.
  rewrite (marginalization_pre_spec dom dom_pos). cbn [mbind outcome_bind]. assert (small (fresh dom ws)) as HsN by (by apply (small_fresh t)). set (N := fresh dom ws) in *.
  unfold marginalization_body, marginalization_body_i. apply guarded_step. intros locs Hlocs. apply (located_collect t (pt_vars N)) in Hlocs; [|done|apply HsN].
  pose proof HsN as (HN0 & HN1 & HN2). rewrite imul_ok by (by apply area_within). rewrite imul_ok by (by apply area_within).
  rewrite (TableProofs.mcollect_ext (seq 0 (pt_size t)) (marginalization_main_i M N (pt_nv t) (pt_cum t) locs) (marginalization_main N (pt_nv t) (pt_cum t) locs)).
  2:{ intros k Hk%elem_of_seq. apply marginalization_main_within; try done. lia. }
  apply guarded_step. intros tidx _. apply guarded_self. intros t' Ht'. by apply marginalization_post_shape in Ht' as (? & ? & _).
Qed.
End tables.
