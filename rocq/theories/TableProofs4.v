(** The fast 'index mod separator size' operations, error cases, and consequences. *)
From Coq Require Export Field.
From Verif Require Export TableProofs3.
Local Open Scope Qc_scope.

Lemma prod_list_app l1 l2 : prod_list (l1 ++ l2) = (prod_list l1 * prod_list l2)%nat.
Proof.
  induction l1 as [|x l1 IH]; [symmetry; apply Nat.mul_1_l|]. change (x * prod_list (l1 ++ l2) = x * prod_list l1 * prod_list l2)%nat.
  rewrite IH. nia.
Qed.

Lemma lex_index_app d1 d2 c1 c2 :
  length c1 = length d1 ->
  lex_index (d1 ++ d2) (c1 ++ c2) = (lex_index d1 c1 * prod_list d2 + lex_index d2 c2)%nat.
Proof.
  revert c1; induction d1 as [|d d1 IH]; intros [|c c1] Hlen; try discriminate; [done|].
  cbn [app lex_index]. rewrite IH, prod_list_app by (cbn in Hlen; lia). lia.
Qed.

Lemma mfor_set_zero n (l : list Qc) :
  length l = n -> mfor (seq 0 n) (fun k pots => vset pots k 0) l = Ok (replicate n 0).
Proof.
  intros Hlen. rewrite (mfor_ext _ _ (fun k pots => x ← Ok 0; vset pots k x)) by done.
  rewrite (mfor_gather n _ (fun _ => 0)) by done. f_equal.
  apply list_eq. intros k. rewrite list_lookup_fmap.
  destruct (decide (k < n)%nat).
  - rewrite lookup_seq_lt by done. by rewrite lookup_replicate_2.
  - rewrite !lookup_ge_None_2; [done|rewrite replicate_length; lia|rewrite seq_length; lia].
Qed.

Section tables4.
Context (dom : nat -> nat) (dom_pos : forall v, (0 < dom v)%nat).
Set Default Proof Using "All".
Notation wf := (wf dom).
Notation valid := (valid dom).
Notation sumv := (sumv dom).

(** Position of the trailing variables. *)
Lemma tail_mod ws vs a :
  valid a ->
  (lex_index (dom <$> ws ++ vs) (a <$> ws ++ vs) mod prod_list (dom <$> vs))%nat
  = lex_index (dom <$> vs) (a <$> vs).
Proof.
  intros Ha. rewrite !fmap_app, lex_index_app by (by rewrite !fmap_length).
  assert (0 < prod_list (dom <$> vs))%nat as Hp by (apply prod_list_pos; by apply dims_positive).
  rewrite Nat.add_comm, Nat.mod_add by lia. apply Nat.mod_small, lex_index_lt. by apply valid_in_range.
Qed.

Lemma fast_index_map T S ws :
  wf T -> wf S -> pt_vars T = ws ++ pt_vars S ->
  exists tidx, mcollect (seq 0 (pt_size T)) (fun k => imod k (pt_size S)) = Ok tidx /\
    length tidx = pt_size T /\
    forall a, valid a -> tidx !! lex_index (pt_dims T) (a <$> pt_vars T)
                         = Some (lex_index (pt_dims S) (a <$> pt_vars S)).
Proof.
  intros HT HS E. rewrite (wf_dims _ _ HS). apply (index_map dom dom_pos); [done|].
  intros a Ha. rewrite (wf_size _ _ HS), configs_length, (wf_dims _ _ HS).
  assert (0 < prod_list (dom <$> pt_vars S))%nat as Hp by (apply prod_list_pos; by apply dims_positive).
  unfold imod. rewrite bool_decide_false by lia. f_equal.
  rewrite (wf_dims _ _ HT), E. by apply tail_mod.
Qed.

Lemma table_zero_spec T :
  wf T -> table_zero T = Ok (mkPT (pt_vars T) (replicate (pt_size T) 0) (pt_dims T) (pt_cum T) (pt_nv T) (pt_size T)).
Proof.
  intros HT. unfold table_zero. rewrite mfor_set_zero; [done|].
  rewrite (wf_pots _ _ HT). symmetry. apply HT.
Qed.

(** Any index map that agrees with the projection gives the right marginal. *)
Lemma marginalization_core T ws es tidx :
  wf T -> pt_vars T ≡ₚ ws ++ es -> length tidx = pt_size T ->
  (forall a, valid a -> tidx !! lex_index (pt_dims T) (a <$> pt_vars T)
                        = Some (lex_index (dom <$> ws) (a <$> ws))) ->
  exists T', marginalization_post (fresh dom ws) T tidx = Ok T' /\ wf T' /\ pt_vars T' = ws /\
    forall a, valid a -> tval T' a = sumv es (tval T) a.
Proof.
  intros HT Hperm Htl Htv. set (N := fresh dom ws).
  assert (NoDup (ws ++ es)) as Hnd by (rewrite <-Hperm; apply HT).
  assert (NoDup ws) as Hnw by (by apply NoDup_app in Hnd as (? & _)).
  pose proof (wf_fresh dom dom_pos ws Hnw) as HN. fold N in HN.
  unfold marginalization_post.
  destruct (mfor_scatter_add (pt_size T) (pt_size N) tidx (pt_pots T) (pt_pots N)) as (pots & Hok2 & Hpl & Hp).
  - done.
  - rewrite (wf_pots _ _ HT). symmetry; apply HT.
  - rewrite (wf_pots _ _ HN). symmetry; apply HN.
  - intros k j Hj. pose proof (lookup_lt_Some _ _ _ Hj) as Hk. rewrite Htl in Hk.
    destruct (slot_asg dom dom_pos T k HT Hk) as (a & Ha & <- & _). rewrite Htv in Hj by done. simplify_eq.
    by apply (lex_index_lt_size dom dom_pos N a).
  - rewrite Hok2. cbn [mbind outcome_bind]. eexists; split; [done|].
    split_and!; [by apply (wf_set_pots dom dom_pos)|done|]. intros a Ha.
    unfold tval at 1. cbn [pt_pots pt_dims pt_vars].
    rewrite Hp by (by apply (lex_index_lt_size dom dom_pos)). cbn [default from_option]. unfold id.
    replace (default 0 (pt_pots N !! lex_index (pt_dims N) (a <$> pt_vars N))) with 0.
    2: { cbn. rewrite lookup_replicate_2; [done|].
         pose proof (lex_index_lt_size dom dom_pos N a HN Ha) as H. done. }
    rewrite (qsum_slots dom dom_pos T a (fun b => if bool_decide (b <$> ws = a <$> ws) then tval T b else 0)); [|done|done|].
    + rewrite (sumv_perm _ (pt_vars T) (ws ++ es)); [|  |apply HT|done].
      * rewrite (sumv_indicator dom dom_pos); [ring|apply tval_proper|done|done].
      * intros b c Hbc. replace (b <$> ws) with (c <$> ws) by (apply list_fmap_ext; auto).
        case_bool_decide; [|done]. by apply tval_proper.
    + intros b Hb Hba. rewrite Htv by done.
      destruct (decide (b <$> ws = a <$> ws)) as [E|E].
      * rewrite !bool_decide_true; [|done|]. { by rewrite (tval_lookup dom dom_pos T b HT Hb). }
        by rewrite E.
      * rewrite !bool_decide_false; [done|done|]. intros [= Hli]. apply E.
        cbn in Hli. apply lex_index_inj in Hli; [done| |]; by apply valid_in_range.
Qed.

Lemma table_marginalization_fast_spec T S ws :
  wf T -> wf S -> pt_vars T = ws ++ pt_vars S ->
  exists S', table_marginalization_fast T S = Ok S' /\ wf S' /\ pt_vars S' = pt_vars S /\
    forall a, valid a -> tval S' a = sumv ws (tval T) a.
Proof.
  intros HT HS E. unfold table_marginalization_fast. rewrite table_zero_spec by done. cbn [mbind outcome_bind].
  destruct (fast_index_map T S ws) as (tidx & -> & Htl & Htv); try done. cbn [mbind outcome_bind].
  assert (mkPT (pt_vars S) (replicate (pt_size S) 0) (pt_dims S) (pt_cum S) (pt_nv S) (pt_size S)
    = fresh dom (pt_vars S)) as ->.
  { unfold fresh. by rewrite (wf_cum _ _ HS), (wf_size _ _ HS), (wf_nv _ _ HS), (wf_dims _ _ HS). }
  apply marginalization_core; try done.
  - rewrite E. apply Permutation_app_comm.
  - intros a Ha. rewrite Htv by done. by rewrite (wf_dims _ _ HS).
Qed.

Lemma table_multiplication_fast_spec T S ws :
  wf T -> wf S -> pt_vars T = ws ++ pt_vars S ->
  exists T', table_multiplication_fast T S = Ok T' /\ wf T' /\ pt_vars T' = pt_vars T /\
    forall a, valid a -> tval T' a = tval T a * tval S a.
Proof.
  intros HT HS E. unfold table_multiplication_fast.
  destruct (fast_index_map T S ws) as (tidx & -> & Htl & Htv); try done. cbn [mbind outcome_bind].
  unfold extension_post.
  set (g := fun k => default 0 (j ← tidx !! k; pt_pots S !! j)).
  rewrite (mfor_ext _ _ (fun k pots => x ← (j ← vget tidx k; vget (pt_pots S) j); vset pots k x)).
  2: { intros k s0 _. destruct (vget tidx k); cbn; [|done]. done. }
  rewrite (mfor_gather _ _ g).
  2: { intros k Hk. destruct (slot_asg dom dom_pos T k HT Hk) as (a & Ha & <- & _).
       subst g. cbn beta. rewrite (vget_ok _ _ _ (Htv a Ha)). cbn [mbind outcome_bind].
       rewrite Htv by done.
       rewrite (vget_ok _ _ _ (tval_lookup dom dom_pos S a HS Ha)). cbn [mbind option_bind].
       by rewrite (tval_lookup dom dom_pos S a HS Ha). }
  2: { rewrite (wf_pots _ _ HT). symmetry. apply HT. }
  cbn [mbind outcome_bind].
  assert (wf (mkPT (pt_vars T) (g <$> seq 0 (pt_size T)) (pt_dims T) (pt_cum T) (pt_nv T) (pt_size T))) as HN.
  { apply (wf_set_pots dom dom_pos); [done|]. by rewrite fmap_length, seq_length. }
  destruct (mult_loop_spec dom dom_pos T _ HT HN eq_refl) as (T' & Hok & HT' & Hv & Hval).
  exists T'. split_and!; try done. intros a Ha. rewrite Hval by done. f_equal.
  unfold tval at 1. cbn [pt_pots pt_dims pt_vars].
  rewrite list_lookup_fmap, lookup_seq_lt by (by apply (lex_index_lt_size dom dom_pos)).
  cbn [fmap option_fmap option_map default]. subst g. cbn beta. rewrite Nat.add_0_l, Htv by done.
  cbn [mbind option_bind from_option]. by rewrite (tval_lookup dom dom_pos S a HS Ha).
Qed.

(** Reduction on a variable that is not there is an error. *)
Lemma table_reduction_absent T v x :
  wf T -> v ∉ pt_vars T -> table_reduction T v x = Err OutOfBounds.
Proof.
  intros HT Hv. unfold table_reduction. rewrite (get_variable_index_out dom dom_pos T v) by done.
  cbn [mbind outcome_bind]. pose proof (size_pos dom dom_pos T HT) as Hpos.
  destruct (pt_size T) as [|n] eqn:E; [lia|]. cbn [seq mcollect].
  destruct (slot_asg dom dom_pos T 0%nat HT) as (a & Ha & Hi & Hc); [lia|].
  change (reduction_main T (pt_nv T) 0%nat) with (cfg ← get_config T 0%nat; vget cfg (pt_nv T)).
  rewrite Hc. cbn [mbind outcome_bind]. unfold vget.
  rewrite lookup_ge_None_2; [done|]. rewrite fmap_length, (wf_nv _ _ HT). done.
Qed.

(** An out-of-range value selects no entry: the result is the zero table. *)
Lemma table_reduction_out_of_range T v x :
  wf T -> v ∈ pt_vars T -> (dom v <= x)%nat ->
  exists T', table_reduction T v x = Ok T' /\ wf T' /\ pt_vars T' = without v (pt_vars T) /\
    forall a, valid a -> tval T' a = 0.
Proof.
  intros HT Hv Hx. unfold table_reduction.
  destruct (get_variable_index_in dom dom_pos T v HT Hv) as (loc & -> & Hloc & Hlt). cbn [mbind outcome_bind].
  assert (exists l1 l2, pt_vars T = l1 ++ v :: l2 /\ length l1 = loc) as (l1 & l2 & Hvars & Hl1).
  { exists (take loc (pt_vars T)), (drop (S loc) (pt_vars T)).
    split; [symmetry; by apply take_drop_middle|].
    apply take_length_le. apply lookup_lt_Some in Hloc. lia. }
  assert (NoDup (l1 ++ v :: l2)) as Hnd by (rewrite <-Hvars; apply HT).
  assert (pt_dims T = (dom <$> l1) ++ dom v :: (dom <$> l2)) as Hdims.
  { by rewrite (wf_dims _ _ HT), Hvars, fmap_app, fmap_cons. }
  assert (length (dom <$> l1) = loc) as Hdl by (by rewrite fmap_length).
  (* the values of the evidence variable, slot by slot *)
  set (nthv := fun cfg : list nat => default 0%nat (cfg !! loc)).
  assert (mcollect (seq 0 (pt_size T)) (reduction_main T loc) = Ok (nthv <$> configs (pt_dims T))) as ->.
  { rewrite (wf_size _ _ HT).
    rewrite (mcollect_ok _ _ (fun k => default 0%nat (nthv <$> configs (pt_dims T) !! k))).
    - f_equal. apply list_eq. intros k. rewrite !list_lookup_fmap.
      destruct (decide (k < length (configs (pt_dims T)))%nat) as [Hk|Hk].
      + rewrite lookup_seq_lt by done. cbn. apply lookup_lt_is_Some in Hk as [c Hc]. by rewrite Hc.
      + rewrite !lookup_ge_None_2; [done|lia|rewrite seq_length; lia].
    - intros k Hk. apply elem_of_seq in Hk. rewrite <-(wf_size _ _ HT) in Hk.
      destruct (slot_asg dom dom_pos T k HT) as (a & Ha & Hi & Hc); [lia|].
      unfold reduction_main. rewrite Hc. cbn [mbind outcome_bind].
      assert ((a <$> pt_vars T) !! loc = Some (a v)) as Hav by (by rewrite list_lookup_fmap, Hloc).
      rewrite (vget_ok _ _ _ Hav).
      assert (configs (pt_dims T) !! k = Some (a <$> pt_vars T)) as ->.
      { apply configs_lookup. split; [|done]. rewrite (wf_dims _ _ HT). by apply valid_in_range. }
      unfold nthv. cbn. by rewrite Hav. }
  cbn [mbind outcome_bind]. unfold reduction_post.
  rewrite (vget_ok (pt_dims T) loc (dom v)).
  2: { rewrite Hdims, lookup_app_r, Hdl, Nat.sub_diag by lia. done. }
  cbn [mbind outcome_bind]. unfold idiv at 1. rewrite (bool_decide_false (dom v = 0%nat)) by (pose proof (dom_pos v); lia).
  cbn [mbind outcome_bind].
  set (F := fun cfg => default 0 (pt_pots T !! lex_index (pt_dims T) cfg)).
  assert (snd <$> filter (fun p : nat * Qc => p.1 = x) (zip (nthv <$> configs (pt_dims T)) (pt_pots T))
     = []) as Hsel.
  { rewrite (pots_as_map dom dom_pos T HT) at 1. fold F.
    assert (zip (nthv <$> configs (pt_dims T)) (F <$> configs (pt_dims T))
      = (fun c => (nthv c, F c)) <$> configs (pt_dims T)) as ->.
    { generalize (configs (pt_dims T)); intros L. induction L as [|c L IH]; [done|]. cbn. by rewrite <-IH. }
    rewrite filter_fmap, <-list_fmap_compose. cbn [fst].
    assert (filter (fun c => nthv c = x) (configs (pt_dims T))
        = filter (fun c => c !! loc = Some x) (configs (pt_dims T))) as ->.
    { apply filter_iff_in. intros c Hc. apply elem_of_configs in Hc. unfold nthv.
      assert (loc < length c)%nat as Hlc.
      { rewrite (in_range_length _ _ Hc), (vars_dims_length dom dom_pos) by done. by rewrite <-(wf_nv _ _ HT). }
      apply lookup_lt_is_Some in Hlc as [y Hy]. rewrite Hy. cbn. split; congruence. }
    pose proof (configs_select_none (dom <$> l1) (dom v) (dom <$> l2) x Hx) as Hcs. rewrite Hdl in Hcs. rewrite Hdims, Hcs.
    done. }
  assert (pt_size T / dom v = length (configs ((dom <$> l1) ++ (dom <$> l2))))%nat as Hns.
  { rewrite (wf_size _ _ HT), Hdims, !configs_length.
    assert (forall l1 d l2, prod_list (l1 ++ d :: l2) = prod_list (l1 ++ l2) * d)%nat as Hp.
    { clear. induction l1 as [|e l1 IH]; intros d l2; cbn; [lia|].
      change (foldr Nat.mul 1%nat (l1 ++ d :: l2)) with (prod_list (l1 ++ d :: l2)). rewrite IH.
      unfold prod_list. lia. }
    rewrite Hp, Nat.div_mul; [done|]. pose proof (dom_pos v). lia. }
  rewrite compress_loop.
  2: { by rewrite fmap_length, (wf_size _ _ HT). }
  2: { by rewrite (wf_pots _ _ HT), (wf_size _ _ HT). }
  2: { rewrite <-(fmap_length snd), Hsel. cbn. lia. }
  rewrite Hsel. cbn [mbind outcome_bind snd].
  cbn [length app]. rewrite Hns, Nat.sub_0_r.
  set (pots' := replicate (length (configs ((dom <$> l1) ++ (dom <$> l2)))) (0 : Qc)).
  assert (without v (pt_vars T) = l1 ++ l2) as Hwo by (rewrite Hvars; by apply without_split).
  assert (pt_nv T - 1 = length (l1 ++ l2))%nat as Hnv.
  { rewrite (wf_nv _ _ HT), Hvars, !app_length. cbn. lia. }
  set (T' := mkPT (l1 ++ l2) pots' (dom <$> (l1 ++ l2)) (strides (dom <$> (l1 ++ l2))) (length (l1 ++ l2))
               (length (configs (dom <$> (l1 ++ l2))))).
  assert (wf T') as HT'.
  { constructor; try done.
    - cbn. apply NoDup_app in Hnd as (H1 & Hd & H2). apply NoDup_cons in H2 as [_ H2].
      apply NoDup_app. split_and!; [done| |done]. intros w Hw Hw2. apply (Hd w Hw). by right.
    - cbn. unfold pots'. by rewrite replicate_length, fmap_app. }
  exists T'. split_and!; [|done|by rewrite Hwo|].
  - rewrite Hnv. case_bool_decide as Hpos.
    + rewrite (wf_dims _ _ HT), (drop_var_spec dom dom_pos) by (try done; apply HT). cbn [mbind outcome_bind fst snd].
      rewrite Hwo. replace (length (l1 ++ l2)) with (length (dom <$> (l1 ++ l2))) at 1 by apply fmap_length.
      rewrite construct_cum_levels_spec.
      2: { intros E. apply (f_equal length) in E. rewrite fmap_length in E. cbn in E. lia. }
      cbn [mbind outcome_bind]. unfold T'. by rewrite fmap_app.
    + assert (l1 ++ l2 = []) as E by (apply length_zero_iff_nil; lia).
      unfold T'. rewrite E. cbn. done.
  - intros a Ha. unfold tval at 1. cbn [pt_pots pt_dims pt_vars T']. unfold pots'.
    destruct (decide (lex_index (dom <$> l1 ++ l2) (a <$> l1 ++ l2) < length (configs ((dom <$> l1) ++ (dom <$> l2))))%nat).
    + by rewrite lookup_replicate_2.
    + by rewrite lookup_ge_None_2 by (rewrite replicate_length; lia).
Qed.

(** Total mass. *)
Lemma sumv_total ws es F a :
  proper F -> NoDup (ws ++ es) -> forall vs, vs ≡ₚ ws ++ es -> sumv ws (sumv es F) a = sumv vs F a.
Proof.
  intros HF Hnd vs Hp. rewrite <-sumv_app. apply sumv_perm; [done|done|by symmetry].
Qed.

Lemma total_mass_marginal T T' ws es a :
  wf T -> wf T' -> pt_vars T' = ws -> pt_vars T ≡ₚ ws ++ es -> valid a ->
  (forall b, valid b -> tval T' b = sumv es (tval T) b) ->
  sumv (pt_vars T') (tval T') a = sumv (pt_vars T) (tval T) a.
Proof.
  intros HT HT' E Hp Ha H. rewrite E.
  rewrite (sumv_ext dom ws (tval T') (sumv es (tval T))); [|done|auto].
  apply sumv_total; [apply tval_proper|by rewrite <-Hp; apply HT|done].
Qed.

Lemma normalized_sums_to_one T T' Z a :
  wf T -> valid a -> pt_vars T' = pt_vars T -> Z = sumv (pt_vars T) (tval T) a -> Z ≠ 0 ->
  (forall b, valid b -> tval T' b = tval T b / Z) ->
  sumv (pt_vars T') (tval T') a = 1.
Proof.
  intros HT Ha E HZ HZ0 H. rewrite E.
  rewrite (sumv_ext dom _ (tval T') (fun b => / Z * tval T b)); [|done|].
  - rewrite sumv_scal, <-HZ. field. done.
  - intros b Hb _. rewrite H by done. field. done.
Qed.

(** Pointwise quotients and products of the same scope commute with everything needed later. *)
Lemma sumv_total_indep T a b :
  wf T -> valid a -> valid b -> sumv (pt_vars T) (tval T) a = sumv (pt_vars T) (tval T) b.
Proof.
  intros HT Ha Hb. rewrite !sumv_configs. apply qsum_ext. intros cfg Hc.
  apply tval_dep. intros v Hv. apply elem_of_configs in Hc.
  pose proof (upds_map a (pt_vars T) cfg (wf_nodup _ _ HT)) as E1.
  pose proof (upds_map b (pt_vars T) cfg (wf_nodup _ _ HT)) as E2.
  apply in_range_length in Hc. rewrite fmap_length in Hc.
  specialize (E1 Hc). specialize (E2 Hc). rewrite <-E2 in E1 at 2.
  apply elem_of_list_lookup in Hv as [i Hi].
  assert ((upds a (pt_vars T) cfg <$> pt_vars T) !! i = (upds b (pt_vars T) cfg <$> pt_vars T) !! i) as E by (by rewrite E1).
  rewrite !list_lookup_fmap, Hi in E. cbn in E. by injection E.
Qed.
End tables4.
