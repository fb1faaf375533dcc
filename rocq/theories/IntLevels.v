(** Loading evidence, message passing and queries: nothing overflows while the tables are small. *)
From Verif Require Import IntModel ParProofs IntProofs TableSpec IntTables EvidenceProofs TableProofs.
Local Open Scope nat_scope.

Lemma par2_lengths {X} es sizes (body : nat -> nat -> X -> outcome X) m m' : par2 es sizes body m = Ok m' -> length <$> m' = length <$> m.
Proof.
  unfold par2. intros E.
  assert (guarded (fun m' : list (list X) => length <$> m' = length <$> m) (par2 es sizes body m) (par2 es sizes body m)) as [_ H]; [|by apply H].
  unfold par2. apply (guarded_par_for _ (fun _ _ => True)); [done|intros; by apply guarded_self|].
  intros s x m0 Hm _. apply guarded_self. intros m1 H. apply bind_ok in H as ([j k] & _ & H). apply bind_ok in H as (row & Hr%vget_inv & H). apply bind_ok in H as (row' & [_ ->]%vset_inv & H).
  apply vset_inv in H as [_ ->]. cbn [fst snd] in *. rewrite list_fmap_insert, insert_length, <-Hm. apply list_insert_id. by rewrite list_lookup_fmap, Hr.
Qed.
Lemma par1_within {X} (P : nat -> X -> Prop) n es body bodyi (m : list X) (Q : X -> Prop) : valid_schedule n es -> length m = n ->
  (forall s x, m !! s = Some x -> P s x) -> (forall s x, s < n -> P s x -> guarded (P s) (body s x) (bodyi s x)) ->
  (forall s x y, m !! s = Some x -> body s x = Ok y -> Q y) ->
  guarded (fun m' => length m' = n /\ Forall Q m') (par1 es body m) (par1 es bodyi m).
Proof.
  intros Hes Hn HP Hb HQ. split; [apply (guarded_par1 P); [done|by rewrite Hn]|]. intros m' E.
  apply (par1_spec n es body m Hes Hn) in E. apply mcollect_lookup in E as [Hl E]. rewrite seq_length in Hl. split; [done|].
  apply Forall_lookup. intros s y Hy. pose proof (lookup_lt_Some _ _ _ Hy). destruct (E s s) as (z & Hz & F); [apply lookup_seq; lia|]. rewrite Hz in Hy. injection Hy as ->.
  apply bind_ok in F as (x & Hx%vget_inv & F). by eapply HQ.
Qed.

Section levels.
Context (dom : nat -> nat) (dom_pos : forall v, 0 < dom v) (M B V K : nat) (HBV : B * V <= M) (HB : B <= M) (HKB : K * B <= M).
Notation wf := (wf dom).
Notation small := (small dom B V).
Notation shaped := (shaped dom B V).

Lemma total_bound ts : Forall small ts -> ParProofs.total (pt_size <$> ts) <= length ts * B.
Proof using All.
  induction 1 as [|t ts (_ & Ht & _) _ IH]; cbn; [lia|]. fold (ParProofs.total (pt_size <$> ts)). lia.
Qed.
Lemma foldl_total l : forall a, foldl Nat.add a l = a + ParProofs.total l.
Proof using All. induction l as [|x l IH]; intros a; cbn; [lia|]. rewrite IH. fold (ParProofs.total l). lia. Qed.
Lemma sum_within {X} ts (f : nat -> outcome X) : Forall small ts -> length ts <= K -> (final_sum_i M (pt_size <$> ts) ≫= f) = f (snd (cum_sums (pt_size <$> ts))).
Proof using All.
  intros Ht Hl. apply total_bound in Ht. assert (length ts * B <= K * B) by (by apply Nat.mul_le_mono_r).
  rewrite final_sum_within; rewrite foldl_total; [|lia]. by rewrite cum_sums_eq.
Qed.

(** Reduction. *)
Lemma reduction_main_within t loc i : small t -> loc <= pt_nv t -> i < pt_size t -> reduction_main_i M t loc i = reduction_main t loc i.
Proof using All.
  intros (_ & H1 & H2) Hl Hi. unfold reduction_main_i, reduction_main.
  assert (i * pt_nv t + V <= M). { assert ((i + 1) * V <= B * V) by (apply Nat.mul_le_mono_r; lia). assert (i * pt_nv t <= i * V) by (by apply Nat.mul_le_mono_l). lia. }
  rewrite imul_ok by lia. apply (guarded_step (fun _ => True)). intros cfg _. rewrite iadd_ok by lia. by apply guarded_self.
Qed.
Lemma drop_var_le vars : forall dims index vd, positive dims -> drop_var vars dims index = Ok vd -> positive (snd vd) /\ prod_list (snd vd) <= prod_list dims.
Proof using All.
  induction vars as [|v vars IH]; intros dims index vd Hp E; [done|]. destruct dims as [|d dims]; [done|]. cbn [drop_var] in E. inversion Hp as [|? ? Hd Hds]; subst.
  pose proof (prod_list_pos _ Hds). case_bool_decide.
  - injection E as <-. cbn [snd]. split; [done|]. change (prod_list (d :: dims)) with (d * prod_list dims). nia.
  - apply bind_ok in E as (r & E & [= <-]). cbn [snd]. apply IH in E as [H1 H2]; [|done]. split; [by constructor|].
    change (d * prod_list (snd r) <= d * prod_list dims). by apply Nat.mul_le_mono_l.
Qed.
Definition tame (t : ptable) : Prop := positive (pt_dims t) /\ prod_list (pt_dims t) <= M.
Lemma small_tame t : small t -> tame t.
Proof using All. intros (H & H1 & _). split; [by apply (wf_positive dom dom_pos M B V HBV HB)|]. rewrite (wf_prod dom dom_pos M B V HBV HB t H). lia. Qed.
Lemma reduction_post_within t index value vidx loc : tame t -> guarded tame (reduction_post t index value vidx loc) (reduction_post_i M t index value vidx loc).
Proof using All.
  intros [Hp HM]. unfold reduction_post, reduction_post_i. apply guarded_step. intros d _. apply guarded_step. intros ns _. apply guarded_step. intros r _.
  case_bool_decide.
  - apply guarded_step. intros vd Hvd. apply drop_var_le in Hvd as [H1 H2]; [|done]. rewrite cum_levels_within by (done || lia). apply guarded_self.
    intros t' E. apply bind_ok in E as (cum & _ & [= <-]). split; [done|cbn [pt_dims]; lia].
  - apply guarded_ok. split; [constructor|]. cbn [pt_dims]. change (1 <= M). pose proof (prod_list_pos _ Hp). lia.
Qed.
Lemma reduction_post_shape t index value vidx loc t' : small t -> pt_vars t !! loc = Some index -> reduction_post t index value vidx loc = Ok t' -> small t'.
Proof using All.
  intros (H & H1 & H2) Hl E. assert (index ∈ pt_vars t) as Hin by (by eapply elem_of_list_lookup_2). pose proof (wf_nodup _ _ H) as Hnd.
  pose proof (without_perm index (pt_vars t) Hnd Hin) as Hperm. pose proof (without_length index (pt_vars t) Hnd Hin) as Hlen. set (W := without index (pt_vars t)) in *.
  assert (NoDup W) as HW. { rewrite Hperm in Hnd. by apply NoDup_cons in Hnd as []. }
  assert (pt_size t = dom index * prod_list (dom <$> W)) as Hsz.
  { rewrite <-(wf_prod dom dom_pos M B V HBV HB t H), (wf_dims _ _ H). rewrite (prod_list_perm (dom <$> pt_vars t) (dom <$> (index :: W))) by (by rewrite Hperm at 1). done. }
  unfold reduction_post in E. apply bind_ok in E as (d & Hd%vget_inv & E). rewrite (wf_dims _ _ H), list_lookup_fmap, Hl in Hd. cbn in Hd. injection Hd as <-.
  apply bind_ok in E as (ns & Hns & E). unfold idiv in Hns. rewrite bool_decide_false in Hns by (pose proof (dom_pos index); lia). injection Hns as <-.
  assert (pt_size t / dom index = prod_list (dom <$> W)) as Hq. { rewrite Hsz, Nat.mul_comm. apply Nat.div_mul. pose proof (dom_pos index). lia. }
  rewrite Hq in E. apply bind_ok in E as (r & Hr & E).
  assert (length (snd r) = prod_list (dom <$> W)) as Hpots.
  { pattern r. eapply (mfor_keeps dom dom_pos M B V HBV HB); [| |exact Hr]; [cbn [snd]; apply replicate_length|].
    intros i [j np] s' Hs F. cbn [snd] in Hs. apply bind_ok in F as (vi & _ & F). case_bool_decide; [|by injection F as <-].
    apply bind_ok in F as (x & _ & F). apply bind_ok in F as (np' & [_ ->]%vset_inv & [= <-]). cbn [snd]. by rewrite insert_length. }
  assert (prod_list (dom <$> W) <= B). { pose proof (dom_pos index). nia. }
  rewrite (wf_nv _ _ H) in *. case_bool_decide as Hc.
  - rewrite (wf_dims _ _ H), (drop_var_spec dom dom_pos) in E by done. cbn [mbind outcome_bind fst snd] in E. fold W in E.
    rewrite <-Hlen in E. replace (length W) with (length (dom <$> W)) in E at 1 by apply fmap_length. rewrite construct_cum_levels_spec in E; [|intros F%(f_equal length); rewrite fmap_length in F; cbn in F; lia].
    injection E as <-. split; [|split; cbn [pt_size pt_nv]; lia]. constructor; cbn [pt_vars pt_dims pt_cum pt_nv pt_size pt_pots]; try done; rewrite configs_length; done.
  - injection E as <-. assert (W = []) as HWn by (apply nil_length_inv; lia). rewrite HWn in *. cbn in Hpots.
    split; [|split; cbn [pt_size pt_nv]; [|lia]]. 2:{ change (1 <= B) in H0. done. }
    rewrite <-Hlen. constructor; cbn [pt_vars pt_dims pt_cum pt_nv pt_size pt_pots]; try done.
Qed.

(** The state of an engine: all tables small, at most [K] of them. *)
Definition calm (st : tabs) : Prop := Forall small (t_c st) /\ Forall small (t_s st) /\ length (t_c st) + length (t_s st) <= K.
Lemma calm_get st x t : calm st -> get_tab st x = Ok t -> small t.
Proof using All. intros (H1 & H2 & _) E. destruct x; cbn in E; apply vget_inv in E; [by eapply (Forall_lookup_1 _ _ _ _ H1)|by eapply (Forall_lookup_1 _ _ _ _ H2)]. Qed.
Lemma calm_set st x t st' : calm st -> small t -> set_tab st x t = Ok st' -> calm st'.
Proof using All.
  intros (H1 & H2 & H3) Ht E. destruct x; cbn in E; apply bind_ok in E as (l & [_ ->]%vset_inv & [= <-]); split_and!; cbn; rewrite ?insert_length; try done; by apply Forall_insert.
Qed.
Lemma calm_sets xs : forall st st', calm st -> Forall small (snd <$> xs) -> set_tabs st xs = Ok st' -> calm st'.
Proof using All.
  induction xs as [|[x t] xs IH]; intros st st' Hst Hx E; unfold set_tabs in E; cbn [mfor fst snd] in E; [by injection E as <-|].
  apply bind_ok in E as (st1 & E1 & E2). cbn in Hx. inversion Hx; subst. eapply IH; [|done|exact E2]. by eapply calm_set.
Qed.
Lemma zip_snd {X Y} (P : Y -> Prop) (l : list X) (k : list Y) : Forall P k -> Forall P (snd <$> zip l k).
Proof using All. revert k; induction l as [|x l IH]; intros [|y k] H; cbn; try constructor; inversion H; subst; auto. Qed.
Lemma collected {I} (l : list I) f ts : (forall i t, i ∈ l -> f i = Ok t -> small t) -> mcollect l f = Ok ts -> length ts = length l /\ Forall small ts.
Proof using All.
  intros H E. apply mcollect_lookup in E as [Hl E]. split; [done|]. apply Forall_lookup. intros k t Ht.
  destruct (lookup_lt_is_Some_2 l k) as [i Hi]; [rewrite <-Hl; by eapply lookup_lt_Some|]. destruct (E k i Hi) as (x & Hx & F). rewrite Hx in Ht. injection Ht as ->.
  eapply H; [|done]. by eapply elem_of_list_lookup_2.
Qed.
Lemma small_at ts j t : Forall small ts -> ts !! j = Some t -> small t.
Proof using All. intros H. by apply Forall_lookup_1. Qed.

Lemma wf_at ts j t : Forall small ts -> ts !! j = Some t -> wf t.
Proof using All. intros H Hj. by destruct (small_at _ _ _ H Hj) as [? _]. Qed.

Lemma load_node_within sch tag st nodes index value : valid_scheduler sch -> calm st -> length nodes <= K -> (forall x t, x ∈ nodes -> get_tab st x = Ok t -> index ∈ pt_vars t) ->
  guarded calm (load_evidence_to_nodes sch tag st nodes index value) (load_evidence_to_nodes_i M sch tag st nodes index value).
Proof using All.
  intros Hsch Hst Hn Hin. unfold load_evidence_to_nodes, load_evidence_to_nodes_i. apply guarded_step. intros ts Hts.
  assert (forall k t, ts !! k = Some t -> index ∈ pt_vars t) as Hvar.
  { intros k t Ht. pose proof Hts as F. apply mcollect_lookup in F as [Hl F]. destruct (lookup_lt_is_Some_2 nodes k) as [x Hx]; [rewrite <-Hl; by eapply lookup_lt_Some|].
    destruct (F k x Hx) as (y & Hy & G). rewrite Hy in Ht. injection Ht as ->. eapply Hin; [|done]. by eapply elem_of_list_lookup_2. }
  apply collected in Hts as [Hl Hs]; [|intros; by eapply calm_get]. rewrite sum_within by (done || lia).
  apply (guarded_bind (fun locs : list nat => length locs = length ts /\ forall s loc, locs !! s = Some loc -> forall t, ts !! s = Some t -> loc <= pt_nv t /\ pt_vars t !! loc = Some index)).
  { apply (guarded_par1_fill (fun s loc => forall t, ts !! s = Some t -> loc <= pt_nv t /\ pt_vars t !! loc = Some index)). intros s Hlt.
    apply guarded_step. intros t Ht%vget_inv. pose proof (small_at _ _ _ Hs Ht) as (Hw & H1 & H2).
    rewrite imul_ok by (by apply (area_within dom dom_pos M B V HBV HB)). apply guarded_self. intros loc Hloc t' Ht'. rewrite Ht in Ht'. injection Ht' as <-.
    destruct (get_variable_index_in dom dom_pos t index Hw (Hvar _ _ Ht)) as (l & El & El1 & El2). rewrite El in Hloc. injection Hloc as <-. split; [lia|done]. }
  intros locs _ [Hll Hloc]. apply (guarded_bind (fun _ => True)).
  { split; [|done]. apply guarded_par2_fill. intros j k n Hj Hk. apply list_lookup_fmap_inv in Hj as (t & -> & Ht). rewrite (vget_ok _ _ _ Ht). cbn [mbind outcome_bind].
    destruct (vget locs j) as [loc|] eqn:El; cbn [mbind outcome_bind]; [|done]. apply vget_inv in El. apply reduction_main_within; [by eapply small_at|by eapply (Hloc j loc El)|done]. }
  intros vidx _ _.
  apply (guarded_bind (fun ts' => length ts' = length ts /\ Forall small ts')).
  { apply (par1_within (fun _ => tame)); [apply Hsch|done|intros s x Hx; apply small_tame; by eapply small_at| |].
    - intros s x Hlt Hx. apply guarded_step. intros vi _. apply guarded_step. intros loc _. by apply reduction_post_within.
    - intros s x y Hx E. apply bind_ok in E as (vi & _ & E). apply bind_ok in E as (loc & Hlc%vget_inv & E). eapply reduction_post_shape; [by eapply small_at| |exact E]. by eapply Hloc. }
  intros ts' _ [Hl' Hs']. apply guarded_self. intros st' E. eapply calm_sets; [done| |exact E]. by apply zip_snd.
Qed.
Lemma tables_with_count st index nodes : calm st -> tables_with st index = Ok nodes -> length nodes <= K /\ forall x t, x ∈ nodes -> get_tab st x = Ok t -> index ∈ pt_vars t.
Proof using All.
  intros (H1 & H2 & H3) E. destruct (tables_with_spec dom dom_pos st index) as (nodes' & E' & Hnd & Hx).
  { eapply Forall_impl; [exact H1|]. by intros ? []. } { eapply Forall_impl; [exact H2|]. by intros ? []. }
  rewrite E in E'. injection E' as <-. split.
  - assert (nodes ⊆+ (TC <$> seq 0 (length (t_c st))) ++ (TS <$> seq 0 (length (t_s st)))) as Hs.
    { apply NoDup_submseteq; [done|]. intros x Hin. apply Hx in Hin as (t & Ht & _). destruct x; cbn in Ht; apply lookup_lt_Some in Ht; apply elem_of_app; [left|right]; apply elem_of_list_fmap_1, elem_of_seq; lia. }
    apply submseteq_length in Hs. rewrite app_length, !fmap_length, !seq_length in Hs. lia.
  - intros x t Hin Ht. apply Hx in Hin as (t' & Ht' & Hv). apply get_tab_ok in Ht'. rewrite Ht in Ht'. by injection Ht' as ->.
Qed.
Lemma load_within sch tag n E st : valid_scheduler sch -> calm st -> guarded calm (load_evidence sch tag n E st) (load_evidence_i M sch tag n E st).
Proof using All.
  intros Hsch Hst. unfold load_evidence, load_evidence_i. apply guarded_mfor; [done|]. intros [i [index value]] s _ Hs. case_bool_decide; [by apply guarded_ok|].
  apply guarded_step. intros nodes Hn. apply tables_with_count in Hn as [? ?]; [|done]. by apply load_node_within.
Qed.

(** Message passing. *)
Lemma with_pots_small ts pots : Forall small ts -> length <$> pots = length <$> (pt_pots <$> ts) -> Forall small (zip_with with_pots ts pots).
Proof using All.
  intros H. revert pots. induction H as [|t ts Ht _ IH]; intros [|p pots] E; cbn in E; try done; cbn; [constructor|]. injection E as E1 E2. constructor; [|by apply IH].
  by apply (same_shape dom dom_pos M B V HBV HB).
Qed.
Lemma zeros seps tmp : Forall small seps -> mcollect seps table_zero = Ok tmp ->
  length tmp = length seps /\ Forall small tmp /\ forall j t s, tmp !! j = Some t -> seps !! j = Some s -> pt_vars t = pt_vars s /\ pt_nv t = pt_nv s.
Proof using All.
  intros Hs E. pose proof E as F. apply mcollect_lookup in F as [Hl F]. split; [done|]. split.
  - apply collected in E as [_ ?]; [done|]. intros s t Hin Ht. assert (small s) by (by eapply Forall_forall). by apply (zero_shape dom dom_pos M B V HBV HB) in Ht as [? _].
  - intros j t s Ht Hj. destruct (F j s Hj) as (x & Hx & G). rewrite Hx in Ht. injection Ht as ->.
    apply (zero_shape dom dom_pos M B V HBV HB) in G as (_ & ? & _ & ?); [done|]. by eapply small_at.
Qed.
Lemma divide_within seps tmp (vec : list nat) st : calm st -> Forall small seps -> Forall small tmp -> length tmp <= K ->
  guarded calm (pots ← divide_level seps tmp; set_tabs st (zip (TS <$> vec) (zip_with with_pots seps pots)))
    (pots ← divide_level_i M seps tmp; set_tabs st (zip (TS <$> vec) (zip_with with_pots seps pots))).
Proof using All.
  intros Hst H1 H2 H3. unfold divide_level_i. rewrite sum_within by done. apply guarded_step. intros pots Hp. apply par2_lengths in Hp.
  apply guarded_self. intros st' E. eapply calm_sets; [done| |exact E]. apply zip_snd. by apply with_pots_small.
Qed.
Lemma multiply_within sch tag st vec clqs tmp : calm st -> Forall small clqs -> Forall small tmp -> length tmp <= K ->
  guarded calm (multiply_level sch tag st vec clqs tmp) (multiply_level_i M sch tag st vec clqs tmp).
Proof using All.
  intros Hst H1 H2 H3. unfold multiply_level_i. rewrite sum_within by done. apply guarded_self. intros st' E. unfold multiply_level in E.
  apply bind_ok in E as (pots & Hp%par2_lengths & E). apply bind_ok in E as (nm & Hn & E). eapply calm_sets; [done| |exact E]. apply zip_snd.
  apply with_pots_small in Hp; [|done]. apply collected in Hn as [_ ?]; [done|]. intros t t' Hin Ht. assert (small t) by (by eapply Forall_forall).
  by apply (normalize_shape dom dom_pos M B V HBV HB) in Ht as [? _].
Qed.
Lemma scratch_within {X} ts (nvs : list nat) (f : unit -> outcome X) : Forall small ts -> Forall (fun n => n <= V) nvs -> (scratch_i M ts nvs ≫= f) = f tt.
Proof using All.
  intros H1 H2. assert (scratch_i M ts nvs = Ok tt) as ->; [|done]. unfold scratch_i. revert nvs H2. induction H1 as [|t ts (_ & Ht1 & Ht2) _ IH]; intros [|n nvs] H2; try done.
  inversion H2; subst. cbn [zip zip_with mfor fst snd]. rewrite imul_ok by (by apply (area_within dom dom_pos M B V HBV HB)). rewrite imul_ok by (by apply (area_within dom dom_pos M B V HBV HB)).
  cbn [mbind outcome_bind]. by apply IH.
Qed.
Lemma small_nvs ts : Forall small ts -> Forall (fun n => n <= V) (pt_nv <$> ts).
Proof using All. intros H. apply Forall_fmap. eapply Forall_impl; [exact H|]. by intros t (_ & _ & ?). Qed.
Lemma posted {n} (ts cs : list ptable) (xs : list (list nat)) (post : ptable -> ptable -> list nat -> outcome ptable) rs : Forall small ts -> (forall t c x r, small t -> post t c x = Ok r -> small r) ->
  mcollect (seq 0 n) (fun j => t ← vget ts j; c ← vget cs j; x ← vget xs j; post t c x) = Ok rs -> length rs = n /\ Forall small rs.
Proof using All.
  intros Ht Hp E. apply collected in E as [Hl Hs]; [by rewrite seq_length in Hl|]. intros j r _ F. apply bind_ok in F as (t & Hj%vget_inv & F). apply bind_ok in F as (c & _ & F). apply bind_ok in F as (x & _ & F).
  eapply Hp; [|exact F]. by eapply small_at.
Qed.

Context (T : jtree) (HT : forall i vec, jt_levels T !! i = Some vec -> length vec <= K).
Ltac reads := let F := fresh "F" in intros ? ? _ F; repeat (apply bind_ok in F as (? & _ & F)); repeat match type of F with context [match ?o with Some _ => _ | None => _ end] => destruct o; [|done] end; apply vget_inv in F; match goal with H : Forall small (t_c _), H2 : Forall small (t_s _) |- _ => first [exact (small_at _ _ _ H F)|exact (small_at _ _ _ H2 F)] end.
Lemma separator_collection_within sch tag i st : calm st -> guarded calm (separator_level_collection sch tag T i st) (separator_level_collection_i M sch tag T i st).
Proof using All.
  intros Hst. pose proof Hst as (Hc & Hs & _). unfold separator_level_collection, separator_level_collection_i. apply guarded_step. intros vec Hvec%vget_inv. apply HT in Hvec.
  apply guarded_step. intros seps Hseps. apply collected in Hseps as [Hl1 Hseps]; [|reads].
  apply guarded_step. intros clqs Hclqs. apply collected in Hclqs as [Hl2 Hclqs]; [|reads].
  apply guarded_step. intros tmp Htmp. apply zeros in Htmp as (Hl3 & Htmp & _); [|done]. rewrite sum_within by (done || lia).
  apply guarded_step. intros tidx _. apply guarded_step. intros tmp' Htmp'. apply posted in Htmp' as [Hl4 Htmp']; [|done|].
  2:{ intros t c x r Ht F. by apply (marginalization_post_shape dom dom_pos M B V HBV HB) in F as [? _]. }
  apply divide_within; try done; lia.
Qed.
Lemma separator_distribution_within sch tag i st : calm st -> guarded calm (separator_level_distribution sch tag T i st) (separator_level_distribution_i M sch tag T i st).
Proof using All.
  intros Hst. pose proof Hst as (Hc & Hs & _). unfold separator_level_distribution, separator_level_distribution_i. apply guarded_step. intros vec Hvec%vget_inv. apply HT in Hvec.
  apply guarded_step. intros seps Hseps. apply collected in Hseps as [Hl1 Hseps]; [|reads].
  apply guarded_step. intros clqs Hclqs. apply collected in Hclqs as [Hl2 Hclqs]; [|reads].
  apply guarded_step. intros tmp Htmp. apply zeros in Htmp as (Hl3 & Htmp & _); [|done].
  apply guarded_step. intros locs Hlocs. rewrite scratch_within; [|done|by apply small_nvs]. rewrite sum_within by (done || lia).
  apply (guarded_bind (fun _ => True)).
  { split; [|done]. apply guarded_par2_fill. intros j k n Hj Hk. apply list_lookup_fmap_inv in Hj as (c & -> & Hcj). destruct (vget tmp j) as [t|] eqn:Et; cbn [mbind outcome_bind]; [|done].
    rewrite (vget_ok _ _ _ Hcj). cbn [mbind outcome_bind]. destruct (vget locs j) as [l|] eqn:El; cbn [mbind outcome_bind]; [|done]. apply vget_inv in El, Et.
    apply (marginalization_main_within dom dom_pos M B V HBV HB); [exact (small_at _ _ _ Htmp Et)|exact (small_at _ _ _ Hclqs Hcj)| |done].
    apply mcollect_lookup in Hlocs as [Hll Hb]. rewrite seq_length in Hll. destruct (Hb j j) as (l' & Hl' & F); [apply lookup_seq; split; [done|]; apply lookup_lt_Some in El; lia|].
    rewrite El in Hl'. injection Hl' as <-. rewrite (vget_ok _ _ _ Et), (vget_ok _ _ _ Hcj) in F. cbn [mbind outcome_bind] in F.
    eapply (located_collect dom dom_pos M B V HBV HB); [exact (wf_at _ _ _ Hclqs Hcj)| |exact F]. apply (wf_nv dom). exact (wf_at _ _ _ Htmp Et). }
  intros tidx _ _. apply guarded_step. intros tmp' Htmp'. apply posted in Htmp' as [Hl4 Htmp']; [|done|].
  2:{ intros t c x r Ht F. by apply (marginalization_post_shape dom dom_pos M B V HBV HB) in F as [? _]. }
  apply divide_within; try done; lia.
Qed.
Lemma posted2 {n} (ts cs : list ptable) (xs : list (list nat)) (post : ptable -> ptable -> list nat -> outcome ptable) rs : Forall small cs -> (forall t c x r, small c -> post c t x = Ok r -> small r) ->
  mcollect (seq 0 n) (fun j => t ← vget ts j; c ← vget cs j; x ← vget xs j; post c t x) = Ok rs -> length rs = n /\ Forall small rs.
Proof using All.
  intros Ht Hp E. apply collected in E as [Hl Hs]; [by rewrite seq_length in Hl|]. intros j r _ F. apply bind_ok in F as (t & _ & F). apply bind_ok in F as (c & Hj%vget_inv & F). apply bind_ok in F as (x & _ & F).
  eapply Hp; [|exact F]. by eapply small_at.
Qed.
Lemma clique_collection_within sch tag i has k st : calm st -> (forall level, jt_levels T !! i = Some level -> length has <= length level) ->
  guarded calm (clique_level_collection sch tag T i has k st) (clique_level_collection_i M sch tag T i has k st).
Proof using All.
  intros Hst Hhas. pose proof Hst as (Hc & Hs & _). unfold clique_level_collection, clique_level_collection_i. apply guarded_step. intros level Hlev%vget_inv.
  pose proof (HT _ _ Hlev) as HK. apply Hhas in Hlev. apply guarded_step. intros vec Hvec. apply mcollect_lookup in Hvec as [Hvec _].
  apply guarded_step. intros clqs Hclqs. apply collected in Hclqs as [Hl2 Hclqs]; [|reads].
  apply guarded_step. intros seps Hseps. apply collected in Hseps as [Hl1 Hseps]; [|reads].
  apply guarded_step. intros locs Hlocs. rewrite scratch_within; [|done|by apply small_nvs]. rewrite sum_within by (done || lia).
  apply (guarded_bind (fun _ => True)).
  { split; [|done]. apply guarded_par2_fill. intros j x n Hj Hk. apply list_lookup_fmap_inv in Hj as (c & -> & Hcj). destruct (vget seps j) as [t|] eqn:Et; cbn [mbind outcome_bind]; [|done].
    rewrite (vget_ok _ _ _ Hcj). cbn [mbind outcome_bind]. destruct (vget locs j) as [l|] eqn:El; cbn [mbind outcome_bind]; [|done]. apply vget_inv in El, Et.
    apply (extension_main_within dom dom_pos M B V HBV HB); [exact (small_at _ _ _ Hseps Et)|exact (small_at _ _ _ Hclqs Hcj)| |done].
    apply mcollect_lookup in Hlocs as [Hll Hb]. rewrite seq_length in Hll. destruct (Hb j j) as (l' & Hl' & F); [apply lookup_seq; split; [done|]; apply lookup_lt_Some in El; lia|].
    rewrite El in Hl'. injection Hl' as <-. rewrite (vget_ok _ _ _ Et), (vget_ok _ _ _ Hcj) in F. cbn [mbind outcome_bind] in F.
    eapply (located_collect dom dom_pos M B V HBV HB); [exact (wf_at _ _ _ Hclqs Hcj)| |exact F]. apply (wf_nv dom). exact (wf_at _ _ _ Hseps Et). }
  intros tidx _ _. apply guarded_step. intros tmp Htmp. apply posted2 in Htmp as [Hl4 Htmp]; [|done|].
  2:{ intros t c x r Ht F. by apply (extension_post_shape dom dom_pos M B V HBV HB) in F as [? _]. }
  apply multiply_within; try done; lia.
Qed.
Lemma clique_distribution_within sch tag i st : calm st -> guarded calm (clique_level_distribution sch tag T i st) (clique_level_distribution_i M sch tag T i st).
Proof using All.
  intros Hst. pose proof Hst as (Hc & Hs & _). unfold clique_level_distribution, clique_level_distribution_i. apply guarded_step. intros vec Hvec%vget_inv. apply HT in Hvec.
  apply guarded_step. intros clqs Hclqs. apply collected in Hclqs as [Hl2 Hclqs]; [|reads].
  apply guarded_step. intros seps Hseps. apply collected in Hseps as [Hl1 Hseps]; [|reads].
  rewrite sum_within by (done || lia). apply guarded_step. intros tidx _. apply guarded_step. intros tmp Htmp. apply posted2 in Htmp as [Hl4 Htmp]; [|done|].
  2:{ intros t c x r Ht F. by apply (extension_post_shape dom dom_pos M B V HBV HB) in F as [? _]. }
  apply multiply_within; try done; lia.
Qed.
Lemma collect_within sch tag st : calm st -> guarded calm (collect sch tag T st) (collect_i M sch tag T st).
Proof using All.
  intros Hst. apply guarded_mfor; [done|]. intros i s _ Hs. unfold collect_level, collect_level_i. destruct (Nat.odd i); [by apply separator_collection_within|].
  apply guarded_step. intros level Hlev%vget_inv. apply guarded_step. intros nums _. apply guarded_mfor; [done|]. intros k s' _ Hs'.
  apply clique_collection_within; [done|]. intros level' Hl'. rewrite Hlev in Hl'. injection Hl' as <-. etransitivity; [apply filter_length|]. by rewrite seq_length.
Qed.
Lemma distribute_within sch tag st : calm st -> guarded calm (distribute sch tag T st) (distribute_i M sch tag T st).
Proof using All.
  intros Hst. apply guarded_mfor; [done|]. intros i s _ Hs. unfold distribute_level, distribute_level_i.
  destruct (Nat.odd i); [by apply separator_distribution_within|by apply clique_distribution_within].
Qed.
Lemma propagate_within sch E st : valid_scheduler sch -> calm st -> guarded calm (propagate sch T E st) (propagate_i M sch T E st).
Proof using All.
  intros Hsch Hst. unfold propagate, propagate_i. apply (guarded_bind calm); [by apply load_within|]. intros st1 _ Hst1. apply guarded_step. intros cs Hcs.
  pose proof Hst1 as (H1 & H2 & H3). apply collected in Hcs as [Hl Hcs].
  2:{ intros t t' Hin Ht. assert (small t) by (by apply (proj1 (Forall_forall _ _) H1)). by apply (normalize_shape dom dom_pos M B V HBV HB) in Ht as [? _]. }
  apply (guarded_bind calm); [apply collect_within; split_and!; try done; cbn; lia|]. intros st2 _ Hst2. by apply distribute_within.
Qed.

(** Queries. *)
Context (Hdoms : forall v d, jt_doms T !! v = Some d -> d = dom v) (Hsum : foldr Nat.add 0 (jt_doms T) <= M) (Hback : calm (jt_backup T)).
Lemma smallest_small cs q nv t : Forall small cs -> smallest_clique cs q = Ok (Some (nv, t)) -> small t /\ q ∈ pt_vars t /\ nv = pt_nv t.
Proof using All.
  intros Hcs E. assert (forall b, smallest_clique cs q = Ok b -> forall nv t, b = Some (nv, t) -> small t /\ q ∈ pt_vars t /\ nv = pt_nv t) as H; [|by apply (H _ E)]. clear E nv t.
  unfold smallest_clique. intros b E. assert (forall l best b, Forall small l -> (forall nv t, best = Some (nv, t) -> small t /\ q ∈ pt_vars t /\ nv = pt_nv t) ->
    mfor l (fun t best => loc ← get_variable_index t q; let small := match best with None => true | Some (mn, _) => bool_decide (pt_nv t < mn) end in
      Ok (if small && bool_decide (loc < pt_nv t) then Some (pt_nv t, t) else best)) best = Ok b -> forall nv t, b = Some (nv, t) -> small t /\ q ∈ pt_vars t /\ nv = pt_nv t) as G; [|by eapply (G cs None b)].
  clear b E cs Hcs. induction l as [|t l IH]; intros best b Hl Hb E; cbn [mfor] in E; [by injection E as <-|]. inversion Hl as [|? ? Ht Hl']; subst.
  apply bind_ok in E as (b1 & E1 & E2). eapply (IH b1); [done| |exact E2]. intros nv u ->. apply bind_ok in E1 as (loc & Hloc & E1). cbv zeta in E1.
  destruct (_ && _) eqn:Ec; [|injection E1 as ->; by apply Hb]. injection E1 as <- <-. apply andb_true_iff in Ec as [_ Hlt%bool_decide_eq_true]. split_and!; try done.
  apply (variable_index_range dom dom_pos M B V HBV HB) in Hloc as [_ Hv]; [|apply Ht]. by eapply elem_of_list_lookup_2, Hv.
Qed.
Lemma marginal_within t q d : small t -> q ∈ pt_vars t -> node_dim (jt_doms T) q = Ok d -> guarded small (table_marginalization t [q] [d]) (table_marginalization_i M t [q] [d]).
Proof using All.
  intros Ht Hq Hd. unfold node_dim in Hd. destruct (jt_doms T !! q) as [d'|] eqn:E; [|done]. injection Hd as <-. apply Hdoms in E as ->.
  eapply guarded_weaken; [|apply (marginalization_within dom dom_pos M B V HBV HB t [q]); [done|apply NoDup_singleton|]]; [by intros ? []|].
  apply singleton_submseteq_l. done.
Qed.
Lemma calculate_within st q : calm st -> guarded (fun _ => True) (calculate_marginal T st q) (calculate_marginal_i M T st q).
Proof using All.
  intros (H1 & _). unfold calculate_marginal, calculate_marginal_i. apply guarded_step. intros [[nv t]|] Hb; [|apply guarded_err]. apply smallest_small in Hb as (Ht & Hq & ->); [|done].
  case_bool_decide; [by apply guarded_ok|]. apply guarded_step. intros d Hd. apply (guarded_bind small); [by apply marginal_within|]. intros m _ _. by apply guarded_self.
Qed.
Lemma all_within st E : calm st -> guarded (fun _ => True) (probabilities_all T st E) (probabilities_all_i M T st E).
Proof using All.
  intros (H1 & _). unfold probabilities_all, probabilities_all_i. cbv zeta. rewrite final_sum_within; [|rewrite foldl_total; exact Hsum]. cbn [mbind outcome_bind].
  apply (guarded_bind (fun _ => True)); [|intros; by apply guarded_ok]. apply guarded_mfor; [done|]. intros i [probs l] _ _. case_bool_decide; [by apply guarded_ok|].
  apply guarded_step. intros [[nv t]|] Hb; [|apply guarded_err]. apply smallest_small in Hb as (Ht & Hq & ->); [|done]. apply guarded_step. intros d Hd.
  apply (guarded_bind small); [case_bool_decide; [by apply marginal_within|by apply guarded_ok]|]. intros m _ _. by apply guarded_self.
Qed.
Lemma query_within sch qu st : valid_scheduler sch -> calm st -> guarded (fun r => calm (fst r)) (run_query sch T qu st) (run_query_i M sch T qu st).
Proof using All.
  intros Hsch Hst. unfold run_query, run_query_i. destruct qu as [q E|E].
  - apply (guarded_bind (fun r : tabs * nat => calm (fst r))); [|intros; by apply guarded_ok]. unfold query_label, query_label_i.
    apply (guarded_bind calm); [by apply propagate_within|]. intros st1 _ Hst1. apply (guarded_bind (fun _ => True)); [by apply calculate_within|]. intros p _ _.
    apply guarded_self. intros r Hr. apply bind_ok in Hr as (l & _ & [= <-]). done.
  - apply (guarded_bind (fun r : tabs * list Qc => calm (fst r))); [|intros; by apply guarded_ok]. unfold query_probs, query_probs_i.
    apply (guarded_bind calm); [by apply propagate_within|]. intros st1 _ Hst1. apply (guarded_bind (fun _ => True)); [by apply all_within|]. intros p _ _. by apply guarded_ok.
Qed.
Lemma queries_within qs st : Forall (fun sq => valid_scheduler (fst sq)) qs -> calm st -> run_queries_i M T qs st = run_queries T qs st.
Proof using All.
  intros Hq Hst. unfold run_queries_i, run_queries. apply (guarded_mfor (fun r : tabs * list answer => calm (fst r))); [done|]. intros sq s Hin Hs.
  apply (guarded_bind (fun r : tabs * answer => calm (fst r))); [|intros; by apply guarded_ok]. apply query_within; [|done]. by eapply Forall_forall in Hq.
Qed.
End levels.
