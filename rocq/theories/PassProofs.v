(** What each level of message passing computes, for any schedule of its parallel loops. *)
From Verif Require Import JTModel TableSpec TableProofs TableProofs2 TableProofs4 ParProofs SchedProofs.
Local Open Scope nat_scope.

Lemma mcollect_exists {I A} (P : nat -> A -> Prop) (l : list I) (body : I -> outcome A) :
  (forall k i, l !! k = Some i -> exists x, body i = Ok x /\ P k x) ->
  exists xs, mcollect l body = Ok xs /\ length xs = length l /\ forall k x, xs !! k = Some x -> P k x.
Proof.
  revert P. induction l as [|i l IH]; intros P H; cbn [mcollect].
  - exists []. split; [done|]. split; [done|]. intros k x Hx. by rewrite lookup_nil in Hx.
  - destruct (H 0 i eq_refl) as (x & -> & Hx). cbn [mbind outcome_bind].
    destruct (IH (fun k => P (S k))) as (xs & -> & Hl & Hxs); [intros k j Hk; by apply (H (S k))|]. cbn [mbind outcome_bind].
    exists (x :: xs). split_and!; [done|cbn; by rewrite Hl|]. intros [|k] y Hy; cbn in Hy; [by injection Hy as <-|by apply Hxs].
Qed.
Lemma mcollect_or {I A} (e : err) (P : I -> A -> Prop) (l : list I) (body : I -> outcome A) :
  (forall i, i ∈ l -> (exists x, body i = Ok x /\ P i x) \/ body i = Err e) ->
  (exists xs, mcollect l body = Ok xs /\ length xs = length l /\ forall k i, l !! k = Some i -> exists x, xs !! k = Some x /\ body i = Ok x /\ P i x) \/
  (mcollect l body = Err e /\ exists i, i ∈ l /\ body i = Err e).
Proof.
  induction l as [|i l IH]; intros H; cbn [mcollect].
  - left. exists []. split; [done|]. split; [done|]. intros k j Hj. by rewrite lookup_nil in Hj.
  - destruct (H i) as [(x & Hx & HP)|Hx]; [left| |right; rewrite Hx; split; [done|exists i; split; [left|done]]].
    rewrite Hx. cbn [mbind outcome_bind]. destruct IH as [(xs & -> & Hl & Hxs)|(-> & j & Hj & Hj')]; [intros j Hj; apply H; by right| |].
    + left. exists (x :: xs). split_and!; [done|cbn; by rewrite Hl|]. intros [|k] j Hj; cbn in Hj; [injection Hj as <-; by exists x|by apply Hxs].
    + right. split; [done|]. exists j. split; [by right|done].
Qed.
Lemma par2_fill_exists {X} (P : nat -> list X -> Prop) sizes es (body : nat -> nat -> outcome X) :
  valid_schedule (snd (cum_sums sizes)) es ->
  (forall j n, sizes !! j = Some n -> exists xs, mcollect (seq 0 n) (body j) = Ok xs /\ P j xs) ->
  exists xss, par2_fill es sizes body = Ok xss /\ length xss = length sizes /\ forall j xs, xss !! j = Some xs -> P j xs.
Proof.
  intros Hes H. destruct (mcollect_exists P (seq 0 (length sizes)) (fun j => mcollect (seq 0 (default 0 (sizes !! j))) (fun k => body j k))) as (xss & Hx & Hl & HP).
  - intros k i Hi. apply lookup_seq in Hi as [-> Hk]. cbn [Nat.add] in *. destruct (lookup_lt_is_Some_2 sizes k Hk) as [n Hn]. rewrite Hn. cbn [default]. by apply H.
  - exists xss. rewrite seq_length in Hl. split_and!; [|done|done]. by apply (par2_fill_spec sizes es body Hes).
Qed.
Lemma par2_exists {X} (P : nat -> list X -> Prop) sizes es (body : nat -> nat -> X -> outcome X) (m : list (list X)) :
  valid_schedule (snd (cum_sums sizes)) es -> shape2 sizes m ->
  (forall j row, m !! j = Some row -> exists xs, mcollect (seq 0 (length row)) (fun k => x ← vget row k; body j k x) = Ok xs /\ P j xs) ->
  exists xss, par2 es sizes body m = Ok xss /\ length xss = length sizes /\ forall j xs, xss !! j = Some xs -> P j xs.
Proof.
  intros Hes Hsh H. destruct (mcollect_exists P (seq 0 (length sizes)) (fun j => row ← vget m j; mcollect (seq 0 (length row)) (fun k => x ← vget row k; body j k x))) as (xss & Hx & Hl & HP).
  - intros k i Hi. apply lookup_seq in Hi as [-> Hk]. cbn [Nat.add] in *. destruct (lookup_lt_is_Some_2 m k) as [row Hrow]; [rewrite <-Hsh, fmap_length in Hk; done|].
    rewrite (vget_ok _ _ _ Hrow). cbn [mbind outcome_bind]. by apply H.
  - exists xss. rewrite seq_length in Hl. split_and!; [|done|done]. by apply (par2_spec sizes es body m Hes Hsh).
Qed.

Lemma in_order_valid n : valid_schedule n (in_order n).
Proof.
  unfold in_order, valid_schedule. assert (forall m, (seq m n ≫= (fun s => [Rd s; Wr s])) ≡ₚ (Rd <$> seq m n) ++ (Wr <$> seq m n) /\
    forall k e, (seq m n ≫= (fun s => [Rd s; Wr s])) !! k = Some e -> e = Rd (m + k / 2) /\ Nat.odd k = false \/ e = Wr (m + k / 2) /\ Nat.odd k = true) as H.
  { induction n as [|n IH]; intros m; cbn [seq mbind list_bind fmap list_fmap app]; [split; [done|intros k e He; by rewrite lookup_nil in He]|].
    destruct (IH (S m)) as [H1 H2]. split.
    - rewrite H1. constructor. by rewrite Permutation_middle.
    - intros [|[|k]] e He; cbn in He; [injection He as <-; left; split; [f_equal; cbn; lia|done]|injection He as <-; right; split; [f_equal; cbn; lia|done]|].
      apply H2 in He. replace (S (S k) / 2) with (S (k / 2)) by (replace (S (S k)) with (k + 1 * 2) by lia; rewrite Nat.div_add by lia; lia).
      replace (Nat.odd (S (S k))) with (Nat.odd k) by done. replace (m + S (k / 2)) with (S m + k / 2) by lia. done. }
  destruct (H 0) as [H1 H2]. split; [done|]. intros s i j Hi Hj. apply H2 in Hi, Hj.
  destruct Hi as [[Hs Hi]|[? _]]; [|done]. destruct Hj as [[? _]|[Hs' Hj]]; [done|]. assert (s = i / 2) as Hs1 by (by injection Hs). assert (s = j / 2) as Hs2 by (by injection Hs'). clear Hs Hs'.
  rewrite <-Nat.negb_even in Hi. apply negb_false_iff, Nat.even_spec in Hi as [c Hc]. apply Nat.odd_spec in Hj as [d Hd].
  pose proof (Nat.div_mod i 2 ltac:(lia)). pose proof (Nat.div_mod j 2 ltac:(lia)).
  pose proof (Nat.mod_upper_bound i 2 ltac:(lia)). pose proof (Nat.mod_upper_bound j 2 ltac:(lia)). lia.
Qed.

(** ** Writing tables back *)
Lemma set_tabs_sep vec : forall ts st, length ts = length vec -> NoDup vec -> (forall s, s ∈ vec -> s < length (t_s st)) ->
  exists st', set_tabs st (zip (TS <$> vec) ts) = Ok st' /\ t_c st' = t_c st /\ length (t_s st') = length (t_s st) /\
    (forall s, s ∉ vec -> t_s st' !! s = t_s st !! s) /\ (forall k s t, vec !! k = Some s -> ts !! k = Some t -> t_s st' !! s = Some t).
Proof.
  induction vec as [|s vec IH]; intros [|t ts] st Hl Hnd Hb; try done; cbn [fmap list_fmap zip zip_with].
  { exists st. split_and!; try done. }
  apply NoDup_cons in Hnd as [Hs Hnd]. unfold set_tabs. cbn [mfor fst snd set_tab]. rewrite vset_ok by (apply Hb; left). cbn [mbind outcome_bind].
  destruct (IH ts (mkTabs (t_c st) (<[s:=t]> (t_s st)))) as (st' & Heq & H1 & H2 & H3 & H4); [by injection Hl|done| |].
  { intros s' Hs'. cbn. rewrite insert_length. apply Hb. by right. }
  unfold set_tabs in Heq. rewrite Heq. exists st'. cbn in *. rewrite insert_length in H2. split_and!; try done.
  - intros s' Hs'. apply not_elem_of_cons in Hs' as [Hne Hs']. rewrite H3 by done. by rewrite list_lookup_insert_ne.
  - intros [|k] s' t' Hk Ht; cbn in Hk, Ht; [|by eapply H4]. injection Hk as <-. injection Ht as <-. rewrite H3 by done. apply list_lookup_insert. apply Hb. left.
Qed.
Lemma set_tabs_clq vec : forall ts st, length ts = length vec -> NoDup vec -> (forall s, s ∈ vec -> s < length (t_c st)) ->
  exists st', set_tabs st (zip (TC <$> vec) ts) = Ok st' /\ t_s st' = t_s st /\ length (t_c st') = length (t_c st) /\
    (forall s, s ∉ vec -> t_c st' !! s = t_c st !! s) /\ (forall k s t, vec !! k = Some s -> ts !! k = Some t -> t_c st' !! s = Some t).
Proof.
  induction vec as [|s vec IH]; intros [|t ts] st Hl Hnd Hb; try done; cbn [fmap list_fmap zip zip_with].
  { exists st. split_and!; try done. }
  apply NoDup_cons in Hnd as [Hs Hnd]. unfold set_tabs. cbn [mfor fst snd set_tab]. rewrite vset_ok by (apply Hb; left). cbn [mbind outcome_bind].
  destruct (IH ts (mkTabs (<[s:=t]> (t_c st)) (t_s st))) as (st' & Heq & H1 & H2 & H3 & H4); [by injection Hl|done| |].
  { intros s' Hs'. cbn. rewrite insert_length. apply Hb. by right. }
  unfold set_tabs in Heq. rewrite Heq. exists st'. cbn in *. rewrite insert_length in H2. split_and!; try done.
  - intros s' Hs'. apply not_elem_of_cons in Hs' as [Hne Hs']. rewrite H3 by done. by rewrite list_lookup_insert_ne.
  - intros [|k] s' t' Hk Ht; cbn in Hk, Ht; [|by eapply H4]. injection Hk as <-. injection Ht as <-. rewrite H3 by done. apply list_lookup_insert. apply Hb. left.
Qed.

Section pass.
Context (dom : nat -> nat) (dom_pos : forall v, 0 < dom v).
Notation wf := (TableSpec.wf dom).
Notation valid := (valid dom).
Notation sumv := (sumv dom).
Set Default Proof Using "All".

(** [tidx] maps each entry of [C] to the entry of [S] it extends. *)
Definition tidx_ok (C S : ptable) (tidx : list nat) : Prop :=
  length tidx = pt_size C /\
  forall a, valid a -> tidx !! lex_index (pt_dims C) (a <$> pt_vars C) = Some (lex_index (pt_dims S) (a <$> pt_vars S)).
Lemma fast_tidx C S ws : wf C -> wf S -> pt_vars C = ws ++ pt_vars S ->
  exists tidx, mcollect (seq 0 (pt_size C)) (fun k => imod k (pt_size S)) = Ok tidx /\ tidx_ok C S tidx.
Proof. intros HC HS E. destruct (fast_index_map dom dom_pos C S ws HC HS E) as (tidx & ? & ? & ?). exists tidx. done. Qed.
Lemma locs_exist C S (g : nat -> outcome nat) : wf C -> wf S -> (forall v, v ∈ pt_vars S -> v ∈ pt_vars C) ->
  (forall i w, pt_vars S !! i = Some w -> g i = get_variable_index C w) ->
  exists locs, mcollect (seq 0 (pt_nv S)) g = Ok locs /\ locs_ok (pt_vars C) (pt_vars S) locs.
Proof. intros HC HS Hsub Hg. rewrite (wf_nv _ _ HS). by apply (collect_locs dom dom_pos). Qed.
Lemma marg_tidx C S N locs : wf C -> wf S -> locs_ok (pt_vars C) (pt_vars S) locs -> N = TableProofs.fresh dom (pt_vars S) ->
  exists tidx, mcollect (seq 0 (pt_size C)) (marginalization_main N (pt_nv C) (pt_cum C) locs) = Ok tidx /\ tidx_ok C S tidx.
Proof.
  intros HC HS Hok ->. set (N := TableProofs.fresh dom (pt_vars S)). assert (wf N) as HN by (apply (wf_fresh dom dom_pos), HS).
  destruct (index_map dom dom_pos C (pt_vars S) (marginalization_main N (pt_nv C) (pt_cum C) locs)) as (tidx & Hti & Htl & Htv); [done| |].
  { intros a Ha. unfold marginalization_main. fold (get_config C (lex_index (pt_dims C) (a <$> pt_vars C))).
    rewrite (get_config_spec dom dom_pos) by done. cbn [mbind outcome_bind]. change (pt_nv N) with (length (pt_vars S)).
    rewrite project_config by done. cbn [mbind outcome_bind]. change (pt_vars S) with (pt_vars N) at 1. rewrite (get_index_ok dom dom_pos) by done. done. }
  exists tidx. split; [done|]. split; [done|]. intros a Ha. rewrite Htv by done. by rewrite (wf_dims _ _ HS).
Qed.
Lemma ext_tidx C S locs : wf C -> wf S -> locs_ok (pt_vars C) (pt_vars S) locs ->
  exists tidx, mcollect (seq 0 (pt_size C)) (extension_main C (pt_nv S) (pt_cum S) locs) = Ok tidx /\ tidx_ok C S tidx.
Proof.
  intros HC HS Hok. destruct (index_map dom dom_pos C (pt_vars S) (extension_main C (pt_nv S) (pt_cum S) locs)) as (tidx & Hti & Htl & Htv); [done| |].
  { intros a Ha. unfold extension_main. rewrite (get_config_spec dom dom_pos) by done. cbn [mbind outcome_bind].
    rewrite (wf_nv _ _ HS), project_config by done. cbn [mbind outcome_bind].
    rewrite (wf_cum _ _ HS), <-(wf_dims _ _ HS), <-(vars_dims_length dom dom_pos) by done.
    apply get_index_spec. by rewrite fmap_length, (vars_dims_length dom dom_pos). }
  exists tidx. split; [done|]. split; [done|]. intros a Ha. rewrite Htv by done. by rewrite (wf_dims _ _ HS).
Qed.
Lemma extension_core C S tidx : wf C -> wf S -> tidx_ok C S tidx ->
  exists C', extension_post C S tidx = Ok C' /\ wf C' /\ pt_vars C' = pt_vars C /\ forall a, valid a -> tval C' a = tval S a.
Proof.
  intros HT HS [Htl Htv]. unfold extension_post.
  set (g := fun k => default 0%Qc (j ← tidx !! k; pt_pots S !! j)).
  rewrite (mfor_ext _ _ (fun k pots => x ← (j ← vget tidx k; vget (pt_pots S) j); vset pots k x)).
  2: { intros k s0 _. destruct (vget tidx k); cbn; [|done]. done. }
  rewrite (mfor_gather _ _ g).
  2: { intros k Hk. destruct (slot_asg dom dom_pos C k HT Hk) as (a & Ha & <- & _).
       subst g. cbn beta. rewrite (vget_ok _ _ _ (Htv a Ha)). cbn [mbind outcome_bind].
       rewrite Htv by done. rewrite (vget_ok _ _ _ (tval_lookup dom dom_pos S a HS Ha)). cbn [mbind option_bind].
       by rewrite (tval_lookup dom dom_pos S a HS Ha). }
  2: { rewrite (wf_pots _ _ HT). symmetry. apply HT. }
  cbn [mbind outcome_bind]. eexists. split; [done|].
  split_and!; [apply (wf_set_pots dom dom_pos); [done|]; by rewrite fmap_length, seq_length|done|].
  intros a Ha. unfold tval at 1. cbn [pt_pots pt_dims pt_vars].
  rewrite list_lookup_fmap, lookup_seq_lt by (by apply (lex_index_lt_size dom dom_pos)). cbn [fmap option_fmap option_map default].
  subst g. cbn beta. rewrite Nat.add_0_l, Htv by done. cbn [mbind option_bind]. by rewrite (tval_lookup dom dom_pos S a HS Ha).
Qed.
Lemma table_zero_fresh S : wf S -> table_zero S = Ok (TableProofs.fresh dom (pt_vars S)).
Proof.
  intros HS. rewrite (table_zero_spec dom dom_pos) by done. unfold TableProofs.fresh. f_equal.
  rewrite (wf_size _ _ HS), (wf_cum _ _ HS), (wf_nv _ _ HS), (wf_dims _ _ HS). done.
Qed.
Lemma same_vars_size C S : wf C -> wf S -> pt_vars C = pt_vars S -> pt_size C = pt_size S /\ pt_dims C = pt_dims S.
Proof. intros HC HS E. rewrite (wf_size _ _ HC), (wf_size _ _ HS), (wf_dims _ _ HC), (wf_dims _ _ HS), E. done. Qed.
Lemma wf_with_pots S pots : wf S -> length pots = pt_size S -> wf (with_pots S pots).
Proof. intros. by apply (wf_set_pots dom dom_pos). Qed.
Lemma entry_of T k x : wf T -> pt_pots T !! k = Some x -> exists a, valid a /\ lex_index (pt_dims T) (a <$> pt_vars T) = k /\ tval T a = x.
Proof.
  intros HT Hk. destruct (slot_asg dom dom_pos T k HT) as (a & Ha & Hl & _).
  { apply lookup_lt_Some in Hk. by rewrite (wf_size _ _ HT), <-(wf_pots _ _ HT). }
  exists a. split_and!; try done. unfold tval. rewrite Hl, Hk. done.
Qed.
(** Entry by entry on tables of the same shape. *)
Lemma pointwise S M (F : Qc -> Qc -> Qc) (body : nat -> Qc -> outcome Qc) : wf S -> wf M -> pt_vars M = pt_vars S ->
  (forall k x y, pt_pots S !! k = Some x -> pt_pots M !! k = Some y -> body k x = Ok (F x y)) ->
  exists pots, mcollect (seq 0 (length (pt_pots S))) (fun k => x ← vget (pt_pots S) k; body k x) = Ok pots /\
    wf (with_pots S pots) /\ forall a, valid a -> tval (with_pots S pots) a = F (tval S a) (tval M a).
Proof.
  intros HS HM E Hb. destruct (same_vars_size M S HM HS E) as [Hsz Hdim].
  assert (length (pt_pots S) = length (pt_pots M)) as Hlen by (rewrite (wf_pots _ _ HS), (wf_pots _ _ HM), Hdim; done).
  destruct (mcollect_exists (fun k z => exists x y, pt_pots S !! k = Some x /\ pt_pots M !! k = Some y /\ z = F x y)
    (seq 0 (length (pt_pots S))) (fun k => x ← vget (pt_pots S) k; body k x)) as (pots & Hp & Hpl & Hpots).
  { intros k i Hi. apply lookup_seq in Hi as [-> Hk]. cbn [Nat.add]. destruct (lookup_lt_is_Some_2 (pt_pots S) k Hk) as [x Hx].
    destruct (lookup_lt_is_Some_2 (pt_pots M) k) as [y Hy]; [lia|]. rewrite (vget_ok _ _ _ Hx). cbn [mbind outcome_bind]. rewrite (Hb k x y) by done. eauto 10. }
  rewrite seq_length in Hpl. exists pots. split; [done|]. assert (wf (with_pots S pots)) as Hw.
  { apply wf_with_pots; [done|]. rewrite Hpl, (wf_pots _ _ HS). symmetry. apply HS. }
  split; [done|]. intros a Ha. pose proof (tval_lookup dom dom_pos _ a Hw Ha) as Hl. apply Hpots in Hl as (x & y & Hx & Hy & ->).
  cbn [with_pots pt_dims pt_vars] in Hx, Hy. rewrite (tval_lookup dom dom_pos S a HS Ha) in Hx. rewrite <-E, <-Hdim, (tval_lookup dom dom_pos M a HM Ha) in Hy. congruence.
Qed.

(** ** Separators *)
Definition sep_new (C S S' : ptable) : Prop :=
  wf S' /\ pt_vars S' = pt_vars S /\ forall a, valid a ->
    tval S' a = (if bool_decide (tval S a = 0) then 0 else sumv (filter (fun v => v ∉ pt_vars S) (pt_vars C)) (tval C) a / tval S a)%Qc.
Lemma split_vars C S : wf C -> wf S -> (forall v, v ∈ pt_vars S -> v ∈ pt_vars C) -> pt_vars C ≡ₚ pt_vars S ++ filter (fun v => v ∉ pt_vars S) (pt_vars C).
Proof.
  intros HC HS Hsub. apply NoDup_Permutation; [apply HC| |].
  - apply NoDup_app. split_and!; [apply HS| |apply NoDup_filter, HC]. intros v Hv Hv'. apply elem_of_list_filter in Hv' as [? _]. done.
  - intros v. rewrite elem_of_app, elem_of_list_filter. destruct (decide (v ∈ pt_vars S)); split; intros H; try tauto. destruct H as [?|[_ ?]]; auto.
Qed.
Lemma sep_finish st vec seps clqs tmp tidx :
  length seps = length vec -> length clqs = length vec -> length tmp = length vec -> length tidx = length vec ->
  NoDup vec -> (forall s, s ∈ vec -> s < length (t_s st)) ->
  (forall k S C, seps !! k = Some S -> clqs !! k = Some C -> wf S /\ wf C /\ (forall v, v ∈ pt_vars S -> v ∈ pt_vars C) /\
     tmp !! k = Some (TableProofs.fresh dom (pt_vars S)) /\ exists x, tidx !! k = Some x /\ tidx_ok C S x) ->
  exists st', (tmp' ← mcollect (seq 0 (length vec)) (fun j => t ← vget tmp j; c ← vget clqs j; x ← vget tidx j; marginalization_post t c x);
     pots ← divide_level seps tmp'; set_tabs st (zip (TS <$> vec) (zip_with with_pots seps pots))) = Ok st' /\
   t_c st' = t_c st /\ length (t_s st') = length (t_s st) /\ (forall s, s ∉ vec -> t_s st' !! s = t_s st !! s) /\
   (forall k s S C, vec !! k = Some s -> seps !! k = Some S -> clqs !! k = Some C -> exists S', t_s st' !! s = Some S' /\ sep_new C S S').
Proof.
  intros Hls Hlc Hlt Hli Hnd Hb H.
  destruct (mcollect_exists (fun k M => forall S C, seps !! k = Some S -> clqs !! k = Some C -> wf M /\ pt_vars M = pt_vars S /\
      forall a, valid a -> tval M a = sumv (filter (fun v => v ∉ pt_vars S) (pt_vars C)) (tval C) a)
    (seq 0 (length vec)) (fun j => t ← vget tmp j; c ← vget clqs j; x ← vget tidx j; marginalization_post t c x)) as (tmp' & -> & Htl & Htmp).
  { intros k i Hi. apply lookup_seq in Hi as [-> Hk]. cbn [Nat.add].
    destruct (lookup_lt_is_Some_2 seps k) as [S HS]; [lia|]. destruct (lookup_lt_is_Some_2 clqs k) as [C HC]; [lia|].
    destruct (H k S C HS HC) as (HwS & HwC & Hsub & Ht & x & Hx & Hxl & Hxv). rewrite (vget_ok _ _ _ Ht), (vget_ok _ _ _ HC), (vget_ok _ _ _ Hx). cbn [mbind outcome_bind].
    destruct (marginalization_core dom dom_pos C (pt_vars S) (filter (fun v => v ∉ pt_vars S) (pt_vars C)) x) as (M & HM & HMw & HMv & HMt); [done|by apply split_vars|done| |].
    - intros a Ha. rewrite <-(wf_dims _ _ HwS). by apply Hxv.
    - exists M. split; [done|]. intros S' C' HS' HC'. replace S' with S by congruence. replace C' with C by congruence. done. }
  cbn [mbind outcome_bind]. rewrite seq_length in Htl.
  assert (forall k S, seps !! k = Some S -> exists C M, clqs !! k = Some C /\ tmp' !! k = Some M /\ wf S /\ wf M /\ pt_vars M = pt_vars S /\
    forall a, valid a -> tval M a = sumv (filter (fun v => v ∉ pt_vars S) (pt_vars C)) (tval C) a) as Hall.
  { intros k S HS. pose proof (lookup_lt_Some _ _ _ HS). destruct (lookup_lt_is_Some_2 clqs k) as [C HC]; [lia|]. destruct (lookup_lt_is_Some_2 tmp' k) as [M HM]; [lia|].
    exists C, M. destruct (H k S C HS HC) as (HwS & _). destruct (Htmp k M HM S C HS HC) as (? & ? & ?). split_and!; done. }
  unfold divide_level.
  destruct (par2_exists (fun k pots => forall S C, seps !! k = Some S -> clqs !! k = Some C -> sep_new C S (with_pots S pots)) (pt_size <$> tmp') (in_order (snd (cum_sums (pt_size <$> tmp'))))
    (fun j k _ => old ← vget seps j; y ← vget (pt_pots old) k; t ← vget tmp' j; x ← vget (pt_pots t) k; Ok (if bool_decide (y = 0%Qc) then 0%Qc else (x / y)%Qc)) (pt_pots <$> seps)) as (pots & -> & Hpl & Hpots).
  { apply in_order_valid. }
  { unfold shape2. apply list_eq. intros k. rewrite !list_lookup_fmap. destruct (seps !! k) as [S|] eqn:HS; cbn.
    - destruct (Hall k S HS) as (C & M & _ & -> & HwS & HwM & Hv & _). cbn. destruct (same_vars_size M S HwM HwS Hv) as [-> _]. by rewrite (wf_pots _ _ HwS), (wf_size _ _ HwS).
    - apply lookup_ge_None in HS. rewrite (lookup_ge_None_2 tmp') by lia. done. }
  { intros j row Hrow. rewrite list_lookup_fmap in Hrow. destruct (seps !! j) as [S|] eqn:HS; [|done]. injection Hrow as <-.
    destruct (Hall j S HS) as (C & M & HC & HM & HwS & HwM & Hv & HMt).
    destruct (pointwise S M (fun y x => if bool_decide (y = 0%Qc) then 0%Qc else (x / y)%Qc) (fun k _ => old ← vget seps j; y ← vget (pt_pots old) k; t ← vget tmp' j; x ← vget (pt_pots t) k; Ok (if bool_decide (y = 0%Qc) then 0%Qc else (x / y)%Qc))) as (pots & Hp & Hw & Ht); try done.
    - intros k x y Hx Hy. rewrite (vget_ok _ _ _ HS). cbn [mbind outcome_bind]. rewrite (vget_ok _ _ _ Hx), (vget_ok _ _ _ HM). cbn [mbind outcome_bind]. rewrite (vget_ok _ _ _ Hy). done.
    - exists pots. split; [done|]. intros S' C' HS' HC'. assert (S' = S) as -> by congruence. assert (C' = C) as -> by congruence. split_and!; [done|done|]. intros a Ha. rewrite Ht by done. by rewrite HMt. }
  cbn [mbind outcome_bind]. rewrite fmap_length in Hpl.
  destruct (set_tabs_sep vec (zip_with with_pots seps pots) st) as (st' & -> & H1 & H2 & H3 & H4); [rewrite zip_with_length; lia|done|done|].
  exists st'. split_and!; try done. intros k s S C Hs HS HC. pose proof (lookup_lt_Some _ _ _ HS). destruct (lookup_lt_is_Some_2 pots k) as [p Hp]; [lia|].
  exists (with_pots S p). split; [|by apply (Hpots k p Hp)]. apply (H4 k s); [done|]. apply lookup_zip_with_Some. exists S, p. done.
Qed.
Lemma sep_collection_spec sch tag T i vec st (cl : nat -> nat) : valid_scheduler sch ->
  jt_levels T !! i = Some vec -> NoDup vec ->
  (forall s, s ∈ vec -> exists S C ws, dn_s (jt_marks T) !! s = Some [cl s] /\ t_s st !! s = Some S /\ t_c st !! cl s = Some C /\ wf S /\ wf C /\ pt_vars C = ws ++ pt_vars S) ->
  exists st', separator_level_collection sch tag T i st = Ok st' /\
   t_c st' = t_c st /\ length (t_s st') = length (t_s st) /\ (forall s, s ∉ vec -> t_s st' !! s = t_s st !! s) /\
   (forall s S C, s ∈ vec -> t_s st !! s = Some S -> t_c st !! cl s = Some C -> exists S', t_s st' !! s = Some S' /\ sep_new C S S').
Proof.
  intros Hsch Hvec Hnd H. unfold separator_level_collection. rewrite (vget_ok _ _ _ Hvec). cbn [mbind outcome_bind].
  destruct (mcollect_exists (fun k S => forall s, vec !! k = Some s -> t_s st !! s = Some S /\ wf S) vec (vget (t_s st))) as (seps & -> & Hls & Hseps).
  { intros k s Hk. destruct (H s) as (S & C & ws & _ & HS & _ & HwS & _); [by eapply elem_of_list_lookup_2|]. exists S. split; [by apply vget_ok|]. intros s' Hs'. assert (s' = s) as -> by congruence. done. }
  cbn [mbind outcome_bind].
  destruct (mcollect_exists (fun k C => forall s, vec !! k = Some s -> t_c st !! cl s = Some C /\ wf C) vec (fun s => d ← vget (dn_s (jt_marks T)) s; c ← vget d 0; vget (t_c st) c)) as (clqs & -> & Hlc & Hclqs).
  { intros k s Hk. destruct (H s) as (S & C & ws & Hd & _ & HC & _ & HwC & _); [by eapply elem_of_list_lookup_2|]. exists C. rewrite (vget_ok _ _ _ Hd). cbn [mbind outcome_bind]. change (vget [cl s] 0) with (Ok (cl s)). cbn [mbind outcome_bind].
    split; [by apply vget_ok|]. intros s' Hs'. assert (s' = s) as -> by congruence. done. }
  cbn [mbind outcome_bind].
  assert (forall k S C, seps !! k = Some S -> clqs !! k = Some C -> exists s ws, vec !! k = Some s /\ s ∈ vec /\ t_s st !! s = Some S /\ t_c st !! cl s = Some C /\ wf S /\ wf C /\ pt_vars C = ws ++ pt_vars S) as Hk.
  { intros k S C HS HC. pose proof (lookup_lt_Some _ _ _ HS). destruct (lookup_lt_is_Some_2 vec k) as [s Hs]; [lia|]. assert (s ∈ vec) as Hin by (by eapply elem_of_list_lookup_2).
    destruct (H s Hin) as (S' & C' & ws & _ & HS' & HC' & HwS & HwC & Hv). destruct (Hseps k S HS s Hs) as [HS'' _]. destruct (Hclqs k C HC s Hs) as [HC'' _].
    assert (S' = S) as -> by congruence. assert (C' = C) as -> by congruence. exists s, ws. done. }
  destruct (mcollect_exists (fun k t => forall S, seps !! k = Some S -> t = TableProofs.fresh dom (pt_vars S)) seps table_zero) as (tmp & -> & Hlt & Htmp).
  { intros k S HS. pose proof (lookup_lt_Some _ _ _ HS). destruct (lookup_lt_is_Some_2 vec k) as [s Hs]; [lia|]. destruct (Hseps k S HS s Hs) as [_ HwS]. exists (TableProofs.fresh dom (pt_vars S)). split; [by apply table_zero_fresh|]. intros S' HS'. congruence. }
  cbn [mbind outcome_bind].
  destruct (par2_fill_exists (fun k x => forall S C, seps !! k = Some S -> clqs !! k = Some C -> tidx_ok C S x) (pt_size <$> clqs) (sch (tag ++ [0]) (snd (cum_sums (pt_size <$> clqs))))
     (fun j k => sep ← vget seps j; imod k (pt_size sep))) as (tidx & -> & Hli & Htidx).
  { apply Hsch. }
  { intros j n Hj. rewrite list_lookup_fmap in Hj. destruct (clqs !! j) as [C|] eqn:HC; [|done]. injection Hj as <-. pose proof (lookup_lt_Some _ _ _ HC). destruct (lookup_lt_is_Some_2 seps j) as [S HS]; [lia|].
    destruct (Hk j S C HS HC) as (s & ws & _ & _ & _ & _ & HwS & HwC & Hv). destruct (fast_tidx C S ws HwC HwS Hv) as (x & Hx & Hxok). exists x. split.
    - rewrite (vget_ok _ _ _ HS). cbn [mbind outcome_bind]. done.
    - intros S' C' HS' HC'. assert (S' = S) as -> by congruence. assert (C' = C) as -> by congruence. done. }
  cbn [mbind outcome_bind]. rewrite fmap_length in Hli.
  destruct (sep_finish st vec seps clqs tmp tidx) as (st' & -> & H1 & H2 & H3 & H4); try lia; [done| | |].
  - intros s Hs. destruct (H s Hs) as (S & C & ws & _ & HS & _). by eapply lookup_lt_Some.
  - intros k S C HS HC. destruct (Hk k S C HS HC) as (s & ws & _ & _ & _ & _ & HwS & HwC & Hv). pose proof (lookup_lt_Some _ _ _ HS).
    destruct (lookup_lt_is_Some_2 tmp k) as [t Ht]; [lia|]. destruct (lookup_lt_is_Some_2 tidx k) as [x Hx]; [lia|]. split_and!; [done|done| |by rewrite Ht, (Htmp k t Ht S HS)|].
    + intros v Hv'. rewrite Hv. apply elem_of_app. by right.
    + exists x. split; [done|]. by apply (Htidx k x Hx).
  - exists st'. split_and!; try done. intros s S C Hs HS HC. apply elem_of_list_lookup in Hs as [k Hs]. pose proof (lookup_lt_Some _ _ _ Hs).
    destruct (lookup_lt_is_Some_2 seps k) as [S' HS']; [lia|]. destruct (lookup_lt_is_Some_2 clqs k) as [C' HC']; [lia|].
    destruct (Hseps k S' HS' s Hs) as [HS'' _]. destruct (Hclqs k C' HC' s Hs) as [HC'' _].
    assert (S' = S) as -> by congruence. assert (C' = C) as -> by congruence. by apply (H4 k).
Qed.
Lemma sep_distribution_spec sch tag T i vec st (cl : nat -> nat) : valid_scheduler sch ->
  jt_levels T !! i = Some vec -> NoDup vec ->
  (forall s, s ∈ vec -> exists S C, up_s (jt_marks T) !! s = Some (Some (cl s)) /\ t_s st !! s = Some S /\ t_c st !! cl s = Some C /\ wf S /\ wf C /\ (forall v, v ∈ pt_vars S -> v ∈ pt_vars C)) ->
  exists st', separator_level_distribution sch tag T i st = Ok st' /\
   t_c st' = t_c st /\ length (t_s st') = length (t_s st) /\ (forall s, s ∉ vec -> t_s st' !! s = t_s st !! s) /\
   (forall s S C, s ∈ vec -> t_s st !! s = Some S -> t_c st !! cl s = Some C -> exists S', t_s st' !! s = Some S' /\ sep_new C S S').
Proof.
  intros Hsch Hvec Hnd H. unfold separator_level_distribution. rewrite (vget_ok _ _ _ Hvec). cbn [mbind outcome_bind].
  destruct (mcollect_exists (fun k S => forall s, vec !! k = Some s -> t_s st !! s = Some S /\ wf S) vec (vget (t_s st))) as (seps & -> & Hls & Hseps).
  { intros k s Hk. destruct (H s) as (S & C & _ & HS & _ & HwS & _); [by eapply elem_of_list_lookup_2|]. exists S. split; [by apply vget_ok|]. intros s' Hs'. assert (s' = s) as -> by congruence. done. }
  cbn [mbind outcome_bind].
  destruct (mcollect_exists (fun k C => forall s, vec !! k = Some s -> t_c st !! cl s = Some C /\ wf C) vec (fun s => u ← vget (up_s (jt_marks T)) s;
           match u with Some c => vget (t_c st) c | None => Err NullDeref end)) as (clqs & -> & Hlc & Hclqs).
  { intros k s Hk. destruct (H s) as (S & C & Hd & _ & HC & _ & HwC & _); [by eapply elem_of_list_lookup_2|]. exists C. rewrite (vget_ok _ _ _ Hd). cbn [mbind outcome_bind].
    split; [by apply vget_ok|]. intros s' Hs'. assert (s' = s) as -> by congruence. done. }
  cbn [mbind outcome_bind].
  assert (forall k S C, seps !! k = Some S -> clqs !! k = Some C -> exists s, vec !! k = Some s /\ s ∈ vec /\ t_s st !! s = Some S /\ t_c st !! cl s = Some C /\ wf S /\ wf C /\ (forall v, v ∈ pt_vars S -> v ∈ pt_vars C)) as Hk.
  { intros k S C HS HC. pose proof (lookup_lt_Some _ _ _ HS). destruct (lookup_lt_is_Some_2 vec k) as [s Hs]; [lia|]. assert (s ∈ vec) as Hin by (by eapply elem_of_list_lookup_2).
    destruct (H s Hin) as (S' & C' & _ & HS' & HC' & HwS & HwC & Hv). destruct (Hseps k S HS s Hs) as [HS'' _]. destruct (Hclqs k C HC s Hs) as [HC'' _].
    assert (S' = S) as -> by congruence. assert (C' = C) as -> by congruence. exists s. done. }
  destruct (mcollect_exists (fun k t => forall S, seps !! k = Some S -> t = TableProofs.fresh dom (pt_vars S)) seps table_zero) as (tmp & -> & Hlt & Htmp).
  { intros k S HS. pose proof (lookup_lt_Some _ _ _ HS). destruct (lookup_lt_is_Some_2 vec k) as [s Hs]; [lia|]. destruct (Hseps k S HS s Hs) as [_ HwS]. exists (TableProofs.fresh dom (pt_vars S)). split; [by apply table_zero_fresh|]. intros S' HS'. congruence. }
  cbn [mbind outcome_bind].
  destruct (mcollect_exists (fun k l => forall S C, seps !! k = Some S -> clqs !! k = Some C -> locs_ok (pt_vars C) (pt_vars S) l) (seq 0 (length vec)) (fun j => t ← vget tmp j; c ← vget clqs j;
           mcollect (seq 0 (pt_nv t)) (fun k => v ← vget (pt_vars t) k; get_variable_index c v))) as (locs & -> & Hll & Hlocs).
  { intros k j Hj. apply lookup_seq in Hj as [-> Hk']. cbn [Nat.add]. destruct (lookup_lt_is_Some_2 seps k) as [S HS]; [lia|]. destruct (lookup_lt_is_Some_2 clqs k) as [C HC]; [lia|].
    destruct (lookup_lt_is_Some_2 tmp k) as [t Ht]; [lia|]. rewrite (vget_ok _ _ _ Ht), (vget_ok _ _ _ HC). cbn [mbind outcome_bind]. rewrite (Htmp k t Ht S HS).
    destruct (Hk k S C HS HC) as (s & _ & _ & _ & _ & HwS & HwC & Hv).
    destruct (locs_exist C S (fun k => v ← vget (pt_vars S) k; get_variable_index C v)) as (l & Hl & Hlok); [done|done|done| |].
    - intros i' w Hw. by rewrite (vget_ok _ _ _ Hw).
    - exists l. split; [rewrite (wf_nv _ _ HwS) in Hl; exact Hl|]. intros S' C' HS' HC'. assert (S' = S) as -> by congruence. assert (C' = C) as -> by congruence. done. }
  cbn [mbind outcome_bind]. rewrite seq_length in Hll.
  destruct (par2_fill_exists (fun k x => forall S C, seps !! k = Some S -> clqs !! k = Some C -> tidx_ok C S x) (pt_size <$> clqs) (sch (tag ++ [0]) (snd (cum_sums (pt_size <$> clqs))))
     (fun j k => t ← vget tmp j; c ← vget clqs j; l ← vget locs j; marginalization_main t (pt_nv c) (pt_cum c) l k)) as (tidx & -> & Hli & Htidx).
  { apply Hsch. }
  { intros j n Hj. rewrite list_lookup_fmap in Hj. destruct (clqs !! j) as [C|] eqn:HC; [|done]. injection Hj as <-. pose proof (lookup_lt_Some _ _ _ HC). destruct (lookup_lt_is_Some_2 seps j) as [S HS]; [lia|].
    destruct (lookup_lt_is_Some_2 tmp j) as [t Ht]; [lia|]. destruct (lookup_lt_is_Some_2 locs j) as [l Hl]; [lia|].
    destruct (Hk j S C HS HC) as (s & _ & _ & _ & _ & HwS & HwC & Hv). destruct (marg_tidx C S t l HwC HwS) as (x & Hx & Hxok); [by apply (Hlocs j l Hl)|by apply (Htmp j t Ht)|]. exists x. split.
    - rewrite (vget_ok _ _ _ Ht). cbn [mbind outcome_bind]. rewrite (vget_ok _ _ _ HC). cbn [mbind outcome_bind]. rewrite (vget_ok _ _ _ Hl). cbn [mbind outcome_bind]. done.
    - intros S' C' HS' HC'. assert (S' = S) as -> by congruence. assert (C' = C) as -> by congruence. done. }
  cbn [mbind outcome_bind]. rewrite fmap_length in Hli.
  destruct (sep_finish st vec seps clqs tmp tidx) as (st' & -> & H1 & H2 & H3 & H4); try lia; [done| | |].
  - intros s Hs. destruct (H s Hs) as (S & C & _ & HS & _). by eapply lookup_lt_Some.
  - intros k S C HS HC. destruct (Hk k S C HS HC) as (s & _ & _ & _ & _ & HwS & HwC & Hv). pose proof (lookup_lt_Some _ _ _ HS).
    destruct (lookup_lt_is_Some_2 tmp k) as [t Ht]; [lia|]. destruct (lookup_lt_is_Some_2 tidx k) as [x Hx]; [lia|]. split_and!; [done|done|done|by rewrite Ht, (Htmp k t Ht S HS)|].
    exists x. split; [done|]. by apply (Htidx k x Hx).
  - exists st'. split_and!; try done. intros s S C Hs HS HC. apply elem_of_list_lookup in Hs as [k Hs]. pose proof (lookup_lt_Some _ _ _ Hs).
    destruct (lookup_lt_is_Some_2 seps k) as [S' HS']; [lia|]. destruct (lookup_lt_is_Some_2 clqs k) as [C' HC']; [lia|].
    destruct (Hseps k S' HS' s Hs) as [HS'' _]. destruct (Hclqs k C' HC' s Hs) as [HC'' _].
    assert (S' = S) as -> by congruence. assert (C' = C) as -> by congruence. by apply (H4 k).
Qed.

(** ** Cliques *)
Definition mass (C S : ptable) : Qc := sumv (pt_vars C) (fun a => tval C a * tval S a)%Qc zero_asg.
Definition clq_new (C S C' : ptable) : Prop :=
  wf C' /\ pt_vars C' = pt_vars C /\ mass C S <> 0%Qc /\
  (forall a, valid a -> tval C' a = tval C a * tval S a / mass C S)%Qc /\
  (forall a, valid a -> sumv (pt_vars C) (tval C') a = 1%Qc).
Lemma clq_finish sch tag st vec clqs seps tidx :
  valid_scheduler sch ->
  length seps = length vec -> length clqs = length vec -> length tidx = length vec ->
  NoDup vec -> (forall c, c ∈ vec -> c < length (t_c st)) ->
  (forall k S C, seps !! k = Some S -> clqs !! k = Some C -> wf S /\ wf C /\ exists x, tidx !! k = Some x /\ tidx_ok C S x) ->
  let run := tmp ← mcollect (seq 0 (length vec)) (fun j => s ← vget seps j; c ← vget clqs j; x ← vget tidx j; extension_post c s x);
    multiply_level sch tag st vec clqs tmp in
  (exists st', run = Ok st' /\ t_s st' = t_s st /\ length (t_c st') = length (t_c st) /\ (forall c, c ∉ vec -> t_c st' !! c = t_c st !! c) /\
   (forall k c S C, vec !! k = Some c -> seps !! k = Some S -> clqs !! k = Some C -> exists C', t_c st' !! c = Some C' /\ clq_new C S C')) \/
  (run = Err DivZero /\ exists k S C, seps !! k = Some S /\ clqs !! k = Some C /\ mass C S = 0%Qc).
Proof.
  intros Hsch Hls Hlc Hli Hnd Hb H. cbv zeta.
  destruct (mcollect_exists (fun k M => forall S C, seps !! k = Some S -> clqs !! k = Some C -> wf M /\ pt_vars M = pt_vars C /\ forall a, valid a -> tval M a = tval S a)
    (seq 0 (length vec)) (fun j => s ← vget seps j; c ← vget clqs j; x ← vget tidx j; extension_post c s x)) as (tmp & -> & Htl & Htmp).
  { intros k i Hi. apply lookup_seq in Hi as [-> Hk]. cbn [Nat.add].
    destruct (lookup_lt_is_Some_2 seps k) as [S HS]; [lia|]. destruct (lookup_lt_is_Some_2 clqs k) as [C HC]; [lia|].
    destruct (H k S C HS HC) as (HwS & HwC & x & Hx & Hxok). rewrite (vget_ok _ _ _ HS), (vget_ok _ _ _ HC), (vget_ok _ _ _ Hx). cbn [mbind outcome_bind].
    destruct (extension_core C S x HwC HwS Hxok) as (M & HM & HMw & HMv & HMt).
    exists M. split; [done|]. intros S' C' HS' HC'. replace S' with S by congruence. replace C' with C by congruence. done. }
  cbn [mbind outcome_bind]. rewrite seq_length in Htl.
  assert (forall k C, clqs !! k = Some C -> exists S M, seps !! k = Some S /\ tmp !! k = Some M /\ wf C /\ wf S /\ wf M /\ pt_vars M = pt_vars C /\
    forall a, valid a -> tval M a = tval S a) as Hall.
  { intros k C HC. pose proof (lookup_lt_Some _ _ _ HC). destruct (lookup_lt_is_Some_2 seps k) as [S HS]; [lia|]. destruct (lookup_lt_is_Some_2 tmp k) as [M HM]; [lia|].
    exists S, M. destruct (H k S C HS HC) as (HwS & HwC & _). destruct (Htmp k M HM S C HS HC) as (? & ? & ?). split_and!; done. }
  unfold multiply_level.
  destruct (par2_exists (fun k pots => forall S C, seps !! k = Some S -> clqs !! k = Some C -> wf (with_pots C pots) /\ forall a, valid a -> tval (with_pots C pots) a = (tval C a * tval S a)%Qc)
    (pt_size <$> tmp) (sch (tag ++ [1]) (snd (cum_sums (pt_size <$> tmp))))
    (fun j k x => t ← vget tmp j; y ← vget (pt_pots t) k; Ok (x * y)%Qc) (pt_pots <$> clqs)) as (pots & -> & Hpl & Hpots).
  { apply Hsch. }
  { unfold shape2. apply list_eq. intros k. rewrite !list_lookup_fmap. destruct (clqs !! k) as [C|] eqn:HC; cbn.
    - destruct (Hall k C HC) as (S & M & _ & -> & HwC & _ & HwM & Hv & _). cbn. destruct (same_vars_size M C HwM HwC Hv) as [-> _]. by rewrite (wf_pots _ _ HwC), (wf_size _ _ HwC).
    - apply lookup_ge_None in HC. rewrite (lookup_ge_None_2 tmp) by lia. done. }
  { intros j row Hrow. rewrite list_lookup_fmap in Hrow. destruct (clqs !! j) as [C|] eqn:HC; [|done]. injection Hrow as <-.
    destruct (Hall j C HC) as (S & M & HS & HM & HwC & HwS & HwM & Hv & HMt).
    destruct (pointwise C M (fun x y => (x * y)%Qc) (fun k x => t ← vget tmp j; y ← vget (pt_pots t) k; Ok (x * y)%Qc)) as (pots & Hp & Hw & Ht); try done.
    - intros k x y Hx Hy. rewrite (vget_ok _ _ _ HM). cbn [mbind outcome_bind]. rewrite (vget_ok _ _ _ Hy). done.
    - exists pots. split; [done|]. intros S' C' HS' HC'. assert (S' = S) as -> by congruence. assert (C' = C) as -> by congruence. split; [done|]. intros a Ha. rewrite Ht by done. by rewrite HMt. }
  cbn [mbind outcome_bind]. rewrite fmap_length in Hpl.
  assert (forall k P, zip_with with_pots clqs pots !! k = Some P -> exists S C, seps !! k = Some S /\ clqs !! k = Some C /\ wf P /\ pt_vars P = pt_vars C /\ forall a, valid a -> tval P a = (tval C a * tval S a)%Qc) as HP.
  { intros k P HP. apply lookup_zip_with_Some in HP as (C & p & -> & HC & Hp). destruct (Hall k C HC) as (S & M & HS & _). destruct (Hpots k p Hp S C HS HC) as [? ?]. exists S, C. split_and!; done. }
  assert (forall k P S C, zip_with with_pots clqs pots !! k = Some P -> seps !! k = Some S -> clqs !! k = Some C -> sumv (pt_vars P) (tval P) zero_asg = mass C S) as HZ.
  { intros k P S C HPk HS HC. destruct (HP k P HPk) as (S' & C' & HS' & HC' & _ & Hv & Ht). assert (S' = S) as -> by congruence. assert (C' = C) as -> by congruence.
    unfold mass. rewrite Hv. apply sumv_ext; [intros v; apply dom_pos|]. intros b Hb' _. by apply Ht. }
  destruct (mcollect_or DivZero (fun P P' => wf P' /\ pt_vars P' = pt_vars P /\ sumv (pt_vars P) (tval P) zero_asg <> 0%Qc /\ (forall a, valid a -> tval P' a = tval P a / sumv (pt_vars P) (tval P) zero_asg)%Qc /\
       (forall a, valid a -> sumv (pt_vars P) (tval P') a = 1%Qc)) (zip_with with_pots clqs pots) table_normalize) as [(normed & -> & Hnl & Hn)|(-> & P & HPin & HPe)].
  { intros P HPin. apply elem_of_list_lookup in HPin as [k HPk]. destruct (HP k P HPk) as (S & C & _ & _ & HwP & _).
    assert (valid zero_asg) as Hv0 by (intros v; apply dom_pos).
    destruct (decide (sumv (pt_vars P) (tval P) zero_asg = 0%Qc)) as [Hz|Hz]; [right; by apply (table_normalize_zero dom dom_pos P zero_asg)|left].
    destruct (table_normalize_spec dom dom_pos P zero_asg HwP Hv0 Hz) as (P' & HP' & HwP' & HvP' & HtP'). exists P'. split_and!; try done.
    intros a Ha. rewrite <-HvP'. apply (normalized_sums_to_one dom dom_pos P P' (sumv (pt_vars P) (tval P) zero_asg)); try done. by apply (sumv_total_indep dom dom_pos). }
  - left. cbn [mbind outcome_bind]. rewrite zip_with_length in Hnl.
    destruct (set_tabs_clq vec normed st) as (st' & -> & H1 & H2 & H3 & H4); [lia|done|done|]. exists st'. split_and!; try done.
    intros k c S C Hc HS HC. pose proof (lookup_lt_Some _ _ _ HC). destruct (lookup_lt_is_Some_2 (zip_with with_pots clqs pots) k) as [P HPk]; [rewrite zip_with_length; lia|].
    destruct (Hn k P HPk) as (P' & HP' & _ & HwP' & Hv & Hz & Ht & Hs1). exists P'. split; [by apply (H4 k)|]. pose proof (HZ k P S C HPk HS HC) as HZ'.
    destruct (HP k P HPk) as (S' & C' & HS' & HC' & _ & Hv' & Ht'). assert (S' = S) as -> by congruence. assert (C' = C) as -> by congruence.
    rewrite HZ' in Hz, Ht. split_and!; [done|by rewrite Hv|done| |].
    + intros a Ha. rewrite Ht, Ht' by done. done.
    + rewrite <-Hv'. done.
  - right. cbn [mbind outcome_bind]. split; [done|]. apply elem_of_list_lookup in HPin as [k HPk]. destruct (HP k P HPk) as (S & C & HS & HC & HwP & _). exists k, S, C. split_and!; try done.
    rewrite <-(HZ k P S C HPk HS HC). destruct (decide (sumv (pt_vars P) (tval P) zero_asg = 0%Qc)) as [|Hz]; [done|].
    destruct (table_normalize_spec dom dom_pos P zero_asg HwP ltac:(intros v; apply dom_pos) Hz) as (P' & HP' & _). congruence.
Qed.
Lemma clique_distribution_spec sch tag T i vec st (se : nat -> nat) : valid_scheduler sch ->
  jt_levels T !! i = Some vec -> NoDup vec ->
  (forall c, c ∈ vec -> exists S C ws, up_c (jt_marks T) !! c = Some (Some (se c)) /\ t_s st !! se c = Some S /\ t_c st !! c = Some C /\ wf S /\ wf C /\ pt_vars C = ws ++ pt_vars S) ->
  (exists st', clique_level_distribution sch tag T i st = Ok st' /\ t_s st' = t_s st /\ length (t_c st') = length (t_c st) /\ (forall c, c ∉ vec -> t_c st' !! c = t_c st !! c) /\
   (forall c S C, c ∈ vec -> t_s st !! se c = Some S -> t_c st !! c = Some C -> exists C', t_c st' !! c = Some C' /\ clq_new C S C')) \/
  (clique_level_distribution sch tag T i st = Err DivZero /\ exists c S C, c ∈ vec /\ t_s st !! se c = Some S /\ t_c st !! c = Some C /\ mass C S = 0%Qc).
Proof.
  intros Hsch Hvec Hnd H. unfold clique_level_distribution. rewrite (vget_ok _ _ _ Hvec). cbn [mbind outcome_bind].
  destruct (mcollect_exists (fun k C => forall c, vec !! k = Some c -> t_c st !! c = Some C /\ wf C) vec (vget (t_c st))) as (clqs & -> & Hlc & Hclqs).
  { intros k s Hk. destruct (H s) as (S & C & ws & _ & _ & HC & _ & HwC & _); [by eapply elem_of_list_lookup_2|]. exists C. split; [by apply vget_ok|]. intros s' Hs'. assert (s' = s) as -> by congruence. done. }
  cbn [mbind outcome_bind].
  destruct (mcollect_exists (fun k S => forall c, vec !! k = Some c -> t_s st !! se c = Some S /\ wf S) vec (fun c => u ← vget (up_c (jt_marks T)) c;
           match u with Some s => vget (t_s st) s | None => Err NullDeref end)) as (seps & -> & Hls & Hseps).
  { intros k s Hk. destruct (H s) as (S & C & ws & Hd & HS & _ & HwS & _); [by eapply elem_of_list_lookup_2|]. exists S. rewrite (vget_ok _ _ _ Hd). cbn [mbind outcome_bind].
    split; [by apply vget_ok|]. intros s' Hs'. assert (s' = s) as -> by congruence. done. }
  cbn [mbind outcome_bind].
  assert (forall k S C, seps !! k = Some S -> clqs !! k = Some C -> exists c ws, vec !! k = Some c /\ c ∈ vec /\ t_s st !! se c = Some S /\ t_c st !! c = Some C /\ wf S /\ wf C /\ pt_vars C = ws ++ pt_vars S) as Hk.
  { intros k S C HS HC. pose proof (lookup_lt_Some _ _ _ HS). destruct (lookup_lt_is_Some_2 vec k) as [s Hs]; [lia|]. assert (s ∈ vec) as Hin by (by eapply elem_of_list_lookup_2).
    destruct (H s Hin) as (S' & C' & ws & _ & HS' & HC' & HwS & HwC & Hv). destruct (Hseps k S HS s Hs) as [HS'' _]. destruct (Hclqs k C HC s Hs) as [HC'' _].
    assert (S' = S) as -> by congruence. assert (C' = C) as -> by congruence. exists s, ws. done. }
  destruct (par2_fill_exists (fun k x => forall S C, seps !! k = Some S -> clqs !! k = Some C -> tidx_ok C S x) (pt_size <$> clqs) (sch (tag ++ [0]) (snd (cum_sums (pt_size <$> clqs))))
     (fun j k => sep ← vget seps j; imod k (pt_size sep))) as (tidx & -> & Hli & Htidx).
  { apply Hsch. }
  { intros j n Hj. rewrite list_lookup_fmap in Hj. destruct (clqs !! j) as [C|] eqn:HC; [|done]. injection Hj as <-. pose proof (lookup_lt_Some _ _ _ HC). destruct (lookup_lt_is_Some_2 seps j) as [S HS]; [lia|].
    destruct (Hk j S C HS HC) as (s & ws & _ & _ & _ & _ & HwS & HwC & Hv). destruct (fast_tidx C S ws HwC HwS Hv) as (x & Hx & Hxok). exists x. split.
    - rewrite (vget_ok _ _ _ HS). cbn [mbind outcome_bind]. done.
    - intros S' C' HS' HC'. assert (S' = S) as -> by congruence. assert (C' = C) as -> by congruence. done. }
  cbn [mbind outcome_bind]. rewrite fmap_length in Hli.
  destruct (clq_finish sch tag st vec clqs seps tidx) as [(st' & -> & H1 & H2 & H3 & H4)|(-> & k & S & C & HS & HC & Hz)]; try lia; try done.
  - intros c Hc. destruct (H c Hc) as (S & C & ws & _ & _ & HC & _). by eapply lookup_lt_Some.
  - intros k S C HS HC. destruct (Hk k S C HS HC) as (s & ws & _ & _ & _ & _ & HwS & HwC & Hv). pose proof (lookup_lt_Some _ _ _ HS).
    destruct (lookup_lt_is_Some_2 tidx k) as [x Hx]; [lia|]. split_and!; [done|done|]. exists x. split; [done|]. by apply (Htidx k x Hx).
  - left. exists st'. split_and!; try done. intros s S C Hs HS HC. apply elem_of_list_lookup in Hs as [k Hs]. pose proof (lookup_lt_Some _ _ _ Hs).
    destruct (lookup_lt_is_Some_2 seps k) as [S' HS']; [lia|]. destruct (lookup_lt_is_Some_2 clqs k) as [C' HC']; [lia|].
    destruct (Hseps k S' HS' s Hs) as [HS'' _]. destruct (Hclqs k C' HC' s Hs) as [HC'' _].
    assert (S' = S) as -> by congruence. assert (C' = C) as -> by congruence. by apply (H4 k).
  - right. split; [done|]. destruct (Hk k S C HS HC) as (c & ws & _ & Hc & HSc & HCc & _). exists c, S, C. done.
Qed.
Lemma clique_collection_spec sch tag T i level has kth st vec (se : nat -> nat) : valid_scheduler sch ->
  jt_levels T !! i = Some level -> mcollect has (vget level) = Ok vec -> NoDup vec ->
  (forall c, c ∈ vec -> exists S C d, dn_c (jt_marks T) !! c = Some d /\ d !! kth = Some (se c) /\ t_s st !! se c = Some S /\ t_c st !! c = Some C /\ wf S /\ wf C /\ (forall v, v ∈ pt_vars S -> v ∈ pt_vars C)) ->
  (exists st', clique_level_collection sch tag T i has kth st = Ok st' /\ t_s st' = t_s st /\ length (t_c st') = length (t_c st) /\ (forall c, c ∉ vec -> t_c st' !! c = t_c st !! c) /\
   (forall c S C, c ∈ vec -> t_s st !! se c = Some S -> t_c st !! c = Some C -> exists C', t_c st' !! c = Some C' /\ clq_new C S C')) \/
  (clique_level_collection sch tag T i has kth st = Err DivZero /\ exists c S C, c ∈ vec /\ t_s st !! se c = Some S /\ t_c st !! c = Some C /\ mass C S = 0%Qc).
Proof.
  intros Hsch Hlevel Hvec Hnd H. unfold clique_level_collection. rewrite (vget_ok _ _ _ Hlevel). cbn [mbind outcome_bind]. rewrite Hvec. cbn [mbind outcome_bind].
  destruct (mcollect_exists (fun k C => forall c, vec !! k = Some c -> t_c st !! c = Some C /\ wf C) vec (vget (t_c st))) as (clqs & -> & Hlc & Hclqs).
  { intros k s Hk. destruct (H s) as (S & C & d & _ & _ & _ & HC & _ & HwC & _); [by eapply elem_of_list_lookup_2|]. exists C. split; [by apply vget_ok|]. intros s' Hs'. assert (s' = s) as -> by congruence. done. }
  cbn [mbind outcome_bind].
  destruct (mcollect_exists (fun k S => forall c, vec !! k = Some c -> t_s st !! se c = Some S /\ wf S) vec (fun c => d ← vget (dn_c (jt_marks T)) c; s ← vget d kth; vget (t_s st) s)) as (seps & -> & Hls & Hseps).
  { intros k s Hk. destruct (H s) as (S & C & d & Hd & Hdk & HS & _ & HwS & _); [by eapply elem_of_list_lookup_2|]. exists S. rewrite (vget_ok _ _ _ Hd). cbn [mbind outcome_bind]. rewrite (vget_ok _ _ _ Hdk). cbn [mbind outcome_bind].
    split; [by apply vget_ok|]. intros s' Hs'. assert (s' = s) as -> by congruence. done. }
  cbn [mbind outcome_bind].
  assert (forall k S C, seps !! k = Some S -> clqs !! k = Some C -> exists c, vec !! k = Some c /\ c ∈ vec /\ t_s st !! se c = Some S /\ t_c st !! c = Some C /\ wf S /\ wf C /\ (forall v, v ∈ pt_vars S -> v ∈ pt_vars C)) as Hk.
  { intros k S C HS HC. pose proof (lookup_lt_Some _ _ _ HS). destruct (lookup_lt_is_Some_2 vec k) as [s Hs]; [lia|]. assert (s ∈ vec) as Hin by (by eapply elem_of_list_lookup_2).
    destruct (H s Hin) as (S' & C' & d & _ & _ & HS' & HC' & HwS & HwC & Hv). destruct (Hseps k S HS s Hs) as [HS'' _]. destruct (Hclqs k C HC s Hs) as [HC'' _].
    assert (S' = S) as -> by congruence. assert (C' = C) as -> by congruence. exists s. done. }
  destruct (mcollect_exists (fun k l => forall S C, seps !! k = Some S -> clqs !! k = Some C -> locs_ok (pt_vars C) (pt_vars S) l) (seq 0 (length vec)) (fun j => s ← vget seps j; c ← vget clqs j;
           mcollect (seq 0 (pt_nv s)) (fun l => v ← vget (pt_vars s) l; get_variable_index c v))) as (locs & -> & Hll & Hlocs).
  { intros k j Hj. apply lookup_seq in Hj as [-> Hk']. cbn [Nat.add]. destruct (lookup_lt_is_Some_2 seps k) as [S HS]; [lia|]. destruct (lookup_lt_is_Some_2 clqs k) as [C HC]; [lia|].
    rewrite (vget_ok _ _ _ HS), (vget_ok _ _ _ HC). cbn [mbind outcome_bind].
    destruct (Hk k S C HS HC) as (s & _ & _ & _ & _ & HwS & HwC & Hv).
    destruct (locs_exist C S (fun k => v ← vget (pt_vars S) k; get_variable_index C v)) as (l & Hl & Hlok); [done|done|done| |].
    - intros i' w Hw. by rewrite (vget_ok _ _ _ Hw).
    - exists l. split; [exact Hl|]. intros S' C' HS' HC'. assert (S' = S) as -> by congruence. assert (C' = C) as -> by congruence. done. }
  cbn [mbind outcome_bind]. rewrite seq_length in Hll.
  destruct (par2_fill_exists (fun k x => forall S C, seps !! k = Some S -> clqs !! k = Some C -> tidx_ok C S x) (pt_size <$> clqs) (sch (tag ++ [0]) (snd (cum_sums (pt_size <$> clqs))))
     (fun j x => s ← vget seps j; c ← vget clqs j; l ← vget locs j; extension_main c (pt_nv s) (pt_cum s) l x)) as (tidx & -> & Hli & Htidx).
  { apply Hsch. }
  { intros j n Hj. rewrite list_lookup_fmap in Hj. destruct (clqs !! j) as [C|] eqn:HC; [|done]. injection Hj as <-. pose proof (lookup_lt_Some _ _ _ HC). destruct (lookup_lt_is_Some_2 seps j) as [S HS]; [lia|].
    destruct (lookup_lt_is_Some_2 locs j) as [l Hl]; [lia|].
    destruct (Hk j S C HS HC) as (s & _ & _ & _ & _ & HwS & HwC & Hv). destruct (ext_tidx C S l HwC HwS) as (x & Hx & Hxok); [by apply (Hlocs j l Hl)|]. exists x. split.
    - rewrite (vget_ok _ _ _ HS). cbn [mbind outcome_bind]. rewrite (vget_ok _ _ _ HC). cbn [mbind outcome_bind]. rewrite (vget_ok _ _ _ Hl). cbn [mbind outcome_bind]. done.
    - intros S' C' HS' HC'. assert (S' = S) as -> by congruence. assert (C' = C) as -> by congruence. done. }
  cbn [mbind outcome_bind]. rewrite fmap_length in Hli.
  destruct (clq_finish sch tag st vec clqs seps tidx) as [(st' & -> & H1 & H2 & H3 & H4)|(-> & k & S & C & HS & HC & Hz)]; try lia; try done.
  - intros c Hc. destruct (H c Hc) as (S & C & d & _ & _ & _ & HC & _). by eapply lookup_lt_Some.
  - intros k S C HS HC. destruct (Hk k S C HS HC) as (s & _ & _ & _ & _ & HwS & HwC & Hv). pose proof (lookup_lt_Some _ _ _ HS).
    destruct (lookup_lt_is_Some_2 tidx k) as [x Hx]; [lia|]. split_and!; [done|done|]. exists x. split; [done|]. by apply (Htidx k x Hx).
  - left. exists st'. split_and!; try done. intros s S C Hs HS HC. apply elem_of_list_lookup in Hs as [k Hs]. pose proof (lookup_lt_Some _ _ _ Hs).
    destruct (lookup_lt_is_Some_2 seps k) as [S' HS']; [lia|]. destruct (lookup_lt_is_Some_2 clqs k) as [C' HC']; [lia|].
    destruct (Hseps k S' HS' s Hs) as [HS'' _]. destruct (Hclqs k C' HC' s Hs) as [HC'' _].
    assert (S' = S) as -> by congruence. assert (C' = C) as -> by congruence. by apply (H4 k).
  - right. split; [done|]. destruct (Hk k S C HS HC) as (c & _ & Hc & HSc & HCc & _). exists c, S, C. done.
Qed.
End pass.
