(** All variants of a propagation lead to the same answers. *)
From Coq Require Import Field.
From Verif Require Import MessageModel JTSpec TableSpec TableProofs TableProofs2 TableProofs4 ParProofs SchedProofs PassProofs.
From Verif Require Import BeliefSpec BeliefProofs FlowProofs EvidenceProofs CommuteProofs MessageProofs TourProofs PlainProofs BuildProofs QueryProofs JTTheorems.
Local Open Scope Qc_scope.

(** The weight of [a], or nothing when [a] contradicts the evidence. *)
Definition mask (E : list (nat * nat)) (U : list nat) (J : asg -> Qc) : asg -> Qc := fun a => if bool_decide (agrees E U a) then J a else 0.
Lemma mask_dep E U J : dep_on U J -> dep_on U (mask E U J).
Proof.
  intros HJ a b Hab. unfold mask. rewrite (HJ a b Hab). destruct (decide (agrees E U a)) as [Ha|Ha].
  - rewrite !bool_decide_true; [done| |done]. by eapply agrees_ext.
  - rewrite !bool_decide_false; [done| |done]. intros Hb. apply Ha. eapply agrees_ext; [|exact Hb]. intros v Hv. symmetry. auto.
Qed.

Section sums.
Context (dom : nat -> nat) (dom_pos : forall v, (0 < dom v)%nat).
Lemma sumv_collapse W v x F a : NoDup W -> v ∈ W -> (x < dom v)%nat -> proper F ->
  sumv dom W (fun b => if bool_decide (b v = x) then F b else 0) a = sumv dom (without v W) (fun b => F (upd b v x)) a.
Proof.
  intros HW Hv Hx HF. rewrite (sumv_perm dom W (without v W ++ [v])); [|intros b c Hbc; by rewrite (HF b c Hbc), Hbc|done|].
  - rewrite sumv_app. assert (forall b, sumv dom [v] (fun b => if bool_decide (b v = x) then F b else 0) b = F (upd b v x)) as He.
    { intros b. rewrite sumv_one_var. rewrite (qsum_ext _ _ (fun y => if bool_decide (y = x) then F (upd b v y) else 0)).
      - rewrite (qsum_select (seq 0 (dom v)) x (fun y => F (upd b v y))); [done|apply NoDup_seq|apply elem_of_seq; lia].
      - intros y _. assert (upd b v y v = y) as Hy by (unfold upd; by rewrite bool_decide_true). by rewrite Hy. }
    clear -He. revert a. induction (without v W) as [|w W' IH]; intros a; [apply He|]. cbn [sumv]. apply qsum_ext. intros y _. apply IH.
  - apply NoDup_Permutation; [done| |].
    + apply NoDup_app. split_and!; [by apply NoDup_filter| |apply NoDup_singleton]. intros w Hw ->%elem_of_list_singleton. apply elem_of_list_filter in Hw as [? _]. done.
    + intros w. unfold without. rewrite elem_of_app, elem_of_list_filter, elem_of_list_singleton. destruct (decide (w = v)) as [->|]; naive_solver.
Qed.
Lemma mask_sum E : forall W D F a, NoDup W -> NoDup (fst <$> E) -> (forall v x, (v, x) ∈ E -> v ∈ W -> x < dom v)%nat -> dep_on D F -> (forall v, v ∈ fst <$> E -> v ∈ D -> v ∈ W) ->
  sumv dom W (mask E W F) a = sumv dom (drop_all E W) (fun b => F (set_evidence E b)) a.
Proof.
  assert (forall W F G a, (forall b, F b = G b) -> sumv dom W F a = sumv dom W G a) as Hfun.
  { intros W F G a H. revert a. induction W as [|w W IH]; intros a; [apply H|]. cbn [sumv]. apply qsum_ext. intros y _. apply IH. }
  induction E as [|[v x] E IH]; intros W D F a HW HE Hr HF HD.
  { apply Hfun. intros b. unfold mask. rewrite bool_decide_true; [done|]. by apply Forall_nil. }
  cbn [fmap list_fmap fst] in HE. apply NoDup_cons in HE as [HvE HE]. change (drop_all ((v, x) :: E) W) with (drop_all E (without v W)).
  destruct (decide (v ∈ W)) as [Hv|Hv].
  - transitivity (sumv dom W (fun b => if bool_decide (b v = x) then mask E W F b else 0) a).
    { apply Hfun. intros b. unfold mask, agrees. repeat case_bool_decide; rewrite ?Forall_cons in *; cbn in *; naive_solver. }
    assert (proper (mask E W F)) as Hpr.
    { intros b c Hbc. unfold mask. rewrite (dep_on_proper _ _ HF b c Hbc). destruct (decide (agrees E W b)) as [Ha|Ha].
      - rewrite !bool_decide_true; [done| |done]. eapply agrees_ext; [|done]. auto.
      - rewrite !bool_decide_false; [done| |done]. intros Hb. apply Ha. eapply agrees_ext; [|exact Hb]. auto. }
    rewrite sumv_collapse; [|done|done|by apply Hr; [left|]|exact Hpr].
    transitivity (sumv dom (without v W) (mask E (without v W) (fun b => F (upd b v x))) a).
    { apply Hfun. intros b. unfold mask. assert (agrees E W (upd b v x) <-> agrees E (without v W) b) as Hiff.
      { unfold agrees. rewrite !Forall_forall. assert (forall e, e ∈ E -> e.1 <> v) as Hne by (intros e He <-; apply HvE; by apply elem_of_list_fmap_1).
        assert (forall e, e ∈ E -> upd b v x e.1 = b e.1) as Hu by (intros e He; unfold upd; rewrite bool_decide_false; [done|]; by apply Hne).
        split; intros H e He Hin; specialize (H e He); rewrite Hu in * by done; apply H; [by apply elem_of_list_filter in Hin as [_ ?]|apply elem_of_list_filter; split; [by apply Hne|done]]. }
      by rewrite (bool_decide_ext _ _ Hiff). }
    rewrite (IH (without v W) (without v D)); [done|by apply NoDup_filter|done| | |].
    + intros w y Hin Hw. apply Hr; [by right|]. by apply elem_of_list_filter in Hw as [_ ?].
    + intros b c Hbc. apply HF. intros w Hw. unfold upd. case_bool_decide as Hwv; [done|]. apply Hbc. apply elem_of_list_filter. split; [congruence|done].
    + intros w Hw HwD. apply elem_of_list_filter in HwD as [? HwD]. apply elem_of_list_filter. split; [done|]. apply HD; [by right|done].
  - assert (v ∉ D) as HvD by (intros HvD; apply Hv, HD; [left|done]).
    transitivity (sumv dom W (mask E W F) a).
    { apply Hfun. intros b. unfold mask, agrees. repeat case_bool_decide; rewrite ?Forall_cons in *; cbn in *; naive_solver. }
    rewrite (IH W D); [|done|done|intros w y Hin; apply Hr; by right|done|intros w Hw; apply HD; by right]. rewrite without_notin by done.
    apply Hfun. intros b. cbn [set_evidence foldr fst snd]. symmetry. by apply (upd_same_dep D).
Qed.
End sums.

(** ** The tables *)
Section tables.
Context (dom : nat -> nat) (dom_pos : forall v, (0 < dom v)%nat).
Notation wf := (TableSpec.wf dom).
Notation valid := (valid dom).
Notation sumv := (sumv dom).
Context (T : jtree) (r : nat) (Ls : list (list link)) (HT : tree_ok T r Ls).
Notation L := (concat Ls).
Notation ready := (ready dom r Ls).
Set Default Proof Using "All".
(** Enough fuel for the recursive variants: the number of levels. *)
Definition enough (p : passing) : Prop := match p with Recursive f => (length (jt_levels T) <= f)%nat | _ => True end.
Lemma good_fit sc ss J st : good dom r Ls sc ss J st -> fit dom (in_tree r Ls) sc ss st.
Proof.
  intros Hg [i|s] Hx; cbn in Hx.
  - by apply (gd_c _ _ _ _ _ _ _ Hg).
  - apply elem_of_list_fmap in Hx as (l & -> & Hl). by apply (gd_s _ _ _ _ _ _ _ Hg).
Qed.
Lemma pass_variants p sch sc ss U J st st' : valid_scheduler sch -> ready sc ss U J st -> good dom r Ls sc ss J st' -> enough p ->
  pass_messages p sch T st' = pass_messages Shortcut sch T st'.
Proof.
  intros Hsch H Hg Hp. apply (pass_same dom dom_pos T r Ls HT sc ss (rd_tail _ _ _ _ _ _ _ _ H) (rooted_ups r Ls sc ss (rd_root _ _ _ _ _ _ _ _ H))); [done|by eapply good_fit|done].
Qed.
Lemma propagate_variants p sch E sc ss U J st : valid_scheduler sch -> ready sc ss U J st -> (forall u, u ∈ U -> u < length (jt_doms T))%nat -> enough p ->
  propagate_by p true sch T E st = propagate sch T E st.
Proof.
  intros Hsch H Hn Hp. unfold propagate_by, propagate. destruct (load_evidence_ready dom dom_pos T r Ls HT sch [0%nat] (length (jt_doms T)) E Hsch sc ss U J st H Hn) as (st1 & -> & H1). cbn [mbind outcome_bind].
  destruct (normalise_spec dom dom_pos T r Ls HT _ _ _ _ _ H1) as [(cs & -> & Hg & _)|(-> & _)]; [|done]. cbn [mbind outcome_bind].
  exact (pass_variants p sch _ _ _ _ _ _ Hsch H1 Hg Hp).
Qed.
Lemma in_ready sc ss U J st y t : ready sc ss U J st -> tabof st y = Some t -> wf t /\ (forall v, v ∈ pt_vars t -> v ∈ U).
Proof.
  intros H. destruct y as [i|s]; cbn; intros Ht.
  - assert (i ∈ seen r L) as Hi by (rewrite (rd_cs _ _ _ _ _ _ _ _ H); apply elem_of_seq; apply lookup_lt_Some in Ht; lia).
    destruct (rd_c _ _ _ _ _ _ _ _ H i Hi) as (C & HC & Hw & Hv). replace t with C by congruence. split; [done|]. rewrite Hv. intros v Hin. by eapply (scope_in_U dom dom_pos T r Ls HT).
  - assert (s ∈ l_sep <$> L) as Hi by (rewrite (rd_ss _ _ _ _ _ _ _ _ H); apply elem_of_seq; apply lookup_lt_Some in Ht; lia).
    apply elem_of_list_fmap in Hi as (l & -> & Hl). destruct (rd_s _ _ _ _ _ _ _ _ H l Hl) as (C & HC & Hw & Hv). replace t with C by congruence. split; [done|]. rewrite Hv. intros v Hin. by eapply (sep_in_U dom dom_pos T r Ls HT).
Qed.
Lemma plain_spec p sch E sc ss U J st : valid_scheduler sch -> ready sc ss U J st -> (forall u, u ∈ U -> u < length (jt_doms T))%nat -> enough p ->
  let J' := mask E U J in
  (exists st', propagate_by p false sch T E st = Ok st' /\ good dom r Ls sc ss J' st' /\ (forall i, i ∈ seen r L -> FlowProofs.total dom sc st' i) /\
     (forall i, i ∈ seen r L -> propto dom (ctab st' i) (marg dom U (sc i) J')) /\ ~ dead dom J') \/
  (propagate_by p false sch T E st = Err DivZero /\ dead dom J').
Proof.
  intros Hsch H Hn Hp. cbv zeta. unfold propagate_by.
  destruct (load_plain_spec dom dom_pos sch [0%nat] (length (jt_doms T)) E Hsch st) as (st1 & -> & L1 & L2 & H1).
  { intros y t Ht. destruct (in_ready _ _ _ _ _ _ _ H Ht) as [Hw Hv]. split; [done|]. intros v Hin. by apply Hn, Hv. }
  cbn [mbind outcome_bind].
  assert (forall i, i ∈ seen r L -> exists C C', t_c st !! i = Some C /\ t_c st1 !! i = Some C' /\ pt_vars C = sc i /\ masked dom E C C') as HC.
  { intros i Hi. destruct (rd_c _ _ _ _ _ _ _ _ H i Hi) as (C & HC & Hw & Hv). destruct (H1 (TC i) C HC) as (C' & HC' & Hm). by exists C, C'. }
  assert (forall l, l ∈ L -> exists S S', t_s st !! l_sep l = Some S /\ t_s st1 !! l_sep l = Some S' /\ pt_vars S = ss (l_sep l) /\ masked dom E S S') as HS.
  { intros l Hl. destruct (rd_s _ _ _ _ _ _ _ _ H l Hl) as (C & HC' & Hw & Hv). destruct (H1 (TS (l_sep l)) C HC') as (C' & HC'' & Hm). by exists C, C'. }
  assert (forall i a, i ∈ seen r L -> valid a -> ctab st1 i a = mask E (sc i) (ctab st i) a) as Hct.
  { intros i a Hi Ha. destruct (HC i Hi) as (C & C' & E1 & E2 & Hv & _ & _ & Ht). rewrite (ctab_at _ _ _ _ E2), (Ht a Ha). unfold mask. by rewrite Hv, (ctab_at _ _ _ _ E1). }
  assert (forall l a, l ∈ L -> valid a -> stab st1 (l_sep l) a = mask E (ss (l_sep l)) (stab st (l_sep l)) a) as Hst.
  { intros l a Hl Ha. destruct (HS l Hl) as (C & C' & E1 & E2 & Hv & _ & _ & Ht). rewrite (stab_at _ _ _ _ E2), (Ht a Ha). unfold mask. by rewrite Hv, (stab_at _ _ _ _ E1). }
  set (st2 := mkTabs (t_c st1) (t_s st)).
  assert (ready sc ss U (mask E U J) st2) as H2.
  { destruct H as [Rc Rs Rcs Rss Rpos Rone Rprod Rtail Rroot RU Rcov Rdep]. split; try done.
    - intros i Hi. destruct (HC i Hi) as (C & C' & E1 & E2 & Hv & Hw & Hv' & _). exists C'. split_and!; [done|done|congruence].
    - cbn. by rewrite L1.
    - intros i a Hi Ha. change (ctab st2 i a) with (ctab st1 i a). rewrite Hct by done. unfold mask. case_bool_decide; [by apply Rpos|apply Qcle_refl].
    - destruct Rone as [Hone|(i & Hi & Hz)]; [by left|right]. exists i. split; [done|]. intros a Ha. change (ctab st2 i a) with (ctab st1 i a). rewrite Hct by done. unfold mask. case_bool_decide; [by apply Hz|done].
    - intros a Ha. unfold mask at 1. case_bool_decide as Hag.
      + rewrite <-Rprod by done. apply qprod_ext. intros i Hi. change (ctab st2 i a) with (ctab st1 i a). rewrite Hct by done. unfold mask. rewrite bool_decide_true; [done|]. eapply agrees_sub; [|exact Hag].
        intros v Hv. apply Rcov. apply elem_of_list_bind. by exists i.
      + unfold agrees in Hag. apply not_Forall_Exists in Hag; [|apply _]. apply Exists_exists in Hag as ([v x] & Hin & Hne). cbn in Hne. assert (v ∈ U /\ a v <> x) as [HvU Hx] by (destruct (decide (v ∈ U)); [|by destruct Hne]; naive_solver).
        apply Rcov, elem_of_list_bind in HvU as (i & Hvi & Hi). eapply qprod_zero; [exact Hi|]. change (ctab st2 i a) with (ctab st1 i a). rewrite Hct by done. unfold mask. rewrite bool_decide_false; [done|].
        unfold agrees. rewrite Forall_forall. intros Hall. apply Hx. by apply (Hall (v, x)).
    - by apply mask_dep. }
  destruct (normalise_spec dom dom_pos T r Ls HT _ _ _ _ _ H2) as [(cs & Hcs & Hg & Ht & Ho & Hpr)|(Hcs & Hd)]; cbn [st2 t_c t_s] in *; rewrite Hcs; cbn [mbind outcome_bind]; [|right; done].
  assert (forall i a, i ∈ seen r L -> valid a -> ~ agrees E (sc i) a -> ctab (mkTabs cs (t_s st1)) i a = 0) as Hzero.
  { intros i a Hi Ha Hna. destruct (HC i Hi) as (C & C' & E1 & E2 & Hv & Hw & Hv' & Htv). pose proof (valid_zero dom dom_pos) as Hz0.
    apply ParProofs.mcollect_lookup in Hcs as [Hl Hcs]. destruct (Hcs i C' E2) as (D & HD & HnD). rewrite (ctab_at (mkTabs cs (t_s st1)) i D a HD).
    destruct (Qc_eq_dec (sumv (pt_vars C') (tval C') zero_asg) 0) as [Hz|Hz]; [rewrite (table_normalize_zero dom dom_pos C' zero_asg Hw Hz0 Hz) in HnD; done|].
    destruct (table_normalize_spec dom dom_pos C' zero_asg Hw Hz0 Hz) as (D' & HD' & _ & _ & HtD). replace D with D' by congruence. rewrite (HtD a Ha), (Htv a Ha), bool_decide_false by (by rewrite Hv). unfold Qcdiv. ring. }
  assert (good dom r Ls sc ss (mask E U J) (mkTabs cs (t_s st1))) as Hg'.
  { destruct Hg as [Gc Gs Gl Gp Gsp]. split; try done.
    - intros l Hl. destruct (HS l Hl) as (C & C' & E1 & E2 & Hv & Hw & Hv' & _). exists C'. split_and!; [done|done|congruence].
    - intros l a Hl Ha. change (stab (mkTabs cs (t_s st1)) (l_sep l) a) with (stab st1 (l_sep l) a). rewrite Hst by done. specialize (Ho l a Hl Ha). change (stab st (l_sep l) a = 1) in Ho. unfold mask. rewrite Ho. split.
      + by case_bool_decide.
      + intros Hj. destruct (decide (agrees E U a)) as [Hag|Hag]; [|by rewrite bool_decide_false in Hj by done]. rewrite bool_decide_true; [done|]. eapply agrees_sub; [|exact Hag]. intros v Hv. by eapply (sep_in_U dom dom_pos T r Ls HT). }
  rewrite (pass_variants p sch _ _ _ _ _ _ Hsch H2 Hg' Hp).
  apply (message_passing dom dom_pos T r Ls HT sc ss U (mask E U J) (rd_tail _ _ _ _ _ _ _ _ H) (rd_root _ _ _ _ _ _ _ _ H) (rd_U _ _ _ _ _ _ _ _ H) (rd_cov _ _ _ _ _ _ _ _ H) sch [1%nat] [2%nat] (mkTabs cs (t_s st1)) Hsch Hg' Ht); [|exact Hpr].
  intros l a Hl Ha. change (stab (mkTabs cs (t_s st1)) (l_sep l) a) with (stab st1 (l_sep l) a). rewrite Hst by done. specialize (Ho l a Hl Ha). change (stab st (l_sep l) a = 1) in Ho. unfold mask. rewrite Ho.
  case_bool_decide as Hag; [by left|right]. split; [done|]. intros b Hb Hab. apply Hzero; [right; by apply elem_of_list_fmap_1|done|]. intros Hag'. apply Hag. apply (agrees_ext E (ss (l_sep l)) b a Hab). eapply agrees_sub; [|exact Hag'].
  intros v Hv. destruct (rd_tail _ _ _ _ _ _ _ _ H l Hl) as [ws ->]. apply elem_of_app. by right.
Qed.
End tables.

(** ** Answers for a network *)
Section net.
Context (N : network) (HN : net_ok N) (Hn : (0 < net_size N)%nat) (o : mem_order) (Ho : valid_order o) (pts : list ptable).
Context (Hf : Forall (table_of_family N) pts) (Hnn : Forall (nonneg (net_dom N)) pts) (T : jtree) (HT : jt_build o N pts = Ok T).
Notation n := (net_size N).
Notation dom := (net_dom N).
Set Default Proof Using "All".
Notation Hu := (built_usable N HN Hn o Ho pts Hf Hnn T HT).

Lemma messages_same p sch E : valid_scheduler sch -> enough T p -> propagate_by p true sch T E (jt_backup T) = propagate sch T E (jt_backup T).
Proof.
  intros Hsch Hp. destruct (us_ready _ _ _ Hu) as (r & Ls & Htree & sc & ss & Hrd). apply (propagate_variants dom (dom_pos N HN pts Hf Hnn T Hu) T r Ls Htree p sch E sc ss (seq 0 n) (joint pts)); try done.
  intros u Hin. rewrite (doms_length N HN pts Hf Hnn T Hu). apply elem_of_seq in Hin. lia.
Qed.
Lemma calculate_marginal_by st q (f : nat -> Qc) : Forall (TableSpec.wf dom) (t_c st) -> (q < n)%nat -> (exists t, t ∈ t_c st /\ q ∈ pt_vars t) ->
  (forall t, t ∈ t_c st -> q ∈ pt_vars t ->
     exists p, (m ← (if bool_decide (1 < pt_nv t)%nat then table_marginalization t [q] [dom q] else Ok t); table_normalize m) = Ok p /\
     pt_size p = dom q /\ pt_pots p = f <$> seq 0 (dom q) /\ (pt_nv t = 1%nat -> pt_pots t = pt_pots p)) ->
  exists p, calculate_marginal T st q = Ok p /\ pt_pots p = f <$> seq 0 (dom q).
Proof.
  intros Hw Hq (t0 & Ht0 & Hq0) Hmar. unfold calculate_marginal. destruct (smallest_clique_spec dom (dom_pos N HN pts Hf Hnn T Hu) (t_c st) q Hw) as (b & -> & Hb). cbn [mbind outcome_bind].
  destruct b as [[nv t]|]; [|by destruct (Hb t0 Ht0)]. destruct Hb as (Ht & Hqt & ->). destruct (Hmar t Ht Hqt) as (p & Hp & Hs & Hpp & H1).
  destruct (decide (pt_nv t = 1%nat)) as [Hnv|Hnv].
  - rewrite (bool_decide_true (pt_nv t = 1%nat)) by done. exists t. split; [done|]. by rewrite H1.
  - rewrite (bool_decide_false (pt_nv t = 1%nat)) by done. rewrite (node_dim_ok N HN pts Hf Hnn T Hu) by done. cbn [mbind outcome_bind]. rewrite bool_decide_true in Hp.
    + exists p. split; [|done]. exact Hp.
    + rewrite Forall_forall in Hw. specialize (Hw t Ht). rewrite (wf_nv _ _ Hw) in *. destruct (pt_vars t) as [|? [|]]; [by apply elem_of_nil in Hqt|done|cbn; lia].
Qed.
(** Impossible evidence. *)
Lemma plain_impossible p sch E : valid_scheduler sch -> enough T p ->
  (exists v x, (v, x) ∈ E /\ (v < n)%nat /\ (dom v <= x)%nat) \/ (exists v x y, (v, x) ∈ E /\ (v, y) ∈ E /\ (v < n)%nat /\ x <> y) ->
  propagate_by p false sch T E (jt_backup T) = Err DivZero.
Proof.
  intros Hsch Hp Hbad. destruct (us_ready _ _ _ Hu) as (r & Ls & Htree & sc & ss & Hrd).
  destruct (plain_spec dom (dom_pos N HN pts Hf Hnn T Hu) T r Ls Htree p sch E sc ss (seq 0 n) (joint pts) (jt_backup T) Hsch Hrd) as [(st & _ & _ & _ & _ & Hnd)|[? _]]; [|done| |done].
  { intros u Hin. rewrite (doms_length N HN pts Hf Hnn T Hu). apply elem_of_seq in Hin. lia. }
  exfalso. apply Hnd. intros a Ha. unfold mask. rewrite bool_decide_false; [done|]. unfold agrees. rewrite Forall_forall. intros Hall.
  destruct Hbad as [(v & x & Hin & Hv & Hx)|(v & x & y & Hin & Hin' & Hv & Hxy)]; assert (v ∈ seq 0 n) as Hvs by (apply elem_of_seq; lia).
  - specialize (Hall _ Hin Hvs). cbn in Hall. specialize (Ha v). lia.
  - pose proof (Hall _ Hin Hvs). pose proof (Hall _ Hin' Hvs). cbn in *. congruence.
Qed.
Lemma plain_net p sch E : valid_scheduler sch -> enough T p -> evidence_in_range N E -> NoDup (fst <$> E) ->
  (exists st, propagate_by p false sch T E (jt_backup T) = Ok st /\ evidence_weight N pts E <> 0 /\
     probabilities_all T st E = Ok (answer_all N pts E) /\
     (forall q, (q < n)%nat -> q ∉ fst <$> E -> exists p, calculate_marginal T st q = Ok p /\ pt_pots p = posterior N pts E q <$> seq 0 (dom q)) /\
     (forall q y, (q < n)%nat -> (q, y) ∈ E -> exists p, calculate_marginal T st q = Ok p /\ pt_pots p = (fun x => if bool_decide (x = y) then 1 else 0) <$> seq 0 (dom q))) \/
  (propagate_by p false sch T E (jt_backup T) = Err DivZero /\ evidence_weight N pts E = 0).
Proof.
  intros Hsch Hp HE HEnd. destruct (us_ready _ _ _ Hu) as (r & Ls & Htree & sc & ss & Hrd). pose proof (dom_pos N HN pts Hf Hnn T Hu) as Hdp. assert (valid dom zero_asg) as Hz by (intros v; apply Hdp).
  pose proof (joint_dep N pts HN Hf) as HJ. set (U := seq 0 n) in *. set (J := mask E U (joint pts)).
  assert (dep_on U J) as HJd by (by apply mask_dep). assert (NoDup U) as HUn by apply NoDup_seq.
  assert (forall v x, (v, x) ∈ E -> v ∈ U -> x < dom v)%nat as HEr. { intros v x Hin Hv. apply elem_of_seq in Hv. apply HE; [done|lia]. }
  assert (sumv dom U J zero_asg = evidence_weight N pts E) as Htot.
  { rewrite (evidence_weight_sum N HN pts Hf Hnn T Hu). by apply (mask_sum dom Hdp E U U). }
  assert (forall a, valid dom a -> 0 <= J a) as HJpos.
  { intros a Ha. unfold J, mask. case_bool_decide; [by apply (joint_nonneg N HN pts Hf Hnn T Hu)|done]. }
  destruct (plain_spec dom Hdp T r Ls Htree p sch E sc ss U (joint pts) (jt_backup T) Hsch Hrd) as [(st & Hst & Hg & Htt & Hpr & Hnd)|[Herr Hdead]]; [|done| |].
  { intros u Hin. rewrite (doms_length N HN pts Hf Hnn T Hu). apply elem_of_seq in Hin. lia. }
  2: { right. split; [done|]. rewrite <-Htot. rewrite (sumv_ext dom _ _ (fun b => 0 * 0)); [rewrite (sumv_scal dom); ring|done|]. intros b Hb _. rewrite (Hdead b Hb : J b = 0). ring. }
  left. exists st. split; [done|]. fold J in Hg, Hpr, Hnd.
  assert (evidence_weight N pts E <> 0) as HW.
  { rewrite <-Htot. intros H0. apply Hnd. intros a Ha. set (b := fun v => if bool_decide (v ∈ U) then a v else 0%nat).
    transitivity (J b); [apply HJd; intros v Hv; unfold b; by rewrite bool_decide_true|].
    apply (sumv_nonneg_zero dom U J zero_asg); try done; [by eapply dep_on_proper| |].
    - intros v. unfold b. case_bool_decide; [apply Ha|apply Hdp].
    - intros v Hv. unfold b, zero_asg. by rewrite bool_decide_false. }
  split; [done|].
  assert (forall t, t ∈ t_c st -> exists i, i ∈ seen r (concat Ls) /\ t_c st !! i = Some t /\ TableSpec.wf dom t /\ pt_vars t = sc i) as Hall.
  { intros t Ht. apply elem_of_list_lookup in Ht as [i Hi]. exists i. assert (i ∈ seen r (concat Ls)) as His.
    { rewrite (rd_cs _ _ _ _ _ _ _ _ Hrd). apply elem_of_seq. split; [lia|]. apply lookup_lt_Some in Hi. rewrite (gd_len _ _ _ _ _ _ _ Hg) in Hi. rewrite (rd_cs _ _ _ _ _ _ _ _ Hrd), seq_length in Hi. lia. }
    split; [done|]. destruct (gd_c _ _ _ _ _ _ _ Hg i His) as (C & HC & HwC & HvC). replace t with C by congruence. done. }
  assert (Forall (TableSpec.wf dom) (t_c st)) as Hwf by (apply Forall_forall; intros t Ht; by destruct (Hall t Ht) as (i & _ & _ & Hw & _)).
  assert (forall q, (q < n)%nat -> exists t, t ∈ t_c st /\ q ∈ pt_vars t) as Hcov.
  { intros q Hq. assert (q ∈ U) as Hqs by (apply elem_of_seq; lia). apply (rd_cov _ _ _ _ _ _ _ _ Hrd) in Hqs. apply elem_of_list_bind in Hqs as (i & Hqi & Hi).
    destruct (gd_c _ _ _ _ _ _ _ Hg i Hi) as (C & HC & HwC & HvC). exists C. split; [by eapply elem_of_list_lookup_2|]. by rewrite HvC. }
  assert (forall t q, t ∈ t_c st -> q ∈ pt_vars t -> q ∈ U /\ exists p, (m ← (if bool_decide (1 < pt_nv t)%nat then table_marginalization t [q] [dom q] else Ok t); table_normalize m) = Ok p /\
    pt_size p = dom q /\ pt_pots p = (fun x => sumv dom (filter (fun v => v ∉ [q]) U) J (upd zero_asg q x) / evidence_weight N pts E) <$> seq 0 (dom q) /\ (pt_nv t = 1%nat -> pt_pots t = pt_pots p)) as Hmar.
  { intros t q Ht Hq. destruct (Hall t Ht) as (i & Hi & HC & Hw & Hv). assert (forall a, ctab st i a = tval t a) as Hct by (intros a; by apply ctab_at).
    assert (forall v, v ∈ sc i -> v ∈ U) as Hsub. { intros v Hvi. apply (rd_cov _ _ _ _ _ _ _ _ Hrd). apply elem_of_list_bind. by exists i. }
    split; [apply Hsub; by rewrite <-Hv|]. rewrite <-Htot. apply (clique_marginal dom Hdp U (sc i) J t q); try done.
    - by eapply dep_on_proper.
    - by rewrite <-Hv.
    - destruct (Hpr i Hi) as (k & Hk & Hke). exists k. split; [done|]. intros a Ha. rewrite <-Hct. by apply Hke.
    - intros a Ha. rewrite <-(Htt i Hi a Ha). apply sumv_ext; [done|]. intros b _ _. by rewrite Hct. }
  assert (forall q x, q ∉ fst <$> E -> (x < dom q)%nat -> sumv dom (filter (fun v => v ∉ [q]) U) J (upd zero_asg q x) / evidence_weight N pts E = posterior N pts E q x) as Hfree.
  { intros q x Hq Hx. unfold posterior. rewrite (weight_sum N HN pts Hf Hnn T Hu). f_equal. set (W := filter (fun v => v ∉ [q]) U).
    assert (forall v, v ∈ fst <$> E -> (v ∈ W <-> v ∈ U)) as HWU. { intros v Hv. unfold W. rewrite elem_of_list_filter, elem_of_list_singleton. split; [tauto|]. intros Hin. split; [|done]. by intros ->. }
    transitivity (sumv dom W (mask E W (joint pts)) (upd zero_asg q x)).
    - apply sumv_ext; [by apply valid_upd|]. intros b _ _. unfold J, mask. rewrite (bool_decide_ext (agrees E U b) (agrees E W b)); [done|]. unfold agrees. rewrite !Forall_forall.
      split; intros H e He Hin; apply H; try done; apply HWU; try done; by apply elem_of_list_fmap_1.
    - rewrite (mask_sum dom Hdp E W U); [|by apply NoDup_filter|done| |done|intros v Hv; by apply HWU].
      + unfold W. rewrite !drop_all_filter, !list_filter_filter. rewrite (filter_iff_in (fun v => v ∉ E.*1 /\ v ∉ [q]) (fun v => v ∉ [q] /\ v ∉ E.*1) U); [done|]. intros v _. tauto.
      + intros v y Hin Hv. apply HEr; [done|]. by apply elem_of_list_filter in Hv as [_ ?]. }
  assert (forall q y x, q ∈ U -> (q, y) ∈ E -> (x < dom q)%nat -> sumv dom (filter (fun v => v ∉ [q]) U) J (upd zero_asg q x) / evidence_weight N pts E = if bool_decide (x = y) then 1 else 0) as Hobs.
  { intros q y x Hq Hin Hx. assert (forall z, (z < dom q)%nat -> z <> y -> sumv dom (filter (fun v => v ∉ [q]) U) J (upd zero_asg q z) = 0) as H0.
    { intros z Hzq Hzy. rewrite (sumv_ext dom _ J (fun _ => 0 * 0)); [rewrite (sumv_scal dom); ring|by apply valid_upd|]. intros b Hb Hag. unfold J, mask. rewrite bool_decide_false; [ring|]. unfold agrees. rewrite Forall_forall. intros Hal.
      apply Hzy. pose proof (Hal (q, y) Hin Hq) as Hby. cbn in Hby. rewrite <-Hby. rewrite Hag by (rewrite elem_of_list_filter; intros [Hx' _]; apply Hx'; left). unfold upd. by rewrite bool_decide_true. }
    case_bool_decide as Hxy; [|rewrite H0 by done; unfold Qcdiv; ring]. subst x.
    assert (sumv dom (filter (fun v => v ∉ [q]) U) J (upd zero_asg q y) = evidence_weight N pts E) as ->; [|field; done].
    rewrite <-Htot. rewrite (sumv_perm dom U ([q] ++ filter (fun v => v ∉ [q]) U)); [|by eapply dep_on_proper|done|].
    - rewrite sumv_app, sumv_one_var. rewrite (qsum_ext _ _ (fun z => if bool_decide (z = y) then sumv dom (filter (fun v => v ∉ [q]) U) J (upd zero_asg q z) else 0)).
      + symmetry. apply (qsum_select (seq 0 (dom q)) y (fun z => sumv dom (filter (fun v => v ∉ [q]) U) J (upd zero_asg q z))); [apply NoDup_seq|apply elem_of_seq; lia].
      + intros z Hz'. apply elem_of_seq in Hz'. case_bool_decide; [done|]. apply H0; [lia|done].
    - apply NoDup_Permutation; [done| |].
      + apply NoDup_cons. split; [|by apply NoDup_filter]. rewrite elem_of_list_filter. intros [Hx' _]. apply Hx'. left.
      + intros v. cbn. rewrite elem_of_cons, elem_of_list_filter, elem_of_list_singleton. destruct (decide (v = q)) as [->|]; naive_solver. }
  assert (answers_free N pts E st) as Hans.
  { split_and!; [done|intros q Hq _; by apply Hcov|]. intros t q Ht Hq HqE. destruct (Hmar t q Ht Hq) as (_ & pp & H1 & H2 & H3 & H4). exists pp. split_and!; try done.
    rewrite H3. apply list_fmap_ext. intros k x Hx. apply lookup_seq in Hx as [-> Hx]. apply Hfree; [done|lia]. }
  split_and!.
  - by apply (probabilities_all_free N HN pts Hf Hnn T Hu).
  - intros q Hq HqE. by apply (calculate_marginal_free N HN pts Hf Hnn T Hu).
  - intros q y Hq Hin. apply calculate_marginal_by; [done|done|by apply Hcov|]. intros t Ht Hqt. destruct (Hmar t q Ht Hqt) as (HqU & pp & H1 & H2 & H3 & H4). exists pp. split_and!; try done.
    rewrite H3. apply list_fmap_ext. intros k x Hx. apply lookup_seq in Hx as [-> Hx]. apply Hobs; [done|done|lia].
Qed.
(** ** All variants together *)
Lemma variants_exact p drop sch E : valid_scheduler sch -> enough T p -> evidence_in_range N E -> NoDup (fst <$> E) -> evidence_weight N pts E <> 0 ->
  exists st, propagate_by p drop sch T E (jt_backup T) = Ok st /\ probabilities_all T st E = Ok (answer_all N pts E) /\
    forall q, (q < n)%nat -> q ∉ fst <$> E -> exists t, calculate_marginal T st q = Ok t /\ pt_pots t = posterior N pts E q <$> seq 0 (dom q).
Proof.
  intros Hs Hp HE Hnd Hw. destruct drop.
  - rewrite messages_same by done. destruct (propagate_net N HN pts Hf Hnn T Hu sch E Hs HE) as [(st & Hst & _ & Ha)|[_ ?]]; [|done]. exists st. split_and!; [done|by apply (probabilities_all_ok N HN pts Hf Hnn T Hu)|].
    intros q Hq HqE. by apply (calculate_marginal_ok N HN pts Hf Hnn T Hu E).
  - destruct (plain_net p sch E Hs Hp HE Hnd) as [(st & Hst & _ & H1 & H2 & _)|[_ ?]]; [|done]. by exists st.
Qed.
Lemma variants_observed p sch E : valid_scheduler sch -> enough T p -> evidence_in_range N E -> NoDup (fst <$> E) -> evidence_weight N pts E <> 0 ->
  exists st, propagate_by p false sch T E (jt_backup T) = Ok st /\
    forall q y, (q < n)%nat -> (q, y) ∈ E -> exists t, calculate_marginal T st q = Ok t /\ pt_pots t = (fun x => if bool_decide (x = y) then 1 else 0) <$> seq 0 (dom q).
Proof. intros Hs Hp HE Hnd Hw. destruct (plain_net p sch E Hs Hp HE Hnd) as [(st & Hst & _ & _ & _ & H)|[_ ?]]; [|done]. by exists st. Qed.
Lemma variants_impossible p drop sch E : valid_scheduler sch -> enough T p -> evidence_in_range N E -> NoDup (fst <$> E) -> evidence_weight N pts E = 0 ->
  propagate_by p drop sch T E (jt_backup T) = Err DivZero.
Proof.
  intros Hs Hp HE Hnd Hw. destruct drop.
  - rewrite messages_same by done. by destruct (propagate_net N HN pts Hf Hnn T Hu sch E Hs HE) as [(st & _ & ? & _)|[? _]].
  - by destruct (plain_net p sch E Hs Hp HE Hnd) as [(st & _ & ? & _)|[? _]].
Qed.
End net.
