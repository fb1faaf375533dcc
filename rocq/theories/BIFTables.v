From Coq Require Import Ascii String.
From Coq Require Import Field QArith.
From Verif Require Import DataProofs UtilProofs NetProofs NetProofs2 NetProofs3 BIFProofs BIFProofs2 LearnProofs.
From Verif Require Import LearnTheorems BIFTheorems.
Local Open Scope nat_scope.

(** ** Configurations *)
Lemma cfg_elem ps vs p v : length ps = length vs -> (p, v) ∈ cfg ps vs <-> exists i, ps !! i = Some p /\ vs !! i = Some v.
Proof.
  intros Hl. unfold cfg. enough (forall u, (p, v) ∈ foldl (fun u pv => cins pv u) u (zip ps vs) <-> (p, v) ∈ u \/ (p, v) ∈ zip ps vs) as H.
  { rewrite H. rewrite elem_of_nil, elem_of_list_lookup. setoid_rewrite lookup_zip_with_Some. naive_solver. }
  generalize (zip ps vs). intros l. induction l as [|pv l IH]; intros u; cbn [foldl]; [rewrite elem_of_nil; tauto|]. rewrite IH, elem_of_cins, elem_of_cons. naive_solver.
Qed.
Lemma cfg_fst ps vs : length ps = length vs -> NoDup ps -> StronglySorted lt (fst <$> cfg ps vs) /\ forall p, p ∈ fst <$> cfg ps vs <-> p ∈ ps.
Proof.
  intros Hl Hd. enough (forall u, StronglySorted lt (fst <$> u) -> (forall p, p ∈ ps -> p ∉ fst <$> u) ->
    StronglySorted lt (fst <$> foldl (fun u pv => cins pv u) u (zip ps vs)) /\ forall p, p ∈ fst <$> foldl (fun u pv => cins pv u) u (zip ps vs) <-> p ∈ fst <$> u \/ p ∈ ps) as H.
  { destruct (H []) as [H1 H2]; [constructor|intros p _; apply not_elem_of_nil|]. split; [done|]. intros p. unfold cfg. rewrite H2. cbn. rewrite elem_of_nil. tauto. }
  revert vs Hl; induction Hd as [|p ps Hp Hd IH]; intros vs Hl u Hs Hno; (destruct vs as [|v vs]; [try done|try done]).
  - cbn. split; [done|]. intros p. rewrite elem_of_nil. tauto.
  - cbn [zip zip_with foldl]. injection Hl as Hl. assert (p ∉ fst <$> u) as Hpu by (apply Hno; left). destruct (IH vs Hl (cins (p, v) u)) as [H1 H2].
    + rewrite cins_fst by done. by apply sins_sorted.
    + intros q Hq. rewrite cins_fst by done. rewrite elem_of_sins. intros [->|H]; [done|]. apply (Hno q); [by right|done].
    + split; [done|]. intros q. rewrite H2, cins_fst, elem_of_sins, elem_of_cons by done. tauto.
Qed.
Lemma pairs_by_fst (u : config) (a : asg) : Forall (fun pv => pv.2 = a pv.1) u -> u = (fun p => (p, a p)) <$> (fst <$> u).
Proof. induction 1 as [|[p v] u H _ IH]; [done|]. cbn in *. by rewrite H, <-IH. Qed.
Lemma cfg_agrees ps qs vs (a : asg) : length ps = length vs -> NoDup ps -> StronglySorted lt qs -> (forall p, p ∈ qs <-> p ∈ ps) ->
  cfg ps vs = ((fun p => (p, a p)) <$> qs) <-> a <$> ps = vs.
Proof.
  intros Hl Hd Hs Hq. split.
  - intros E. apply list_eq. intros i. rewrite list_lookup_fmap. destruct (ps !! i) as [p|] eqn:Ep.
    + cbn. destruct (lookup_lt_is_Some_2 vs i) as [v Hv]; [rewrite <-Hl; by eapply lookup_lt_Some|]. rewrite Hv. f_equal.
      assert ((p, v) ∈ cfg ps vs) as Hin by (apply cfg_elem; eauto). rewrite E in Hin. apply elem_of_list_fmap in Hin as (q & [= -> ->] & _). done.
    + symmetry. apply lookup_ge_None. rewrite <-Hl. by apply lookup_ge_None.
  - intros <-. destruct (cfg_fst ps (a <$> ps) Hl Hd) as [H1 H2]. rewrite (pairs_by_fst (cfg ps (a <$> ps)) a).
    + f_equal. apply lt_sorted_ext; [done|done|]. intros p. by rewrite H2, Hq.
    + apply Forall_forall. intros [p v] Hin. apply cfg_elem in Hin as (i & Hi & Hv); [|done]. rewrite list_lookup_fmap, Hi in Hv. cbn in Hv |- *. by injection Hv as ->.
Qed.

(** ** Sums of counts *)
Lemma sumz_app {A} (l1 l2 : list A) f : sumz (l1 ++ l2) f = (sumz l1 f + sumz l2 f)%Z.
Proof. unfold sumz. induction l1 as [|x l1 IH]; cbn; [done|]. unfold sumz in *. cbn. lia. Qed.
Lemma counted_app h1 h2 x u : counted (h1 ++ h2) x u = (counted h1 x u + counted h2 x u)%Z.
Proof. unfold counted. by rewrite list.filter_app, sumz_app. Qed.
Lemma counted_under_app h1 h2 u : counted_under (h1 ++ h2) u = (counted_under h1 u + counted_under h2 u)%Z.
Proof. unfold counted_under. by rewrite list.filter_app, sumz_app. Qed.
Lemma imap_row_counted (f : str -> Z) (u0 : config) (l : list str) k y u : sumz (filter (fun e : nat * config * Z => e.1.1 = y /\ e.1.2 = u) (imap (fun i s => (k + i, u0, f s)) l)) snd =
  if decide (u0 = u /\ k <= y) then default 0%Z (f <$> l !! (y - k)) else 0%Z.
Proof.
  revert k; induction l as [|s l IH]; intros k; cbn [imap].
  - cbn. case_decide; done.
  - rewrite Nat.add_0_r. assert (imap ((fun i s => (k + i, u0, f s)) ∘ S) l = imap (fun i s => (S k + i, u0, f s)) l) as E by (apply imap_ext; intros; cbn; by rewrite Nat.add_succ_r). rewrite E.
    destruct (decide (k = y /\ u0 = u)) as [Hy|Hy]; [rewrite filter_cons_True by done|rewrite filter_cons_False by done].
    + destruct Hy as [-> ->]. transitivity (f s + sumz (filter (fun e : nat * config * Z => e.1.1 = y /\ e.1.2 = u) (imap (fun i s => (S y + i, u, f s)%nat) l)) snd)%Z; [reflexivity|].
      rewrite IH. rewrite decide_False by lia. rewrite decide_True by done. rewrite Nat.sub_diag. cbn. lia.
    + rewrite IH. destruct (decide (u0 = u)) as [<-|Hu]; [|rewrite !decide_False by naive_solver; done]. destruct (decide (k <= y)) as [Hk|Hk]; [|rewrite !decide_False by (intros [_ ?]; lia); done].
      assert (k <> y) by naive_solver. rewrite !decide_True by (split; [done|lia]). replace (y - k) with (S (y - S k)) by lia. done.
Qed.
Lemma row_counted num D r y u : counted (row_hist num D r) y u = if decide (cfg (bd_parents D) r.1 = u) then default 0%Z ((fun s => scaled (num s)) <$> r.2 !! y) else 0%Z.
Proof.
  unfold counted, row_hist. etransitivity; [exact (imap_row_counted (fun s => scaled (num s)) (cfg (bd_parents D) r.1) r.2 0 y u)|]. rewrite Nat.sub_0_r.
  destruct (decide (cfg (bd_parents D) r.1 = u)); [rewrite decide_True by (split; [done|lia])|rewrite decide_False by naive_solver]; done.
Qed.
Lemma row_counted_under num D r u : counted_under (row_hist num D r) u = if decide (cfg (bd_parents D) r.1 = u) then sumz r.2 (fun s => scaled (num s)) else 0%Z.
Proof.
  unfold counted_under, row_hist. generalize (cfg (bd_parents D) r.1). intros u0.
  enough (forall k, sumz (filter (fun e : nat * config * Z => e.1.2 = u) (imap (fun i s => (k + i, u0, scaled (num s))) r.2)) snd = if decide (u0 = u) then sumz r.2 (fun s => scaled (num s)) else 0%Z) as H by apply (H 0).
  induction r.2 as [|s l IH]; intros k; cbn [imap]; [cbn; by case_decide|].
  assert (imap ((fun i s => (k + i, u0, scaled (num s))) ∘ S) l = imap (fun i s => (S k + i, u0, scaled (num s))) l) as E by (apply imap_ext; intros; cbn; by rewrite Nat.add_succ_r). rewrite E.
  specialize (IH (S k)). destruct (decide (u0 = u)) as [Hu|Hu]; [rewrite filter_cons_True by done|by rewrite filter_cons_False by done].
  transitivity (scaled (num s) + sumz (filter (fun e : nat * config * Z => e.1.2 = u) (imap (fun i s => (S k + i, u0, scaled (num s))%nat) l)) snd)%Z; [reflexivity|]. by rewrite IH.
Qed.
Lemma rows_counted num D rows r : NoDup rows.*1 -> r ∈ rows -> (forall r', r' ∈ rows -> length (bd_parents D) = length r'.1) -> NoDup (bd_parents D) ->
  forall y u, u = cfg (bd_parents D) r.1 ->
  counted (concat (row_hist num D <$> rows)) y u = default 0%Z ((fun s => scaled (num s)) <$> r.2 !! y) /\
  counted_under (concat (row_hist num D <$> rows)) u = sumz r.2 (fun s => scaled (num s)).
Proof.
  intros Hd Hr Hl Hps y u ->.
  assert (forall vs vs', length (bd_parents D) = length vs -> length (bd_parents D) = length vs' -> cfg (bd_parents D) vs = cfg (bd_parents D) vs' -> vs = vs') as Hinj.
  { intros vs vs' H1 H2 E. apply list_eq. intros i. destruct (bd_parents D !! i) as [p|] eqn:Ep.
    - assert (i < length (bd_parents D)) by (by eapply lookup_lt_Some). destruct (lookup_lt_is_Some_2 vs i) as [v Hv]; [lia|]. destruct (lookup_lt_is_Some_2 vs' i) as [v' Hv']; [lia|].
      assert ((p, v) ∈ cfg (bd_parents D) vs) as Hin by (apply cfg_elem; eauto). rewrite E in Hin. apply cfg_elem in Hin as (j & Hj & Hvj); [|done].
      replace j with i in Hvj by (by eapply NoDup_lookup). congruence.
    - apply lookup_ge_None in Ep. rewrite !lookup_ge_None_2 by lia. done. }
  assert (forall rows, (forall r', r' ∈ rows -> length (bd_parents D) = length r'.1) -> r.1 ∉ rows.*1 -> length (bd_parents D) = length r.1 -> counted (concat (row_hist num D <$> rows)) y (cfg (bd_parents D) r.1) = 0%Z /\ counted_under (concat (row_hist num D <$> rows)) (cfg (bd_parents D) r.1) = 0%Z) as Hzero.
  { clear -Hinj. intros rows Hl Hn Hr. induction rows as [|r' rows IH]; [done|]. cbn [fmap list_fmap concat]. rewrite counted_app, counted_under_app, row_counted, row_counted_under.
    cbn [fmap list_fmap] in Hn. apply not_elem_of_cons in Hn as [Hn1 Hn2]. rewrite !decide_False by (intros E; apply Hinj in E; [congruence|apply Hl; left|done]).
    destruct IH as [-> ->]; [intros; apply Hl; by right|done|done]. }
  induction rows as [|r' rows IH]; [by apply elem_of_nil in Hr|]. cbn [fmap list_fmap concat]. rewrite counted_app, counted_under_app, row_counted, row_counted_under.
  cbn [fmap list_fmap] in Hd. apply NoDup_cons in Hd as [Hd1 Hd]. apply elem_of_cons in Hr as [<-|Hr].
  - rewrite !decide_True by done. destruct (Hzero rows) as [-> ->]; [intros; apply Hl; by right|done|apply Hl; left|]. by rewrite !Z.add_0_r.
  - rewrite !decide_False.
    + apply IH; [done|done|]. intros; apply Hl; by right.
    + intros E. apply Hinj in E; [|apply Hl; by left|apply Hl; by right]. apply Hd1. rewrite E. by apply elem_of_list_fmap_1.
    + intros E. apply Hinj in E; [|apply Hl; by left|apply Hl; by right]. apply Hd1. rewrite E. by apply elem_of_list_fmap_1.
Qed.

(** ** The loaded tables *)
Section Tables.
Context (B : bnet) (HB : bnet_ok B) (stod : str -> outcome Qc) (num : str -> Qc) (Hnum : reads_numbers stod num B).
Lemma binv_dom L v : binv B num (bn_dists B) L -> v < bn_size B -> net_dom (ld_net L) v = bn_dom B v.
Proof using.
  intros HI Hv. unfold net_dom, dom_of, domain_sizes. rewrite list_lookup_fmap. rewrite <-(bi_size _ _ _ _ HI) in Hv. destruct (lookup_lt_is_Some_2 _ _ Hv) as [nd Hnd]. rewrite Hnd. cbn. by apply (bi_dom _ _ _ _ HI).
Qed.
Lemma bn_dom_pos v : v < bn_size B -> 0 < bn_dom B v.
Proof using HB.
  intros Hv. unfold bn_dom. destruct (lookup_lt_is_Some_2 (bn_vars B) v Hv) as [w Hw]. rewrite Hw. pose proof (bo_values _ HB) as H. rewrite Forall_forall in H. destruct (H w) as [Hne _]; [by eapply elem_of_list_lookup_2|].
  destruct (bv_values w); [done|cbn; lia].
Qed.
Lemma binv_positive L : binv B num (bn_dists B) L -> doms_positive (ld_net L).
Proof using HB.
  intros HI. apply Forall_forall. intros d Hd. unfold domain_sizes in Hd. apply elem_of_list_fmap in Hd as (nd & -> & Hd). apply elem_of_list_lookup in Hd as [x Hx].
  rewrite (bi_dom _ _ _ _ HI _ _ Hx). apply bn_dom_pos. rewrite <-(bi_size _ _ _ _ HI). by eapply lookup_lt_Some.
Qed.
Lemma dist_parents L D nd : binv B num (bn_dists B) L -> D ∈ bn_dists B -> nt_nodes (ld_net L) !! bd_node D = Some nd ->
  StronglySorted lt (nd_parents nd) /\ forall p, p ∈ nd_parents nd <-> p ∈ bd_parents D.
Proof using HB.
  intros HI HD Hnd. pose proof (bi_inv _ _ _ _ HI) as HN. split; [by apply (ni_parents _ HN) in Hnd as [? _]|]. intros p.
  transitivity (parent_rel (ld_net L) p (bd_node D)).
  { split; [intros H; by exists nd|]. intros (nd' & Hnd' & H). congruence. }
  rewrite netinv_parent by done. unfold has_directed. rewrite (bi_edges _ _ _ _ HI). split.
  - intros (e & He & H1 & H2 & _). apply elem_of_list_fmap in He as ([p' c'] & -> & He). cbn in H1, H2. subst. apply elem_of_list_In, in_concat in He as (l & Hl & He).
    apply elem_of_list_In, elem_of_list_fmap in Hl as (D' & -> & HD'). apply elem_of_list_In in He. unfold bd_arcs in He. apply elem_of_list_fmap in He as (q & [= -> Hc] & Hq).
    replace D with D'; [done|]. pose proof (proj2 (bo_dists _ HB)) as Hn. apply elem_of_list_lookup in HD' as [i Hi], HD as [j Hj].
    assert (i = j) as ->; [|congruence]. eapply (NoDup_lookup _ i j (bd_node D)); [exact Hn| |]; rewrite list_lookup_fmap; [by rewrite Hi; cbn; rewrite Hc|by rewrite Hj].
  - intros Hp. exists (directed_edge p (bd_node D)). split; [|done]. apply elem_of_list_fmap. exists (p, bd_node D). split; [done|].
    apply elem_of_list_In, in_concat. exists (bd_arcs D). split; apply elem_of_list_In; [by apply elem_of_list_fmap_1|]. unfold bd_arcs. apply elem_of_list_fmap. eauto.
Qed.
Lemma hist_of D : D ∈ bn_dists B -> hist num (bn_dists B) (bd_node D) = dist_hist num D.
Proof using HB.
  intros HD. pose proof (proj2 (bo_dists _ HB)) as Hn. unfold hist. induction (bn_dists B) as [|D' Ds IH]; [by apply elem_of_nil in HD|].
  cbn [fmap list_fmap] in Hn. apply NoDup_cons in Hn as [Hn1 Hn]. cbn [fmap list_fmap concat]. apply elem_of_cons in HD as [<-|HD].
  - rewrite decide_True by done. fold (hist num Ds (bd_node D)). rewrite hist_nil by done. apply app_nil_r.
  - rewrite decide_False; [by apply IH|]. intros E. apply Hn1. rewrite E. by apply elem_of_list_fmap_1.
Qed.
Lemma hist_ok x : Forall (fun e => e.1.1 < bn_dom B x /\ (0 <= e.2)%Z) (hist num (bn_dists B) x).
Proof using HB Hnum.
  unfold hist. apply Forall_concat, Forall_fmap, Forall_forall. intros D HD. cbn. case_decide as E; [|by constructor]. subst x. unfold dist_hist. apply Forall_concat, Forall_fmap, Forall_forall.
  intros r Hr. cbn. pose proof (proj1 (Forall_forall _ _) (bo_rows _ HB) D HD) as Hrows. rewrite Forall_forall in Hrows. destruct (Hrows r Hr) as (_ & Hlen & _).
  apply Forall_forall. intros e He. unfold row_hist in He. apply elem_of_list_lookup in He as [i He]. rewrite list_lookup_imap in He. destruct (r.2 !! i) as [s|] eqn:Es; [|done]. cbn in He. injection He as <-. cbn.
  split; [rewrite <-Hlen; by eapply lookup_lt_Some|]. destruct (Hnum D r s HD Hr) as (_ & H0 & H1); [by eapply elem_of_list_lookup_2|]. by apply (scaled_range (num s)).
Qed.
Lemma no_row_counted D a y : NoDup (bd_parents D) -> (forall r, r ∈ bd_rows D -> length (bd_parents D) = length r.1 /\ a <$> bd_parents D <> r.1) ->
  forall qs, StronglySorted lt qs -> (forall p, p ∈ qs <-> p ∈ bd_parents D) ->
  counted (dist_hist num D) y ((fun p => (p, a p)) <$> qs) = 0%Z /\ counted_under (dist_hist num D) ((fun p => (p, a p)) <$> qs) = 0%Z.
Proof using.
  intros Hd Hno qs Hs Hq. unfold dist_hist. induction (bd_rows D) as [|r rows IH]; [done|]. cbn [fmap list_fmap concat]. rewrite counted_app, counted_under_app, row_counted, row_counted_under.
  destruct (Hno r) as [Hl Hn]; [left|]. rewrite !decide_False by (rewrite cfg_agrees by done; done). destruct IH as [-> ->]; [|done]. intros r' Hr'. apply Hno. by right.
Qed.
Lemma bind_tables L : binv B num (bn_dists B) L -> exists ts, node_tables (ld_net L) (ld_counters L) = Ok ts /\ length ts = bn_size B /\
  (forall x t, ts !! x = Some t -> cpt_ok (ld_net L) x (parents_of (ld_net L) x) (tval t) t) /\
  forall D, D ∈ bn_dists B -> NoDup (bd_rows D).*1 -> exists t, ts !! bd_node D = Some t /\ parents_of (ld_net L) (bd_node D) ≡ₚ bd_parents D /\
    (forall r a, r ∈ bd_rows D -> valid (net_dom (ld_net L)) a -> row_agrees D r a -> tval t a = smoothed_entry (num <$> r.2) (a (bd_node D))) /\
    (forall a, valid (net_dom (ld_net L)) a -> (forall r, r ∈ bd_rows D -> ~ row_agrees D r a) -> tval t a = (1 / qn (bn_dom B (bd_node D)))%Qc).
Proof using HB Hnum.
  intros HI. set (hs := (fun x => hist num (bn_dists B) x) <$> seq 0 (bn_size B)).
  assert (forall x, x < bn_size B -> hs !! x = Some (hist num (bn_dists B) x)) as Hhs.
  { intros x Hx. unfold hs. rewrite list_lookup_fmap, lookup_seq_lt by done. done. }
  assert (length hs = bn_size B) as Hlh by (unfold hs; by rewrite fmap_length, seq_length).
  assert (ld_counters L = imap (fun x h => add_counts (default (new_node 0) (nt_nodes (ld_net L) !! x)) h new_counters) hs) as Hcs.
  { apply list_eq. intros x. rewrite list_lookup_imap. destruct (decide (x < bn_size B)) as [Hx|Hx].
    - rewrite Hhs by done. cbn. rewrite <-(bi_size _ _ _ _ HI) in Hx. destruct (lookup_lt_is_Some_2 _ _ Hx) as [nd Hnd]. rewrite Hnd. cbn. by apply (bi_counts _ _ _ _ HI).
    - rewrite (lookup_ge_None_2 hs) by lia. rewrite lookup_ge_None_2 by (rewrite (bi_clen _ _ _ _ HI); lia). done. }
  destruct (tables_from_counts (ld_net L) hs) as (ts & Hts & Hlt & Hall).
  { apply (bi_inv _ _ _ _ HI). } { by apply binv_positive. } { unfold net_size. by rewrite (bi_size _ _ _ _ HI). }
  { intros x h Hx. assert (x < bn_size B) as Hxl by (rewrite <-Hlh; by eapply lookup_lt_Some). rewrite Hhs in Hx by done. injection Hx as <-. rewrite binv_dom by done. apply hist_ok. }
  rewrite Hcs. exists ts. split; [done|]. split; [rewrite Hlt; apply (bi_size _ _ _ _ HI)|]. unfold net_size in Hlt. split.
  - intros x t Ht. assert (x < length (nt_nodes (ld_net L))) as Hx by (rewrite <-Hlt; by eapply lookup_lt_Some). destruct (lookup_lt_is_Some_2 _ _ Hx) as [nd Hnd].
    rewrite (bi_size _ _ _ _ HI) in Hx. destruct (Hall x nd _ Hnd (Hhs x Hx)) as (t' & Ht' & [[Hwf [Hv _]] [H1 H2]]). replace t' with t in * by congruence. unfold parents_of. rewrite Hnd. done.
  - intros D HD Hnd. destruct (proj1 (Forall_forall _ _) (bo_parents _ HB) D HD) as (Hx & Hpd & Hps).
    assert (bd_node D < length (nt_nodes (ld_net L))) as Hx' by (by rewrite (bi_size _ _ _ _ HI)). destruct (lookup_lt_is_Some_2 _ _ Hx') as [nd Hn].
    destruct (Hall _ nd _ Hn (Hhs _ Hx)) as (t & Ht & [[Hwf [Hv Hval]] _]). exists t. split; [done|]. destruct (dist_parents L D nd HI HD Hn) as [Hs Hmem].
    unfold parents_of. rewrite Hn. split.
    { apply NoDup_Permutation; [|done|done]. apply (lt_sorted_NoDup _ Hs). }
    pose proof (proj1 (Forall_forall _ _) (bo_rows _ HB) D HD) as Hrows. rewrite Forall_forall in Hrows.
    assert (forall r, r ∈ bd_rows D -> length (bd_parents D) = length r.1) as Hlens by (intros r Hr; destruct (Hrows r Hr) as (HF & _); by eapply Forall2_length).
    split.
    + intros r a Hr Ha Hag. rewrite Hval by done. cbn zeta. rewrite hist_of by done. unfold row_agrees in Hag.
      destruct (rows_counted num D (bd_rows D) r Hnd Hr Hlens Hpd (a (bd_node D)) ((fun v => (v, a v)) <$> nd_parents nd)) as [E1 E2].
      { symmetry. apply cfg_agrees; try done. by apply Hlens. }
      unfold dist_hist. rewrite E1, E2, binv_dom by done. unfold smoothed_entry. destruct (Hrows r Hr) as (_ & Hlen & _).
      assert (a (bd_node D) < bn_dom B (bd_node D)) as Hav by (rewrite <-(binv_dom L) by done; apply Ha).
      destruct (lookup_lt_is_Some_2 r.2 (a (bd_node D))) as [s Hs']; [by rewrite Hlen|]. rewrite list_lookup_fmap, Hs'. cbn [fmap option_fmap option_map default].
      rewrite fmap_length, Hlen. assert (sumz (num <$> r.2) scaled = sumz r.2 (fun s => scaled (num s))) as ->.
      { generalize r.2. intros l. unfold sumz. induction l as [|z l IH]; [done|]. cbn. by rewrite IH. }
      f_equal. by rewrite Qcmult_1_l.
    + intros a Ha Hno. rewrite Hval by done. cbn zeta. rewrite hist_of by done.
      destruct (no_row_counted D a (a (bd_node D)) Hpd) with (qs := nd_parents nd) as [E1 E2]; [|done|done|].
      { intros r Hr. split; [by apply Hlens|]. apply (Hno r Hr). }
      rewrite E1, E2, binv_dom by done. rewrite Qcmult_1_l. change (qz 0) with 0%Qc. by rewrite !Qcplus_0_l.
Qed.
End Tables.
