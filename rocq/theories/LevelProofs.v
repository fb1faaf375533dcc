(** The breadth-first levels of the clique tree. *)
From Verif Require Import JTModel JTSpec TreeProofs RootedProofs BeliefProofs PrimProofs.
Local Open Scope nat_scope.

(** Separator [s] joins cliques [c] and [d]. *)
Definition adj (seps : list sepr) (s c d : nat) : Prop :=
  exists x, seps !! s = Some x /\ ((sp_a x = c /\ sp_b x = d) \/ (sp_a x = d /\ sp_b x = c)).
Definition far (seps : list sepr) (s c : nat) : nat :=
  match seps !! s with Some x => if decide (sp_a x = c) then sp_b x else sp_a x | None => 0 end.
Lemma adj_sym seps s c d : adj seps s c d -> adj seps s d c.
Proof. intros (x & ? & ?). exists x. tauto. Qed.
Lemma adj_far seps s c d : adj seps s c d -> far seps s c = d.
Proof. intros (x & Hx & H). unfold far. rewrite Hx. case_decide; intuition congruence. Qed.
Lemma adj_lt seps s c d : adj seps s c d -> s < length seps.
Proof. intros (x & Hx & _). by eapply lookup_lt_Some. Qed.
Lemma adj_det seps s c d e : adj seps s c d -> adj seps s c e -> d = e.
Proof. intros H1 H2. apply adj_far in H1, H2. congruence. Qed.
Lemma adj_other seps s c d i j : adj seps s c d -> adj seps s i j -> (i = c /\ j = d) \/ (i = d /\ j = c).
Proof. intros (x & Hx & H) (y & Hy & H'). assert (x = y) as -> by congruence. intuition congruence. Qed.

Lemma clique_neighbours_spec o seps i : valid_order o -> NoDup (clique_neighbours o seps i) /\
  forall s, s ∈ clique_neighbours o seps i <-> exists d, adj seps s i d.
Proof.
  intros [Hn _]. unfold clique_neighbours. split.
  - rewrite Hn. assert (forall (xs : list sepr) k, StronglySorted lt (fst <$> filter (fun p : nat * sepr => sp_a (snd p) = i \/ sp_b (snd p) = i) (zip (seq k (length xs)) xs)) /\
      forall j, j ∈ fst <$> filter (fun p : nat * sepr => sp_a (snd p) = i \/ sp_b (snd p) = i) (zip (seq k (length xs)) xs) -> k <= j) as H.
    { induction xs as [|x xs IH]; intros k; [split; [constructor|by intros j ?%elem_of_nil]|]. cbn [length seq zip zip_with]. destruct (IH (S k)) as [H1 H2].
      rewrite filter_cons. case_decide.
      - rewrite fmap_cons. cbn [fst]. split.
        + constructor; [done|]. apply Forall_forall. intros j Hj. apply H2 in Hj. lia.
        + intros j [->|Hj]%elem_of_cons; [done|]. apply H2 in Hj. lia.
      - split; [done|]. intros j Hj. apply H2 in Hj. lia. }
    destruct (H seps 0) as [H1 _]. revert H1. clear. intros HS. induction HS as [|a l HS IH HF]; [constructor|]. constructor; [|done]. intros Hin. rewrite Forall_forall in HF. specialize (HF _ Hin). lia.
  - intros s. rewrite (elem_of_Permutation_proper s _ _ (Hn _)). rewrite elem_of_list_fmap. split.
    + intros ([s' x] & -> & Hin). apply elem_of_list_filter in Hin as [Hc Hin]. apply elem_of_list_lookup in Hin as [k Hk]. apply lookup_zip_with_Some in Hk as (a & b & [= <- <-] & Ha & Hb).
      apply lookup_seq in Ha as [-> _]. cbn in *. destruct Hc as [Hc|Hc]; [exists (sp_b x)|exists (sp_a x)]; exists x; tauto.
    + intros (d & x & Hx & Hc). exists (s, x). split; [done|]. apply elem_of_list_filter. cbn. split; [tauto|]. apply elem_of_list_lookup. exists s. apply lookup_zip_with_Some. exists s, x. split_and!; try done.
      apply lookup_seq. split; [done|]. by eapply lookup_lt_Some.
Qed.

(** The levels below the root: a level of separators, then a level of cliques, per block of links. *)
Fixpoint level_list (Ls : list (list link)) : list (list nat) :=
  match Ls with [] => [] | B :: Ls' => (l_sep <$> B) :: (l_dn <$> B) :: level_list Ls' end.
(** Each level hangs off the previous one. *)
Fixpoint hangs (vec : list nat) (Ls : list (list link)) : Prop :=
  match Ls with
  | [] => True
  | B :: Ls' => B <> [] /\ (forall l, l ∈ B -> l_up l ∈ vec) /\ hangs (l_dn <$> B) Ls'
  end.
Section levels.
Context (o : mem_order) (Ho : valid_order o) (nc : nat) (seps : list sepr) (r : nat) (Hr : r < nc).
Context (Htree : tree (ends <$> seps) (seq 0 nc)) (Hlt : forall s, s ∈ seps -> sp_a s < sp_b s).
Notation ns := (length seps).
Notation adj := (adj seps).
Notation far := (far seps).

(** What the marks say, the first half about links [L1], the second about [L2]. *)
Record marks_ok (L1 L2 : list link) (mk : marks) : Prop := {
  mk_len : length (up_c mk) = nc /\ length (dn_c mk) = nc /\ length (up_s mk) = ns /\ length (dn_s mk) = ns;
  mk_root : up_c mk !! r = Some None;
  mk_upc : forall l, l ∈ L1 -> up_c mk !! l_dn l = Some (Some (l_sep l));
  mk_dns : forall l, l ∈ L1 -> dn_s mk !! l_sep l = Some [l_dn l];
  mk_dns' : forall s, s < ns -> s ∉ l_sep <$> L1 -> dn_s mk !! s = Some [];
  mk_ups : forall l, l ∈ L2 -> up_s mk !! l_sep l = Some (Some (l_up l));
  mk_dnc : forall c, c < nc -> dn_c mk !! c = Some (l_sep <$> filter (fun l => l_up l = c) L2) }.
Record links_ok (L : list link) : Prop := {
  lk_ord : ordered [r] L;
  lk_nd : NoDup (l_sep <$> L);
  lk_adj : forall l, l ∈ L -> adj (l_sep l) (l_up l) (l_dn l) }.
Set Default Proof Using "All".
Lemma adj_bound s c d : adj s c d -> c < nc /\ d < nc /\ c <> d.
Proof.
  intros (x & Hx & H). apply elem_of_list_lookup_2 in Hx. assert ((sp_a x, sp_b x) ∈ ends <$> seps) as Hin by (apply elem_of_list_fmap; by exists x).
  destruct Htree as (Hw & _). apply Hw in Hin. rewrite !elem_of_seq in Hin. specialize (Hlt x Hx). lia.
Qed.
Lemma links_connected L x y : links_ok L -> x ∈ seen r L -> y ∈ seen r L -> rtc (step (edges_of L)) x y.
Proof.
  intros [Hord _ _] Hx Hy. clear -Hord Hx Hy. assert (forall z, z ∈ seen r L -> rtc (step (edges_of L)) r z) as H.
  2: { transitivity r; [apply steps_sym; by apply H|by apply H]. }
  clear Hx Hy. revert Hord. induction L as [|l L IH] using rev_ind; intros Hord z Hz.
  - by apply elem_of_list_singleton in Hz as ->.
  - apply ordered_app in Hord as [Hord (Hu & Hd & _)]. specialize (IH Hord). unfold seen in Hz. rewrite fmap_app in Hz. cbn in Hz.
    rewrite app_comm_cons, elem_of_app, elem_of_list_singleton in Hz.
    assert (forall a b, rtc (step (edges_of L)) a b -> rtc (step (edges_of (L ++ [l]))) a b) as Hm.
    { intros a b. apply rtc_mono. intros c d Hcd. apply (step_snoc (fun _ => [])). by left. }
    destruct Hz as [Hz| ->]; [by apply Hm, IH|]. eapply rtc_r; [apply Hm, (IH (l_up l)), Hu|]. apply (step_snoc (fun _ => [])). tauto.
Qed.
Lemma links_new L s c d : links_ok L -> c ∈ seen r L -> s ∉ l_sep <$> L -> adj s c d -> links_ok (L ++ [mkLink s c d]).
Proof.
  intros HL Hc Hs Had. assert (d ∉ seen r L) as Hd.
  { intros Hd. pose proof (links_connected L c d HL Hc Hd) as Hcd. destruct Had as (x & Hx & Hends).
    pose proof Hx as Hx'. apply take_drop_middle in Hx.
    rewrite <-Hx in Htree. rewrite fmap_app, fmap_cons in Htree. unfold ends at 2 in Htree.
    apply (bridge _ _ _ _ _ (NoDup_seq _ _)) in Htree. apply Htree.
    assert (rtc (step ((ends <$> take s seps) ++ (ends <$> drop (S s) seps))) c d) as Hp.
    { eapply rtc_mono; [|exact Hcd]. intros a b Hab.
      assert (forall a b, (a, b) ∈ edges_of L -> step ((ends <$> take s seps) ++ (ends <$> drop (S s) seps)) a b) as Hedge.
      { intros a' b' Hin. apply elem_of_list_fmap in Hin as (l & Heq & Hl). injection Heq as -> ->. destruct (lk_adj _ HL l Hl) as (y & Hy & Hye).
        assert (l_sep l <> s) as Hne. { intros <-. apply Hs. by apply elem_of_list_fmap_1. }
        assert (y ∈ take s seps ++ drop (S s) seps) as Hyin.
        { apply elem_of_app. destruct (decide (l_sep l < s)).
          - left. apply elem_of_list_lookup. exists (l_sep l). by rewrite lookup_take.
          - right. apply elem_of_list_lookup. exists (l_sep l - S s). rewrite lookup_drop. rewrite <-Hy. f_equal. lia. }
        apply (elem_of_list_fmap_1 ends) in Hyin. rewrite fmap_app in Hyin. unfold ends at 1 in Hyin.
        destruct Hye as [[H1 H2]|[H1 H2]]; rewrite H1, H2 in Hyin; [by left|by right]. }
      destruct Hab as [Hab|Hab]; [by apply Hedge|by apply step_sym, Hedge]. }
    destruct Hends as [[-> ->]|[-> ->]]; [done|by apply steps_sym]. }
  split.
  - apply ordered_app. split; [apply HL|]. cbn. done.
  - rewrite fmap_app. cbn. apply NoDup_app. split_and!; [apply HL| |apply NoDup_singleton]. intros x Hx ->%elem_of_list_singleton. done.
  - intros l Hl. apply elem_of_app in Hl as [Hl| ->%elem_of_list_singleton]; [by apply HL|done].
Qed.
Lemma links_prefix L L' : links_ok (L ++ L') -> links_ok L.
Proof.
  intros [H1 H2 H3]. split.
  - by apply ordered_app in H1 as [? _].
  - rewrite fmap_app in H2. by apply NoDup_app in H2 as [? _].
  - intros l Hl. apply H3, elem_of_app. by left.
Qed.
Lemma seen_nodup L : links_ok L -> NoDup (seen r L).
Proof. intros HL. apply (ordered_nodup [r]); [apply HL|apply NoDup_singleton]. Qed.
Lemma seen_app L L' : seen r (L ++ L') = seen r L ++ (l_dn <$> L').
Proof. unfold seen. by rewrite fmap_app. Qed.
Lemma seen_bound L c : links_ok L -> c ∈ seen r L -> c < nc.
Proof.
  intros HL [->|Hc]%elem_of_cons; [done|]. apply elem_of_list_fmap in Hc as (l & -> & Hl). apply HL, adj_bound in Hl. tauto.
Qed.
Lemma links_up L l : links_ok L -> l ∈ L -> l_up l ∈ seen r L.
Proof.
  intros HL Hl. destruct (ordered_within [r] L (l_up l) (l_dn l)) as [? _]; [apply HL| |done]. apply elem_of_list_fmap. by exists l.
Qed.
Lemma links_dn L l l' : links_ok L -> l ∈ L -> l' ∈ L -> l_dn l = l_dn l' -> l = l'.
Proof.
  intros HL Hl Hl' Heq. pose proof (seen_nodup L HL) as Hnd. apply NoDup_cons in Hnd as [_ Hnd].
  apply elem_of_list_lookup in Hl as [i Hi]. apply elem_of_list_lookup in Hl' as [j Hj].
  assert (i = j) as ->; [|congruence]. eapply NoDup_lookup; [exact Hnd| |]; rewrite list_lookup_fmap; [rewrite Hi; done|rewrite Hj; cbn; by rewrite Heq].
Qed.
Lemma links_sep L l l' : links_ok L -> l ∈ L -> l' ∈ L -> l_sep l = l_sep l' -> l = l'.
Proof.
  intros HL Hl Hl' Heq. pose proof (lk_nd _ HL) as Hnd.
  apply elem_of_list_lookup in Hl as [i Hi]. apply elem_of_list_lookup in Hl' as [j Hj].
  assert (i = j) as ->; [|congruence]. eapply NoDup_lookup; [exact Hnd| |]; rewrite list_lookup_fmap; [rewrite Hi; done|rewrite Hj; cbn; by rewrite Heq].
Qed.
(** ** From a level of cliques to a level of separators *)
Definition links_at (L : list link) (ss : list nat) (i : nat) : list link :=
  (fun s => mkLink s i (far s i)) <$> filter (fun s => s ∉ l_sep <$> L) ss.
Definition links_from (L : list link) (vec : list nat) : list link :=
  vec ≫= (fun i => links_at L (clique_neighbours o seps i) i).
Record front (L : list link) (vec : list nat) : Prop := {
  fr_nd : NoDup vec;
  fr_seen : forall c, c ∈ vec -> c ∈ seen r L;
  fr_up : forall l, l ∈ L -> l_up l ∉ vec;
  fr_closed : forall c s d, c ∈ seen r L -> c ∉ vec -> adj s c d -> s ∈ l_sep <$> L }.
Lemma links_at_app L s1 s2 i : links_at L (s1 ++ s2) i = links_at L s1 i ++ links_at L s2 i.
Proof. unfold links_at. by rewrite filter_app, fmap_app. Qed.
Lemma links_from_app L v1 v2 : links_from L (v1 ++ v2) = links_from L v1 ++ links_from L v2.
Proof. unfold links_from. by rewrite bind_app. Qed.
Lemma visit_clique_spec L B vec i mk v2 : links_ok (L ++ B) -> front L vec -> i ∈ vec -> (forall l, l ∈ B -> l_up l <> i) -> marks_ok L (L ++ B) mk ->
  let B' := links_at L (clique_neighbours o seps i) i in
  exists mk', visit_clique o seps i (mk, v2) = Ok (mk', v2 ++ (l_sep <$> B')) /\ links_ok (L ++ B ++ B') /\ marks_ok L (L ++ B ++ B') mk'.
Proof.
  intros HLB Hf Hi HBi Hmk B'. destruct (clique_neighbours_spec o seps i Ho) as [Hnd Hnb]. unfold visit_clique.
  assert (i ∈ seen r L) as HiL by (by apply (fr_seen _ _ Hf)). pose proof (links_prefix _ _ HLB) as HL. pose proof (seen_bound L i HL HiL) as Hin.
  edestruct (mfor_inv (fun done (st : marks * list nat) => st.2 = v2 ++ (l_sep <$> links_at L done i) /\ links_ok (L ++ B ++ links_at L done i) /\
     marks_ok L (L ++ B ++ links_at L done i) st.1)) as (st' & Hst' & Hv & H1 & H2).
  3: { exists st'.1. rewrite Hst'. split_and!; [|done|done]. destruct st'. cbn in *. by rewrite Hv. }
  { cbn. rewrite !app_nil_r. done. }
  intros done s rest [mk1 v1] Heq (Hv & HL1 & Hm1). cbn [fst snd] in *.
  rewrite Heq in Hnd. apply NoDup_app in Hnd as (_ & Hdisj & _). assert (s ∉ done) as Hsd. { intros Hs. apply (Hdisj s Hs). left. }
  destruct (proj1 (Hnb s)) as [d Had]; [rewrite Heq; apply elem_of_app; right; left|].
  assert (exists u, up_c mk1 !! i = Some u /\ (u = Some s <-> s ∈ l_sep <$> L)) as (u & Hu & Hus).
  { assert (s ∈ l_sep <$> L -> exists l, l ∈ L /\ l_sep l = s /\ l_dn l = i) as Hback.
    { intros Hs. apply elem_of_list_fmap in Hs as (l & -> & Hl). exists l. split_and!; [done|done|]. pose proof (lk_adj _ HL l Hl) as Hla. destruct (adj_other _ _ _ _ _ _ Hla Had) as [[-> _]|[-> _]]; [|done].
      exfalso. by apply (fr_up _ _ Hf l Hl). }
    apply elem_of_cons in HiL as [->|HiL].
    - exists None. split; [apply Hm1|]. split; [done|]. intros Hs. destruct (Hback Hs) as (l & Hl & _ & Hd). exfalso. pose proof (seen_nodup L HL) as Hsn. apply NoDup_cons in Hsn as [Hsn _]. apply Hsn. rewrite <-Hd. by apply elem_of_list_fmap_1.
    - apply elem_of_list_fmap in HiL as (l & -> & Hl). exists (Some (l_sep l)). split; [by apply Hm1|]. split.
      + intros [= <-]. by apply elem_of_list_fmap_1.
      + intros Hs. destruct (Hback Hs) as (l' & Hl' & <- & Hd). by rewrite (links_dn L l l' HL). }
  rewrite (vget_ok _ _ _ Hu). cbn [mbind outcome_bind]. rewrite links_at_app.
  assert (links_at L [s] i = if decide (s ∉ l_sep <$> L) then [mkLink s i (far s i)] else []) as -> by (unfold links_at; rewrite filter_cons, filter_nil; by case_decide).
  destruct (decide (s ∉ l_sep <$> L)) as [HsL|HsL].
  - rewrite bool_decide_false by (by rewrite Hus). rewrite (vget_ok _ _ _ (mk_dnc _ _ _ Hm1 i Hin)). cbn [mbind outcome_bind].
    destruct (mk_len _ _ _ Hm1) as (Hl1 & Hl2 & Hl3 & Hl4). rewrite (vset_ok (dn_c mk1)) by lia. cbn [mbind outcome_bind].
    pose proof (adj_lt _ _ _ _ Had) as Hsl. rewrite (vset_ok (up_s mk1)) by lia. cbn [mbind outcome_bind]. eexists. split; [done|]. cbn [fmap list_fmap fst snd]. rewrite (adj_far _ _ _ _ Had).
    assert (s ∉ l_sep <$> (L ++ B ++ links_at L done i)) as HsN.
    { rewrite !fmap_app, !elem_of_app. intros [Hs|[Hs|Hs]]; [done| |].
      - apply elem_of_list_fmap in Hs as (l & -> & Hl). assert (l ∈ L ++ B) as Hl' by (apply elem_of_app; by right).
        pose proof (lk_adj _ HLB l Hl') as Hla. destruct (adj_other _ _ _ _ _ _ Hla Had) as [[He _]|[He _]]; [by apply (HBi l Hl)|].
        pose proof (seen_nodup _ HLB) as Hsn. rewrite seen_app in Hsn. apply NoDup_app in Hsn as (_ & Hsn & _). apply (Hsn i HiL). rewrite He. by apply elem_of_list_fmap_1.
      - unfold links_at in Hs. rewrite <-list_fmap_compose in Hs. apply elem_of_list_fmap in Hs as (s' & Hs' & Hs''). cbn in Hs'. subst s'. apply elem_of_list_filter in Hs''. tauto. }
    assert (links_ok ((L ++ B ++ links_at L done i) ++ [mkLink s i d])) as Hnew.
    { apply links_new; [done| |done|done]. rewrite seen_app. apply elem_of_app. by left. }
    split_and!.
    + rewrite fmap_app. cbn. rewrite Hv. by rewrite <-app_assoc.
    + by rewrite <-!app_assoc in Hnew.
    + replace (L ++ B ++ links_at L done i ++ [mkLink s i d]) with ((L ++ B ++ links_at L done i) ++ [mkLink s i d]) by (by rewrite <-!app_assoc). destruct Hm1. split; cbn [up_c up_s dn_c dn_s]; try done.
      * rewrite !insert_length. done.
      * intros l Hl. apply elem_of_app in Hl as [Hl| ->%elem_of_list_singleton].
        -- rewrite list_lookup_insert_ne; [auto|]. intros ->. apply HsN. by apply elem_of_list_fmap_1.
        -- cbn. apply list_lookup_insert. lia.
      * intros c Hc. rewrite (filter_app _ (L ++ B ++ links_at L done i)), filter_cons, filter_nil. cbn [l_up]. case_decide as Hic.
        -- subst c. rewrite list_lookup_insert by lia. rewrite fmap_app. done.
        -- rewrite list_lookup_insert_ne by done. rewrite app_nil_r. auto.
  - assert (s ∈ l_sep <$> L) as Hs' by (destruct (decide (s ∈ l_sep <$> L)); tauto). rewrite bool_decide_true by (by apply Hus). eexists. split; [done|]. cbn [fmap list_fmap fst snd]. rewrite !app_nil_r. done.
Qed.
Lemma links_from_elem L vec l : l ∈ links_from L vec <-> l_up l ∈ vec /\ l_sep l ∉ l_sep <$> L /\ adj (l_sep l) (l_up l) (l_dn l).
Proof.
  unfold links_from, links_at. rewrite elem_of_list_bind. split.
  - intros (i & Hl & Hi). apply elem_of_list_fmap in Hl as (s & -> & Hs). apply elem_of_list_filter in Hs as [Hs Hnb]. cbn. apply (clique_neighbours_spec o seps i Ho) in Hnb as [d Hd]. rewrite (adj_far _ _ _ _ Hd). done.
  - intros (Hu & Hs & Ha). exists (l_up l). split; [|done]. apply elem_of_list_fmap. exists (l_sep l). split.
    + rewrite (adj_far _ _ _ _ Ha). by destruct l.
    + apply elem_of_list_filter. split; [done|]. apply (clique_neighbours_spec o seps _ Ho). eauto.
Qed.
Lemma visit_cliques_spec L vec mk : links_ok L -> front L vec -> marks_ok L L mk ->
  exists mk', mfor vec (visit_clique o seps) (mk, []) = Ok (mk', l_sep <$> links_from L vec) /\ links_ok (L ++ links_from L vec) /\ marks_ok L (L ++ links_from L vec) mk'.
Proof.
  intros HL Hf Hm.
  edestruct (mfor_inv (fun done (st : marks * list nat) => st.2 = l_sep <$> links_from L done /\ links_ok (L ++ links_from L done) /\
     marks_ok L (L ++ links_from L done) st.1)) as (st' & Hst' & Hv & H1 & H2).
  3: { exists st'.1. rewrite Hst'. split_and!; [|done|done]. destruct st'. cbn in *. by rewrite Hv. }
  { cbn. rewrite !app_nil_r. done. }
  intros done i rest [mk1 v1] Heq (Hv & HL1 & Hm1). cbn [fst snd] in *.
  destruct (visit_clique_spec L (links_from L done) vec i mk1 v1) as (mk2 & -> & H1 & H2); [done|done|rewrite Heq; apply elem_of_app; right; left| |done|].
  { intros l Hl Hli. apply links_from_elem in Hl as [Hl _]. pose proof (fr_nd _ _ Hf) as Hnd. rewrite Heq in Hnd. apply NoDup_app in Hnd as (_ & Hnd & _). apply (Hnd _ Hl). rewrite Hli. left. }
  eexists. split; [done|]. cbn [fst snd]. rewrite links_from_app.
  assert (links_from L [i] = links_at L (clique_neighbours o seps i) i) as -> by (unfold links_from; cbn [mbind list_bind]; by rewrite app_nil_r). split_and!; [|done|done].
  rewrite fmap_app. by rewrite <-Hv.
Qed.
(** ** From a level of separators to a level of cliques *)
Lemma visit_sep_spec L1 L2 l mk v2 : links_ok (L1 ++ [l]) -> (forall l', l' ∈ L1 ++ [l] -> l' ∈ L2) -> marks_ok L1 L2 mk ->
  exists mk', visit_sep o seps (l_sep l) (mk, v2) = Ok (mk', v2 ++ [l_dn l]) /\ marks_ok (L1 ++ [l]) L2 mk'.
Proof.
  intros HL Hsub Hm. assert (l ∈ L1 ++ [l]) as Hl by (apply elem_of_app; right; left).
  pose proof (lk_adj _ HL l Hl) as Ha. pose proof Ha as (x & Hx & Hends). destruct (adj_bound _ _ _ Ha) as (Hub & Hdb & Hne).
  unfold visit_sep, sep_neighbours. rewrite (vget_ok _ _ _ Hx). cbn [mbind outcome_bind].
  pose proof (mk_ups _ _ _ Hm l (Hsub l Hl)) as Hup.
  assert (l_sep l ∉ l_sep <$> L1) as HsN.
  { pose proof (lk_nd _ HL) as Hnd. rewrite fmap_app in Hnd. apply NoDup_app in Hnd as (_ & Hnd & _). intros Hin. apply (Hnd _ Hin). left. }
  assert (l_dn l ∉ seen r L1) as HdN.
  { pose proof (seen_nodup _ HL) as Hnd. rewrite seen_app in Hnd. apply NoDup_app in Hnd as (_ & Hnd & _). intros Hin. apply (Hnd _ Hin). left. }
  pose proof (mk_dns' _ _ _ Hm _ (adj_lt _ _ _ _ Ha) HsN) as Hdn. destruct (mk_len _ _ _ Hm) as (Hl1 & Hl2 & Hl3 & Hl4).
  set (mk' := mkMarks (<[l_dn l := Some (l_sep l)]> (up_c mk)) (up_s mk) (dn_c mk) (<[l_sep l := [l_dn l]]> (dn_s mk))).
  assert (marks_ok (L1 ++ [l]) L2 mk') as Hm'.
  { destruct Hm. unfold mk'. split; cbn [up_c up_s dn_c dn_s]; try done.
    - rewrite !insert_length. done.
    - rewrite list_lookup_insert_ne; [done|]. intros He. apply HdN. rewrite He. left.
    - intros l' Hl'. apply elem_of_app in Hl' as [Hl'| ->%elem_of_list_singleton].
      + rewrite list_lookup_insert_ne; [auto|]. intros He. apply HdN. rewrite He. right. by apply elem_of_list_fmap_1.
      + apply list_lookup_insert. lia.
    - intros l' Hl'. apply elem_of_app in Hl' as [Hl'| ->%elem_of_list_singleton].
      + rewrite list_lookup_insert_ne; [auto|]. intros He. apply HsN. rewrite He. by apply elem_of_list_fmap_1.
      + apply list_lookup_insert. pose proof (adj_lt _ _ _ _ Ha). lia.
    - intros s Hs HsN'. rewrite fmap_app, elem_of_app in HsN'. rewrite list_lookup_insert_ne; [apply mk_dns'0; tauto|]. intros <-. apply HsN'. right. left. }
  exists mk'. split; [|done].
  assert (forall st : marks * list nat, up_s (fst st) !! l_sep l = Some (Some (l_up l)) ->
    (u ← vget (up_s (fst st)) (l_sep l); if bool_decide (u = Some (l_up l)) then Ok st else
       d ← vget (dn_s (fst st)) (l_sep l); dn ← vset (dn_s (fst st)) (l_sep l) (d ++ [l_up l]); up ← vset (up_c (fst st)) (l_up l) (Some (l_sep l));
       Ok (mkMarks up (up_s (fst st)) (dn_c (fst st)) dn, snd st ++ [l_up l])) = Ok st) as Hskip.
  { intros st Hst. rewrite (vget_ok _ _ _ Hst). cbn [mbind outcome_bind]. by rewrite bool_decide_true. }
  assert ((u ← vget (up_s mk) (l_sep l); if bool_decide (u = Some (l_dn l)) then Ok (mk, v2) else
       d ← vget (dn_s mk) (l_sep l); dn ← vset (dn_s mk) (l_sep l) (d ++ [l_dn l]); up ← vset (up_c mk) (l_dn l) (Some (l_sep l));
       Ok (mkMarks up (up_s mk) (dn_c mk) dn, v2 ++ [l_dn l])) = Ok (mk', v2 ++ [l_dn l])) as Hact.
  { rewrite (vget_ok _ _ _ Hup). cbn [mbind outcome_bind]. rewrite bool_decide_false by congruence. rewrite (vget_ok _ _ _ Hdn). cbn [mbind outcome_bind app].
    rewrite (vset_ok (dn_s mk)) by (pose proof (adj_lt _ _ _ _ Ha); lia). cbn [mbind outcome_bind]. rewrite (vset_ok (up_c mk)) by lia. cbn [mbind outcome_bind]. done. }
  assert (mo_nodes o [sp_a x; sp_b x] = [l_up l; l_dn l] \/ mo_nodes o [sp_a x; sp_b x] = [l_dn l; l_up l]) as Hperm.
  { pose proof (proj1 Ho [sp_a x; sp_b x]) as Hp. destruct (mo_nodes o [sp_a x; sp_b x]) as [|a [|b [|]]]; try (apply Permutation_length in Hp; cbn in Hp; lia).
    apply Permutation_length_2_inv in Hp || apply Permutation_length_2 in Hp. destruct Hends as [[E1 E2]|[E1 E2]]; rewrite E1, E2 in Hp; intuition congruence. }
  specialize (Hskip (mk, v2) Hup) as Hskip1. specialize (Hskip (mk', v2 ++ [l_dn l]) Hup) as Hskip2. cbn [fst snd] in Hskip1, Hskip2.
  destruct Hperm as [-> | ->]; cbn [mfor].
  - rewrite Hskip1. cbn [mbind outcome_bind]. rewrite Hact. done.
  - rewrite Hact. cbn [mbind outcome_bind]. rewrite Hskip2. done.
Qed.
Lemma visit_seps_spec L B mk : links_ok (L ++ B) -> marks_ok L (L ++ B) mk ->
  exists mk', mfor (l_sep <$> B) (visit_sep o seps) (mk, []) = Ok (mk', l_dn <$> B) /\ marks_ok (L ++ B) (L ++ B) mk'.
Proof.
  intros HL Hm. assert (forall B1 B0 mk v, B = B0 ++ B1 -> marks_ok (L ++ B0) (L ++ B) mk ->
    exists mk', mfor (l_sep <$> B1) (visit_sep o seps) (mk, v) = Ok (mk', v ++ (l_dn <$> B1)) /\ marks_ok (L ++ B) (L ++ B) mk') as H.
  { induction B1 as [|l B1 IH]; intros B0 mk0 v HB Hm0; cbn [fmap list_fmap mfor].
    - rewrite app_nil_r in *. subst B0. eauto.
    - destruct (visit_sep_spec (L ++ B0) (L ++ B) l mk0 v) as (mk1 & -> & Hm1).
      + apply (links_prefix _ B1). rewrite <-!app_assoc. cbn. by rewrite <-HB.
      + intros l'. rewrite HB, !elem_of_app, !elem_of_cons, elem_of_nil. tauto.
      + done.
      + cbn [mbind outcome_bind]. destruct (IH (B0 ++ [l]) mk1 (v ++ [l_dn l])) as (mk2 & -> & Hm2).
        * by rewrite <-app_assoc.
        * by rewrite app_assoc.
        * exists mk2. by rewrite <-app_assoc. }
  destruct (H B [] mk [] eq_refl) as (mk' & ? & ?); [by rewrite app_nil_r|eauto].
Qed.
(** ** All levels *)
Lemma front_step L vec : links_ok L -> links_ok (L ++ links_from L vec) -> front L vec -> front (L ++ links_from L vec) (l_dn <$> links_from L vec).
Proof.
  intros HL HLB Hf. pose proof (seen_nodup _ HLB) as Hnd. rewrite seen_app in Hnd. apply NoDup_app in Hnd as (_ & Hdisj & Hnd). split.
  - done.
  - intros c Hc. rewrite seen_app. apply elem_of_app. by right.
  - intros l Hl Hin. apply (Hdisj (l_up l)); [|done]. apply elem_of_app in Hl as [Hl|Hl]; [by apply links_up|]. apply links_from_elem in Hl as [Hl _]. by apply (fr_seen _ _ Hf).
  - intros c s d Hc Hcn Ha. rewrite seen_app, elem_of_app in Hc. destruct Hc as [Hc|Hc]; [|done]. rewrite fmap_app, elem_of_app.
    destruct (decide (c ∈ vec)) as [Hv|Hv]; [|left; by apply (fr_closed _ _ Hf c s d)].
    destruct (decide (s ∈ l_sep <$> L)) as [|Hs]; [by left|right]. apply elem_of_list_fmap. exists (mkLink s c d). split; [done|]. by apply links_from_elem.
Qed.
Lemma links_count L : links_ok L -> length L <= ns.
Proof.
  intros HL. pose proof (lk_nd _ HL) as Hnd. rewrite <-(fmap_length l_sep). rewrite <-(seq_length ns 0). apply submseteq_length, NoDup_submseteq; [done|].
  intros s Hs. apply elem_of_list_fmap in Hs as (l & -> & Hl). apply HL, adj_lt in Hl. apply elem_of_seq. lia.
Qed.
Lemma level_loop_spec fuel : forall L vec levels mk, links_ok L -> front L vec -> marks_ok L L mk -> vec <> [] -> Nat.odd (length levels) = true -> 2 * (ns - length L) + 1 <= fuel ->
  exists Ls mk', level_loop fuel o seps vec levels mk = Ok (levels ++ level_list Ls ++ [[]], mk') /\ links_ok (L ++ concat Ls) /\ front (L ++ concat Ls) [] /\ marks_ok (L ++ concat Ls) (L ++ concat Ls) mk' /\ hangs vec Ls.
Proof.
  induction fuel as [fuel IH] using lt_wf_ind. intros L vec levels mk HL Hf Hm Hv Hodd Hfuel. destruct fuel as [|fuel]; [lia|].
  destruct vec as [|c vec]; [done|]. cbn [level_loop]. rewrite Hodd. destruct (visit_cliques_spec L (c :: vec) mk HL Hf Hm) as (mk1 & -> & HLB & Hm1). cbn [mbind outcome_bind fst snd].
  pose proof (front_step L (c :: vec) HL HLB Hf) as Hf1.
  set (B := links_from L (c :: vec)) in *. destruct (decide (B = [])) as [HB|HB].
  - rewrite HB in *. cbn [fmap list_fmap]. exists [], mk1. cbn [concat level_list]. rewrite app_nil_r in *. cbn [fmap list_fmap] in Hf1. destruct fuel; cbn [level_loop]; split_and!; done.
  - destruct (l_sep <$> B) as [|s ss] eqn:Hss; [by destruct B|].
    assert (0 < length B) as HBl by (destruct B; [done|cbn; lia]). pose proof (links_count _ HLB) as Hcount. rewrite app_length in Hcount.
    destruct fuel as [|fuel]; [lia|]. cbn [level_loop]. assert (Nat.odd (length (levels ++ [s :: ss])) = false) as ->.
    { rewrite app_length. cbn. rewrite Nat.add_comm. cbn [Nat.add]. rewrite Nat.odd_succ, <-Nat.negb_odd, Hodd. done. }
    rewrite <-Hss. destruct (visit_seps_spec L B mk1 HLB Hm1) as (mk2 & -> & Hm2). cbn [mbind outcome_bind fst snd].
    destruct (IH fuel ltac:(lia) (L ++ B) (l_dn <$> B) ((levels ++ [l_sep <$> B]) ++ [l_dn <$> B]) mk2) as (Ls & mk' & -> & H1 & H2 & H3 & H4).
    + done.
    + done.
    + done.
    + by destruct B.
    + rewrite !app_length. cbn [length]. replace (length levels + 1 + 1) with (2 + length levels) by lia. by rewrite Nat.odd_add, Hodd.
    + rewrite app_length. lia.
    + exists (B :: Ls), mk'. cbn [concat]. rewrite <-app_assoc in H1, H2, H3. split_and!; [|done|done|done|].
      * cbn [level_list]. by rewrite <-!app_assoc.
      * cbn [hangs]. split_and!; [done| |done]. intros l Hl. by apply links_from_elem in Hl as [? _].
Qed.
Theorem mark_level_spec : exists Ls mk, let L := concat Ls in
  mark_level o nc seps r = Ok ([r] :: level_list Ls, mk) /\ hangs [r] Ls /\ links_ok L /\ marks_ok L L mk /\
  seen r L ≡ₚ seq 0 nc /\ l_sep <$> L ≡ₚ seq 0 ns.
Proof.
  unfold mark_level.
  destruct (level_loop_spec (nc + ns + 1) [] [r] [[r]] (no_marks nc ns)) as (Ls & mk & -> & H1 & H2 & H3 & H4).
  - split; [done|constructor|by intros l ?%elem_of_nil].
  - split; [apply NoDup_singleton|done|by intros l ?%elem_of_nil|done].
  - unfold no_marks. split; cbn [up_c up_s dn_c dn_s].
    + by rewrite !replicate_length.
    + by apply lookup_replicate.
    + by intros l ?%elem_of_nil.
    + by intros l ?%elem_of_nil.
    + intros s Hs _. by apply lookup_replicate.
    + by intros l ?%elem_of_nil.
    + intros c Hc. by apply lookup_replicate.
  - done.
  - done.
  - cbn. destruct Htree as (_ & _ & Hc). rewrite fmap_length, seq_length in Hc. lia.
  - cbn [mbind outcome_bind fst snd app] in *. exists Ls, mk. cbv zeta.
    assert (seen r (concat Ls) ≡ₚ seq 0 nc) as Hseen.
    { apply NoDup_Permutation; [by apply seen_nodup|apply NoDup_seq|]. intros x. split.
      - intros Hx. apply seen_bound in Hx; [|done]. apply elem_of_seq. lia.
      - intros Hx. destruct (decide (x ∈ seen r (concat Ls))) as [|Hn]; [done|exfalso]. destruct Htree as (_ & Hcon & _).
        assert (r ∈ seen r (concat Ls)) as Hrs by left. specialize (Hcon r x ltac:(apply elem_of_seq; lia) Hx).
        destruct (crossing _ (seen r (concat Ls)) r x Hcon Hrs Hn) as (a & b & Ha & Hb & Hab & _).
        assert (exists s, adj s a b) as [s Hs].
        { destruct Hab as [Hab|Hab]; apply elem_of_list_fmap in Hab as (y & Heq & Hy); injection Heq as -> ->; apply elem_of_list_lookup in Hy as [s Hs]; exists s, y; tauto. }
        pose proof (fr_closed _ _ H2 a s b Ha ltac:(by apply not_elem_of_nil) Hs) as Hin. apply elem_of_list_fmap in Hin as (l & -> & Hl).
        pose proof (lk_adj _ H1 l Hl) as Hla. apply Hb. destruct (adj_other _ _ _ _ _ _ Hla Hs) as [[_ ->]|[_ ->]]; [right; by apply elem_of_list_fmap_1|by apply links_up]. }
    split_and!; try done.
    + f_equal. f_equal. rewrite app_comm_cons, app_length. cbn [length]. rewrite Nat.add_sub. apply (take_app_alt ([r] :: level_list Ls)). done.
    + apply submseteq_Permutation_length_le.
      * rewrite seq_length, fmap_length. apply Permutation_length in Hseen. unfold seen in Hseen. cbn in Hseen. rewrite fmap_length, seq_length in Hseen.
        destruct Htree as (_ & _ & Hc). rewrite fmap_length, seq_length in Hc. lia.
      * apply NoDup_submseteq; [apply H1|]. intros s Hs. apply elem_of_list_fmap in Hs as (l & -> & Hl). apply H1, adj_lt in Hl. apply elem_of_seq. lia.
Qed.
End levels.

Lemma select_root_spec o nc seps : valid_order o -> 0 < nc -> tree (ends <$> seps) (seq 0 nc) -> (forall s, s ∈ seps -> sp_a s < sp_b s) ->
  exists r, select_root o nc seps = Ok r /\ r < nc.
Proof.
  intros Ho Hnc Ht Hlt. assert (forall r, r < nc -> exists m, get_max_level o nc seps r = Ok m) as Hg.
  { intros r Hr. unfold get_max_level. destruct (mark_level_spec o Ho nc seps r Hr Ht Hlt) as (Ls & mk & -> & _). cbn. eauto. }
  unfold select_root. destruct (Hg 0 Hnc) as [m0 ->]. cbn [mbind outcome_bind].
  edestruct (mfor_inv (fun (_ : list nat) (st : nat * nat) => st.2 < nc)) as (st' & -> & Hst').
  3: { cbn. eauto. }
  { done. }
  intros done i rest st Heq Hst. assert (i < nc) as Hi.
  { assert (i ∈ seq 1 (nc - 1)) as Hin by (rewrite Heq; apply elem_of_app; right; left). apply elem_of_seq in Hin. lia. }
  destruct (Hg i Hi) as [m ->]. cbn [mbind outcome_bind]. eexists. split; [done|]. by case_bool_decide.
Qed.
