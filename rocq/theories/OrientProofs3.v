(** The implication rules and the extension to a directed graph. *)
From Verif Require Import OrientModel OrientSpec NetProofs NetProofs2 NetProofs3 OrientProofs.
Local Open Scope nat_scope.

Lemma directing_app ok A D L1 L2 : directing ok A D (L1 ++ L2) <-> directing ok A D L1 /\ directing ok A (D ++ L1) L2.
Proof.
  revert D. induction L1 as [|[x y] L1 IH]; intros D; cbn [directing app]; [rewrite app_nil_r; tauto|]. rewrite IH, <-app_assoc. cbn [app]. tauto.
Qed.

Section rules.
Context (n : nat) (E : pairs) (A : adjs) (cap : nat).
Hypothesis HS : skeleton_of n E A.
Hypothesis Hcap : length E < cap.

Definition attempt (U D : pairs) (f : network -> outcome (network * bool)) (p q : nat) (Prem : Prop) : Prop :=
  forall N, pat n N U D -> exists N' b, f N = Ok (N', b) /\
  (b = true -> Prem /\ addable D p q /\ pat n N' (without U (bare (p, q))) (D ++ [(p, q)])) /\
  (b = false -> pat n N' U D /\ (Prem -> ~ addable D p q)).
Lemma attempt_iff U D f p q P P' : (P <-> P') -> attempt U D f p q P -> attempt U D f p q P'.
Proof. intros HPP H N HN. destruct (H N HN) as (N' & b & H1 & H2 & H3). exists N', b. split_and!; [done| |]; intros Hb; [apply H2 in Hb|apply H3 in Hb]; tauto. Qed.
Lemma attempt_no U D p q (P : Prop) : ~ P -> attempt U D (fun N => Ok (N, false)) p q P.
Proof. intros HP N HN. exists N, false. split_and!; [done|done|]. intros _. split; [done|]. tauto. Qed.
Lemma attempt_until {X} U D (f : X -> network -> outcome (network * bool)) l p q (P : X -> Prop) :
  (forall a, a ∈ l -> attempt U D (f a) p q (P a)) -> attempt U D (until_true f l) p q (exists a, a ∈ l /\ P a).
Proof.
  induction l as [|a l IH]; intros H; [apply (attempt_no U D p q); intros (a & Ha & _); by apply elem_of_nil in Ha|]. intros N HN. cbn [until_true]. destruct (H a ltac:(left) N HN) as (N1 & b & -> & Ht & Hf). cbn [mbind outcome_bind fst snd]. destruct b.
  - exists N1, true. split_and!; [done| |done]. intros _. destruct (Ht eq_refl) as (H1 & H2 & H3). split_and!; [exists a; split; [left|done]|done|done].
  - destruct (Hf eq_refl) as [HN1 Hp]. destruct (IH ltac:(intros; apply H; by right) N1 HN1) as (N2 & b & -> & Ht2 & Hf2). exists N2, b. split_and!; [done| |]; intros Hb.
    + destruct (Ht2 Hb) as ((x & Hx & Hpx) & H2 & H3). split_and!; [exists x; split; [by right|done]|done|done].
    + destruct (Hf2 Hb) as [H1 H2]. split; [done|]. intros (x & Hx & Hpx). apply elem_of_cons in Hx as [->|Hx]; [by apply Hp|]. apply H2. by exists x.
Qed.

Section fixed.
Context (U D : pairs).
Hypothesis Hperm : U ++ (bare <$> D) ≡ₚ E.
Lemma D_linked x y : (x, y) ∈ D -> linked A x y.
Proof using HS Hperm.
  clear Hcap.
  intros H. apply (linked_bare n E A x y HS). assert (bare (x, y) ∈ E) as HE by (rewrite <-Hperm; apply elem_of_app; right; by apply elem_of_list_fmap_1). split; [|done]. pose proof HS as (_ & Hb & _). unfold bare in HE. cbn in HE. apply Hb in HE. lia.
Qed.
Lemma lengths : length U + length D = length E.
Proof using Hperm. rewrite <-Hperm, app_length, fmap_length. done. Qed.
Lemma direct_attempt p q : open_edge A D p q -> attempt U D (fun N => direct cap N p q) p q True.
Proof using HS Hcap Hperm.
  intros Ho N HN. pose proof Ho as [Hl _]. destruct (linked_bound n E A _ _ HS Hl) as (Hp & Hq & Hne). destruct (direct_pat n N U D cap p q HN Hp Hq Hne) as (N' & b & -> & Ht & Hf); [rewrite lengths; lia|]. exists N', b. split_and!; [done| |]; intros Hb; [by split; [|apply Ht]|]. destruct (Hf Hb). done.
Qed.
Lemma rule1_attempt p q : open_edge A D p q -> attempt U D (rule1 cap A p q) p q (exists a, (a, p) ∈ D /\ ~ linked A q a).
Proof using HS Hcap Hperm.
  intros Ho N HN. pose proof Ho as [Hl _]. destruct (linked_bound n E A _ _ HS Hl) as (Hp & Hq & Hne). unfold rule1. pose proof HN as [HI Hlen _ _ _]. destruct (lookup_lt_is_Some_2 (nt_nodes N) p ltac:(lia)) as [nd Hnd]. rewrite (find_node_ok _ _ _ Hnd). cbn [mbind outcome_bind].
  assert (forall a, a ∈ nd_parents nd <-> (a, p) ∈ D) as Hpar. { intros a. rewrite <-(pat_directed _ _ _ _ a p HN), <-(netinv_parent N a p HI). unfold parent_rel. rewrite Hnd. naive_solver. }
  apply (attempt_iff U D _ p q (exists a, a ∈ nd_parents nd /\ ~ linked A q a)); [split; intros (a & Ha & ?); exists a; (split; [by apply Hpar|done])| |done].
  apply (attempt_until U D _ (nd_parents nd) p q (fun a => ~ linked A q a)). intros a _ N1 HN1. destruct (is_adjacent_ok n E A q a HS Hq) as (b & -> & Hb). cbn [mbind outcome_bind]. destruct b.
  - apply (attempt_no U D p q); [|done]. intros H. apply H. by apply Hb.
  - apply (attempt_iff U D (fun N => direct cap N p q) p q True); [|by apply direct_attempt|done]. split; [|done]. intros _ H. apply Hb in H. done.
Qed.
Lemma common_ok x y : x < n -> y < n -> exists l, common_adjacents A x y = Ok l /\ forall v, v ∈ l <-> linked A x v /\ linked A y v.
Proof using HS.
  clear Hcap.
  intros Hx Hy. pose proof HS as (_ & _ & Hl & _ & _). destruct (lookup_lt_is_Some_2 A x ltac:(lia)) as [r1 H1], (lookup_lt_is_Some_2 A y ltac:(lia)) as [r2 H2]. unfold common_adjacents, vat. rewrite H1, H2. cbn [mbind outcome_bind]. eexists. split; [done|]. intros v. rewrite elem_of_list_filter. unfold linked. rewrite H1, H2. naive_solver.
Qed.
Lemma rule2_attempt p q : open_edge A D p q -> attempt U D (rule2 cap A p q) p q (exists b, (p, b) ∈ D /\ (b, q) ∈ D).
Proof using HS Hcap Hperm.
  intros Ho N HN. pose proof Ho as [Hl _]. destruct (linked_bound n E A _ _ HS Hl) as (Hp & Hq & Hne). unfold rule2. destruct (common_ok p q Hp Hq) as (l & -> & Hmem). cbn [mbind outcome_bind].
  apply (attempt_iff U D _ p q (exists b, b ∈ l /\ ((p, b) ∈ D /\ (b, q) ∈ D))); [| |done].
  { split; [intros (b & _ & ?); by exists b|]. intros (b & H1 & H2). exists b. split; [|done]. apply Hmem. split; [by apply D_linked|]. eapply (linked_sym n E A); [done|]. by apply D_linked. }
  apply (attempt_until U D _ l p q (fun b => (p, b) ∈ D /\ (b, q) ∈ D)). intros b Hb N1 HN1. assert (b < n) as Hbn by (apply Hmem in Hb as [Hb _]; apply (linked_bound n E A _ _ HS) in Hb; lia).
  rewrite (is_directed_pat _ _ _ _ p b HN1 Hp Hbn). cbn [mbind outcome_bind]. case_bool_decide as H1; [|apply (attempt_no U D p q); [tauto|done]].
  rewrite (is_directed_pat _ _ _ _ b q HN1 Hbn Hq). cbn [mbind outcome_bind]. case_bool_decide as H2; [|apply (attempt_no U D p q); [tauto|done]].
  apply (attempt_iff U D (fun N => direct cap N p q) p q True); [tauto|by apply direct_attempt|done].
Qed.
Definition r3 (p q b c : nat) : Prop := open_edge A D p b /\ open_edge A D p c /\ (b, q) ∈ D /\ (c, q) ∈ D.
Lemma r3_attempt p q b c : open_edge A D p q -> b < n -> c < n -> attempt U D (r3_helper cap A q p b c) p q (r3 p q b c).
Proof using HS Hcap Hperm.
  intros Ho Hb Hc N HN. pose proof Ho as [Hl _]. destruct (linked_bound n E A _ _ HS Hl) as (Hp & Hq & Hne). unfold r3_helper. destruct (is_undirected_pat n E A N U D p b HS HN Hperm Hp Hb) as (b5 & -> & H5). destruct (is_undirected_pat n E A N U D p c HS HN Hperm Hp Hc) as (b6 & -> & H6). cbn [mbind outcome_bind].
  rewrite (is_directed_pat _ _ _ _ b q HN Hb Hq), (is_directed_pat _ _ _ _ c q HN Hc Hq). cbn [mbind outcome_bind]. unfold r3. destruct (b5 && b6 && bool_decide ((b, q) ∈ D) && bool_decide ((c, q) ∈ D)) eqn:Hall.
  - rewrite !andb_true_iff, !bool_decide_eq_true in Hall. apply (attempt_iff U D (fun N => direct cap N p q) p q True); [tauto|by apply direct_attempt|done].
  - apply (attempt_no U D p q); [|done]. intros (H1 & H2 & H3 & H4). apply H5 in H1. apply H6 in H2. subst. rewrite !bool_decide_true in Hall by done. done.
Qed.
Lemma rule3_attempt p q : open_edge A D p q -> attempt U D (rule3 cap A p q) p q (exists b c, b <> c /\ ~ linked A b c /\ r3 p q b c).
Proof using HS Hcap Hperm.
  intros Ho N HN. pose proof Ho as [Hl _]. destruct (linked_bound n E A _ _ HS Hl) as (Hp & Hq & Hne). unfold rule3. pose proof HS as (_ & _ & HlA & Hsort & _). 
  destruct (common_ok q p Hq Hp) as (l & Hcl & Hmem). rewrite Hcl. cbn [mbind outcome_bind].
  assert (NoDup l) as Hnd. { unfold common_adjacents, vat in Hcl. destruct (lookup_lt_is_Some_2 A q ltac:(lia)) as [r1 H1], (lookup_lt_is_Some_2 A p ltac:(lia)) as [r2 H2]. rewrite H1, H2 in Hcl. cbn in Hcl. injection Hcl as <-. apply NoDup_filter, lt_sorted_NoDup. by eapply Hsort. }
  assert (forall b c, r3 p q b c -> b ∈ l /\ c ∈ l) as Hin.
  { intros b c (H1 & H2 & H3 & H4). split; apply Hmem; (split; [eapply (linked_sym n E A), D_linked; done|apply H1 || apply H2]). }
  assert (forall i b, l !! i = Some b -> b < n) as Hbn by (intros i b Hb; apply elem_of_list_lookup_2, Hmem in Hb as [Hb _]; apply (linked_bound n E A _ _ HS) in Hb; lia).
  set (body := fun i j N => b ← vget l i; c ← vget l j; bc ← is_adjacent_to A b c; if (bc : bool) then Ok (N, false) else r3_helper cap A q p b c N).
  set (P := fun i j => exists b c, l !! i = Some b /\ l !! j = Some c /\ ~ linked A b c /\ r3 p q b c).
  apply (attempt_iff U D (fun N => if bool_decide (length l < 2) then Ok (N, false) else until_true (fun i => until_true (body i) (seq (S i) (length l - S i))) (seq 0 (length l)) N) p q (exists i, i ∈ seq 0 (length l) /\ exists j, j ∈ seq (S i) (length l - S i) /\ P i j)); [| |done].
  { split.
    - intros (i & Hi & j & Hj & b & c & Hb & Hc & H1 & H2). exists b, c. split_and!; [|done|done]. intros ->. apply elem_of_seq in Hj. assert (i = j) by (eapply NoDup_lookup; done). lia.
    - intros (b & c & Hbc & Hnl & Hr). destruct (Hin b c Hr) as [Hb Hc]. apply elem_of_list_lookup in Hb as [i Hi], Hc as [j Hj]. pose proof (lookup_lt_Some _ _ _ Hi). pose proof (lookup_lt_Some _ _ _ Hj). destruct (decide (i < j)) as [Hij|Hij].
      + exists i. split; [apply elem_of_seq; lia|]. exists j. split; [apply elem_of_seq; lia|]. by exists b, c.
      + assert (i <> j) by congruence. exists j. split; [apply elem_of_seq; lia|]. exists i. split; [apply elem_of_seq; lia|]. exists c, b. split_and!; [done|done| |unfold r3 in *; tauto]. intros Hcb. apply Hnl. by eapply linked_sym. }
  intros N1 HN1. case_bool_decide as Hlen.
  { apply (attempt_no U D p q); [|done]. intros (i & Hi & j & Hj & _). apply elem_of_seq in Hi, Hj. lia. }
  revert N1 HN1. change (attempt U D (until_true (fun i => until_true (body i) (seq (S i) (length l - S i))) (seq 0 (length l))) p q (exists i, i ∈ seq 0 (length l) /\ exists j, j ∈ seq (S i) (length l - S i) /\ P i j)).
  apply (attempt_until U D _ (seq 0 (length l)) p q (fun i => exists j, j ∈ seq (S i) (length l - S i) /\ P i j)). intros i Hi. apply elem_of_seq in Hi.
  apply (attempt_until U D _ (seq (S i) (length l - S i)) p q (P i)). intros j Hj N1 HN1. apply elem_of_seq in Hj. unfold body, P.
  destruct (lookup_lt_is_Some_2 l i ltac:(lia)) as [b Hb], (lookup_lt_is_Some_2 l j ltac:(lia)) as [c Hc]. rewrite (vget_ok l i b Hb), (vget_ok l j c Hc). cbn [mbind outcome_bind].
  destruct (is_adjacent_ok n E A b c HS ltac:(by eapply Hbn)) as (bc & -> & Hbc). cbn [mbind outcome_bind]. destruct bc.
  - apply (attempt_no U D p q); [|done]. intros (b' & c' & Hb' & Hc' & Hn & _). rewrite Hb in Hb'. rewrite Hc in Hc'. injection Hb' as <-. injection Hc' as <-. apply Hn. by apply Hbc.
  - apply (attempt_iff U D (r3_helper cap A q p b c) p q (r3 p q b c)); [|apply r3_attempt; [done|by eapply Hbn|by eapply Hbn]|done]. split.
    + intros Hr. exists b, c. split_and!; [done|done| |done]. intros H. apply Hbc in H. done.
    + intros (b' & c' & Hb' & Hc' & _ & Hr). rewrite Hb in Hb'. rewrite Hc in Hc'. injection Hb' as <-. injection Hc' as <-. done.
Qed.
Lemma open_sym x y : open_edge A D x y -> open_edge A D y x.
Proof using HS. intros (H1 & H2 & H3). split_and!; [by eapply linked_sym|done|done]. Qed.
Lemma any_rule_ok x y N : open_edge A D x y -> pat n N U D -> exists N' b, any_rule cap A x y N = Ok (N', b) /\
  (b = true -> exists p q, open_edge A D p q /\ bare (p, q) = bare (x, y) /\ implied A D p q /\ addable D p q /\ pat n N' (without U (bare (x, y))) (D ++ [(p, q)])) /\
  (b = false -> pat n N' U D /\ (implied A D x y -> ~ addable D x y) /\ (implied A D y x -> ~ addable D y x)).
Proof using HS Hcap Hperm.
  intros Ho HN. pose proof (open_sym x y Ho) as Ho'.
  set (ok := fun b N' => (b = true -> exists p q, open_edge A D p q /\ bare (p, q) = bare (x, y) /\ implied A D p q /\ addable D p q /\ pat n N' (without U (bare (x, y))) (D ++ [(p, q)]))).
  assert (forall f l p q P N, attempt U D f p q P -> (P -> implied A D p q) -> open_edge A D p q -> bare (p, q) = bare (x, y) -> pat n N U D ->
    (forall N1, pat n N1 U D -> (P -> ~ addable D p q) -> exists N' b, until_true (fun f N => f N) l N1 = Ok (N', b) /\ ok b N' /\ (b = false -> pat n N' U D /\ (implied A D x y -> ~ addable D x y) /\ (implied A D y x -> ~ addable D y x))) ->
    exists N' b, until_true (fun f N => f N) (f :: l) N = Ok (N', b) /\ ok b N' /\ (b = false -> pat n N' U D /\ (implied A D x y -> ~ addable D x y) /\ (implied A D y x -> ~ addable D y x))) as Hstep.
  { clear N HN. intros f l p q P N Hat HPi Hop Hbare HN Hrest. cbn [until_true]. destruct (Hat N HN) as (N1 & b & -> & Ht & Hf). cbn [mbind outcome_bind fst snd]. destruct b.
    - exists N1, true. split_and!; [done| |done]. intros _. destruct (Ht eq_refl) as (H1 & H2 & H3). exists p, q. rewrite Hbare in H3. split_and!; auto.
    - destruct (Hf eq_refl) as [H1 H2]. by apply Hrest. }
  unfold any_rule.
  eapply (Hstep _ _ x y); [by apply rule1_attempt|intros; by left|done|done|done|]. intros N1 HN1 F1.
  eapply (Hstep _ _ y x); [by apply rule1_attempt|intros; by left|done|apply bare_swap|done|]. intros N2 HN2 F2.
  eapply (Hstep _ _ x y); [by apply rule2_attempt|intros; by right; left|done|done|done|]. intros N3 HN3 F3.
  eapply (Hstep _ _ y x); [by apply rule2_attempt|intros; by right; left|done|apply bare_swap|done|]. intros N4 HN4 F4.
  eapply (Hstep _ _ x y); [by apply rule3_attempt|intros; by right; right|done|done|done|]. intros N5 HN5 F5.
  eapply (Hstep _ _ y x); [by apply rule3_attempt|intros; by right; right|done|apply bare_swap|done|]. intros N6 HN6 F6.
  cbn [until_true]. exists N6, false. split_and!; [done|done|]. intros _. split_and!; [done| |]; intros [H|[H|H]]; auto.
Qed.
End fixed.

Lemma pat_lookup N U D k : pat n N U D -> nt_edges N !! k = match U !! k with Some p => Some (mkEdge (fst p) (snd p) Tail Tail false None) | None => de <$> D !! (k - length U) end.
Proof.
  intros [_ _ He Hs _]. rewrite He. destruct (U !! k) as [p|] eqn:Hp.
  - rewrite lookup_app_l by (rewrite fmap_length; by eapply lookup_lt_Some). rewrite list_lookup_fmap, Hp. cbn. rewrite ue_sorted; [done|]. rewrite Forall_forall in Hs. apply Hs. by eapply elem_of_list_lookup_2.
  - apply lookup_ge_None in Hp. rewrite lookup_app_r by (by rewrite fmap_length). by rewrite fmap_length, list_lookup_fmap.
Qed.
Definition closed (D : pairs) (x y : nat) : Prop := (implied A D x y -> ~ addable D x y) /\ (implied A D y x -> ~ addable D y x).
Lemma U_open U D k p N : pat n N U D -> U ++ (bare <$> D) ≡ₚ E -> U !! k = Some p -> open_edge A D (fst p) (snd p) /\ bare p = p.
Proof using HS.
  clear Hcap.
  intros HN Hperm Hk. apply elem_of_list_lookup_2 in Hk. assert (fst p < snd p) as Hlt by (pose proof (pt_sorted _ _ _ _ HN) as Hs; rewrite Forall_forall in Hs; by apply Hs). pose proof (bare_id p Hlt) as Hb. split; [|done].
  apply (open_edge_U n E A U D _ _ HS Hperm). split; [clear -Hlt; lia|]. destruct p. cbn [fst snd]. by rewrite Hb.
Qed.
Lemma without_length U p : NoDup U -> p ∈ U -> S (length (without U p)) = length U.
Proof.
  intros HU Hin. apply elem_of_list_split in Hin as (U1 & U2 & ->). apply NoDup_app in HU as (_ & H1 & H2). apply NoDup_cons in H2 as [H2 _]. rewrite without_split; [|intros H; apply (H1 _ H); left|done]. rewrite !app_length. cbn. lia.
Qed.
Lemma drop_without U k p : NoDup U -> U !! k = Some p -> drop k (without U p) = drop (S k) U /\ take k (without U p) = take k U.
Proof.
  intros HU Hk. rewrite <-(take_drop_middle U k p Hk) in HU. pose proof (take_drop_middle U k p Hk) as Heq. apply NoDup_app in HU as (_ & H1 & H2). apply NoDup_cons in H2 as [H2 _].
  rewrite <-Heq at 1 3. rewrite without_split; [|intros H; apply (H1 _ H); left|done]. assert (length (take k U) = k) as Hlen by (rewrite take_length; apply lookup_lt_Some in Hk; lia).
  split; [by rewrite drop_app_alt|by rewrite take_app_alt].
Qed.
Lemma implied_pass_ok fuel : forall k o N U D, pat n N U D -> U ++ (bare <$> D) ≡ₚ E -> length U - k < fuel ->
  exists N' U' L, implied_pass fuel cap A k o N = Ok (N', o || negb (bool_decide (L = []))) /\ pat n N' U' (D ++ L) /\ U' ++ (bare <$> D ++ L) ≡ₚ E /\ directing (implied A) A D L /\
    (L = [] -> U' = U /\ forall p, p ∈ drop k U -> closed D (fst p) (snd p)).
Proof using HS Hcap.
  induction fuel as [|fuel IH]; intros k o N U D HN Hperm Hfuel; [lia|]. cbn [implied_pass]. rewrite (pat_lookup N U D k HN). destruct (U !! k) as [p|] eqn:Hk.
  - destruct (U_open U D k p N HN Hperm Hk) as [Ho Hbare]. cbn [e_n1 e_n2]. pose proof (linked_bound n E A _ _ HS (proj1 Ho)) as (H1 & H2 & _). destruct (is_undirected_pat n E A N U D (fst p) (snd p) HS HN Hperm H1 H2) as (u & -> & Hu). cbn [mbind outcome_bind]. destruct u; [|apply Hu in Ho; done].
    destruct (any_rule_ok U D Hperm (fst p) (snd p) N Ho HN) as (N1 & b & -> & Ht & Hf). cbn [mbind outcome_bind fst snd]. pose proof (lookup_lt_Some _ _ _ Hk) as Hlk. destruct b.
    + destruct (Ht eq_refl) as (x & y & Hoxy & Hxy & Himp & Hadd & HN1). rewrite <-Hxy in HN1. assert (bare (x, y) ∈ U) as HinU by (apply (open_edge_U n E A U D x y HS Hperm) in Hoxy; tauto). pose proof (perm_move U D E x y (pt_nodup _ _ _ _ HN) HinU Hperm) as Hperm1.
      destruct (IH k true N1 _ _ HN1 Hperm1) as (N' & U' & L & -> & HN' & Hp' & Hd' & _). { pose proof (without_length U _ (pt_nodup _ _ _ _ HN) HinU). lia. }
      exists N', U', ((x, y) :: L). rewrite <-app_assoc in HN', Hp'. cbn [app] in HN', Hp'. split_and!; [|done|done| |done]; [by rewrite orb_true_l, orb_true_r|]. cbn [directing]. done.
    + destruct (Hf eq_refl) as (HN1 & Hcl). destruct (IH (S k) o N1 U D HN1 Hperm ltac:(lia)) as (N' & U' & L & -> & HN' & Hp' & Hd' & Hc'). exists N', U', L. split_and!; [done|done|done|done|]. intros HL. destruct (Hc' HL) as [-> Hc2]. split; [done|]. intros q Hq. rewrite (drop_S _ _ _ Hk) in Hq. apply elem_of_cons in Hq as [->|Hq]; [done|by apply Hc2].
  - exists N, U, []. rewrite app_nil_r. assert (forall p, p ∈ drop k U -> closed D p.1 p.2) as Hnone by (rewrite drop_ge by (by apply lookup_ge_None); set_solver). assert (o = o || negb (bool_decide (@nil (nat * nat) = []))) as Hoo by (rewrite bool_decide_true by done; by rewrite orb_false_r).
    destruct (D !! (k - length U)) as [[x y]|] eqn:HD; cbn [fmap option_fmap option_map].
    + apply elem_of_list_lookup_2 in HD. pose proof (linked_bound n E A _ _ HS (D_linked U D Hperm x y HD)) as (H1 & H2 & _). cbn [e_n1 e_n2 de directed_edge fst snd]. destruct (is_undirected_pat n E A N U D x y HS HN Hperm H1 H2) as (u & -> & Hu). cbn [mbind outcome_bind]. destruct u; [destruct (proj1 Hu eq_refl) as (_ & Hn & _); done|]. rewrite <-Hoo. split_and!; done.
    + rewrite <-Hoo. split_and!; done.
Qed.
Lemma orient_implied_ok fuel : forall N U D, pat n N U D -> U ++ (bare <$> D) ≡ₚ E -> length U < fuel ->
  exists N' U' L, orient_implied fuel cap A N = Ok N' /\ pat n N' U' (D ++ L) /\ U' ++ (bare <$> D ++ L) ≡ₚ E /\ directing (implied A) A D L /\ forall x y, open_edge A (D ++ L) x y -> implied A (D ++ L) x y -> ~ addable (D ++ L) x y.
Proof using HS Hcap.
  induction fuel as [|fuel IH]; intros N U D HN Hperm Hfuel; [lia|]. cbn [orient_implied]. destruct (implied_pass_ok (S fuel) 0 false N U D HN Hperm ltac:(lia)) as (N1 & U1 & L1 & -> & HN1 & Hp1 & Hd1 & Hc1). cbn [mbind outcome_bind fst snd orb]. case_bool_decide as HL; cbn [negb].
  - exists N1, U1, L1. destruct (Hc1 HL) as [-> Hc]. rewrite HL in *. rewrite app_nil_r in *. split_and!; try done. intros x y Ho. apply (open_edge_U n E A U D x y HS Hperm) in Ho as [Hne Hin]. rewrite drop_0 in Hc. destruct (Hc _ Hin) as [H1 H2]. unfold bare in H1, H2. cbn [fst snd] in H1, H2. destruct (decide (x < y)).
    + rewrite Nat.min_l, Nat.max_r in * by lia. done.
    + rewrite Nat.min_r, Nat.max_l in * by lia. done.
  - destruct (IH N1 U1 (D ++ L1) HN1 Hp1) as (N' & U' & L & -> & HN' & Hp' & Hd' & Hc').
    { apply Permutation_length in Hperm, Hp1. rewrite app_length, fmap_length in Hperm, Hp1. rewrite app_length in Hp1. destruct L1; [done|]. cbn in Hp1. lia. }
    exists N', U', (L1 ++ L). rewrite app_assoc. split_and!; try done. by apply directing_app.
Qed.
Lemma two_ways (D : pairs) x y : acyclic (fun u v => (u, v) ∈ D) -> x <> y -> ~ addable D x y -> ~ addable D y x -> False.
Proof.
  intros Hac Hne H1 H2. unfold addable in *. assert (forall x y, x <> y -> ~ acyclic (fun u v => (u, v) ∈ D ++ [(x, y)]) -> ~ ~ tc (fun u v => (u, v) ∈ D) y x) as H.
  { intros a b Hab Hn Hnt. apply Hn. apply (acyclic_ext (fun u v => (u, v) ∈ D \/ (u = a /\ v = b))); [intros u v; rewrite elem_of_app, elem_of_list_singleton; naive_solver|]. apply acyclic_add_edge; [done|]. tauto. }
  apply (H x y Hne H1). intros Hyx. apply (H y x ltac:(done) H2). intros Hxy. apply (Hac x). by etrans.
Qed.
Lemma direct_left_ok coin fuel : forall t N U D, pat n N U D -> U ++ (bare <$> D) ≡ₚ E -> length U < fuel ->
  exists N' L, direct_left_edges fuel cap A coin t 0 N = Ok N' /\ pat n N' [] (D ++ L) /\ (bare <$> D ++ L) ≡ₚ E /\ directing (fun _ _ _ => True) A D L.
Proof using HS Hcap.
  induction fuel as [|fuel IH]; intros t N U D HN Hperm Hfuel; [lia|]. cbn [direct_left_edges]. rewrite (pat_lookup N U D 0 HN). destruct U as [|p U]; cbn [lookup list_lookup length].
  - exists N, []. rewrite app_nil_r. destruct (D !! (0 - 0)) as [[x y]|] eqn:HD; cbn [fmap option_fmap option_map]; [|split_and!; done].
    apply elem_of_list_lookup_2 in HD. pose proof (linked_bound n E A _ _ HS (D_linked [] D Hperm x y HD)) as (H1 & H2 & _). cbn [e_n1 e_n2 de directed_edge fst snd]. destruct (is_undirected_pat n E A N [] D x y HS HN Hperm H1 H2) as (u & -> & Hu). cbn [mbind outcome_bind]. destruct u; [destruct (proj1 Hu eq_refl) as (_ & Hn & _); done|]. split_and!; done.
  - destruct (U_open (p :: U) D 0 p N HN Hperm eq_refl) as [Ho Hbare]. cbn [e_n1 e_n2]. pose proof (linked_bound n E A _ _ HS (proj1 Ho)) as (H1 & H2 & Hne). destruct (is_undirected_pat n E A N (p :: U) D (fst p) (snd p) HS HN Hperm H1 H2) as (u & -> & Hu). cbn [mbind outcome_bind]. destruct u; [|apply Hu in Ho; done].
    assert (exists x y, (if coin t then (p.2, p.1) else (p.1, p.2)) = (x, y) /\ open_edge A D x y) as (x & y & -> & Hoxy). { destruct (coin t); eexists _, _; (split; [done|]); [by apply open_sym|done]. }
    pose proof (open_sym D x y Hoxy) as Hoyx. destruct (direct_attempt (p :: U) D Hperm x y Hoxy N HN) as (N1 & b & -> & Ht & Hf). cbn [mbind outcome_bind fst snd].
    assert (forall u v N2, open_edge A D u v -> addable D u v -> pat n N2 (without (p :: U) (bare (u, v))) (D ++ [(u, v)]) -> exists N' L, direct_left_edges fuel cap A coin (S t) 0 N2 = Ok N' /\ pat n N' [] (D ++ L) /\ (bare <$> D ++ L) ≡ₚ E /\ directing (fun _ _ _ => True) A D L) as Hrest.
    { intros u v N2 Huv Hadd HN2. assert (bare (u, v) ∈ p :: U) as HinU by (apply (open_edge_U n E A _ D u v HS Hperm) in Huv; tauto). pose proof (perm_move _ D E u v (pt_nodup _ _ _ _ HN) HinU Hperm) as Hperm1.
      destruct (IH (S t) N2 _ _ HN2 Hperm1) as (N' & L & -> & HN' & Hp' & Hd'). { pose proof (without_length _ _ (pt_nodup _ _ _ _ HN) HinU) as Hw. cbn [length] in Hfuel, Hw. lia. }
      exists N', ((u, v) :: L). rewrite <-app_assoc in HN', Hp'. split_and!; done. }
    destruct b; cbn [snd].
    + cbn [mbind outcome_bind snd fst]. destruct (Ht eq_refl) as (_ & Ha & HN1). exact (Hrest x y N1 Hoxy Ha HN1).
    + destruct (Hf eq_refl) as [HN1 Hna]. destruct (direct_attempt (p :: U) D Hperm y x Hoyx N1 HN1) as (N2 & b & -> & Ht2 & Hf2). cbn [mbind outcome_bind fst snd]. destruct b.
      * destruct (Ht2 eq_refl) as (_ & Ha & HN2). exact (Hrest y x N2 Hoyx Ha HN2).
      * destruct (Hf2 eq_refl) as [_ Hna2]. exfalso. eapply (two_ways D x y); [by eapply pat_acyclic| |by apply Hna|by apply Hna2]. apply (open_edge_U n E A _ D x y HS Hperm) in Hoxy. tauto.
Qed.
End rules.
