(** Evidence, propagation and queries in exact and in rounded arithmetic. *)
From Coq Require Import Field QArith.
From Verif Require Import RoundModel RoundSpec ParProofs PassProofs EvidenceProofs BeliefSpec FlowProofs UtilProofs RoundProofs RoundTables RoundState RoundLevels RoundFlow TableSpec TableProofs.
From Verif Require LevelProofs.

Lemma configs_filter (dom : nat -> nat) (dom_pos : forall v, 0 < dom v) (P : nat -> Prop) `{!forall v, Decision (P v)} vs : length (configs (dom <$> filter P vs)) <= length (configs (dom <$> vs)).
Proof.
  rewrite !configs_length. induction vs as [|v vs IH]; [done|]. rewrite filter_cons. case_decide; rewrite ?fmap_cons; unfold prod_list in *; cbn [foldr] in *; specialize (dom_pos v); nia.
Qed.

Section query.
Context (dom : nat -> nat) (dom_pos : forall v, (0 < dom v)%nat) (c : Qc) (rnd : Qc -> Qc) (Hr : rounds c rnd).
Notation apart := (apart c).
Notation similar := (similar dom c).
Notation tnear := (tnear dom c).
Notation alike := (alike dom).
Notation srel := (srel dom c).
Notation wf := (wf dom).
Notation valid := (valid dom).

(** Entry by entry, or assignment by assignment. *)
Lemma similar_tval s k t t' a : similar s k t t' -> valid a -> apart k (s * tval t a)%Qc (tval t' a).
Proof using dom_pos.
  intros [A H] Ha. pose proof (alike_fields dom t t' A) as (H1 & H2 & _). destruct A as (Hw & Hw' & _). apply (H (lex_index (pt_dims t) (a <$> pt_vars t))); [by apply (tval_lookup dom dom_pos)|].
  rewrite <-H1, <-H2. by apply (tval_lookup dom dom_pos).
Qed.
Lemma tval_similar s k t t' : alike t t' -> (forall a, valid a -> apart k (s * tval t a)%Qc (tval t' a)) -> similar s k t t'.
Proof using dom_pos.
  intros A H. split; [done|]. pose proof (alike_fields dom t t' A) as (H1 & H2 & _ & _ & _ & H6 & _). intros i x y Hx Hy. destruct A as (Hw & Hw' & _).
  destruct (slot_asg dom dom_pos t i Hw) as (a & Ha & <- & _); [apply lookup_lt_Some in Hx; lia|].
  pose proof (tval_lookup dom dom_pos t a Hw Ha) as E. pose proof (tval_lookup dom dom_pos t' a Hw' Ha) as E'. rewrite H1, H2 in E'. assert (x = tval t a) as -> by congruence. assert (y = tval t' a) as -> by congruence. by apply H.
Qed.
Lemma reduced_near k v x t t' u u' : reduced dom v x t u -> reduced dom v x t' u' -> tnear k t t' -> tnear k u u'.
Proof using dom_pos Hr.
  intros (W & V & H) (W' & V' & H') (s & Hs & Hsim). exists s. split; [done|]. pose proof Hsim as [(_ & _ & E) _]. apply tval_similar; [split_and!; [done|done|congruence]|].
  intros a Ha. rewrite (H a Ha), (H' a Ha). case_bool_decide as Hx.
  - apply similar_tval; [done|]. by apply valid_upd.
  - replace (s * 0)%Qc with 0%Qc by ring. apply (apart_refl c rnd Hr). apply Qcle_refl.
Qed.
Lemma reduced_size v x t u : wf t -> reduced dom v x t u -> pt_size u <= pt_size t.
Proof using dom_pos. intros Hw (W & V & _). rewrite (wf_size _ _ W), (wf_size _ _ Hw), (wf_dims _ _ W), (wf_dims _ _ Hw), V. by apply configs_filter. Qed.
Lemma srel_wf M k st st' : srel M k st st' -> Forall wf (t_c st) /\ Forall wf (t_s st) /\ Forall wf (t_c st') /\ Forall wf (t_s st').
Proof using.
  intros (H1 & H2 & H). split_and!; apply Forall_forall; intros t (i & Ht)%elem_of_list_lookup.
  - destruct (partner _ _ i t H1 Ht) as [t' Ht']. destruct (H (TC i) t t' Ht Ht') as [(A & _)%tnear_alike _]. done.
  - destruct (partner _ _ i t H2 Ht) as [t' Ht']. destruct (H (TS i) t t' Ht Ht') as [(A & _)%tnear_alike _]. done.
  - destruct (partner _ _ i t (eq_sym H1) Ht) as [t' Ht']. destruct (H (TC i) t' t Ht' Ht) as [(_ & A & _)%tnear_alike _]. done.
  - destruct (partner _ _ i t (eq_sym H2) Ht) as [t' Ht']. destruct (H (TS i) t' t Ht' Ht) as [(_ & A & _)%tnear_alike _]. done.
Qed.
Lemma tabof_partner st st' x t : length (t_c st) = length (t_c st') -> length (t_s st) = length (t_s st') -> tabof st x = Some t -> exists t', tabof st' x = Some t'.
Proof using. intros H1 H2 Ht. destruct x as [i|i]; cbn in *; by eapply partner. Qed.
Lemma tabof_wf st x t : Forall wf (t_c st) -> Forall wf (t_s st) -> tabof st x = Some t -> wf t.
Proof using. intros H1 H2 Ht. destruct x as [i|i]; cbn in *; [rewrite Forall_lookup in H1|rewrite Forall_lookup in H2]; eauto. Qed.

Lemma evidence_rel M k sch tag n E st st' : valid_scheduler sch -> srel M k st st' -> orel (srel M k) (load_evidence sch tag n E st) (load_evidence sch tag n E st').
Proof using dom_pos Hr.
  intros Hsch Hst. unfold load_evidence. apply (orel_mfor_plain (srel M k)); [done|]. clear st st' Hst. intros (i & v & x) st st' _ Hst. case_bool_decide; [done|].
  pose proof (srel_wf _ _ _ _ Hst) as (W1 & W2 & W3 & W4). pose proof Hst as (L1 & L2 & Hn).
  destruct (tables_with_spec dom dom_pos st v W1 W2) as (nodes & -> & ND & HE). destruct (tables_with_spec dom dom_pos st' v W3 W4) as (nodes' & -> & ND' & HE'). cbn [mbind outcome_bind].
  destruct (load_nodes_spec dom dom_pos sch (tag ++ [i]) st nodes v x Hsch ND) as (u & -> & U1 & U2 & U3 & U4).
  { intros y Hy. apply HE in Hy as (t & Ht & Hv). exists t. split_and!; [done|exact (tabof_wf st y t W1 W2 Ht)|done]. }
  destruct (load_nodes_spec dom dom_pos sch (tag ++ [i]) st' nodes' v x Hsch ND') as (u' & -> & U1' & U2' & U3' & U4').
  { intros y Hy. apply HE' in Hy as (t & Ht & Hv). exists t. split_and!; [done|exact (tabof_wf st' y t W3 W4 Ht)|done]. }
  cbn. split_and!; [congruence|congruence|]. intros y a a' Ha Ha'.
  destruct (tabof_partner u st y a U1 U2 Ha) as [t Ht]. destruct (tabof_partner st st' y t L1 L2 Ht) as [t' Ht']. destruct (Hn y t t' Ht Ht') as [Hnear HM]. pose proof (tnear_alike _ _ _ _ _ Hnear) as (Hw & Hw' & Hvars).
  destruct (decide (v ∈ pt_vars t)) as [Hv|Hv].
  - destruct (U4 y t) as (b & Hb & Rb); [apply HE; eauto|done|]. destruct (U4' y t') as (b' & Hb' & Rb'); [apply HE'; exists t'; by rewrite Hvars|done|].
    assert (b = a) as -> by congruence. assert (b' = a') as -> by congruence. split; [by eapply reduced_near|]. etrans; [exact (reduced_size v x t a Hw Rb)|done].
  - rewrite U3 in Ha by (intros (t2 & E2 & Hv2)%HE; by simplify_eq). rewrite U3' in Ha' by (intros (t2 & E2 & Hv2)%HE'; simplify_eq; by rewrite Hvars in Hv2). simplify_eq. done.
Qed.

(** ** Propagation *)
Context (T : jtree) (r : nat) (Ls : list (list link)) (HT : tree_ok T r Ls).
Context (sc ss : nat -> list nat).
Context (Htail : forall l, l ∈ concat Ls -> exists ws, sc (l_dn l) = ws ++ ss (l_sep l)).
Context (Hups : forall l v, l ∈ concat Ls -> v ∈ ss (l_sep l) -> v ∈ sc (l_up l)).
Notation L := (concat Ls).
Definition passed (n M b : nat) : nat := 2 * (n + 1) * (n + 1) * (b + M + 4).
Lemma counts_exist b w M : w = M + 3 -> exists ld dd : nat -> nat,
  (forall q, q ∈ seen r L -> b + sum_list_with (fun l => ld (l_dn l) + w) (filter (fun l => l_up l = q) L) <= ld q) /\
  ld r <= dd r /\ (forall l, l ∈ L -> dd (l_up l) + 2 * ld (l_dn l) + 2 * M + 4 <= dd (l_dn l)) /\
  (forall q, q ∈ seen r L -> ld q <= length (seen r L) * (b + w)) /\ forall q, q ∈ seen r L -> dd q <= 2 * (length (seen r L) + 1) * (length (seen r L) + 1) * (b + w).
Proof using HT Htail Hups dom_pos.
  intros Hw. destruct (loads_exist b w Ls [r] (to_hangs _ _ _ HT) (to_nodup _ _ _ HT)) as (ld & H1 & _ & H3). destruct (depths_exist Ls [r] (to_hangs _ _ _ HT) (to_nodup _ _ _ HT)) as (dp & D1 & D2 & D3).
  set (n := length (seen r L)). change (length ([r] ++ (l_dn <$> L))) with n in H3. change ([r] ++ (l_dn <$> L)) with (seen r L) in H1, H3, D3. set (A := n * (b + w)) in *.
  assert (n = S (length L)) as Hn by (unfold n, seen; cbn; by rewrite fmap_length).
  exists ld, (fun q => A + dp q * (2 * A + 2 * M + 4)). split_and!.
  - done.
  - rewrite (D1 r) by left. specialize (H3 r). unfold seen in H3. specialize (H3 (elem_of_list_here _ _)). lia.
  - intros l Hl. rewrite (D2 l Hl). assert (l_dn l ∈ seen r L) as Hs by (right; by apply elem_of_list_fmap_1). specialize (H3 _ Hs). nia.
  - intros q Hq. specialize (H3 q Hq). lia.
  - intros q Hq. specialize (D3 q Hq). assert (dp q * (2 * A + 2 * M + 4) <= n * (2 * A + 2 * M + 4)) as Hdp by (apply Nat.mul_le_mono_r; lia).
    assert (A + n * (2 * A + 2 * M + 4) <= 2 * (n + 1) * (n + 1) * (b + w)); [|lia]. unfold A. set (X := b + w) in *. assert (2 * M + 4 <= 2 * X) as HX by (unfold X; lia).
    assert (n * (2 * M + 4) <= n * (2 * X)) by (by apply Nat.mul_le_mono_l). nia.
Qed.
Lemma propagate_rel M b sch E st st' : valid_scheduler sch -> srel M (fun x => match x with TC _ => b | TS _ => 0 end) st st' ->
  orel (fun u u' => length (t_c u) = length (t_c u') /\ forall q t t', t_c u !! q = Some t -> t_c u' !! q = Some t' -> tnear (passed (length (seen r L)) M b) t t' /\ pt_size t <= M)
    (propagate sch T E st) (propagate_r rnd sch T E st').
Proof using All.
  intros Hsch Hst. unfold propagate, propagate_r. destruct (counts_exist (S b) (M + 3) M eq_refl) as (ld & dd & H1 & H2 & H3 & H4 & H5).
  eapply orel_bind; [by apply evidence_rel|]. intros s1 s1' S1. pose proof S1 as (L1 & L2 & HS1).
  eapply orel_bind; [apply (orel_mcollect_at (fun j t t' => tnear (S b) t t' /\ pt_size t <= M)); [done|]|].
  { intros j t t' Ht Ht'. destruct (HS1 (TC j) t t' Ht Ht') as [(s & Hs & Hsim) HM]. eapply orel_mono; [|by apply (table_normalize_near dom c rnd Hr s b)]. cbn. intros a a' (? & _ & _ & E'). by rewrite E'. }
  intros cs cs' (C1 & C2 & HC). eapply orel_bind; [eapply (collect_rel dom dom_pos c rnd Hr T r Ls HT sc ss Htail Hups M (S b) ld dd H1 H2 H3); [done|]|].
  { split_and!; [cbn; congruence|done|]. intros [q|s] t t' Ht Ht'; cbn in Ht, Ht'.
    - destruct (HC q t t' Ht Ht') as [Hn HM]. split; [|done]. eapply (tnear_weaken dom c rnd Hr); [|exact Hn]. cbn. lia.
    - destruct (HS1 (TS s) t t' Ht Ht') as [Hn HM]. split; [|done]. eapply (tnear_weaken dom c rnd Hr); [|exact Hn]. lia. }
  intros s2 s2' S2. eapply orel_mono; [|eapply (distribute_rel dom dom_pos c rnd Hr T r Ls HT sc ss Htail Hups M (S b) ld dd H1 H2 H3); [done|exact S2]].
  cbn beta. intros u u' (U1 & _ & U). split; [done|]. intros q t t' Ht Ht'. destruct (U (TC q) t t' Ht Ht') as [Hn HM]. split; [|done]. eapply (tnear_weaken dom c rnd Hr); [|exact Hn].
  unfold passed. replace (b + M + 4) with (S b + (M + 3)) by lia. destruct (decide (q ∈ seen r L)) as [Hq|Hq].
  - pose proof (kdis_done dom dom_pos c rnd Hr T r Ls HT sc ss Htail Hups M (S b) ld dd H1 H2 H3 q Hq) as Hk. specialize (H4 q Hq). specialize (H5 q Hq). nia.
  - cbn [kdis]. rewrite decide_False by done. cbn. assert (filter (fun l => l_up l = q) L = []) as ->; [|cbn; nia].
    destruct (filter (fun l => l_up l = q) L) as [|l rest] eqn:E'; [done|exfalso]. assert (l ∈ filter (fun l => l_up l = q) L) as Hl by (rewrite E'; left).
    apply elem_of_list_filter in Hl as [Hu Hl]. apply Hq. rewrite <-Hu. by apply (up_seen dom dom_pos T r Ls HT sc ss (fun _ => 0%Qc) Htail Hups).
Qed.

(** ** Reading the answers *)
Definition cliques_near (F M : nat) (u u' : tabs) : Prop := length (t_c u) = length (t_c u') /\ forall q t t', t_c u !! q = Some t -> t_c u' !! q = Some t' -> tnear F t t' /\ pt_size t <= M.
Definition same_choice (F M q : nat) (o o' : option (nat * ptable)) : Prop :=
  match o, o' with None, None => True | Some (n, t), Some (n', t') => n' = n /\ tnear F t t' /\ pt_size t <= M /\ q ∈ pt_vars t /\ n = pt_nv t | _, _ => False end.
Lemma smallest_rel F M u u' q : cliques_near F M u u' ->
  orel (same_choice F M q) (smallest_clique (t_c u) q) (smallest_clique (t_c u') q).
Proof using All.
  intros [Hl H]. unfold smallest_clique. revert Hl H. generalize (t_c u) (t_c u'). intros l l' Hl H.
  assert (forall o o', same_choice F M q o o' ->
    orel (same_choice F M q)
     (mfor l (fun t best => loc ← get_variable_index t q; let small := match best with None => true | Some (mn, _) => bool_decide (pt_nv t < mn) end in Ok (if small && bool_decide (loc < pt_nv t) then Some (pt_nv t, t) else best)) o)
     (mfor l' (fun t best => loc ← get_variable_index t q; let small := match best with None => true | Some (mn, _) => bool_decide (pt_nv t < mn) end in Ok (if small && bool_decide (loc < pt_nv t) then Some (pt_nv t, t) else best)) o')) as Hgo; [|by apply Hgo].
  revert l' Hl H. induction l as [|t l IH]; intros [|t' l'] Hl H o o' Ho; try done. injection Hl as Hl. cbn [mfor].
  destruct (H 0 t t' eq_refl eq_refl) as [Hn HM]. pose proof (tnear_alike _ _ _ _ _ Hn) as A. pose proof (alike_fields dom t t' A) as (_ & _ & _ & Hnv & _).
  eapply orel_bind; [|intros a a' Ha; apply IH; [done|intros j x x' Hx Hx'; by apply (H (S j))|exact Ha]].
  rewrite (variable_index_alike dom t t' q A), Hnv. apply orel_same. intros loc Hloc. cbn [orel].
  assert (match o with None => true | Some (mn, _) => bool_decide (pt_nv t < mn) end = match o' with None => true | Some (mn, _) => bool_decide (pt_nv t < mn) end) as <-.
  { destruct o as [[mn ?]|], o' as [[mn' ?]|]; try done. by destruct Ho as [-> _]. }
  destruct (_ && _) eqn:Hb; [|done]. apply andb_true_iff in Hb as [_ Hb]. apply bool_decide_eq_true in Hb. cbn. split_and!; try done.
  destruct (decide (q ∈ pt_vars t)) as [|Hq]; [done|]. destruct A as (Hw & _). rewrite (get_variable_index_out dom dom_pos t q Hw Hq) in Hloc. injection Hloc as <-. lia.
Qed.
Lemma node_dim_at q dim : jt_doms T !! q = Some dim -> (forall i d, jt_doms T !! i = Some d -> dom i = d) -> [dim] = dom <$> [q].
Proof using All. intros H Hd. cbn. by rewrite (Hd q dim H). Qed.
Context (Hdoms : forall i d, jt_doms T !! i = Some d -> dom i = d).
(** The posterior of one node, up to a scale. *)
Lemma marginal_rel F M u u' q : cliques_near F M u u' -> orel (tnear (F + M + 1)) (calculate_marginal T u q) (calculate_marginal_r rnd T u' q).
Proof using All.
  intros Hc. unfold calculate_marginal, calculate_marginal_r. eapply orel_bind; [by apply smallest_rel|]. intros [[n t]|] [[n' t']|] Ho; try done. destruct Ho as (-> & (s & Hs & Hsim) & HM & Hq & _).
  case_bool_decide. { exists s. split; [done|]. eapply (similar_weaken dom c rnd Hr); [|exact Hsim]. lia. }
  apply orel_same. intros dim Hdim. unfold node_dim in Hdim. destruct (jt_doms T !! q) as [d|] eqn:E; [|done]. injection Hdim as ->. rewrite (node_dim_at q dim E Hdoms).
  eapply orel_bind; [apply (table_marginalization_near dom c rnd Hr s F t t' [q] dom_pos (NoDup_singleton q) Hsim)|]. cbn beta. intros m m' [Hm _].
  eapply orel_mono; [|by apply (table_normalize_near dom c rnd Hr s (F + pt_size t))]. cbn beta. intros a a' (Hn & _). eapply (tnear_weaken dom c rnd Hr); [|exact Hn]. lia.
Qed.
Lemma wf_one_size t q : wf t -> pt_vars t = [q] -> pt_size t = dom q.
Proof using All. intros W V. rewrite (wf_size _ _ W), configs_length, (wf_dims _ _ W), V. unfold prod_list. cbn. lia. Qed.
Lemma size_of_member t q : wf t -> q ∈ pt_vars t -> dom q <= pt_size t.
Proof using All.
  intros W V. rewrite (wf_size _ _ W), (wf_dims _ _ W). apply elem_of_list_split in V as (l1 & l2 & E). rewrite E.
  etrans; [|apply (configs_filter dom dom_pos (fun v => v = q))]. rewrite filter_app, filter_cons, decide_True by done. rewrite configs_length. 
  rewrite fmap_app, fmap_cons. unfold prod_list. rewrite foldr_app. cbn [foldr].
  assert (forall l a, 0 < a -> a <= foldr Nat.mul a (dom <$> l) /\ 0 < foldr Nat.mul a (dom <$> l)) as Hpos.
  { induction l as [|v l IHl]; intros a Ha; [cbn; lia|]. cbn. destruct (IHl a Ha). specialize (dom_pos v). nia. }
  destruct (Hpos (filter (fun v => v = q) l2) 1) as [_ P1]; [lia|]. specialize (dom_pos q) as P2.
  destruct (Hpos (filter (fun v => v = q) l1) (dom q * foldr Nat.mul 1 (dom <$> filter (fun v => v = q) l2))) as [P3 _]; [nia|]. nia.
Qed.

(** All posteriors. *)
Definition read_count (F M : nat) : nat := 2 * F + 3 * M + 1.
Definition reply (K : nat) (p p' : Qc) : Prop := p' = p \/ apart K p p'.
Lemma probabilities_rel F M u u' E : cliques_near F M u u' -> orel (Forall2 (reply (read_count F M))) (probabilities_all T u E) (probabilities_all_r rnd T u' E).
Proof using All.
  intros Hc. unfold probabilities_all, probabilities_all_r.
  eapply orel_bind with (R := fun a a' => Forall2 (reply (read_count F M)) (fst a) (fst a') /\ snd a' = snd a); [|by intros a a' [? _]].
  apply (orel_mfor_plain (fun a a' => Forall2 (reply (read_count F M)) (fst a) (fst a') /\ snd a' = snd a)).
  { cbn. split; [|done]. apply Forall2_same_length_lookup_2; [done|]. intros i x y Hx Hy. left. congruence. }
  intros i [ps l] [ps' l'] _ [Hps Hl]. cbn in Hl, Hps. subst l'. case_bool_decide; [done|].
  eapply orel_bind; [by apply smallest_rel|]. intros [[n t]|] [[n' t']|] Ho; try done. destruct Ho as (-> & (s & Hs & Hsim) & HM & Hq & Hn).
  apply orel_same. intros dim Hdim. unfold node_dim in Hdim. destruct (jt_doms T !! i) as [d|] eqn:Hd; [|done]. injection Hdim as ->.
  eapply orel_bind with (R := fun m m' => similar s (F + M) m m' /\ pt_size m <= M).
  - case_bool_decide.
    + rewrite (node_dim_at i dim Hd Hdoms). eapply orel_mono; [|apply (table_marginalization_near dom c rnd Hr s F t t' [i] dom_pos (NoDup_singleton i) Hsim)]. cbn beta. intros m m' [Hm Hv].
      split; [eapply (similar_weaken dom c rnd Hr); [|exact Hm]; lia|]. pose proof Hm as [(Hw & _) _]. rewrite (wf_one_size m i Hw Hv). pose proof Hsim as [(Hwt & _) _]. pose proof (size_of_member t i Hwt Hq). lia.
    + split; [|done]. eapply (similar_weaken dom c rnd Hr); [|exact Hsim]. lia.
  - intros m m' [Hm HmM]. eapply orel_bind with (R := similar 1 (read_count F M)).
    { eapply orel_mono; [|by apply (table_normalize_near dom c rnd Hr s (F + M))]. cbn beta. intros a a' (_ & Hn' & _). eapply (similar_weaken dom c rnd Hr); [|exact Hn']. unfold read_count. lia. }
    intros p p' [A Hp]. pose proof (alike_fields dom p p' A) as (_ & _ & _ & _ & H5 & H6 & H7). rewrite H5.
    apply (orel_mfor_plain (fun a a' => Forall2 (reply (read_count F M)) (fst a) (fst a') /\ snd a' = snd a)); [done|].
    intros j [qs k] [qs' k'] _ [Hqs Hk]. cbn in Hk, Hqs |- *. subst k'. eapply orel_bind; [apply orel_vget_at; congruence|]. intros x x' [Hx Hx']. cbn beta.
    eapply orel_bind; [apply (orel_vset (reply (read_count F M))); [exact Hqs|]|].
    + right. specialize (Hp j x x' Hx Hx'). by rewrite Qcmult_1_l in Hp.
    + intros v v' Hv. done.
Qed.
End query.
