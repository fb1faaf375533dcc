(** The tree after construction is ready for queries. *)
From Verif Require Import JTModel JTSpec TableProofs TableProofs3 TreeProofs RootedProofs BeliefProofs MoralProofs ElimProofs TriProofs PrimProofs StructProofs PassProofs FlowProofs EvidenceProofs.
From Verif Require LevelProofs.
Local Open Scope nat_scope.

Lemma sublist_filter_l (l : list nat) (P : nat -> Prop) `{forall x, Decision (P x)} : filter P l `sublist_of` l.
Proof. induction l as [|x l IH]; [constructor|]. rewrite filter_cons. destruct (decide (P x)); by constructor. Qed.
Lemma ssorted_sublist (l1 l2 : list nat) : StronglySorted lt l1 -> StronglySorted lt l2 -> (forall x, x ∈ l1 -> x ∈ l2) -> l1 `sublist_of` l2.
Proof.
  intros H1 H2 Hsub. rewrite (ssorted_eq l1 (filter (fun x => x ∈ l1) l2)); [apply sublist_filter_l|done| |].
  - clear H1 Hsub. induction H2 as [|x l2 H2 IH Hf]; [constructor|]. rewrite filter_cons. destruct (decide (x ∈ l1)); [|done]. constructor; [done|].
    rewrite Forall_forall in *. intros y Hy. apply elem_of_list_filter in Hy as [_ Hy]. by apply Hf.
  - intros x. rewrite elem_of_list_filter. naive_solver.
Qed.
Lemma ssorted_filter (l : list nat) (P : nat -> Prop) `{forall x, Decision (P x)} : StronglySorted lt l -> StronglySorted lt (filter P l).
Proof.
  induction 1 as [|x l H2 IH Hf]; [constructor|]. rewrite filter_cons. destruct (decide (P x)); [|done]. constructor; [done|].
  rewrite Forall_forall in *. intros y Hy. apply elem_of_list_filter in Hy as [_ Hy]. by apply Hf.
Qed.

Section reorg.
Context (dom : nat -> nat) (dom_pos : forall v, 0 < dom v).
Notation wf := (TableSpec.wf dom).
Set Default Proof Using "All".
Lemma need_reorganize_spec C S : wf C -> wf S -> length (pt_vars S) <= length (pt_vars C) ->
  exists b, need_reorganize C S = Ok b /\ (b = false -> exists ws, pt_vars C = ws ++ pt_vars S).
Proof.
  intros HC HS Hl. unfold need_reorganize. rewrite (wf_nv _ _ HC), (wf_nv _ _ HS).
  set (p := length (pt_vars C)) in *. set (q := length (pt_vars S)) in *.
  destruct (mfor_inv (fun (done : list nat) (need : bool) => need = false -> forall j, j ∈ done -> pt_vars C !! (p - j - 1) = pt_vars S !! (q - j - 1)) (seq 0 q)
    (fun j (need : bool) => if need then Ok true else if bool_decide (p < j + 1) then Err OutOfBounds else
      x ← vget (pt_vars C) (p - j - 1); y ← vget (pt_vars S) (q - j - 1); Ok (bool_decide (x ≠ y))) false) as (b & Hb & Hinv).
  - intros _ j Hj. by apply elem_of_nil in Hj.
  - intros done j rest need E I. assert (j ∈ seq 0 q) as Hj by (rewrite E; apply elem_of_app; right; left). apply elem_of_seq in Hj. destruct need; [exists true; done|].
    rewrite bool_decide_false by lia. destruct (lookup_lt_is_Some_2 (pt_vars C) (p - j - 1)) as [x Hx]; [unfold p in *; lia|]. destruct (lookup_lt_is_Some_2 (pt_vars S) (q - j - 1)) as [y Hy]; [unfold q in *; lia|].
    rewrite (vget_ok _ _ _ Hx), (vget_ok _ _ _ Hy). cbn [mbind outcome_bind]. eexists. split; [done|]. intros Hne j' Hj'. apply bool_decide_eq_false in Hne. apply dec_stable in Hne. subst y.
    apply elem_of_app in Hj' as [Hj'|Hj']; [by apply I|]. apply elem_of_list_singleton in Hj' as ->. congruence.
  - exists b. split; [exact Hb|]. intros Hf. specialize (Hinv Hf). exists (take (p - q) (pt_vars C)). rewrite <-(take_drop (p - q) (pt_vars C)) at 1. f_equal.
    apply list_eq. intros i. rewrite lookup_drop. destruct (decide (i < q)) as [Hi|Hi].
    + specialize (Hinv (q - i - 1)). rewrite elem_of_seq in Hinv. replace (p - q + i) with (p - (q - i - 1) - 1) by lia. rewrite Hinv by lia. f_equal. lia.
    + rewrite !lookup_ge_None_2; [done| |]; unfold p, q in *; lia.
Qed.
Lemma reorganize_one C S : wf C -> wf S -> pt_vars C <> [] -> pt_vars S `sublist_of` pt_vars C ->
  exists C', (need ← need_reorganize C S; if need : bool then table_reorganize_tail C (pt_vars S) else Ok C) = Ok C' /\ wf C' /\
    (forall v, v ∈ pt_vars C' <-> v ∈ pt_vars C) /\ (exists ws, pt_vars C' = ws ++ pt_vars S) /\ forall a, valid dom a -> tval C' a = tval C a.
Proof.
  intros HC HS Hne Hsub. destruct (need_reorganize_spec C S HC HS) as (b & -> & Hb); [by apply sublist_length|]. cbn [mbind outcome_bind]. destruct b.
  - destruct (table_reorganize_tail_spec dom dom_pos C (pt_vars S) HC Hne Hsub) as (C' & HC' & Hw & Hv & Ht). exists C'. split; [done|]. split; [done|]. split; [|split; [by eexists|done]].
    intros v. rewrite Hv, elem_of_app, elem_of_list_filter. split; [|destruct (decide (v ∈ pt_vars S)); tauto]. intros [[_ ?]|Hin]; [done|]. eapply sublist_submseteq in Hsub. by eapply elem_of_submseteq.
  - exists C. split_and!; try done. by apply Hb.
Qed.
End reorg.

(** A concrete description of a tree on which [propagate] works. *)
Record usable (N : network) (pts : list ptable) (T : jtree) : Prop := {
  us_doms : jt_doms T = domain_sizes N;
  us_ready : exists r Ls, tree_ok T r Ls /\ exists sc ss, ready (net_dom N) r Ls sc ss (seq 0 (net_size N)) (joint pts) (jt_backup T) }.

Lemma joint_dep N pts : net_ok N -> Forall (table_of_family N) pts -> dep_on (seq 0 (net_size N)) (joint pts).
Proof.
  intros HN Hf a b Hab. unfold joint. apply qprod_ext. intros t Ht. rewrite Forall_forall in Hf. destruct (Hf t Ht) as (_ & _ & x & Hx & Hv). apply tval_dep. intros v Hvt. apply Hab. apply elem_of_seq.
  destruct (Hv v Hvt) as [->|Hc]; [lia|]. apply (child_bound N HN) in Hc. lia.
Qed.
Section build.
Context (N : network) (HN : net_ok N) (o : mem_order) (Ho : valid_order o).
Notation n := (net_size N).
Notation dom := (net_dom N).
Set Default Proof Using "All".
Theorem jt_build_spec pts : 0 < n -> Forall (table_of_family N) pts -> Forall (nonneg dom) pts ->
  (exists T, jt_build o N pts = Ok T /\ weakly_connected N /\ usable N pts T) \/ (jt_build o N pts = Err NullDeref /\ ~ weakly_connected N).
Proof.
  intros Hn Hf Hnn. unfold jt_build. destruct (jt_structure_spec N HN o Ho pts Hn Hf) as [(cliques & seps & -> & Hconn & Hst)|(-> & Hnc)]; [left|right; done]. cbn [mbind outcome_bind].
  pose proof (net_dom_pos N HN) as dom_pos.
  destruct (so_jt _ _ _ _ Hst) as [Htree HRI]. assert (0 < length cliques) as Hnc by (pose proof (so_nonempty _ _ _ _ Hst); destruct cliques; [done|cbn; lia]).
  assert (forall s, s ∈ seps -> sp_a s < sp_b s) as Hlt by (intros s Hs; apply (so_sep _ _ _ _ Hst s Hs)).
  destruct (LevelProofs.select_root_spec o (length cliques) seps Ho Hnc Htree Hlt) as (r & -> & Hr). cbn [mbind outcome_bind].
  destruct (LevelProofs.mark_level_spec o Ho (length cliques) seps r Hr Htree Hlt) as (Ls & mk & -> & Hh & Hlk & Hmk & Hseen & Hseps). cbn [mbind outcome_bind fst snd].
  set (L := concat Ls) in *.
  assert (forall i, i < length cliques -> exists c, cliques !! i = Some c /\ TableSpec.wf dom (cq_tab c) /\ pt_vars (cq_tab c) = cq_vars c /\ cq_vars c <> [] /\ StronglySorted lt (cq_vars c) /\ (forall v, v ∈ cq_vars c -> v < n) /\ sc_of (cq_vars <$> cliques) i = cq_vars c) as HC.
  { intros i Hi. destruct (lookup_lt_is_Some_2 cliques i Hi) as [c Hc]. exists c. assert (c ∈ cliques) as Hin by (by eapply elem_of_list_lookup_2). destruct (proj1 (Forall_forall _ _) (so_clq _ _ _ _ Hst) c Hin) as (H1 & H2 & H3).
    destruct (so_vars _ _ _ _ Hst c Hin) as [H4 H5]. split_and!; try done. apply sc_of_lookup. by rewrite list_lookup_fmap, Hc. }
  assert (forall i, i ∈ seen r L <-> i < length cliques) as Hin_seen by (intros i; rewrite Hseen, elem_of_seq; lia).
  assert (forall l, l ∈ L -> exists s, seps !! l_sep l = Some s /\ cand_ok (domain_sizes N) cliques s /\ l_up l < length cliques /\ l_dn l < length cliques /\
     ((sp_a s = l_up l /\ sp_b s = l_dn l) \/ (sp_a s = l_dn l /\ sp_b s = l_up l))) as HL.
  { intros l Hl. destruct (LevelProofs.lk_adj _ _ _ Hlk l Hl) as (s & Hs & Hends). exists s. assert (s ∈ seps) as Hin by (by eapply elem_of_list_lookup_2). pose proof (so_sep _ _ _ _ Hst s Hin) as Hco.
    pose proof (co_lt _ _ _ Hco). pose proof (co_b _ _ _ Hco). split_and!; try done; lia. }
  assert (forall l s v, l ∈ L -> seps !! l_sep l = Some s -> v ∈ sp_vars s <-> v ∈ sc_of (cq_vars <$> cliques) (l_up l) /\ v ∈ sc_of (cq_vars <$> cliques) (l_dn l)) as HSV.
  { intros l s v Hl Hs. destruct (HL l Hl) as (s' & Hs' & Hco & _ & _ & Hends). replace s' with s in * by congruence. rewrite (co_vars _ _ _ Hco). unfold inter. rewrite elem_of_list_filter.
    destruct Hends as [[-> ->]|[-> ->]]; tauto. }
  assert (forall s, s ∈ seps -> StronglySorted lt (sp_vars s)) as HSS.
  { intros s Hs. pose proof (so_sep _ _ _ _ Hst s Hs) as Hco. rewrite (co_vars _ _ _ Hco). apply ssorted_filter. destruct (HC (sp_a s)) as (c & _ & _ & _ & _ & Hsrt & _ & ->); [pose proof (co_lt _ _ _ Hco); pose proof (co_b _ _ _ Hco); lia|done]. }
  destruct (mcollect_exists (fun i C' => forall c, cliques !! i = Some c -> TableSpec.wf dom C' /\ (forall v, v ∈ pt_vars C' <-> v ∈ cq_vars c) /\ (forall a, valid dom a -> tval C' a = tval (cq_tab c) a) /\
       forall l s, l ∈ L -> l_dn l = i -> seps !! l_sep l = Some s -> exists ws, pt_vars C' = ws ++ sp_vars s) (seq 0 (length (cq_tab <$> cliques)))
     (fun i => t ← vget (cq_tab <$> cliques) i; u ← vget (up_c mk) i;
        match u with None => Ok t | Some s => sep ← vget (sp_tab <$> seps) s; need ← need_reorganize t sep; if need : bool then table_reorganize_tail t (pt_vars sep) else Ok t end)) as (ctabs & Hre & Hlc & Hct).
  { intros k i Hi. rewrite fmap_length in Hi. apply lookup_seq in Hi as [-> Hk]. cbn [Nat.add]. destruct (HC k Hk) as (c & Hc & Hw & Hv & Hne & Hsrt & Hb & Hsc).
    assert ((cq_tab <$> cliques) !! k = Some (cq_tab c)) as Hk' by (by rewrite list_lookup_fmap, Hc). rewrite (vget_ok _ _ _ Hk'). cbn [mbind outcome_bind].
    apply Hin_seen in Hk as Hks. unfold seen in Hks. apply elem_of_cons in Hks as [Hkr|Hkd].
    - subst k. rewrite (vget_ok _ _ _ (LevelProofs.mk_root _ _ _ _ _ _ Hmk)). cbn [mbind outcome_bind]. exists (cq_tab c). split; [done|]. intros c' Hc'. replace c' with c by congruence. split_and!; [done|by rewrite Hv|done|].
      intros l s Hl Hdn _. exfalso. pose proof (LevelProofs.seen_nodup o Ho (length cliques) seps r Hr Htree Hlt L Hlk) as Hnd. unfold seen in Hnd. apply NoDup_cons in Hnd as [Hnr _]. apply Hnr. rewrite <-Hdn. by apply elem_of_list_fmap_1.
    - apply elem_of_list_fmap in Hkd as (l & -> & Hl). rewrite (vget_ok _ _ _ (LevelProofs.mk_upc _ _ _ _ _ _ Hmk l Hl)). cbn [mbind outcome_bind].
      destruct (HL l Hl) as (s & Hs & Hco & Hup & Hdn & Hends). assert ((sp_tab <$> seps) !! l_sep l = Some (sp_tab s)) as Hs' by (by rewrite list_lookup_fmap, Hs). rewrite (vget_ok _ _ _ Hs'). cbn [mbind outcome_bind].
      destruct (reorganize_one dom dom_pos (cq_tab c) (sp_tab s)) as (C' & HC' & Hw' & Hv' & Htl & Ht'); [done|apply Hco|by rewrite Hv| |].
      { rewrite Hv, (co_tvars _ _ _ Hco). apply ssorted_sublist; [apply HSS; by eapply elem_of_list_lookup_2|done|]. intros x Hx. apply (HSV l s x Hl Hs) in Hx as [_ Hx]. by rewrite Hsc in Hx. }
      exists C'. split; [exact HC'|]. intros c' Hc'. replace c' with c by congruence. rewrite Hv in Hv'. split_and!; try done. intros l' s' Hl' Hdn' Hs''.
      assert (l' = l) as ->. { pose proof (LevelProofs.seen_nodup o Ho (length cliques) seps r Hr Htree Hlt L Hlk) as Hnd. unfold seen in Hnd. apply NoDup_cons in Hnd as [_ Hnd].
        apply elem_of_list_lookup in Hl as [i Hi], Hl' as [j Hj]. assert (i = j) as ->; [|congruence]. eapply (NoDup_lookup _ i j _ Hnd); rewrite list_lookup_fmap; [by rewrite Hi|rewrite Hj; cbn; by f_equal]. }
      replace s' with s by congruence. rewrite <-(co_tvars _ _ _ Hco). done. }
  rewrite fmap_length, seq_length in Hlc. unfold reorganize_storage. rewrite Hre. cbn [mbind outcome_bind]. eexists. split; [done|]. split; [done|].
  set (T := mkTree (domain_sizes N) ([r] :: LevelProofs.level_list Ls) mk (mkTabs ctabs (sp_tab <$> seps))).
  split; [done|]. exists r, Ls. split.
  { split; cbn [jt_levels jt_marks T].
    - done.
    - done.
    - apply (LevelProofs.seen_nodup o Ho (length cliques) seps r Hr Htree Hlt L Hlk).
    - apply Hlk.
    - apply Hmk.
    - apply Hmk.
    - apply Hmk.
    - intros c Hc. apply (LevelProofs.mk_dnc _ _ _ _ _ _ Hmk). by apply Hin_seen. }
  set (sc := fun i => default [] (pt_vars <$> ctabs !! i)). set (ss := fun s => default [] (sp_vars <$> seps !! s)). exists sc, ss.
  assert (forall i, i < length cliques -> exists c C', cliques !! i = Some c /\ ctabs !! i = Some C' /\ TableSpec.wf dom C' /\ (forall v, v ∈ sc i <-> v ∈ cq_vars c) /\ (forall a, valid dom a -> tval C' a = tval (cq_tab c) a) /\ pt_vars C' = sc i) as HC2.
  { intros i Hi. destruct (HC i Hi) as (c & Hc & _). destruct (lookup_lt_is_Some_2 ctabs i) as [C' HC']; [lia|]. destruct (Hct i C' HC' c Hc) as (Hw & Hv & Ht & _). exists c, C'.
    assert (sc i = pt_vars C') as Esc by (unfold sc; by rewrite HC'). rewrite Esc. split_and!; try done. }
  assert (forall i, i < length cliques -> forall v, v ∈ sc i <-> v ∈ sc_of (cq_vars <$> cliques) i) as Hsc.
  { intros i Hi v. destruct (HC2 i Hi) as (c & C' & Hc & _ & _ & Hv & _). rewrite (Hv v). destruct (HC i Hi) as (c2 & Hc2 & _ & _ & _ & _ & _ & ->). by replace c2 with c by congruence. }
  assert (forall i a, i < length cliques -> valid dom a -> exists c, cliques !! i = Some c /\ ctab (jt_backup T) i a = tval (cq_tab c) a) as Hctab.
  { intros i a Hi Ha. destruct (HC2 i Hi) as (c & C' & Hc & HC' & _ & _ & Ht & _). exists c. split; [done|]. rewrite (ctab_at (jt_backup T) i C' a HC'). by apply Ht. }
  assert (forall l v, l ∈ L -> v ∈ ss (l_sep l) <-> v ∈ sc (l_up l) /\ v ∈ sc (l_dn l)) as Hss.
  { intros l v Hl. destruct (HL l Hl) as (s & Hs & _ & Hup & Hdn & _). rewrite !Hsc by done. rewrite <-(HSV l s v Hl Hs). unfold ss. by rewrite Hs. }
  assert (forall l, l ∈ L -> exists s, seps !! l_sep l = Some s /\ ss (l_sep l) = sp_vars s /\ cand_ok (domain_sizes N) cliques s) as HSs.
  { intros l Hl. destruct (HL l Hl) as (s & Hs & Hco & _). exists s. split; [done|]. split; [|done]. unfold ss. by rewrite Hs. }
  split.
  - intros i Hi. apply Hin_seen in Hi. destruct (HC2 i Hi) as (c & C' & _ & HC' & Hw & _ & _ & Hv). exists C'. done.
  - intros l Hl. destruct (HSs l Hl) as (s & Hs & -> & Hco). exists (sp_tab s). cbn [jt_backup T t_s]. rewrite list_lookup_fmap, Hs. split_and!; [done|apply Hco|apply Hco].
  - cbn [jt_backup T t_c]. by rewrite Hlc.
  - cbn [jt_backup T t_s]. by rewrite fmap_length.
  - intros i a Hi Ha. apply Hin_seen in Hi. destruct (Hctab i a Hi Ha) as (c & Hc & ->). pose proof (so_nonneg _ _ _ _ Hst Hnn) as Hpos. rewrite Forall_forall in Hpos. apply Hpos; [by eapply elem_of_list_lookup_2|done].
  - left. intros l a Hl Ha. destruct (HSs l Hl) as (s & Hs & _ & Hco). rewrite (stab_at (jt_backup T) (l_sep l) (sp_tab s)) by (cbn; by rewrite list_lookup_fmap, Hs).
    apply (empty_tval (domain_sizes N)); [done|apply Hco|apply Hco|done].
  - intros a Ha. rewrite <-(so_prod _ _ _ _ Hst a Ha). rewrite (qprod_perm _ _ _ Hseen).
    transitivity (qprod (seq 0 (length cliques)) (fun i => default 1%Qc ((fun c => tval (cq_tab c) a) <$> cliques !! i))).
    + apply qprod_ext. intros i Hi. apply elem_of_seq in Hi. destruct (Hctab i a) as (c & Hc & ->); [lia|done|]. by rewrite Hc.
    + clear. induction cliques as [|c cs IH]; [done|]. cbn [length seq]. rewrite !qprod_cons. cbn. f_equal. rewrite <-IH, <-fmap_S_seq, qprod_map. done.
  - intros l Hl. destruct (HL l Hl) as (s & Hs & _ & _ & Hdn & _). destruct (HC2 _ Hdn) as (c & C' & Hc & HC' & _ & _ & _ & Hv). destruct (Hct _ C' HC' c Hc) as (_ & _ & _ & Htl). destruct (Htl l s Hl eq_refl Hs) as [ws Hws].
    exists ws. rewrite <-Hv, Hws. unfold ss. by rewrite Hs.
  - apply rooted_of_jt; [apply Hlk| |done]. intros v x y Hx Hy Hvx Hvy. apply Hin_seen in Hx, Hy. rewrite Hsc in Hvx, Hvy by done.
    eapply rtc_mono; [|apply (HRI v x y); [apply elem_of_seq; lia|apply elem_of_seq; lia|done|done]].
    intros a b (Hab & Hva & Hvb). assert (step (edges_of L) a b /\ a < length cliques /\ b < length cliques) as (Hst' & Ha & Hb).
    { assert (forall a b, (a, b) ∈ ends <$> seps -> step (edges_of L) a b /\ a < length cliques /\ b < length cliques) as Hall.
      { clear -Hseps HL. intros a b Hin. apply elem_of_list_fmap in Hin as (s & He & Hs). apply elem_of_list_lookup in Hs as [k Hk].
        assert (k ∈ l_sep <$> L) as Hkl by (rewrite Hseps; apply elem_of_seq; apply lookup_lt_Some in Hk; lia). apply elem_of_list_fmap in Hkl as (l & -> & Hl).
        destruct (HL l Hl) as (s' & Hs' & Hco & Hup & Hdn & Hends). assert (s' = s) as -> by congruence. unfold ends in He. injection He as -> ->.
        assert ((l_up l, l_dn l) ∈ edges_of L) as Hed by (unfold edges_of; apply elem_of_list_fmap; by exists l).
        destruct Hends as [[-> ->]|[-> ->]]; (split; [|done]); [by left|by right]. }
      destruct Hab as [H|H]; destruct (Hall _ _ H) as (H1 & H2 & H3); split_and!; try done. }
    split_and!; [done|by apply Hsc|by apply Hsc].
  - apply NoDup_seq.
  - intros v. rewrite elem_of_seq. unfold scope_of. rewrite elem_of_list_bind. split.
    + intros [_ Hv]. destruct (so_complete _ _ _ _ Hst [v]) as (c & Hc & Hs); [done|intros x ->%elem_of_list_singleton; done| |].
      { intros x y ->%elem_of_list_singleton ->%elem_of_list_singleton. done. }
      apply elem_of_list_lookup in Hc as [i Hi]. assert (i < length cliques) as Hil by (by eapply lookup_lt_Some). exists i. split; [|by apply Hin_seen]. apply Hsc; [done|]. rewrite (sc_of_lookup _ _ (cq_vars c)) by (by rewrite list_lookup_fmap, Hi).
      rewrite sub_alt in Hs || idtac. apply Hs. left.
    + intros (i & Hv & Hi). apply Hin_seen in Hi. rewrite Hsc in Hv by done. destruct (HC i Hi) as (c & _ & _ & _ & _ & _ & Hb & E). rewrite E in Hv. specialize (Hb v Hv). lia.
  - by apply joint_dep.
Qed.
End build.
