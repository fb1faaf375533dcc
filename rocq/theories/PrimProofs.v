(** [candidate_seps] and [prim]: a maximum-weight spanning tree, hence a junction tree. *)
From Verif Require Import JTModel JTSpec TableProofs TableProofs3 TreeSpec TreeProofs MoralProofs ElimProofs TriProofs.
Local Open Scope nat_scope.

Definition sc_of (M : list (list nat)) (i : nat) : list nat := default [] (M !! i).
Lemma sc_of_lookup M i C : M !! i = Some C -> sc_of M i = C.
Proof. unfold sc_of. by intros ->. Qed.

Lemma inter_length_sym (l1 l2 : list nat) : NoDup l1 -> NoDup l2 -> length (inter l1 l2) = length (inter l2 l1).
Proof.
  intros H1 H2. apply Permutation_length, NoDup_Permutation; [by apply NoDup_filter..|]. intros x. unfold inter. rewrite !elem_of_list_filter. tauto.
Qed.

(** ** The junction tree on positions *)
Definition pos_of (M : list (list nat)) (C : list nat) : nat := default 0 (fst <$> list_find (fun D => D = C) M).
Lemma pos_of_lookup M i C : NoDup M -> M !! i = Some C -> pos_of M C = i.
Proof.
  intros Hnd Hi. unfold pos_of. destruct (list_find_elem_of (fun D => D = C) M C) as [[j D] Hf]; [by eapply elem_of_list_lookup_2|done|].
  rewrite Hf. cbn. apply list_find_Some in Hf as (Hj & -> & _). by eapply NoDup_lookup.
Qed.
Lemma jt_positions M E : NoDup M -> junction_tree (fun C => C) E M ->
  exists E', junction_tree (sc_of M) E' (seq 0 (length M)).
Proof.
  intros Hnd HE. assert (pos_of M <$> M = seq 0 (length M)) as Heq.
  { apply list_eq_same_length with (length M); [by rewrite seq_length|by rewrite fmap_length|]. intros i x y Hi Hx Hy.
    apply list_lookup_fmap_inv in Hx as (C & -> & HC). apply lookup_seq in Hy as [-> _]. rewrite (pos_of_lookup M i C); done. }
  assert (forall C, C ∈ M -> sc_of M (pos_of M C) = C) as Hsc.
  { intros C HC. apply elem_of_list_lookup in HC as [i Hi]. rewrite (pos_of_lookup M i C) by done. by apply sc_of_lookup. }
  eexists. rewrite <-Heq. apply (jt_map (fun C => C) (sc_of M) (pos_of M) E M HE).
  - intros x v Hx Hv. by rewrite Hsc.
  - intros x y v Hx Hy. rewrite !Hsc by done. done.
Qed.

(** ** Candidates *)
Section cands.
Context (doms : list nat) (cliques : list clq).
Notation M := (cq_vars <$> cliques).
Notation nc := (length cliques).
Context (Hvars : forall C, C ∈ M -> StronglySorted lt C /\ forall v, v ∈ C -> v < length doms).
Set Default Proof Using "All".
Record cand_ok (s : sepr) : Prop := {
  co_lt : sp_a s < sp_b s;
  co_b : sp_b s < nc;
  co_vars : sp_vars s = inter (sc_of M (sp_a s)) (sc_of M (sp_b s));
  co_ne : sp_vars s <> [];
  co_wf : TableSpec.wf (dom_of doms) (sp_tab s);
  co_tvars : pt_vars (sp_tab s) = sp_vars s;
  co_pots : pt_pots (sp_tab s) = replicate (pt_size (sp_tab s)) 1%Qc }.

Lemma candidate_seps_spec : exists cands, candidate_seps doms cliques = Ok cands /\
  (forall s, s ∈ cands -> cand_ok s) /\
  (forall i j, i < j -> j < nc -> inter (sc_of M i) (sc_of M j) <> [] -> exists s, s ∈ cands /\ sp_a s = i /\ sp_b s = j).
Proof.
  unfold candidate_seps.
  set (inner := fun i => fun j acc => c1 ← vget cliques i; c2 ← vget cliques j;
    let common := set_intersection (cq_vars c1) (cq_vars c2) in
    if bool_decide (common = []) then Ok acc else
    t ← construct_empty_potential_table doms common;
    Ok (acc ++ [mkSep common i j t])).
  set (Q := fun i j (acc : list sepr) => (forall s, s ∈ acc -> cand_ok s) /\
     (forall p q, (p < i \/ (p = i /\ q < j)) -> p < q -> q < nc -> inter (sc_of M p) (sc_of M q) <> [] -> exists s, s ∈ acc /\ sp_a s = p /\ sp_b s = q)).
  destruct (mfor_seq_inv (fun i acc => Q i (i + 1) acc) (fun i acc => mfor (seq (i + 1) (nc - (i + 1))) (inner i) acc) 0 nc []) as (cands & Hc & Hq1 & Hq2).
  - split; [by intros s ?%elem_of_nil|]. intros p q Hpq. lia.
  - intros i acc [_ Hi] Hacc. cbn in Hi.
    destruct (mfor_seq_inv (fun j acc => Q i j acc) (inner i) (i + 1) (nc - (i + 1)) acc Hacc) as (z & Hz & Hz1 & Hz2).
    + intros j acc' Hj [H1 H2]. destruct (lookup_lt_is_Some_2 cliques i Hi) as [c1 Hc1]. destruct (lookup_lt_is_Some_2 cliques j) as [c2 Hc2]; [lia|].
      unfold inner. rewrite (vget_ok _ _ _ Hc1), (vget_ok _ _ _ Hc2). cbn [mbind outcome_bind].
      assert (M !! i = Some (cq_vars c1)) as Hm1 by (by rewrite list_lookup_fmap, Hc1). assert (M !! j = Some (cq_vars c2)) as Hm2 by (by rewrite list_lookup_fmap, Hc2).
      change (set_intersection (cq_vars c1) (cq_vars c2)) with (inter (cq_vars c1) (cq_vars c2)).
      case_bool_decide as Hnil.
      * exists acc'. split; [done|]. split; [done|]. intros p q Hpq Hlt Hqn Hne. destruct (decide (p = i /\ q = j)) as [[-> ->]|Hneq].
        -- rewrite (sc_of_lookup _ _ _ Hm1), (sc_of_lookup _ _ _ Hm2) in Hne. done.
        -- apply H2; [lia|done|done|done].
      * destruct (Hvars (cq_vars c1)) as [Hs1 Hb1]; [by eapply elem_of_list_lookup_2|].
        destruct (construct_empty_spec doms (inter (cq_vars c1) (cq_vars c2))) as (t & -> & Hw & Hv & Hp).
        -- apply NoDup_filter. by apply sorted_NoDup.
        -- done.
        -- intros v Hv'. apply elem_of_list_filter in Hv' as [_ Hv']. by apply Hb1.
        -- cbn [mbind outcome_bind]. eexists. split; [done|]. split.
           ++ intros s Hs. apply elem_of_app in Hs as [Hs|Hs]; [by apply H1|]. apply elem_of_list_singleton in Hs as ->.
              split; cbn; [lia|lia| |done|done|done|done]. by rewrite (sc_of_lookup _ _ _ Hm1), (sc_of_lookup _ _ _ Hm2).
           ++ intros p q Hpq Hlt Hqn Hne. destruct (decide (p = i /\ q = j)) as [[-> ->]|Hneq].
              ** eexists. split; [apply elem_of_app; right; by left|done].
              ** destruct (H2 p q ltac:(lia) Hlt Hqn Hne) as (s & Hs & ? & ?). exists s. split; [apply elem_of_app; by left|done].
    + exists z. split; [done|]. split; [done|]. intros p q Hpq Hlt Hqn Hne. apply Hz2; [lia|done|done|done].
  - exists cands. split; [done|]. split; [done|]. intros i j Hij Hj Hne. apply Hq2; [lia|done|done|done].
Qed.

(** ** Choosing the heaviest *)
Definition crossing_sep (tree : list nat) (s : sepr) : Prop :=
  (sp_a s ∈ tree /\ sp_b s ∉ tree) \/ (sp_a s ∉ tree /\ sp_b s ∈ tree).
Lemma heaviest_spec seps tree :
  match heaviest seps tree with
  | Some s => s ∈ seps /\ crossing_sep tree s /\ forall s', s' ∈ seps -> crossing_sep tree s' -> pt_nv (sp_tab s') <= pt_nv (sp_tab s)
  | None => forall s, s ∈ seps -> ~ crossing_sep tree s
  end.
Proof.
  unfold heaviest. induction seps as [|s seps IH] using rev_ind; [by intros s ?%elem_of_nil|]. rewrite foldl_app. cbn [foldl].
  set (best := foldl _ None seps) in *.
  destruct (decide (crossing_sep tree s)) as [Hc|Hc].
  - replace (bool_decide (sp_a s ∈ tree /\ sp_b s ∉ tree) || bool_decide (sp_a s ∉ tree /\ sp_b s ∈ tree)) with true
      by (symmetry; apply orb_true_iff; rewrite !bool_decide_eq_true; done).
    destruct best as [b|].
    + destruct IH as (H1 & H2 & H3). case_bool_decide as Hlt.
      * split_and!; [apply elem_of_app; right; by left|done|]. intros s' Hs' Hc'. apply elem_of_app in Hs' as [Hs'|Hs']; [specialize (H3 s' Hs' Hc'); lia|].
        by apply elem_of_list_singleton in Hs' as ->.
      * split_and!; [apply elem_of_app; by left|done|]. intros s' Hs' Hc'. apply elem_of_app in Hs' as [Hs'|Hs']; [by apply H3|].
        apply elem_of_list_singleton in Hs' as ->. lia.
    + split_and!; [apply elem_of_app; right; by left|done|]. intros s' Hs' Hc'. apply elem_of_app in Hs' as [Hs'|Hs']; [by apply IH in Hc'|].
      by apply elem_of_list_singleton in Hs' as ->.
  - replace (bool_decide (sp_a s ∈ tree /\ sp_b s ∉ tree) || bool_decide (sp_a s ∉ tree /\ sp_b s ∈ tree)) with false
      by (symmetry; apply orb_false_iff; rewrite !bool_decide_eq_false; unfold crossing_sep in Hc; tauto).
    destruct best as [b|].
    + destruct IH as (H1 & H2 & H3). split_and!; [apply elem_of_app; by left|done|]. intros s' Hs' Hc'. apply elem_of_app in Hs' as [Hs'|Hs']; [by apply H3|].
      apply elem_of_list_singleton in Hs' as ->. done.
    + intros s' Hs'. apply elem_of_app in Hs' as [Hs'|Hs']; [by apply IH|]. by apply elem_of_list_singleton in Hs' as ->.
Qed.

(** ** Prim's algorithm *)
Definition ends (s : sepr) : nat * nat := (sp_a s, sp_b s).
Context (cands : list sepr) (Hok : forall s, s ∈ cands -> cand_ok s).
Context (Hall : forall i j, i < j -> j < nc -> inter (sc_of M i) (sc_of M j) <> [] -> exists s, s ∈ cands /\ sp_a s = i /\ sp_b s = j).
Definition extends_jt (F : list (nat * nat)) : Prop :=
  exists E, junction_tree (sc_of M) E (seq 0 nc) /\ forall x y, step F x y -> step E x y.

Lemma sc_of_nodup i : NoDup (sc_of M i).
Proof.
  unfold sc_of. destruct (M !! i) as [C|] eqn:HC; cbn; [|constructor]. apply sorted_NoDup. apply Hvars. by eapply elem_of_list_lookup_2.
Qed.
Lemma cand_nv s : s ∈ cands -> pt_nv (sp_tab s) = length (inter (sc_of M (sp_a s)) (sc_of M (sp_b s))).
Proof. intros Hs. destruct (Hok s Hs). rewrite (wf_nv _ _ co_wf0), co_tvars0, co_vars0. done. Qed.

Lemma prim_spec fuel tr seps :
  nc <= fuel + length tr -> NoDup tr -> 0 ∈ tr -> (forall x, x ∈ tr -> x < nc) ->
  (forall s, s ∈ seps -> s ∈ cands) -> within (ends <$> seps) tr -> connected (ends <$> seps) tr -> S (length seps) = length tr ->
  (exists seps', prim fuel nc cands tr seps = Ok seps' /\ (forall s, s ∈ seps' -> s ∈ cands) /\ tree (ends <$> seps') (seq 0 nc) /\
     (extends_jt (ends <$> seps) -> extends_jt (ends <$> seps'))) \/
  (prim fuel nc cands tr seps = Err NullDeref /\ exists W x, 0 ∈ W /\ x < nc /\ x ∉ W /\ (forall y, y ∈ W -> y < nc) /\ forall s, s ∈ cands -> ~ crossing_sep W s).
Proof.
  revert tr seps. induction fuel as [|fuel IH]; intros tr seps Hf Hnd H0 Hb Hs Hw Hc Hl.
  all: destruct (decide (length tr < nc)) as [Hlt|Hge]; [|left; exists seps; split_and!; [cbn [prim]; rewrite bool_decide_false by lia; done|done| |done]].
  2,4: assert (seq 0 nc ≡ₚ tr) as Hp by (symmetry; apply submseteq_Permutation_length_le; [rewrite seq_length; lia|apply NoDup_submseteq; [done|]; intros x Hx; apply elem_of_seq; specialize (Hb x Hx); lia]);
    (split_and!; [intros x y Hxy; rewrite Hp; by apply Hw|intros x y; rewrite Hp; apply Hc|rewrite Hp, fmap_length; done]).
  { lia. }
  cbn [prim]. rewrite bool_decide_true by done. pose proof (heaviest_spec cands tr) as Hh.
  destruct (heaviest cands tr) as [s|].
  2: { right. split; [done|]. assert (exists x, x ∈ seq 0 nc /\ x ∉ tr) as (x & Hx & Hxt).
       { destruct (decide (Forall (fun x => x ∈ tr) (seq 0 nc))) as [HF|HF].
         - exfalso. assert (length (seq 0 nc) <= length tr) as Hle; [|rewrite seq_length in Hle; lia]. apply submseteq_length, NoDup_submseteq; [apply NoDup_seq|].
           by rewrite Forall_forall in HF.
         - apply not_Forall_Exists in HF; [|intros ?; apply _]. apply Exists_exists in HF as (x & Hx & Hn). eauto. }
       exists tr, x. apply elem_of_seq in Hx. split_and!; [done|lia|done|done|done]. }
  destruct Hh as (Hsc & Hcr & Hmax). pose proof (Hok s Hsc) as [Hab Hbn Hvs Hne _ _ _].
  assert (exists P Q, ((P = sp_a s /\ Q = sp_b s) \/ (P = sp_b s /\ Q = sp_a s)) /\ P ∈ tr /\ Q ∉ tr /\ tree_insert (sp_b s) (tree_insert (sp_a s) tr) = tr ++ [Q]) as (P & Q & HPQ & HP & HQ & Htr).
  { unfold tree_insert. destruct Hcr as [[Ha Hb']|[Ha Hb']].
    - exists (sp_a s), (sp_b s). split_and!; [by left|done|done|]. rewrite (bool_decide_true (sp_a s ∈ tr)) by done. by rewrite bool_decide_false.
    - exists (sp_b s), (sp_a s). split_and!; [by right|done|done|]. rewrite (bool_decide_false (sp_a s ∈ tr)) by done. rewrite bool_decide_true; [done|]. apply elem_of_app. by left. }
  rewrite Htr. assert (Q < nc) as HQn by (destruct HPQ as [[-> ->]|[-> ->]]; lia).
  assert (forall x y, step (ends <$> (seps ++ [s])) x y <-> step (ends <$> seps) x y \/ (x = P /\ y = Q) \/ (x = Q /\ y = P)) as Hstep.
  { intros x y. unfold step. rewrite fmap_app. cbn [fmap list_fmap]. rewrite !elem_of_app, !elem_of_list_singleton. unfold ends at 2 4.
    destruct HPQ as [[-> ->]|[-> ->]]; (split; [intros [[?|[= -> ->]]|[?|[= -> ->]]]; tauto|intros [[?|?]|[[-> ->]|[-> ->]]]; tauto]). }
  destruct (IH (tr ++ [Q]) (seps ++ [s])) as [(seps' & H1 & H2 & H3 & H4)|Herr].
  - rewrite app_length. cbn. lia.
  - apply NoDup_app. split_and!; [done| |apply NoDup_singleton]. intros x Hx ->%elem_of_list_singleton. done.
  - apply elem_of_app. by left.
  - intros x Hx. apply elem_of_app in Hx as [Hx|Hx]; [by apply Hb|]. by apply elem_of_list_singleton in Hx as ->.
  - intros x Hx. apply elem_of_app in Hx as [Hx|Hx]; [by apply Hs|]. by apply elem_of_list_singleton in Hx as ->.
  - intros x y Hxy. rewrite fmap_app in Hxy. apply elem_of_app in Hxy as [Hxy|Hxy].
    + apply Hw in Hxy as [? ?]. rewrite !elem_of_app. tauto.
    + apply elem_of_list_singleton in Hxy. injection Hxy as -> ->. rewrite !elem_of_app, !elem_of_list_singleton.
      destruct HPQ as [[E1 E2]|[E1 E2]]; rewrite <-E1, <-E2; tauto.
  - assert (forall x y, step (ends <$> seps) x y -> step (ends <$> (seps ++ [s])) x y) as Hmono by (intros; apply Hstep; by left).
    assert (forall x, x ∈ tr ++ [Q] -> rtc (step (ends <$> (seps ++ [s]))) x P) as HtoP.
    { intros x Hx. apply elem_of_app in Hx as [Hx|Hx]; [eapply rtc_mono; [exact Hmono|by apply Hc]|]. apply elem_of_list_singleton in Hx as ->.
      apply rtc_once, Hstep. tauto. }
    intros x y Hx Hy. etrans; [by apply HtoP|]. apply steps_sym. by apply HtoP.
  - rewrite !app_length. cbn. lia.
  - left. exists seps'. split_and!; [done|done|done|]. intros (E & HE & Hsub). apply H4.
    destruct (exchange (sc_of M) E (ends <$> seps) (seq 0 nc) tr P Q) as (E' & HE' & HPQ' & Hsub').
    + apply NoDup_seq.
    + intros x _. apply sc_of_nodup.
    + done.
    + intros x Hx. apply elem_of_seq. specialize (Hb x Hx). lia.
    + done.
    + done.
    + done.
    + done.
    + apply elem_of_seq. lia.
    + done.
    + rewrite Hvs in Hne. destruct HPQ as [[-> ->]|[-> ->]]; [done|]. intros Hnil. apply Hne, nil_length_inv. rewrite inter_length_sym by apply sc_of_nodup. by rewrite Hnil.
    + intros x y Hx Hy Hyn. apply elem_of_seq in Hy.
      assert (length (inter (sc_of M P) (sc_of M Q)) = pt_nv (sp_tab s)) as ->.
      { rewrite cand_nv by done. destruct HPQ as [[-> ->]|[-> ->]]; [done|]. apply inter_length_sym; apply sc_of_nodup. }
      destruct (decide (inter (sc_of M x) (sc_of M y) = [])) as [->|Hxy]; [cbn; lia|].
      pose proof (Hb x Hx) as Hxb. destruct (decide (x < y)) as [Hlxy|Hgxy].
      * destruct (Hall x y Hlxy ltac:(lia) Hxy) as (s' & Hs' & <- & <-). rewrite <-cand_nv by done. apply Hmax; [done|by left].
      * assert (x <> y) by (intros ->; done). assert (inter (sc_of M y) (sc_of M x) <> []) as Hyx.
        { intros Hnil. apply Hxy, nil_length_inv. rewrite inter_length_sym by apply sc_of_nodup. by rewrite Hnil. }
        destruct (Hall y x ltac:(lia) Hxb Hyx) as (s' & Hs' & <- & <-). rewrite inter_length_sym by apply sc_of_nodup. rewrite <-cand_nv by done. apply Hmax; [done|by right].
    + exists E'. split; [done|]. intros x y Hxy. apply Hstep in Hxy as [Hxy|[[-> ->]|[-> ->]]]; [by apply Hsub'|done|by apply step_sym].
  - right. exact Herr.
Qed.
End cands.
