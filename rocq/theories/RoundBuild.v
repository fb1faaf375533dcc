(** Construction of the tree in exact and in rounded arithmetic. *)
From Coq Require Import Field QArith.
From Verif Require Import RoundModel RoundSpec JTSpec ParProofs PassProofs EvidenceProofs BeliefSpec FlowProofs UtilProofs StructProofs TriProofs PrimProofs BuildProofs RoundProofs RoundTables RoundState RoundLevels RoundFlow RoundQuery TableSpec TableProofs.
From Verif Require LevelProofs.

Section mult.
Context (dom : nat -> nat) (dom_pos : forall v, (0 < dom v)%nat) (c : Qc) (rnd : Qc -> Qc) (Hr : rounds c rnd).
Notation apart := (apart c).
Notation similar := (similar dom c).
Notation tnear := (tnear dom c).
Notation alike := (alike dom).
Notation wf := (wf dom).
Notation valid := (valid dom).

(** The second operand brought to the variables of the first. *)
Definition aligned (T S : ptable) : outcome ptable :=
  tmp ← (if bool_decide (pt_nv S < pt_nv T)%nat then table_extension S (pt_vars T) (pt_dims T) else Ok S);
  if bool_decide (pt_vars T ≠ pt_vars tmp) then table_reorganization tmp T else Ok tmp.
Lemma outcome_assoc {A B C} (o : outcome A) (f : A -> outcome B) (g : B -> outcome C) : (o ≫= f) ≫= g = o ≫= (fun a => f a ≫= g).
Proof using. by destruct o. Qed.
Lemma mult_aligned T S : table_multiplication T S = aligned T S ≫= mult_loop T.
Proof using. unfold aligned. rewrite outcome_assoc. done. Qed.
Lemma mult_aligned_r T S : table_multiplication_r rnd T S = aligned T S ≫= mult_loop_r rnd T.
Proof using. unfold aligned. rewrite outcome_assoc. done. Qed.
Lemma aligned_spec T S : wf T -> wf S -> (forall v, v ∈ pt_vars S -> v ∈ pt_vars T) ->
  exists V, aligned T S = Ok V /\ wf V /\ pt_vars V = pt_vars T /\ forall a, valid a -> tval V a = tval S a.
Proof using dom_pos.
  intros HT HS Hsub. unfold aligned.
  assert (exists U, (if bool_decide (pt_nv S < pt_nv T)%nat
     then table_extension S (pt_vars T) (pt_dims T) else Ok S) = Ok U /\ wf U /\
     pt_vars U ≡ₚ pt_vars T /\ forall a, valid a -> tval U a = tval S a) as (U & -> & HU & Hperm & HUv).
  { case_bool_decide as Hlt.
    - rewrite (wf_dims _ _ HT).
      destruct (table_extension_spec dom dom_pos S (pt_vars T)) as (U & HU & HwU & Hvars & Hval); try done.
      + apply HT.
      + intros E. rewrite (wf_nv _ _ HT), E in Hlt. cbn in Hlt. lia.
      + exists U. split_and!; try done. by rewrite Hvars.
    - exists S. split_and!; try done.
      apply submseteq_Permutation_length_le.
      + rewrite <-(wf_nv _ _ HT), <-(wf_nv _ _ HS). lia.
      + apply NoDup_submseteq; [apply HS|done]. }
  cbn [mbind outcome_bind]. case_bool_decide as Hne.
  - destruct (table_reorganization_spec dom dom_pos U T) as (V & HVo & HwV & Hvars & Hval); try done.
    exists V. split_and!; try done. intros a Ha. rewrite Hval by done. by apply HUv.
  - exists U. by split_and!.
Qed.
Lemma table_multiplication_near k k' t t' u u' : tnear k t t' -> tnear k' u u' -> (forall v, v ∈ pt_vars u -> v ∈ pt_vars t) ->
  orel (fun r r' => tnear (S (k + k')) r r' /\ pt_vars r = pt_vars t /\ pt_size r = pt_size t) (table_multiplication t u) (table_multiplication_r rnd t' u').
Proof using dom_pos Hr.
  intros (s & Hs & Ht) (s' & Hs' & Hu) Hsub. pose proof Ht as [(Wt & Wt' & Et) _]. pose proof Hu as [(Wu & Wu' & Eu) _]. rewrite mult_aligned, mult_aligned_r.
  destruct (aligned_spec t u Wt Wu Hsub) as (V & -> & WV & EV & HV). destruct (aligned_spec t' u' Wt' Wu') as (V' & -> & WV' & EV' & HV'); [by rewrite Et, Eu|]. cbn [mbind outcome_bind].
  assert (similar s' k' V V') as HVV.
  { apply (tval_similar dom dom_pos); [split_and!; [done|done|congruence]|]. intros a Ha. rewrite HV, HV' by done. by apply (similar_tval dom dom_pos). }
  eapply orel_mono; [|apply (mult_loop_near dom c rnd Hr s s' k k'); [done|done|done|]].
  - intros r r' (H & H1 & H2). split_and!; [|done|done]. exists (s * s')%Qc. split; [|done]. replace 0%Qc with (0 * s')%Qc by ring. by apply Qcmult_lt_compat_r.
  - rewrite (wf_size _ _ WV), (wf_size _ _ Wt), (wf_dims _ _ WV), (wf_dims _ _ Wt), EV. done.
Qed.
Lemma tnear_refl k t : wf t -> nonneg dom t -> tnear k t t.
Proof using dom_pos Hr.
  intros W H. exists 1%Qc. split; [done|]. apply (tval_similar dom dom_pos); [done|]. intros a Ha. rewrite Qcmult_1_l. apply (apart_refl c rnd Hr). by apply H.
Qed.
Lemma within_tnear k t t' : wf t -> table_within (c ^ k)%Qc t t' -> tnear k t t'.
Proof using dom_pos.
  intros W (H1 & H2 & H3 & H4 & H5 & H6). exists 1%Qc. split; [done|]. split.
  - split_and!; [done| |done]. destruct W. split; rewrite ?H1, ?H2, ?H3, ?H4, ?H5; try done. by rewrite <-(Forall2_length _ _ _ H6).
  - intros i x y Hx Hy. rewrite Qcmult_1_l. by eapply Forall2_lookup_lr.
Qed.

(** *** Handing out the tables *)
Definition crel (k : nat) (q q' : clq) : Prop := cq_vars q' = cq_vars q /\ pt_vars (cq_tab q) = cq_vars q /\ tnear k (cq_tab q) (cq_tab q').
Lemma crel_weaken j k q q' : (j <= k)%nat -> crel j q q' -> crel k q q'.
Proof using Hr. intros H (H1 & H2 & H3). split_and!; [done|done|]. by eapply (tnear_weaken dom c rnd Hr). Qed.
Lemma difference_nil a b : set_difference a b = [] -> forall v, v ∈ a -> v ∈ b.
Proof using.
  unfold set_difference. intros Hnil v Hv. destruct (decide (v ∈ b)) as [|Hnv]; [done|]. assert (v ∈ filter (fun v => v ∉ b) a) as Hf by (by apply elem_of_list_filter). rewrite Hnil in Hf. by apply elem_of_nil in Hf.
Qed.
Lemma assign_one_rel k k' pt pt' cs cs' : tnear k' pt pt' -> Forall2 (crel k) cs cs' -> orel (Forall2 (crel (S (k + k')))) (assign_one pt cs) (assign_one_r rnd pt' cs').
Proof using dom_pos Hr.
  intros Hp HF. pose proof Hp as (s & _ & (W & W' & Ep) & _). induction HF as [|q q' cs cs' Hq HF IH]; [constructor|]. cbn [assign_one assign_one_r]. pose proof Hq as (H1 & H2 & H3). rewrite Ep, H1.
  assert (forall l l', Forall2 (crel k) l l' -> Forall2 (crel (S (k + k'))) l l') as Hw by (intros l l' Hl; eapply Forall2_impl; [exact Hl|]; intros ? ?; apply crel_weaken; lia).
  destruct (bool_decide (pt_vars pt = []) || bool_decide (cq_vars q = [])); [cbn; constructor; [eapply crel_weaken; [|done]; lia|by apply Hw]|]. case_bool_decide as Hd.
  - eapply orel_bind; [apply (table_multiplication_near k k'); [done|done|rewrite H2; by apply difference_nil]|]. intros r r' (G1 & G2 & G3). cbn. constructor; [|by apply Hw]. split_and!; cbn; [done|congruence|done].
  - eapply orel_bind; [exact IH|]. intros l l' Hl. cbn. constructor; [eapply crel_weaken; [|done]; lia|done].
Qed.
Lemma assign_rel k k' pts pts' : Forall2 (tnear k') pts pts' -> forall cs cs', Forall2 (crel k) cs cs' ->
  orel (Forall2 (crel (k + length pts * (k' + 1)))) (assign_potentials pts cs) (assign_potentials_r rnd pts' cs').
Proof using dom_pos Hr.
  unfold assign_potentials, assign_potentials_r. intros HP. revert k. induction HP as [|p p' ps ps' Hp HP IH]; intros k cs cs' HF; cbn [mfor length].
  - cbn. eapply Forall2_impl; [exact HF|]. intros ? ?. apply crel_weaken. lia.
  - eapply orel_bind; [by apply (assign_one_rel k k')|]. intros l l' Hl. eapply orel_mono; [|apply (IH (S (k + k'))); exact Hl]. intros x y Hxy. eapply Forall2_impl; [exact Hxy|]. intros ? ?. apply crel_weaken. lia.
Qed.

(** *** Reordering the storage *)
(** The same shape, and entries apart by the factor, with no assumption that the shape is meaningful. *)
Definition cells (k : nat) (t t' : ptable) : Prop := exists s, (0 < s)%Qc /\
  pt_vars t' = pt_vars t /\ pt_dims t' = pt_dims t /\ pt_cum t' = pt_cum t /\ pt_nv t' = pt_nv t /\ pt_size t' = pt_size t /\
  length (pt_pots t') = length (pt_pots t) /\ forall i x y, pt_pots t !! i = Some x -> pt_pots t' !! i = Some y -> apart k (s * x) y.
Lemma tnear_cells k t t' : tnear k t t' -> cells k t t'.
Proof using. intros (s & Hs & A & H). pose proof (alike_fields dom t t' A) as (H1 & H2 & H3 & H4 & H5 & H6 & H7). exists s. split_and!; try done. congruence. Qed.
Lemma cells_tnear k t t' : wf t -> cells k t t' -> tnear k t t'.
Proof using.
  intros W (s & Hs & H1 & H2 & H3 & H4 & H5 & H6 & H7). exists s. split; [done|]. split; [|done]. split_and!; [done| |done]. destruct W. split; rewrite ?H1, ?H2, ?H3, ?H4, ?H5, ?H6; done.
Qed.
Lemma tail_cells k t t' common : tnear k t t' -> orel (cells k) (table_reorganize_tail t common) (table_reorganize_tail t' common).
Proof using dom_pos Hr.
  intros (s & Hs & A & H). pose proof (alike_fields dom t t' A) as (H1 & H2 & H3 & H4 & H5 & H6 & H7). unfold table_reorganize_tail.
  assert (reorganization_pre t' common = reorganization_pre t common) as ->. { unfold reorganization_pre. by rewrite H1, H2, H4, H5. }
  apply orel_same. intros [new locs] Hpre. assert (zeros new) as Hz.
  { unfold reorganization_pre in Hpre. destruct (reorg_split _ _ _) as [[kept com]|]; [|done]. cbn in Hpre. destruct (construct_cum_levels _ _); [|done]. cbn in Hpre. injection Hpre as <- _. intros i x Hx. cbn in Hx. by apply lookup_replicate in Hx as [? _]. }
  rewrite (orel_mcollect_eq _ (reorganization_main new t' locs) (reorganization_main new t locs)).
  2:{ intros i _. unfold reorganization_main. by rewrite (get_config_alike dom t t' i A). }
  apply orel_same. intros ti _. unfold reorganization_post. eapply orel_bind.
    + apply (orel_mfor_plain (fun p p' => length p' = length p /\ forall i x y, p !! i = Some x -> p' !! i = Some y -> apart k (s * x) y)).
      * split; [done|]. intros i x y Hx Hy. rewrite (Hz i x Hx), (Hz i y Hy). replace (s * 0)%Qc with 0%Qc by ring. apply (apart_refl c rnd Hr). apply Qcle_refl.
      * intros i p p' E (L & Hp). apply orel_same. intros j _. eapply orel_bind; [apply orel_vget_at; congruence|]. intros x x' [Hx Hx']. cbn beta.
        eapply orel_mono; [|apply orel_vset_at; congruence]. cbn. intros q q' (Hj & -> & ->). rewrite !insert_length. split; [done|].
        intros a u v Hu Hv. destruct (decide (a = j)) as [->|Hne].
        -- rewrite list_lookup_insert in Hu, Hv by lia. simplify_eq. by eapply H.
        -- rewrite list_lookup_insert_ne in Hu, Hv by done. by eapply Hp.
    + intros p p' (L & Hp). cbn. exists s. split_and!; done.
Qed.
Lemma storage_rel k mk ts ts' seps : Forall2 (tnear k) ts ts' -> orel (Forall2 (cells k)) (reorganize_storage mk ts seps) (reorganize_storage mk ts' seps).
Proof using dom_pos Hr.
  intros HF. unfold reorganize_storage. rewrite <-(Forall2_length _ _ _ HF). apply (orel_mcollect eq); [generalize (seq 0 (length ts)); intros l; by induction l; constructor|]. intros i i' <-.
  eapply orel_bind; [apply orel_vget_at; by apply Forall2_length in HF|]. intros t t' [Ht Ht']. assert (tnear k t t') as Hn by (by eapply Forall2_lookup_lr). pose proof (tnear_alike dom c k t t' Hn) as A. pose proof (alike_fields dom t t' A) as (H1 & H2 & H3 & H4 & H5 & H6 & H7).
  apply orel_same. intros [sp|] _; [|by apply tnear_cells]. apply orel_same. intros sep _.
  assert (need_reorganize t' sep = need_reorganize t sep) as -> by (unfold need_reorganize; by rewrite H1, H4).
  apply orel_same. intros [] _; [by apply tail_cells|by apply tnear_cells].
Qed.
End mult.

Section build.
Context (N : network) (HN : net_ok N) (Hn : 0 < net_size N) (o : mem_order) (Ho : valid_order o).
Context (c : Qc) (rnd : Qc -> Qc) (Hr : rounds c rnd).
Notation dom := (net_dom N).
Notation tnear := (tnear dom c).
Context (k0 : nat) (pts pts' : list ptable) (Hf : Forall (table_of_family N) pts) (Hw : Forall2 (table_within (c ^ k0)%Qc) pts pts').
Notation m := (length pts).
Lemma inputs_near : Forall2 (tnear k0) pts pts'.
Proof using HN Hf Hw.
  pose proof (net_dom_pos N HN) as dom_pos. apply Forall2_same_length_lookup_2; [by eapply Forall2_length|]. intros i t t' Ht Ht'. apply (within_tnear dom dom_pos); [|by eapply Forall2_lookup_lr].
  rewrite Forall_lookup in Hf. by apply (Hf i t).
Qed.
Lemma inputs_nonneg : Forall (nonneg dom) pts.
Proof using HN Hf Hw.
  pose proof (net_dom_pos N HN) as dom_pos. apply Forall_lookup_2. intros i t Ht a Ha. destruct (Forall2_lookup_l _ _ _ _ _ Hw Ht) as (t' & _ & _ & _ & _ & _ & _ & HF).
  rewrite Forall_lookup in Hf. destruct (Hf i t Ht) as (W & _). pose proof (tval_lookup dom dom_pos t a W Ha) as E. destruct (Forall2_lookup_l _ _ _ _ _ HF E) as (y & _ & Hy & _). done.
Qed.
Lemma structure_rel : orel (fun r r' => snd r' = snd r /\ Forall2 (crel dom c (m * (k0 + 1))) (fst r) (fst r') /\
    forall s, s ∈ snd r -> TableSpec.wf dom (sp_tab s) /\ nonneg dom (sp_tab s)) (jt_structure o N pts) (jt_structure_r rnd o N pts').
Proof using HN Hn Ho Hr Hf Hw.
  pose proof (net_dom_pos N HN) as dom_pos. unfold jt_structure, jt_structure_r. change (length (nt_nodes N)) with (net_size N). rewrite bool_decide_false by lia.
  destruct (cliques_spec N HN o Ho Hn) as (mt & mm & cliques & -> & Hmm & Htri & Hel & Hrel & Hg & Hnew). cbn [mbind outcome_bind]. rewrite Hmm. cbn [mbind outcome_bind]. rewrite Htri. cbn [mbind outcome_bind].
  destruct (form_tree_spec N HN o Ho cliques mm Hn Hel Hrel Hg Hnew) as [(seps & -> & Hwc & Hs & Hjt)|[-> Hnc]]; [|done]. cbn [mbind outcome_bind].
  assert (Forall2 (crel dom c 0) cliques cliques) as H0.
  { apply Forall_Forall2_diag, Forall_forall. intros q Hq. destruct (built_tab N HN o Ho cliques mm Hn Hel Hrel Hg Hnew q Hq) as [(W & V & _) Hp]. split_and!; [done|done|]. apply (tnear_refl dom dom_pos c rnd Hr); [done|].
    intros a Ha. rewrite (empty_tval (domain_sizes N)); try done. }
  eapply orel_bind; [exact (assign_rel dom dom_pos c rnd Hr 0 k0 pts pts' inputs_near cliques cliques H0)|]. intros l l' Hl. cbn. split_and!; [done|done|].
  intros s Hs'. destruct (Hs s Hs') as [_ _ _ _ W _ P]. split; [done|]. intros a Ha. rewrite (empty_tval (domain_sizes N)); try done.
Qed.
Lemma build_rel : orel (fun T T' => jt_doms T' = jt_doms T /\ jt_levels T' = jt_levels T /\ jt_marks T' = jt_marks T /\
    largest_table (jt_backup T') = largest_table (jt_backup T) /\ length (t_c (jt_backup T')) = length (t_c (jt_backup T)) /\
    srel dom c (largest_table (jt_backup T)) (fun x => match x with TC _ => m * (k0 + 1) | TS _ => 0 end) (jt_backup T) (jt_backup T')) (jt_build o N pts) (jt_build_r rnd o N pts').
Proof using HN Hn Ho Hr Hf Hw.
  pose proof (net_dom_pos N HN) as dom_pos. pose proof (jt_build_spec N HN o Ho pts Hn Hf inputs_nonneg) as Hspec. unfold jt_build in *. unfold jt_build_r.
  pose proof structure_rel as HS. destruct (jt_structure o N pts) as [[cs seps]|e], (jt_structure_r rnd o N pts') as [[cs' seps']|e']; cbn [orel] in HS; [|done|done|by subst].
  cbn [fst snd] in HS. destruct HS as (-> & HF & Hseps). cbn [mbind outcome_bind] in *. rewrite <-(Forall2_length _ _ _ HF).
  destruct (select_root o (length cs) seps) as [r|]; [|done]. cbn [mbind outcome_bind] in *.
  destruct (mark_level o (length cs) seps r) as [[lv mk]|]; [|done]. cbn [mbind outcome_bind fst snd] in *.
  assert (Forall2 (tnear (m * (k0 + 1))) (cq_tab <$> cs) (cq_tab <$> cs')) as HT. { apply Forall2_fmap. eapply Forall2_impl; [exact HF|]. by intros ? ? (_ & _ & ?). }
  pose proof (storage_rel dom dom_pos c rnd Hr _ mk _ _ (sp_tab <$> seps) HT) as HR.
  destruct (reorganize_storage mk (cq_tab <$> cs) _) as [ts|], (reorganize_storage mk (cq_tab <$> cs') _) as [ts'|]; cbn [orel] in HR; [|done|done|by subst]. cbn [mbind outcome_bind orel jt_doms jt_levels jt_marks jt_backup t_c] in *.
  assert (Forall (TableSpec.wf dom) ts) as Wts.
  { destruct Hspec as [(T & [= <-] & _ & Hu)|[[=] _]]. destruct Hu as [_ (r0 & Ls & HT0 & sc & ss & Hrd)]. by apply (ready_wf dom dom_pos _ r0 Ls HT0 sc ss _ _ _ Hrd). }
  assert (Forall2 (tnear (m * (k0 + 1))) ts ts') as Hts.
  { apply Forall2_same_length_lookup_2; [by eapply Forall2_length|]. intros i t t' Ht Ht'. apply cells_tnear; [by eapply Forall_lookup_1|by eapply Forall2_lookup_lr]. }
  split_and!; try done.
  - unfold largest_table. cbn [t_c t_s]. rewrite !foldr_app. generalize (foldr (fun t m => pt_size t `max` m) 0 (sp_tab <$> seps)). intros z. clear -Hts.
    induction Hts as [|t t' ts ts' Ht _ IH]; [done|]. cbn. rewrite IH. destruct Ht as (s & _ & A & _). pose proof (alike_fields dom t t' A) as (_ & _ & _ & _ & -> & _). done.
  - symmetry. by eapply Forall2_length.
  - assert (forall t l, t ∈ l -> pt_size t <= foldr (fun t m => pt_size t `max` m) 0 l) as Hmax. { intros t l. induction l as [|u l IH]; intros Hin; [by apply elem_of_nil in Hin|]. cbn. apply elem_of_cons in Hin as [->|Hin]; [lia|]. specialize (IH Hin). lia. }
    split_and!; cbn [t_c t_s]; [by eapply Forall2_length|done|]. intros [i|i] t t' Ht Ht'; cbn in Ht, Ht'.
    + split; [by eapply Forall2_lookup_lr|]. apply Hmax, elem_of_app. left. by eapply elem_of_list_lookup_2.
    + replace t' with t in * by congruence. pose proof (elem_of_list_lookup_2 _ _ _ Ht) as Hin. split; [|apply Hmax, elem_of_app; by right]. apply elem_of_list_fmap in Hin as (s & -> & Hs). apply (tnear_refl dom dom_pos c rnd Hr); by apply Hseps.
Qed.
End build.
