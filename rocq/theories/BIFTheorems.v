From Coq Require Import Ascii String.
From Coq Require Import Field QArith.
From Verif Require Import DataProofs UtilProofs NetProofs NetProofs2 NetProofs3 BIFProofs BIFProofs2 LearnProofs.
From Verif Require Import LearnTheorems.
Local Open Scope nat_scope.

Lemma add_counts_same nd nd' h c : nd_dom nd = nd_dom nd' -> nd_parents nd = nd_parents nd' -> nd_combos nd = nd_combos nd' -> add_counts nd h c = add_counts nd' h c.
Proof.
  intros H1 H2 H3. unfold add_counts. revert c; induction h as [|e h IH]; intros c; [done|]. cbn [foldl]. rewrite IH. f_equal. unfold add_count.
  assert (initialize_cpt nd c = initialize_cpt nd' c) as ->; [|done]. unfold initialize_cpt. by rewrite H1, H2, H3.
Qed.
Definition dist_hist (num : str -> Qc) (D : bdist) : history := concat (row_hist num D <$> bd_rows D).
Definition hist (num : str -> Qc) (Ds : list bdist) (x : nat) : history := concat ((fun D => if decide (bd_node D = x) then dist_hist num D else []) <$> Ds).
Record binv (B : bnet) (num : str -> Qc) (Ds : list bdist) (L : loaded) : Prop := {
  bi_names : ld_names L = bnames B;
  bi_ids : ld_ids L = bids B;
  bi_run : mfor (concat (bd_arcs <$> Ds)) (fun a N => load_arc N a.1 a.2) (new_network ((fun w => length (bv_values w)) <$> bn_vars B)) = Ok (ld_net L);
  bi_inv : netinv (ld_net L);
  bi_size : length (nt_nodes (ld_net L)) = bn_size B;
  bi_topo : nt_topo (ld_net L) = [];
  bi_edges : nt_edges (ld_net L) = (fun a => directed_edge a.1 a.2) <$> concat (bd_arcs <$> Ds);
  bi_nedges : nt_num_edges (ld_net L) = length (concat (bd_arcs <$> Ds));
  bi_dom : forall x nd, nt_nodes (ld_net L) !! x = Some nd -> nd_dom nd = bn_dom B x;
  bi_clen : length (ld_counters L) = bn_size B;
  bi_counts : forall x nd, nt_nodes (ld_net L) !! x = Some nd -> ld_counters L !! x = Some (add_counts nd (hist num Ds x) new_counters) }.
Lemma concat_snoc {A B} (f : A -> list B) (l : list A) x : concat (f <$> l ++ [x]) = concat (f <$> l) ++ f x.
Proof. rewrite fmap_app, concat_app. cbn. by rewrite app_nil_r. Qed.
Lemma hist_snoc num Ds D x : hist num (Ds ++ [D]) x = hist num Ds x ++ (if decide (bd_node D = x) then dist_hist num D else []).
Proof. unfold hist. by rewrite concat_snoc. Qed.
Lemma hist_nil num Ds x : x ∉ bd_node <$> Ds -> hist num Ds x = [].
Proof.
  induction Ds as [|D Ds IH]; intros H; [done|]. cbn [fmap list_fmap] in H. apply not_elem_of_cons in H as [H1 H2].
  unfold hist. cbn [fmap list_fmap concat]. rewrite decide_False by done. by apply IH.
Qed.

Section Load.
Context (B : bnet) (HB : bnet_ok B) (stod : str -> outcome Qc) (num : str -> Qc) (Hnum : reads_numbers stod num B).
Lemma rows_run D rows L nd c : D ∈ bn_dists B -> (forall r, r ∈ rows -> r ∈ bd_rows D) ->
  ld_ids L = bids B -> nt_nodes (ld_net L) !! bd_node D = Some nd -> ld_counters L !! bd_node D = Some c ->
  mfor (row_words B (bd_parents D) <$> rows) (prob_step stod) (L, Some (bd_node D), bd_parents D) =
  Ok (mkLoaded (ld_names L) (ld_ids L) (ld_net L) (<[bd_node D := add_counts nd (concat (row_hist num D <$> rows)) c]> (ld_counters L)), Some (bd_node D), bd_parents D).
Proof using HB Hnum.
  intros HD. destruct (Forall_forall (fun D => bd_node D < bn_size B /\ NoDup (bd_parents D) /\ Forall (fun p => p < bn_size B) (bd_parents D)) (bn_dists B)) as [HFp _].
  destruct (HFp (bo_parents _ HB) D HD) as (Hx & _ & Hps). pose proof (proj1 (Forall_forall _ _) (bo_rows _ HB) D HD) as Hrows. rewrite Forall_forall in Hrows.
  revert L c. induction rows as [|r rows IH]; intros L c Hin Hids Hnd Hc.
  - cbn. rewrite list_insert_id by done. by destruct L.
  - cbn [fmap list_fmap mfor]. rewrite (row_run B HB stod num D r L nd c); try done.
    + cbn [mbind outcome_bind]. erewrite IH.
      * cbn [ld_names ld_ids ld_net ld_counters]. rewrite list_insert_insert. cbn [fmap list_fmap concat]. do 4 f_equal. unfold add_counts. by rewrite foldl_app.
      * intros r' Hr'. apply Hin. by right.
      * done.
      * done.
      * cbn. apply list_lookup_insert. by eapply lookup_lt_Some.
    + apply Hrows, Hin. left.
    + intros s Hs. apply (Hnum D r s); [done| |done]. apply Hin. left.
Qed.
Lemma brace_step st : prob_step stod [lit "}"] st = Ok st.
Proof. destruct st as [[L this] ps]. reflexivity. Qed.
Lemma mfor_fmap_arcs ps x N : mfor ((fun p => (p, x)) <$> ps) (fun a N => load_arc N a.1 a.2) N = mfor ps (fun p N => load_arc N p x) N.
Proof using. revert N; induction ps as [|p ps IH]; intros N; [done|]. cbn [fmap list_fmap mfor fst snd]. destruct (load_arc N p x); [|done]. cbn [mbind outcome_bind]. apply IH. Qed.
Lemma dist_run Ds D Ds' L this0 ps0 : bn_dists B = Ds ++ D :: Ds' -> binv B num Ds L ->
  exists L', mfor (dist_words B D) (prob_step stod) (L, this0, ps0) = Ok (L', Some (bd_node D), bd_parents D) /\ binv B num (Ds ++ [D]) L' /\
    mfor (bd_parents D) (fun p N => load_arc N p (bd_node D)) (ld_net L) = Ok (ld_net L') /\ kept (bd_node D) (ld_net L) (ld_net L').
Proof using HB Hnum.
  intros E [Hn Hi Hrun HI Hsz Htp He Hne Hdm Hcl Hct]. assert (D ∈ bn_dists B) as HD by (rewrite E; apply elem_of_app; right; left).
  destruct (proj1 (Forall_forall _ _) (bo_parents _ HB) D HD) as (Hx & Hpd & Hps).
  destruct (links_ok (bn_arc B) (bd_node D) (bd_parents D) (bo_acyclic _ HB) (ld_net L)) as (N' & HN' & HI' & Ht' & He' & Hne' & Hk).
  { done. } { by rewrite Hsz. }
  { apply Forall_forall. intros p Hp. rewrite Hsz. rewrite Forall_forall in Hps. split; [by apply Hps|]. unfold bn_arc, bn_arcs. rewrite E, fmap_app, concat_app. apply elem_of_app. right.
    cbn. apply elem_of_app. left. unfold bd_arcs. apply elem_of_list_fmap. eauto. }
  { intros a b (e & Hin & Ha & Hb & _). rewrite He in Hin. apply elem_of_list_fmap in Hin as ([a' b'] & -> & Hin). cbn in Ha, Hb. subst. unfold bn_arc, bn_arcs. rewrite E, fmap_app, concat_app.
    apply elem_of_app. by left. }
  unfold dist_words. cbn [mfor]. rewrite (head_run B HB D L this0 ps0 stod) by done. rewrite HN'. cbn [mbind outcome_bind]. rewrite mfor_app.
  pose proof Hk as Hkept. destruct Hk as [Hl Hk]. assert (bd_node D < length (nt_nodes (ld_net L))) as Hx' by (by rewrite Hsz). destruct (lookup_lt_is_Some_2 _ _ Hx') as [nd0 Hnd0].
  destruct (Hk _ _ Hnd0) as (nd & Hnd & Hd & _).
  assert (hist num Ds (bd_node D) = []) as Hh.
  { apply hist_nil. pose proof (proj2 (bo_dists _ HB)) as Hnd'. rewrite E, fmap_app in Hnd'. apply NoDup_app in Hnd' as (_ & Hnd' & _). intros Hin. apply (Hnd' _ Hin). left. }
  pose proof (Hct _ _ Hnd0) as Hc0. rewrite Hh in Hc0. unfold add_counts in Hc0. cbn in Hc0.
  erewrite (rows_run D (bd_rows D) _ nd new_counters); [|done|done|done|done|done]. cbn [mbind outcome_bind mfor]. rewrite brace_step. cbn [mbind outcome_bind ld_names ld_ids ld_net ld_counters].
  eexists. split; [reflexivity|]. split; [|done]. constructor; cbn [ld_names ld_ids ld_net ld_counters]; try done.
  - rewrite concat_snoc, mfor_app, Hrun. cbn [mbind outcome_bind]. unfold bd_arcs. rewrite <-HN'. apply mfor_fmap_arcs.
  - by rewrite Hl.
  - by rewrite Ht'.
  - rewrite He', He, concat_snoc, fmap_app. f_equal. unfold bd_arcs. rewrite <-list_fmap_compose. done.
  - rewrite Hne', Hne, concat_snoc, app_length. f_equal. unfold bd_arcs. by rewrite fmap_length.
  - intros x nd' Hnd'. destruct (lookup_lt_is_Some_2 (nt_nodes (ld_net L)) x) as [nd1 Hnd1]; [rewrite <-Hl; by eapply lookup_lt_Some|].
    destruct (Hk _ _ Hnd1) as (nd2 & Hnd2 & Hd2 & _). rewrite Hnd' in Hnd2. injection Hnd2 as <-. rewrite Hd2. by apply Hdm.
  - by rewrite insert_length.
  - intros x nd' Hnd'. destruct (lookup_lt_is_Some_2 (nt_nodes (ld_net L)) x) as [nd1 Hnd1]; [rewrite <-Hl; by eapply lookup_lt_Some|].
    rewrite hist_snoc. destruct (Hk _ _ Hnd1) as (nd2 & Hnd2 & Hd2 & Hsame). rewrite Hnd' in Hnd2. injection Hnd2 as <-. case_decide as Hx2.
    + subst x. rewrite Hh. cbn [app]. rewrite list_lookup_insert by (by rewrite Hcl). rewrite Hnd in Hnd'. injection Hnd' as <-. done.
    + rewrite list_lookup_insert_ne by done. rewrite app_nil_r. rewrite (Hct _ _ Hnd1). f_equal.
      destruct (Hsame (not_eq_sym Hx2)) as [E1 E2]. by apply add_counts_same.
Qed.
Lemma dists_run Ds Ds' L this0 ps0 : bn_dists B = Ds ++ Ds' -> binv B num Ds L ->
  exists L' this' ps', mfor (concat (dist_words B <$> Ds')) (prob_step stod) (L, this0, ps0) = Ok (L', this', ps') /\ binv B num (bn_dists B) L'.
Proof using HB Hnum.
  revert Ds L this0 ps0. induction Ds' as [|D Ds' IH]; intros Ds L this0 ps0 E HI.
  - exists L, this0, ps0. rewrite app_nil_r in E. by rewrite E.
  - destruct (dist_run Ds D Ds' L this0 ps0 E HI) as (L' & H & HI' & _). cbn [fmap list_fmap concat]. rewrite mfor_app, H. cbn [mbind outcome_bind]. apply (IH (Ds ++ [D])); [by rewrite <-app_assoc|done].
Qed.
Lemma row_words_good D r : D ∈ bn_dists B -> r ∈ bd_rows D -> good_words (row_words B (bd_parents D) r).
Proof using HB.
  intros HD Hr. destruct (proj1 (Forall_forall _ _) (bo_parents _ HB) D HD) as (_ & _ & Hps).
  pose proof (proj1 (Forall_forall _ _) (bo_rows _ HB) D HD) as Hrows. rewrite Forall_forall in Hrows. destruct (Hrows r Hr) as (HF & _ & Hw).
  assert (Forall (fun w : str => blank ∉ w /\ newline ∉ w) (comma_list (lit ";") r.2)) as H2.
  { apply comma_list_clean; [clean_lit|]. eapply Forall_impl; [exact Hw|]. apply word_clean. }
  unfold row_words. case_bool_decide as E.
  - split; [do 3 eexists; split; [reflexivity|vm_compute; done]|]. apply Forall_app. split; [|done]. apply Forall_cons. split; [clean_lit|by constructor].
  - assert (Forall (fun w : str => blank ∉ w /\ newline ∉ w) (comma_list (lit ")") (zip_with (bn_value B) (bd_parents D) r.1))) as H1.
    { apply comma_list_clean; [clean_lit|]. apply Forall_forall. intros w Hin. apply elem_of_list_lookup in Hin as [i Hi]. apply lookup_zip_with_Some in Hi as (p & v & -> & Hp & Hv).
      destruct (bids_lookup B HB p (Forall_lookup_1 _ _ _ _ Hps Hp)) as (m & _ & _ & Hm). destruct (Hm v (Forall2_lookup_lr _ _ _ _ _ _ HF Hp Hv)) as [_ (Hok & _)]. by apply word_clean. }
    assert (length (comma_list (lit ")") (zip_with (bn_value B) (bd_parents D) r.1)) <> 0) as Hln.
    { rewrite comma_list_length, zip_with_length, <-(Forall2_length _ _ _ HF). destruct (bd_parents D); [done|cbn; lia]. }
    destruct (comma_list (lit ")") (zip_with (bn_value B) (bd_parents D) r.1)) as [|w0 l0]; [done|]. cbn [open_list app].
    apply Forall_cons in H1 as [Hw0 H1]. split; [do 3 eexists; split; [reflexivity|vm_compute; done]|]. apply Forall_cons. split; [|by apply Forall_app]. apply clean_app; [clean_lit|done].
Qed.
Lemma dist_words_good D : D ∈ bn_dists B -> Forall good_words (dist_words B D).
Proof using HB.
  intros HD. destruct (proj1 (Forall_forall _ _) (bo_parents _ HB) D HD) as (Hx & _ & Hps). unfold dist_words. apply Forall_cons. split; [|apply Forall_app; split].
  - unfold head_words. split; [do 3 eexists; split; [reflexivity|vm_compute; done]|]. rewrite !Forall_app. split_and!.
    + repeat (apply Forall_cons; split); [clean_lit|clean_lit| |by constructor]. apply word_clean, (bn_name_lookup B HB _ Hx).
    + case_bool_decide as E; [by constructor|]. apply Forall_cons. split; [clean_lit|]. apply comma_list_clean; [apply nil_clean|]. apply Forall_fmap. eapply Forall_impl; [exact Hps|].
      intros p Hp. apply word_clean, (bn_name_lookup B HB _ Hp).
    + repeat (apply Forall_cons; split); [clean_lit|clean_lit|by constructor].
  - apply Forall_fmap. apply Forall_forall. intros r Hr. by apply row_words_good.
  - apply Forall_cons. split; [|by constructor]. split; [do 3 eexists; split; [reflexivity|vm_compute; done]|]. apply Forall_cons. split; [clean_lit|by constructor].
Qed.
Lemma vars_ok : Forall var_ok (bn_vars B).
Proof using HB.
  apply Forall_forall. intros w Hw. destruct HB as [[_ H1] H2 _ _ _ _]. rewrite Forall_forall in H1, H2. destruct (H2 w Hw) as (? & ? & ? & ?). split_and!; try done. by apply H1.
Qed.
Lemma concat_fmap_words {A} (f : A -> list (list str)) (g : A -> list str) l : (forall x, g x = words <$> f x) -> concat (g <$> l) = words <$> concat (f <$> l).
Proof. intros H. induction l as [|x l IH]; [done|]. cbn [fmap list_fmap concat]. rewrite fmap_app, <-H, <-IH. done. Qed.
Lemma binv_start : binv B num [] (mkLoaded (bv_name <$> bn_vars B) (xml_ids ∘ bv_values <$> bn_vars B) (new_network ((fun w => length (bv_values w)) <$> bn_vars B)) (replicate (length (bn_vars B)) new_counters)).
Proof.
  constructor; cbn; try done.
  - apply new_network_inv.
  - by rewrite !fmap_length.
  - intros x nd Hx. rewrite !list_lookup_fmap in Hx. unfold bn_dom. destruct (bn_vars B !! x) as [w|]; [|done]. cbn in Hx. by injection Hx as <-.
  - apply replicate_length.
  - intros x nd Hx. rewrite lookup_replicate_2; [done|]. apply lookup_lt_Some in Hx. by rewrite !fmap_length in Hx.
Qed.
Theorem load_bif_ok text : is_bif B text -> exists L, load_bif stod text = Ok L /\ binv B num (bn_dists B) L.
Proof using HB Hnum.
  intros (h1 & h2 & ls & Hh1 & Hh2 & Hls & ->).
  assert (bif_lines B = words <$> (concat (var_words <$> bn_vars B) ++ concat (dist_words B <$> bn_dists B))) as El.
  { unfold bif_lines. rewrite fmap_app. f_equal; [by apply concat_fmap_words|]. apply concat_fmap_words. intros D. apply dist_lines_words. }
  assert (Forall good_words (concat (var_words <$> bn_vars B))) as Hgv.
  { apply Forall_concat, Forall_fmap. eapply Forall_impl; [exact vars_ok|]. apply var_words_good. }
  assert (Forall good_words (concat (dist_words B <$> bn_dists B))) as Hgd.
  { apply Forall_concat, Forall_fmap, Forall_forall. apply dist_words_good. }
  rewrite El, fmap_app in Hls. apply Forall2_app_inv_l in Hls as (lv & lp & Hlv & Hlp & ->).
  assert (forall wss ls, Forall good_words wss -> Forall2 indented (words <$> wss) ls -> Forall2 tokens ls wss) as Htok.
  { clear. intros wss ls Hg. revert ls; induction Hg as [|ws wss Hw Hg IH]; intros ls H; cbn [fmap list_fmap] in H; inversion H; subst; constructor; [by split|by apply IH]. }
  apply Htok in Hlv; [|done]. apply Htok in Hlp; [|done].
  destruct (bn_dists B) as [|D0 Ds0] eqn:ED; [by destruct (proj1 (bo_dists _ HB))|].
  pose proof Hlp as Hlp0. cbn [fmap list_fmap concat] in Hlp. unfold dist_words at 1 in Hlp. cbn [app] in Hlp. apply Forall2_cons_inv_r in Hlp as (l0 & lr & Hl0 & Hlr & ->).
  unfold load_bif. rewrite text_of_cons, getline_line by done. cbn beta iota. rewrite next_line_text by done.
  pose proof (var_loop_lines lv (concat (var_words <$> bn_vars B)) l0 (head_words B D0) lr Hlv) as Hvl.
  assert (newline ∉ l0) as Hnl0 by (by eapply tokens_newline).
  assert (Forall (fun ts => ts !! 0 <> Some (lit "probability")) (concat (var_words <$> bn_vars B))) as Hnp.
  { apply Forall_concat, Forall_fmap, Forall_forall. intros w _. apply Forall_forall. intros ts. apply var_words_first. }
  specialize (Hvl Hnp Hl0 eq_refl [] _ (vars_run _ [] vars_ok)). cbn [app] in Hvl.
  assert (exists l r, lv ++ l0 :: lr = l :: r /\ newline ∉ l /\ length lv <= length r) as (l & r & El2 & Hnl & Hlen).
  { destruct lv as [|l lv']; [exists l0, lr; cbn; split_and!; try done; lia|]. inversion Hlv; subst. exists l, (lv' ++ l0 :: lr). split_and!; [done|by eapply tokens_newline|]. rewrite app_length. cbn. lia. }
  rewrite El2 in Hvl |- *. rewrite next_line_text by done. rewrite Hvl by (pose proof (text_length r); lia). cbn [mbind outcome_bind]. rewrite bif_nodes_run. cbn [mbind outcome_bind].
  rewrite (prob_loop_lines stod lr _ Hlr (words (head_words B D0)) (head_words B D0)).
  - destruct (dists_run [] (bn_dists B) _ None [] eq_refl binv_start) as (L & th & ps & HL & HI). rewrite ED in HL. cbn [fmap list_fmap concat] in HL.
    unfold dist_words at 1 in HL. cbn [app] in HL. setoid_rewrite HL. cbn [mbind outcome_bind]. exists L. split; [done|]. by rewrite ED in HI.
  - apply tokens_words. apply Hl0.
  - pose proof (text_length lr). lia.
Qed.
Lemma binv_unique Ds L1 L2 : binv B num Ds L1 -> binv B num Ds L2 -> L1 = L2.
Proof using.
  intros H1 H2. assert (ld_net L1 = ld_net L2) as EN. { pose proof (bi_run _ _ _ _ H1) as E. rewrite (bi_run _ _ _ _ H2) in E. by injection E as ->. }
  assert (ld_counters L1 = ld_counters L2) as EC.
  { apply list_eq. intros x. destruct (nt_nodes (ld_net L1) !! x) as [nd|] eqn:Hx.
    - rewrite (bi_counts _ _ _ _ H1 x nd Hx). rewrite EN in Hx. by rewrite (bi_counts _ _ _ _ H2 x nd Hx).
    - apply lookup_ge_None in Hx. rewrite (bi_size _ _ _ _ H1) in Hx. rewrite !lookup_ge_None_2; [done| |]; [rewrite (bi_clen _ _ _ _ H2)|rewrite (bi_clen _ _ _ _ H1)]; done. }
  destruct L1, L2. pose proof (bi_names _ _ _ _ H1). pose proof (bi_names _ _ _ _ H2). pose proof (bi_ids _ _ _ _ H1). pose proof (bi_ids _ _ _ _ H2). cbn in *. by subst.
Qed.
End Load.
