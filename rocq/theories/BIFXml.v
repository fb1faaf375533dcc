From Coq Require Import Ascii String.
From Verif Require Import DataProofs UtilProofs StringProofs NetProofs NetProofs2 NetProofs3 BIFProofs BIFProofs2 CountProofs BIFTheorems BIFTables.
From Verif Require Import TableProofs.
Local Open Scope nat_scope.

(** ** Positions *)
Lemma prod_foldr l : foldr Nat.mul 1 l = prod_list l.
Proof. induction l as [|x l IH]; [done|]. cbn. by rewrite IH. Qed.
Lemma prod_list_app l1 l2 : prod_list (l1 ++ l2) = prod_list l1 * prod_list l2.
Proof. induction l1 as [|x l IH]; cbn; [by rewrite Nat.add_0_r|]. unfold prod_list in *. rewrite IH. lia. Qed.
Lemma lex_snoc ds d cs c : length ds = length cs -> lex_index (ds ++ [d]) (cs ++ [c]) = lex_index ds cs * d + c.
Proof.
  revert cs; induction ds as [|x ds IH]; intros [|y cs] Hl; try done.
  - cbn. lia.
  - injection Hl as Hl. cbn [app lex_index]. rewrite IH by done. rewrite prod_list_app. cbn. lia.
Qed.
Lemma lex_reverse ds cs : length ds = length cs -> lex_index (reverse ds) (reverse cs) = little_endian ds cs.
Proof.
  revert cs; induction ds as [|d ds IH]; intros [|c cs] Hl; try done. injection Hl as Hl. rewrite !reverse_cons, lex_snoc by (by rewrite !reverse_length).
  rewrite IH by done. cbn. lia.
Qed.

(** ** Permuted histories *)
Lemma sumz_perm {A} (l1 l2 : list A) f : l1 ≡ₚ l2 -> sumz l1 f = sumz l2 f.
Proof. unfold sumz. induction 1; cbn; lia. Qed.
Lemma counted_perm h h' : h ≡ₚ h' -> (forall x u, counted h x u = counted h' x u) /\ forall u, counted_under h u = counted_under h' u.
Proof. intros H. split; intros; unfold counted, counted_under; apply sumz_perm; by rewrite H. Qed.
Lemma probability_perm nd h h' x u : h ≡ₚ h' -> get_probability nd (add_counts nd h new_counters) x u = get_probability nd (add_counts nd h' new_counters) x u.
Proof.
  intros H. destruct (counted_perm h h' H) as [H1 H2]. assert (forall h, get_probability nd (add_counts nd h new_counters) x u = qdiv (qz (counted h x u) + 1)%Qc (qz (counted_under h u) + 1 * qn (nd_dom nd))%Qc) as E.
  { intros h0. exact (get_probability_counts nd h0 1%Qc x u). }
  by rewrite !E, H1, H2.
Qed.
Lemma mcollect_ext {A B} (l : list A) (f g : A -> outcome B) : (forall x, f x = g x) -> mcollect l f = mcollect l g.
Proof. intros H. induction l as [|x l IH]; [done|]. cbn. by rewrite H, IH. Qed.
Lemma node_table_perm N x nd h h' : nt_nodes N !! x = Some nd -> h ≡ₚ h' -> node_table N x (add_counts nd h new_counters) = node_table N x (add_counts nd h' new_counters).
Proof.
  intros Hnd Hp. unfold node_table. rewrite (find_node_ok _ _ _ Hnd). cbn [mbind outcome_bind]. destruct (empty_node_table N x) as [t|]; [|done]. cbn [mbind outcome_bind]. case_bool_decide.
  - erewrite mcollect_ext; [reflexivity|]. intros i. by apply probability_perm.
  - erewrite mcollect_ext; [reflexivity|]. intros i. cbn. destruct (get_config t i) as [cf|]; [|done]. cbn. destruct (vget cf 0); [|done]. cbn.
    destruct (mfor _ _ _) as [u|]; [|done]. cbn. by apply probability_perm.
Qed.
Lemma node_table_nodes N N' x c : nt_nodes N = nt_nodes N' -> node_table N x c = node_table N' x c.
Proof. intros H. unfold node_table, empty_node_table, find_node, domain_sizes. by rewrite H. Qed.

(** ** The table *)
Lemma words_ends es : es <> [] -> Forall (fun e : str => e <> [] /\ Forall (fun c => (33 <= c)%Z) e) es ->
  (forall c, head (words es) = Some c -> (33 <= c)%Z) /\ (forall c, last (words es) = Some c -> (33 <= c)%Z) /\ words es <> [].
Proof.
  intros Hne H. unfold words. induction H as [|e es [He Hc] Hes IH]; [done|]. destruct es as [|e' es].
  - cbn [glue]. rewrite Forall_forall in Hc. split_and!; [| |done]; intros c H; apply Hc; [destruct e; [done|injection H as ->; left]|by eapply last_Some_elem_of].
  - destruct (IH ltac:(done)) as (_ & H2 & H3). change (glue blank (e :: e' :: es)) with (e ++ blank :: glue blank (e' :: es)). split_and!.
    + intros c. destruct e as [|c0 e]; [done|]. cbn. intros [= ->]. by apply Forall_cons in Hc as [? _].
    + intros c. rewrite last_app_cons, last_cons. destruct (last (glue blank (e' :: es))) as [z|] eqn:E; [|by apply last_None in E]. intros [= ->]. by apply H2.
    + by destruct e.
Qed.
Lemma table_text_read es t : es <> [] -> table_text es t -> (s ← trim t; split_str s [blank]) = Ok es.
Proof.
  intros Hne (He & b1 & b2 & H1 & H2 & ->). destruct (words_ends es Hne He) as (Hh & Hl & Hw).
  assert (trim (b1 ++ words es ++ b2) = Ok (words es)) as ->.
  { destruct (trim_spec (b1 ++ words es ++ b2)) as (w1 & r & w2 & -> & E & Hw1 & Hw2 & Hrh & Hrl). f_equal.
    assert (forall (b1 b2 w w' : str), Forall (fun c => (c < 33)%Z) b1 -> Forall (fun c => (c < 33)%Z) b2 -> (forall c, head w = Some c -> (33 <= c)%Z) -> (forall c, head w' = Some c -> (33 <= c)%Z) -> w <> [] -> w' <> [] -> b1 ++ w = b2 ++ w' -> b1 = b2 /\ w = w') as Hcut.
    { clear. induction b1 as [|x b1 IH]; intros [|y b2] w w' H1 H2 Hw Hw' Hn Hn' E; cbn in E.
      - done.
      - destruct w as [|c w]; [done|]. injection E as -> _. apply Forall_cons in H2 as [H2 _]. specialize (Hw y eq_refl). lia.
      - destruct w' as [|c w']; [done|]. injection E as -> _. apply Forall_cons in H1 as [H1 _]. specialize (Hw' c eq_refl). lia.
      - injection E as -> E. apply Forall_cons in H1 as [_ H1]. apply Forall_cons in H2 as [_ H2]. destruct (IH b2 w w') as [-> ->]; done. }
    assert (r <> []) as Hr.
    { intros ->. cbn in E. assert (Forall (fun c => (c < 33)%Z) (b1 ++ words es ++ b2)) as HF by (rewrite E; by apply Forall_app). apply Forall_app in HF as [_ HF]. apply Forall_app in HF as [HF _].
      destruct (words es) as [|c w]; [done|]. apply Forall_cons in HF as [HF _]. specialize (Hh c eq_refl). lia. }
    apply Hcut in E as [_ E]; try done.
    - apply (f_equal reverse) in E. rewrite !reverse_app in E. apply Hcut in E as [_ E].
      + by apply (inj reverse) in E.
      + by apply Forall_reverse.
      + by apply Forall_reverse.
      + intros c. rewrite head_reverse. apply Hl.
      + intros c. rewrite head_reverse. apply Hrl.
      + intros H. apply (f_equal reverse) in H. by rewrite reverse_involutive in H.
      + intros H. apply (f_equal reverse) in H. by rewrite reverse_involutive in H.
    - intros c. destruct (words es) as [|c0 w]; [done|]. apply Hh.
    - intros c. destruct r as [|c0 w]; [done|]. apply Hrh.
    - intros H. by apply app_eq_nil in H as [? _].
    - intros H. by apply app_eq_nil in H as [? _]. }
  cbn [mbind outcome_bind]. apply split_glue; [done|]. intros e Hin Hb. rewrite Forall_forall in He. destruct (He e Hin) as [_ HF]. rewrite Forall_forall in HF. apply HF in Hb. unfold blank in Hb. lia.
Qed.

(** ** The arcs *)
Lemma set_parent_child_nodes N M p c N' : nt_nodes N = nt_nodes M -> set_parent_child N p c = Ok N' ->
  exists M', set_parent_child M p c = Ok M' /\ nt_nodes M' = nt_nodes N' /\ nt_edges M' = nt_edges M /\ nt_topo M' = nt_topo M /\ nt_num_edges M' = nt_num_edges M.
Proof.
  intros E. unfold set_parent_child, find_node, set_nodes. rewrite <-E. destruct (nt_nodes N !! p) as [ndp|]; [|done]. cbn. destruct (<[p:=node_add_child c ndp]> (nt_nodes N) !! c); [|done]. cbn.
  intros [= <-]. eexists. split; [done|]. done.
Qed.
Lemma load_arcs_nodes ps x N N' M : nt_nodes N = nt_nodes M -> mfor ps (fun p N => load_arc N p x) N = Ok N' ->
  exists M', mfor ps (fun p N => xml_link N p x) M = Ok M' /\ nt_nodes M' = nt_nodes N' /\ nt_edges M' = nt_edges M /\ nt_topo M' = nt_topo M /\ nt_num_edges M' = nt_num_edges M.
Proof.
  revert N M; induction ps as [|p ps IH]; intros N M E H; cbn [mfor] in H |- *.
  - injection H as <-. by exists M.
  - apply bind_ok in H as (N1 & H1 & H). unfold load_arc in H1. apply bind_ok in H1 as (N2 & H1 & H2). injection H2 as <-.
    destruct (set_parent_child_nodes N M p x N2 E H1) as (M1 & HM1 & E1 & E2 & E3 & E4). assert (xml_link M p x = Ok M1) as -> by exact HM1. cbn [mbind outcome_bind].
    match type of H with mfor _ _ ?n = _ => destruct (IH n M1) as (M' & HM' & F1 & F2 & F3 & F4); [by symmetry|exact H|] end. exists M'. split_and!; [done|done|congruence..].
Qed.

(** ** The edges *)
Lemma NoDup_concat_imap {A B} (f : nat -> A -> list B) (l : list A) : (forall i x, l !! i = Some x -> NoDup (f i x)) ->
  (forall i j x y b, l !! i = Some x -> l !! j = Some y -> b ∈ f i x -> b ∈ f j y -> i = j) -> NoDup (concat (imap f l)).
Proof.
  revert f; induction l as [|x l IH]; intros f H1 H2; [constructor|]. cbn. apply NoDup_app. split_and!.
  - by apply (H1 0).
  - intros b Hb Hb'. apply elem_of_list_In, in_concat in Hb' as (bs & Hbs & Hb'). apply elem_of_list_In in Hbs, Hb'. apply elem_of_lookup_imap in Hbs as (i & y & -> & Hy). by specialize (H2 0 (S i) x y b eq_refl Hy Hb Hb').
  - apply (IH (f ∘ S)).
    + intros i y Hy. by apply (H1 (S i)).
    + intros i j y z b Hy Hz Hb Hb'. specialize (H2 (S i) (S j) y z b Hy Hz Hb Hb'). lia.
Qed.
Definition child_edges (nodes : list node) : list edge := concat (imap (fun x nd => directed_edge x <$> nd_children nd) nodes).
Lemma elem_of_child_edges N e : e ∈ child_edges (nt_nodes N) <-> exists x y, e = directed_edge x y /\ child_rel N x y.
Proof.
  unfold child_edges, child_rel. rewrite elem_of_list_In, in_concat. split.
  - intros (es & Hes & He). apply elem_of_list_In in Hes, He. apply elem_of_lookup_imap in Hes as (x & nd & -> & Hnd). apply elem_of_list_fmap in He as (y & -> & Hy). eauto 6.
  - intros (x & y & -> & nd & Hnd & Hy). exists (directed_edge x <$> nd_children nd). rewrite <-!elem_of_list_In. split; [|by apply elem_of_list_fmap_1]. apply elem_of_lookup_imap. eauto.
Qed.
Lemma child_edges_perm N arcs : netinv N -> nt_edges N = (fun a => directed_edge a.1 a.2) <$> arcs -> NoDup arcs -> child_edges (nt_nodes N) ≡ₚ nt_edges N.
Proof.
  intros HI HE Hd. apply NoDup_Permutation.
  - apply NoDup_concat_imap.
    + intros x nd Hnd. apply NoDup_fmap_2; [intros ? ? [=]; done|]. apply lt_sorted_NoDup, (ni_children _ HI x nd Hnd).
    + intros i j x y e _ _ Hi Hj. apply elem_of_list_fmap in Hi as (? & -> & _). apply elem_of_list_fmap in Hj as (? & [= ->] & _). done.
  - rewrite HE. apply NoDup_fmap_2; [|done]. intros [] [] [=]; cbn in *; by subst.
  - intros e. rewrite elem_of_child_edges. split.
    + intros (x & y & -> & Hc). apply (ni_consistent _ HI) in Hc as (e & He & H1 & H2 & H3 & H4). rewrite HE in He |- *. apply elem_of_list_fmap in He as ([a b] & -> & Hin). cbn in H1, H2. subst. apply elem_of_list_fmap. by exists (x, y).
    + intros He. rewrite HE in He. pose proof He as He'. apply elem_of_list_fmap in He' as ([a b] & -> & Hin). cbn [fst snd]. exists a, b. split; [done|]. apply (ni_consistent _ HI). exists (directed_edge a b). rewrite HE. done.
Qed.

(** ** The history of one PROBABILITY *)
Lemma elem_of_concat {A} (x : A) ls : x ∈ concat ls <-> exists l, x ∈ l /\ l ∈ ls.
Proof. rewrite elem_of_list_In, in_concat. setoid_rewrite elem_of_list_In. naive_solver. Qed.
Definition xml_hist (num : str -> Qc) (ps : list nat) (digits : list (list nat)) (es : list str) : history :=
  zip_with (fun d e => (default 0 (d !! 0), cfg ps (drop 1 d), scaled (num e))) digits es.
Section Xml.
Context (B : bnet) (HB : bnet_ok B) (stod : str -> outcome Qc) (num : str -> Qc) (Hnum : reads_numbers stod num B).
Lemma digits_at d0 ds digits i d : Forall (fun d => 0 < d) (d0 :: ds) -> nary_count (d0 :: ds) = Ok digits ->
  digits !! i = Some d <-> exists y vs, d = y :: vs /\ y < d0 /\ in_range ds vs /\ i = little_endian (ds ++ [d0]) (vs ++ [y]).
Proof using.
  intros Hpos Hd. rewrite nary_count_spec in Hd by done. injection Hd as <-. rewrite list_lookup_fmap. split.
  - intros H. apply fmap_Some in H as (c & Hc & ->). apply (configs_lookup (d0 :: reverse ds)) in Hc as [Hr Hi]. inversion Hr as [|y ? vs ? Hy Hvs]; subst. exists y, (reverse vs).
    assert (in_range ds (reverse vs)) as Hvs' by (apply Forall2_reverse in Hvs; by rewrite reverse_involutive in Hvs). split_and!; try done.
    rewrite <-lex_reverse by (rewrite !app_length, (Forall2_length _ _ _ Hvs'); done). rewrite !reverse_snoc, reverse_involutive. done.
  - intros (y & vs & -> & Hy & Hvs & ->). pose proof (Forall2_length _ _ _ Hvs) as Hlen. rewrite <-lex_reverse by (rewrite !app_length, Hlen; done). rewrite !reverse_snoc.
    change (seq 0 d0 ≫= _) with (configs (d0 :: reverse ds)). rewrite (proj2 (configs_lookup (d0 :: reverse ds) _ (y :: reverse vs))); [cbn; by rewrite reverse_involutive|]. split; [|done]. constructor; [done|]. by apply Forall2_reverse.
Qed.
Lemma cfg_inj ps vs ws : NoDup ps -> length ps = length vs -> length ps = length ws -> cfg ps vs = cfg ps ws -> vs = ws.
Proof using.
  intros Hd H1 H2 E. apply list_eq. intros i. destruct (ps !! i) as [p|] eqn:Ep.
  - destruct (lookup_lt_is_Some_2 vs i) as [v Hv]; [rewrite <-H1; by eapply lookup_lt_Some|].
    assert ((p, v) ∈ cfg ps vs) as Hin by (apply cfg_elem; eauto). rewrite E in Hin. apply cfg_elem in Hin as (j & Hj & Hvj); [|done].
    replace j with i in Hvj by (by eapply NoDup_lookup). congruence.
  - apply lookup_ge_None in Ep. rewrite (lookup_ge_None_2 vs), (lookup_ge_None_2 ws) by lia. done.
Qed.
Lemma dist_hist_NoDup D : NoDup (bd_parents D) -> NoDup (bd_rows D).*1 -> (forall r, r ∈ bd_rows D -> length (bd_parents D) = length r.1) -> NoDup (dist_hist num D).
Proof using.
  intros Hp. unfold dist_hist. induction (bd_rows D) as [|r rows IH]; intros Hd Hl; [constructor|]. cbn [fmap list_fmap concat] in *. apply NoDup_cons in Hd as [Hr Hd].
  apply NoDup_app. split_and!.
  - unfold row_hist. apply NoDup_alt. intros i j e. rewrite !list_lookup_imap. intros Hi Hj. apply fmap_Some in Hi as (s & _ & ->). apply fmap_Some in Hj as (s' & _ & [= -> _]). done.
  - intros e Hin Hin'. apply elem_of_concat in Hin' as (h & He & Hh). apply elem_of_list_fmap in Hh as (r' & -> & Hr'). unfold row_hist in *. apply elem_of_lookup_imap in Hin as (i & s & -> & _). apply elem_of_lookup_imap in He as (j & s' & [= _ E _] & _).
    apply Hr. apply elem_of_list_fmap. exists r'. split; [|done]. apply (cfg_inj (bd_parents D)); [done|apply Hl; left|apply Hl; by right|done].
  - apply IH; [done|]. intros r' Hr'. apply Hl. by right.
Qed.
Lemma xml_hist_perm D es digits : D ∈ bn_dists B -> complete_rows B D -> first_given_fastest B D es -> Forall (fun d => 0 < d) (bn_dom B (bd_node D) :: (bn_dom B <$> bd_parents D)) ->
  nary_count (bn_dom B (bd_node D) :: (bn_dom B <$> bd_parents D)) = Ok digits -> length digits = length es /\ xml_hist num (bd_parents D) digits es ≡ₚ dist_hist num D.
Proof using HB.
  intros HD [Hd Hall] [Hlen Hes] Hpos Hdig. destruct (proj1 (Forall_forall _ _) (bo_parents _ HB) D HD) as (Hx & Hpd & Hps).
  pose proof (proj1 (Forall_forall _ _) (proj1 (Forall_forall _ _) (bo_rows _ HB) D HD)) as Hrows.
  assert (forall vs, in_range (bn_dom B <$> bd_parents D) vs <-> Forall2 (fun p x => x < bn_dom B p) (bd_parents D) vs) as Hrange.
  { intros vs. unfold in_range. rewrite Forall2_fmap_r. split; intros H; apply Forall2_flip in H; exact H. }
  assert (length digits = length es) as Hl.
  { rewrite Hlen. pose proof Hdig as E. rewrite nary_count_spec in E by done. injection E as <-. rewrite fmap_length. change (seq 0 _ ≫= _) with (configs (bn_dom B (bd_node D) :: reverse (bn_dom B <$> bd_parents D))). rewrite configs_length. change (foldr Nat.mul 1) with prod_list. cbn [prod_list foldr].
    rewrite prod_list_app. cbn. rewrite Nat.mul_1_r, Nat.mul_comm. f_equal.
    generalize (bn_dom B <$> bd_parents D). intros l. induction l as [|z l IHl] using rev_ind; [done|]. rewrite reverse_snoc, prod_list_app. cbn. rewrite Nat.mul_1_r, Nat.mul_comm. f_equal. exact IHl. }
  split; [done|]. apply NoDup_Permutation.
  - unfold xml_hist. apply NoDup_alt. intros i j e Hi Hj. apply lookup_zip_with_Some in Hi as (d & q & -> & Hd1 & Hq1). apply lookup_zip_with_Some in Hj as (d' & q' & [= E1 E2 E3] & Hd2 & Hq2).
    apply (digits_at _ _ _ _ _ Hpos Hdig) in Hd1 as (y & vs & -> & Hy & Hvs & ->). apply (digits_at _ _ _ _ _ Hpos Hdig) in Hd2 as (y' & vs' & -> & Hy' & Hvs' & ->). cbn in E1, E2. subst y'.
    rewrite !drop_0 in E2. apply Hrange in Hvs, Hvs'. apply Forall2_length in Hvs, Hvs'. f_equal. f_equal. by apply (cfg_inj (bd_parents D)).
  - apply dist_hist_NoDup; [done|done|]. intros r Hr. destruct (Hrows r Hr) as (HF & _). by eapply Forall2_length.
  - intros [[y u] z]. unfold xml_hist, dist_hist. rewrite elem_of_list_lookup, elem_of_concat. split.
    + intros (i & Hi). apply lookup_zip_with_Some in Hi as (d & e & [= -> -> ->] & Hd1 & He). apply (digits_at _ _ _ _ _ Hpos Hdig) in Hd1 as (y & vs & -> & Hy & Hvs & ->). cbn [lookup list_lookup default drop].
      apply Hrange in Hvs. apply Hall in Hvs. apply elem_of_list_fmap in Hvs as (r & -> & Hr). destruct (Hrows r Hr) as (_ & Hlr & _). destruct (lookup_lt_is_Some_2 r.2 y) as [s Hs]; [by rewrite Hlr|].
      exists (row_hist num D r). split; [|by apply elem_of_list_fmap_1]. unfold row_hist. rewrite elem_of_lookup_imap. exists y, s. split; [|done]. rewrite (Hes r y s Hr Hs) in He. by injection He as ->.
    + intros (h & He & Hh). apply elem_of_list_fmap in Hh as (r & -> & Hr). unfold row_hist in He. apply elem_of_lookup_imap in He as (i & s & [= -> -> ->] & Hs). destruct (Hrows r Hr) as (HF & Hlr & _).
      pose proof (Hes r i s Hr Hs) as He. eexists. apply lookup_zip_with_Some. exists (i :: r.1), s. split; [done|]. split; [|done]. apply (digits_at _ _ _ _ _ Hpos Hdig). exists i, r.1. split_and!; [done| |by apply Hrange|done].
      rewrite <-Hlr. by eapply lookup_lt_Some.
Qed.
Lemma xml_entry D es e : D ∈ bn_dists B -> complete_rows B D -> first_given_fastest B D es -> Forall (fun d => 0 < d) (bn_dom B (bd_node D) :: (bn_dom B <$> bd_parents D)) ->
  e ∈ es -> exists r, r ∈ bd_rows D /\ e ∈ r.2.
Proof using HB num.
  intros HD [Hd Hall] Hff Hpos He. pose proof (nary_count_spec _ _ Hpos) as Hdig. destruct (xml_hist_perm D es _ HD (conj Hd Hall) Hff Hpos Hdig) as [Hlen _].
  apply elem_of_list_lookup in He as [i Hi]. match type of Hdig with _ = Ok ?l => destruct (lookup_lt_is_Some_2 l i) as [d Hdi]; [rewrite Hlen; by eapply lookup_lt_Some|] end.
  apply (digits_at _ _ _ _ _ Hpos Hdig) in Hdi as (y & vs & -> & Hy & Hvs & ->). assert (Forall2 (fun p x => x < bn_dom B p) (bd_parents D) vs) as HF.
  { unfold in_range in Hvs. rewrite Forall2_fmap_r in Hvs. apply Forall2_flip in Hvs. exact Hvs. }
  apply Hall in HF. apply elem_of_list_fmap in HF as (r & -> & Hr). exists r. split; [done|].
  destruct (proj1 (Forall_forall _ _) (proj1 (Forall_forall _ _) (bo_rows _ HB) D HD) r Hr) as (_ & Hlr & _). destruct (lookup_lt_is_Some_2 r.2 y) as [s Hs]; [by rewrite Hlr|].
  destruct Hff as [_ Hes]. rewrite (Hes r y s Hr Hs) in Hi. injection Hi as <-. by eapply elem_of_list_lookup_2.
Qed.

Record xinv (Ds : list bdist) (L0 L : loaded) : Prop := {
  xi_ghost : binv B num Ds L0;
  xi_names : ld_names L = bnames B;
  xi_ids : ld_ids L = bids B;
  xi_nodes : nt_nodes (ld_net L) = nt_nodes (ld_net L0);
  xi_edges : nt_edges (ld_net L) = [];
  xi_topo : nt_topo (ld_net L) = [];
  xi_nedges : nt_num_edges (ld_net L) = 0;
  xi_clen : length (ld_counters L) = bn_size B;
  xi_counts : forall x nd, nt_nodes (ld_net L) !! x = Some nd -> exists h, h ≡ₚ hist num Ds x /\ ld_counters L !! x = Some (add_counts nd h new_counters) }.
Lemma digit_cfg gs (d : list nat) y vs : d = y :: vs -> length gs = length vs ->
  mfor (seq 1 (length d - 1)) (fun j u => g ← vget gs (j - 1); k ← vget d j; Ok (cins (g, k) u)) [] = Ok (cfg gs vs).
Proof using.
  intros -> Hl. match goal with |- mfor ?l ?f ?s0 = _ => destruct (mfor_inv (fun done u => u = cfg (take (length done) gs) (take (length done) vs)) l f s0) as (u & Hu & ->) end.
  - done.
  - intros dn j rest u Hs ->. cbn [length] in Hs. rewrite Nat.sub_succ, Nat.sub_0_r in Hs. assert (j = S (length dn) /\ length dn < length vs) as [-> Hi].
    { assert (seq 1 (length vs) !! length dn = Some j) as H by (rewrite Hs; by apply list_lookup_middle). apply lookup_seq in H. lia. }
    rewrite Nat.sub_succ, Nat.sub_0_r. destruct (lookup_lt_is_Some_2 gs (length dn)) as [g Hg]; [lia|]. destruct (lookup_lt_is_Some_2 vs (length dn)) as [v Hv]; [lia|].
    rewrite (vget_ok _ _ _ Hg). cbn [mbind outcome_bind]. rewrite (vget_ok (y :: vs) (S (length dn)) v) by done. cbn [mbind outcome_bind]. eexists. split; [reflexivity|].
    rewrite app_length. cbn [length]. rewrite Nat.add_1_r, (take_S_r _ _ _ Hg), (take_S_r _ _ _ Hv). symmetry. apply cfg_snoc. rewrite !take_length. lia.
  - rewrite Hu. f_equal. cbn [length]. rewrite seq_length, Nat.sub_succ, Nat.sub_0_r, !take_ge by lia. done.
Qed.
Lemma xml_step Ds D Ds' L0 L P : bn_dists B = Ds ++ D :: Ds' -> complete_rows B D -> is_xml_prob B D P -> xinv Ds L0 L ->
  exists L0' L', xml_assign stod P L = Ok L' /\ xinv (Ds ++ [D]) L0' L'.
Proof using HB Hnum.
  intros E Hcr (Hfor & Hgiven & es & Hff & Htab) [HG Hn Hi HN He Ht Hne Hcl Hct]. assert (D ∈ bn_dists B) as HD by (rewrite E; apply elem_of_app; right; left).
  destruct (proj1 (Forall_forall _ _) (bo_parents _ HB) D HD) as (Hx & Hpd & Hps).
  destruct (dist_run B HB stod num Hnum Ds D Ds' L0 None [] E HG) as (L0' & _ & HG' & Harcs & Hkept).
  destruct (load_arcs_nodes _ _ _ _ (ld_net L) (eq_sym HN) Harcs) as (M & HM & FM & FE & FT & FN).
  assert (Forall (fun d => 0 < d) (bn_dom B (bd_node D) :: (bn_dom B <$> bd_parents D))) as Hpos.
  { apply Forall_cons. split; [by apply (bn_dom_pos B HB)|]. apply Forall_fmap. eapply Forall_impl; [exact Hps|]. intros p Hp. by apply (bn_dom_pos B HB). }
  pose proof (nary_count_spec _ _ Hpos) as Hdig. destruct (xml_hist_perm D es _ HD Hcr Hff Hpos Hdig) as [Hlen Hperm].
  match type of Hdig with _ = Ok ?l => set (digits := l) in * end. clearbody digits.
  assert (es <> []) as Hes. { intros ->. destruct digits as [|]; [|done]. rewrite (nary_count_spec _ _ Hpos) in Hdig. apply (f_equal (fun o => match o with Ok l => length l | _ => 1 end)) in Hdig. rewrite fmap_length in Hdig.
    change (length (configs (bn_dom B (bd_node D) :: reverse (bn_dom B <$> bd_parents D))) = 0) in Hdig. rewrite configs_length in Hdig. apply Forall_cons in Hpos as [H1 H2]. apply Forall_reverse in H2.
    assert (forall l, Forall (fun d => 0 < d) l -> 0 < prod_list l) as Hpp by (clear; induction 1; cbn; [lia|]; unfold prod_list in *; nia). pose proof (Hpp _ (Forall_cons_2 _ _ _ H1 H2)). lia. }
  assert (length (nt_nodes M) = bn_size B) as Hsz by (rewrite FM; apply HG').
  assert (forall v, v < bn_size B -> exists nd, nt_nodes M !! v = Some nd /\ nd_dom nd = bn_dom B v) as Hdom.
  { intros v Hv. rewrite <-Hsz in Hv. destruct (lookup_lt_is_Some_2 _ _ Hv) as [nd Hnd]. exists nd. split; [done|]. rewrite FM in Hnd. by apply (bi_dom _ _ _ _ HG'). }
  destruct (Hdom _ Hx) as (nd & Hnd & Hdnd).
  assert (hist num Ds (bd_node D) = []) as Hh.
  { apply hist_nil. pose proof (proj2 (bo_dists _ HB)) as Hnd'. rewrite E, fmap_app in Hnd'. apply NoDup_app in Hnd' as (_ & Hnd' & _). intros Hin. apply (Hnd' _ Hin). left. }
  assert (ld_counters L !! bd_node D = Some new_counters) as Hc0.
  { destruct (lookup_lt_is_Some_2 (nt_nodes (ld_net L)) (bd_node D)) as [nd0 Hnd0]; [rewrite HN, (bi_size _ _ _ _ HG); done|]. destruct (Hct _ _ Hnd0) as (h & Hp & ->). rewrite Hh in Hp. apply Permutation_nil_r in Hp as ->. done. }
  exists L0'. unfold xml_assign. rewrite Hn, Hfor, (find_bn_name B HB _ Hx). cbn [or_exit mbind outcome_bind].
  assert (mcollect (xp_given P) (fun g => or_exit (find_name (bnames B) g)) = Ok (bd_parents D)) as ->.
  { rewrite Hgiven. clear -Hps HB. induction Hps as [|p ps Hp Hps IH]; [done|]. cbn [fmap list_fmap mcollect]. rewrite (find_bn_name B HB _ Hp). cbn [or_exit mbind outcome_bind]. by rewrite IH. }
  cbn [mbind outcome_bind]. rewrite HM. cbn [mbind outcome_bind]. pose proof (table_text_read es (xp_table P) Hes Htab) as Hread. apply bind_ok in Hread as (t & Ht1 & Ht2). rewrite Ht1. cbn [mbind outcome_bind]. rewrite Ht2. cbn [mbind outcome_bind].
  assert (forall e, e ∈ es -> stod e = Ok (num e) /\ (0 <= num e)%Qc /\ (num e <= 1)%Qc) as Hst.
  { intros e He0. destruct (xml_entry D es e HD Hcr Hff Hpos He0) as (r & Hr & Her). by apply (Hnum D r e). }
  assert (mcollect es stod = Ok (num <$> es)) as ->.
  { clear -Hst. induction es as [|e es IH]; [done|]. cbn [mcollect fmap list_fmap]. destruct (Hst e) as [-> _]; [left|]. cbn [mbind outcome_bind]. rewrite IH; [done|]. intros e' He'. apply Hst. by right. }
  cbn [mbind outcome_bind]. rewrite (find_node_ok _ _ _ Hnd). cbn [mbind outcome_bind].
  assert (mcollect (bd_parents D) (fun g => ndg ← find_node M g; Ok (nd_dom ndg)) = Ok (bn_dom B <$> bd_parents D)) as ->.
  { clear -Hps Hdom. induction Hps as [|p ps Hp Hps IH]; [done|]. cbn [fmap list_fmap mcollect]. destruct (Hdom p Hp) as (ndp & Hndp & <-). rewrite (find_node_ok _ _ _ Hndp). cbn [mbind outcome_bind]. by rewrite IH. }
  cbn [mbind outcome_bind]. rewrite Hdnd, Hdig. cbn [mbind outcome_bind]. rewrite fmap_length, bool_decide_true by done.
  match goal with |- context [mfor (seq 0 (length digits)) ?f ?s0] => destruct (mfor_inv (fun done cs => cs = <[bd_node D := add_counts nd (take (length done) (xml_hist num (bd_parents D) digits es)) new_counters]> (ld_counters L)) (seq 0 (length digits)) f s0) as (cs & Hcs & ->) end.
  { cbn [length]. rewrite take_0. cbn. by rewrite list_insert_id. }
  { intros dn i rest cs Hs ->. assert (i = length dn /\ i < length digits) as [-> Hlt].
    { assert (seq 0 (length digits) !! length dn = Some i) as H by (rewrite Hs; by apply list_lookup_middle). apply lookup_seq in H. cbn in H. lia. }
    destruct (lookup_lt_is_Some_2 _ _ Hlt) as [d Hd]. rewrite (vget_ok _ _ _ Hd). cbn [mbind outcome_bind]. pose proof Hd as Hd0. apply (digits_at _ _ _ _ _ Hpos Hdig) in Hd0 as (y & vs & Ed & Hy & Hvs & _).
    rewrite (vget_ok d 0 y) by (by rewrite Ed). cbn [mbind outcome_bind]. apply Forall2_length in Hvs. rewrite fmap_length in Hvs. rewrite (digit_cfg (bd_parents D) d y vs Ed) by done. cbn [mbind outcome_bind].
    rewrite Hlen in Hlt. destruct (lookup_lt_is_Some_2 _ _ Hlt) as [e He0]. rewrite (vat_at (num <$> es) (length dn) (num e)) by (by rewrite list_lookup_fmap, He0). cbn [mbind outcome_bind].
    destruct (Hst e) as (_ & Hq0 & Hq1); [by eapply elem_of_list_lookup_2|]. rewrite per10000_ok by done. cbn [mbind outcome_bind].
    unfold add_count_to. rewrite (find_node_ok _ _ _ Hnd). cbn [mbind outcome_bind].
    rewrite (vget_ok _ (bd_node D) (add_counts nd (take (length dn) (xml_hist num (bd_parents D) digits es)) new_counters)) by (apply list_lookup_insert; by rewrite Hcl). cbn [mbind outcome_bind].
    rewrite vset_ok by (by rewrite insert_length, Hcl). eexists. split; [reflexivity|]. rewrite list_insert_insert. f_equal. rewrite app_length. cbn [length]. rewrite Nat.add_1_r.
    rewrite (take_S_r _ _ (y, cfg (bd_parents D) vs, scaled (num e))). { unfold add_counts. by rewrite foldl_app. }
    unfold xml_hist. apply lookup_zip_with_Some. exists d, e. split; [|done]. rewrite Ed. cbn. by rewrite drop_0. }
  rewrite Hcs. cbn [mbind outcome_bind]. rewrite seq_length, take_ge by (unfold xml_hist; rewrite zip_with_length; lia).
  eexists. split; [reflexivity|]. constructor; cbn [ld_names ld_ids ld_net ld_counters]; try done; try congruence.
  - by rewrite insert_length.
  - intros x nd' Hnd'. rewrite hist_snoc. case_decide as Hx2.
    + subst x. rewrite Hh. cbn [app]. rewrite list_lookup_insert by (by rewrite Hcl). rewrite Hnd in Hnd'. injection Hnd' as <-. eauto.
    + rewrite list_lookup_insert_ne by done. rewrite app_nil_r. destruct Hkept as [Hl Hk].
      destruct (lookup_lt_is_Some_2 (nt_nodes (ld_net L)) x) as [nd1 Hnd1]; [rewrite HN, <-Hl, <-FM; by eapply lookup_lt_Some|]. destruct (Hct _ _ Hnd1) as (h & Hp & ->). exists h. split; [done|]. f_equal.
      rewrite HN in Hnd1. destruct (Hk _ _ Hnd1) as (nd2 & Hnd2 & Hd2 & Hsame). rewrite <-FM, Hnd' in Hnd2. injection Hnd2 as <-. destruct (Hsame (not_eq_sym Hx2)) as [E1 E2]. by apply add_counts_same.
Qed.
Lemma xml_steps Ds Ds' probs L0 L : bn_dists B = Ds ++ Ds' -> Forall (complete_rows B) Ds' -> Forall2 (is_xml_prob B) Ds' probs -> xinv Ds L0 L ->
  exists L0' L', mfor probs (fun P L => xml_assign stod P L) L = Ok L' /\ xinv (bn_dists B) L0' L'.
Proof using HB Hnum.
  intros E Hcr HF. revert Ds L0 L E Hcr. induction HF as [|D P Ds' probs HP HF IH]; intros Ds L0 L E Hcr HI.
  - rewrite app_nil_r in E. subst Ds. eauto.
  - apply Forall_cons in Hcr as [Hc Hcr]. destruct (xml_step Ds D Ds' L0 L P E Hc HP HI) as (L0' & L' & H & HI'). cbn [mfor]. rewrite H. cbn [mbind outcome_bind]. apply (IH (Ds ++ [D]) L0' L'); [by rewrite <-app_assoc|done|done].
Qed.
Lemma xml_nodes_run : xml_nodes (xml_var_of <$> bn_vars B) =
  Ok (mkLoaded (bv_name <$> bn_vars B) (xml_ids ∘ bv_values <$> bn_vars B) (new_network ((fun w => length (bv_values w)) <$> bn_vars B)) (replicate (length (bn_vars B)) new_counters)).
Proof using HB.
  unfold xml_nodes. rewrite bool_decide_false.
  2: { intros Hn. apply fmap_nil_inv in Hn. destruct (bn_dists B) as [|D Ds] eqn:ED; [by destruct (proj1 (bo_dists _ HB))|]. destruct (proj1 (Forall_forall _ _) (bo_parents _ HB) D) as (Hx & _); [rewrite ED; left|]. unfold bn_size in Hx. rewrite Hn in Hx. cbn in Hx. lia. }
  assert (filter (fun v => xv_type v = lit "discrete") (xml_var_of <$> bn_vars B) = xml_var_of <$> bn_vars B) as ->.
  { generalize (bn_vars B). intros ws. induction ws as [|w ws IH]; [done|]. cbn [fmap list_fmap]. rewrite filter_cons_True by done. by rewrite IH. }
  rewrite fmap_length, <-!list_fmap_compose. do 3 f_equal. pose proof (bo_values _ HB) as Hv. induction Hv as [|w ws (_ & _ & Hd & _) Hv IH]; [done|]. cbn [fmap list_fmap]. rewrite IH. f_equal. cbn. by apply (xml_ids_spec (bv_values w)).
Qed.
Lemma arcs_NoDup : NoDup (concat (bd_arcs <$> bn_dists B)).
Proof using HB.
  destruct HB as [_ _ [_ Hdn] Hpar _ _]. induction (bn_dists B) as [|D Ds IH]; [constructor|]. cbn [fmap list_fmap concat] in *. apply NoDup_cons in Hdn as [Hn1 Hdn]. apply Forall_cons in Hpar as [(_ & Hpd & _) Hpar]. apply NoDup_app. split_and!.
    - unfold bd_arcs. apply NoDup_fmap_2; [intros ? ? [=]; done|done].
    - intros a Ha Hb. unfold bd_arcs in Ha. apply elem_of_list_fmap in Ha as (p & -> & _). apply elem_of_concat in Hb as (l & Hb & Hin). apply elem_of_list_fmap in Hin as (D' & -> & HD'). unfold bd_arcs in Hb. apply elem_of_list_fmap in Hb as (p' & [= _ E] & _).
      apply Hn1. rewrite E. by apply elem_of_list_fmap_1.
    - by apply IH.
Qed.
Theorem load_xml_ok vars probs : is_xml B vars probs -> length (bn_dists B) = bn_size B -> Forall (complete_rows B) (bn_dists B) ->
  exists L0 L, load_xmlbif stod vars probs = Ok L /\ binv B num (bn_dists B) L0 /\ ld_names L = ld_names L0 /\ ld_ids L = ld_ids L0 /\
    nt_nodes (ld_net L) = nt_nodes (ld_net L0) /\ nt_edges (ld_net L) ≡ₚ nt_edges (ld_net L0) /\ nt_topo (ld_net L) = [] /\ nt_num_edges (ld_net L) = nt_num_edges (ld_net L0) /\
    netinv (ld_net L) /\ node_tables (ld_net L) (ld_counters L) = node_tables (ld_net L0) (ld_counters L0).
Proof using HB Hnum.
  intros [-> HF] Hl Hcr. assert (xinv [] (mkLoaded (bv_name <$> bn_vars B) (xml_ids ∘ bv_values <$> bn_vars B) (new_network ((fun w => length (bv_values w)) <$> bn_vars B)) (replicate (length (bn_vars B)) new_counters))
    (mkLoaded (bv_name <$> bn_vars B) (xml_ids ∘ bv_values <$> bn_vars B) (new_network ((fun w => length (bv_values w)) <$> bn_vars B)) (replicate (length (bn_vars B)) new_counters))) as H0.
  { pose proof (binv_start B num) as HG. constructor; try done. { apply HG. } intros x nd Hnd. exists []. split; [done|]. exact (bi_counts _ _ _ _ HG x nd Hnd). }
  destruct (xml_steps [] (bn_dists B) probs _ _ eq_refl Hcr HF H0) as (L0 & L & Hrun & [HG Hn Hi HN He Ht Hne Hcl Hct]).
  unfold load_xmlbif. rewrite bool_decide_true by (rewrite fmap_length, <-(Forall2_length _ _ _ HF); by rewrite Hl). rewrite xml_nodes_run. cbn [mbind outcome_bind]. rewrite Hrun. cbn [mbind outcome_bind].
  exists L0. eexists. split; [reflexivity|]. cbn [ld_names ld_ids ld_net ld_counters]. pose proof (bi_inv _ _ _ _ HG) as HI.
  assert (NoDup (concat (bd_arcs <$> bn_dists B))) as Hda.
  { exact arcs_NoDup. }
  pose proof (child_edges_perm (ld_net L0) _ HI (bi_edges _ _ _ _ HG) Hda) as Hp.
  assert (nt_edges (xml_edges (ld_net L)) ≡ₚ nt_edges (ld_net L0)) as Hpe. { unfold xml_edges. cbn [nt_edges]. rewrite He, HN. exact Hp. }
  split_and!; try done.
  - by rewrite Hn, (bi_names _ _ _ _ HG).
  - by rewrite Hi, (bi_ids _ _ _ _ HG).
  - unfold xml_edges. cbn [nt_num_edges]. rewrite Hne, HN. cbn. etransitivity; [exact (Permutation_length Hp)|]. rewrite (bi_edges _ _ _ _ HG), fmap_length. symmetry. apply (bi_nedges _ _ _ _ HG).
  - destruct HI as [H1 H2 H3 H4 H5].
    assert (forall x y, has_directed (xml_edges (ld_net L)) x y <-> has_directed (ld_net L0) x y) as Hhd.
    { intros x y. unfold has_directed. by setoid_rewrite Hpe. }
    constructor.
    + unfold children_ok, xml_edges. cbn [nt_nodes]. rewrite HN. exact H1.
    + unfold xml_edges. cbn [nt_nodes]. rewrite HN. exact H2.
    + intros x y. rewrite Hhd. unfold child_rel, parent_rel, xml_edges. cbn [nt_nodes]. rewrite HN. apply H3.
    + intros x Hx. apply (H4 x). revert Hx. generalize x at 2 4. intros y Hxy. induction Hxy as [a b Hab|a b c Hab _ IH]; [apply tc_once; by apply Hhd|eapply tc_l; [by apply Hhd|done]].
    + rewrite Hpe. replace (length (nt_nodes (xml_edges (ld_net L)))) with (length (nt_nodes (ld_net L0))) by (unfold xml_edges; cbn [nt_nodes]; by rewrite HN). exact H5.
  - unfold node_tables. unfold xml_edges at 1. cbn [nt_nodes]. rewrite HN.
    assert (forall l, (forall x, x ∈ l -> x < bn_size B) -> mcollect l (fun x => c ← vget (ld_counters L) x; node_table (xml_edges (ld_net L)) x c) = mcollect l (fun x => c ← vget (ld_counters L0) x; node_table (ld_net L0) x c)) as Hgo.
    { induction l as [|x l IH]; intros Hlt; [done|]. cbn [mcollect]. rewrite IH by (intros y Hy; apply Hlt; by right). assert (x < bn_size B) as Hx by (apply Hlt; left). rewrite <-(bi_size _ _ _ _ HG) in Hx.
      destruct (lookup_lt_is_Some_2 _ _ Hx) as [nd Hnd]. rewrite <-HN in Hnd. destruct (Hct x nd Hnd) as (h & Hph & Hc). rewrite (vget_ok _ _ _ Hc). rewrite HN in Hnd. rewrite (vget_ok _ _ _ (bi_counts _ _ _ _ HG x nd Hnd)). cbn [mbind outcome_bind].
      rewrite (node_table_nodes _ (ld_net L0)) by (unfold xml_edges; cbn [nt_nodes]; done). by rewrite (node_table_perm _ _ _ _ _ Hnd Hph). }
    apply Hgo. intros x Hx. apply elem_of_seq in Hx. rewrite (bi_size _ _ _ _ HG) in Hx. lia.
Qed.
End Xml.
