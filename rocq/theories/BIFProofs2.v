From Coq Require Import Ascii String.
From Verif Require Import DataProofs UtilProofs NetProofs NetProofs2 BIFProofs.
From Verif Require Import LearnProofs.
Local Open Scope nat_scope.

(** ** Adding arcs *)
Lemma netinv_ext N N' : nt_nodes N = nt_nodes N' -> nt_edges N = nt_edges N' -> netinv N -> netinv N'.
Proof. destruct N, N'. cbn. intros <- <- [H1 H2 H3 H4 H5]. by constructor. Qed.
Definition kept (x : nat) (N N' : network) : Prop :=
  length (nt_nodes N') = length (nt_nodes N) /\
  forall i nd, nt_nodes N !! i = Some nd -> exists nd', nt_nodes N' !! i = Some nd' /\ nd_dom nd' = nd_dom nd /\
    (i <> x -> nd_parents nd' = nd_parents nd /\ nd_combos nd' = nd_combos nd).
Lemma kept_refl x N : kept x N N.
Proof. split; [done|]. intros i nd H. exists nd. done. Qed.
Lemma kept_trans x N1 N2 N3 : kept x N1 N2 -> kept x N2 N3 -> kept x N1 N3.
Proof.
  intros [Hl H1] [Hl' H2]. split; [by rewrite Hl'|]. intros i nd Hi. destruct (H1 _ _ Hi) as (nd' & Hi' & Hd & Hk). destruct (H2 _ _ Hi') as (nd'' & Hi'' & Hd' & Hk').
  exists nd''. split_and!; [done|congruence|]. intros Hx. destruct (Hk Hx) as [E1 E2]. destruct (Hk' Hx) as [E3 E4]. split; congruence.
Qed.
Lemma set_parent_child_kept N p c N' : set_parent_child N p c = Ok N' -> kept c N N'.
Proof.
  unfold set_parent_child. intros H. apply bind_ok in H as (ndp & Hp & H). apply bind_ok in H as (ndc & Hc & H). injection H as <-.
  assert (nt_nodes N !! p = Some ndp) as Hp'. { unfold find_node in Hp. destruct (nt_nodes N !! p); [by injection Hp as ->|done]. }
  split; [cbn; by rewrite !insert_length|]. cbn [set_nodes nt_nodes] in *. intros i nd Hi.
  destruct (decide (i = c)) as [->|Hic].
  - assert (c < length (nt_nodes N)) by (by eapply lookup_lt_Some). eexists. rewrite list_lookup_insert by (by rewrite insert_length). split; [done|]. split; [|done].
    unfold find_node in Hc. cbn in Hc. destruct (decide (p = c)) as [->|Hpc].
    + rewrite list_lookup_insert in Hc by done. injection Hc as <-. rewrite Hi in Hp'. injection Hp' as ->. unfold node_add_parent. by case_bool_decide.
    + rewrite list_lookup_insert_ne, Hi in Hc by done. injection Hc as <-. unfold node_add_parent. by case_bool_decide.
  - rewrite list_lookup_insert_ne by done. destruct (decide (p = i)) as [->|Hpi].
    + rewrite list_lookup_insert by (by eapply lookup_lt_Some). eexists; split; [done|]. rewrite Hi in Hp'. injection Hp' as ->. done.
    + rewrite list_lookup_insert_ne by done. exists nd. done.
Qed.
Lemma link_ok N p c : netinv N -> p < length (nt_nodes N) -> c < length (nt_nodes N) -> ~ (p = c \/ tc (has_directed N) c p) ->
  exists N', load_arc N p c = Ok N' /\ netinv N' /\ nt_topo N' = nt_topo N /\ nt_edges N' = nt_edges N ++ [directed_edge p c] /\
    nt_num_edges N' = S (nt_num_edges N) /\ kept c N N'.
Proof.
  intros HI Hp Hc Hno. destruct (add_directed_edge_spec N p c HI Hp Hc) as (N2 & b & H & HI2 & Hl & Ht & Hn & Hb & He & _).
  apply Hb in Hno as ->. specialize (He eq_refl). unfold add_directed_edge in H.
  apply bind_ok in H as (? & _ & H). apply bind_ok in H as (? & _ & H). apply bind_ok in H as (N1 & H1 & H). apply bind_ok in H as (circ & _ & H).
  destruct circ; [by apply bind_ok in H as (? & _ & ?)|]. injection H as <-. cbn [set_edges nt_nodes nt_edges nt_topo nt_num_edges] in *.
  unfold load_arc. rewrite H1. cbn [mbind outcome_bind]. eexists. split; [done|]. cbn [nt_nodes nt_edges nt_topo nt_num_edges]. split_and!; try done.
  - eapply netinv_ext; [| |exact HI2]; done.
  - by rewrite Hn.
  - apply set_parent_child_kept in H1. done.
Qed.
Lemma links_ok (R : nat -> nat -> Prop) x ps : acyclic R -> forall N, netinv N -> x < length (nt_nodes N) -> Forall (fun p => p < length (nt_nodes N) /\ R p x) ps ->
  (forall a b, has_directed N a b -> R a b) ->
  exists N', mfor ps (fun p N => load_arc N p x) N = Ok N' /\ netinv N' /\ nt_topo N' = nt_topo N /\ nt_edges N' = nt_edges N ++ ((fun p => directed_edge p x) <$> ps) /\
    nt_num_edges N' = nt_num_edges N + length ps /\ kept x N N'.
Proof.
  intros Hac. induction ps as [|p ps IH]; intros N HI Hx Hps HR.
  { exists N. cbn. rewrite app_nil_r, Nat.add_0_r. split_and!; try done. apply kept_refl. }
  apply Forall_cons in Hps as [[Hp HRp] Hps]. destruct (link_ok N p x HI Hp Hx) as (N1 & H1 & HI1 & Ht1 & He1 & Hn1 & Hk1).
  { intros [->|H]; [by apply (Hac x), tc_once|]. apply (Hac x). eapply tc_r; [|exact HRp]. eapply tc_mono; [exact HR|done]. }
  cbn [mfor]. rewrite H1. cbn [mbind outcome_bind]. destruct Hk1 as [Hl1 Hk1'] eqn:Ek. destruct (IH N1) as (N2 & H2 & HI2 & Ht2 & He2 & Hn2 & Hk2); try done.
  - by rewrite Hl1.
  - by rewrite Hl1.
  - intros a b (e & He & Ha & Hb & H3 & H4). rewrite He1 in He. apply elem_of_app in He as [He|He]; [apply HR; by exists e|].
    apply elem_of_list_singleton in He as ->. cbn in *. by subst.
  - exists N2. split_and!; try done; [congruence|rewrite He2, He1, <-app_assoc; done|rewrite Hn2, Hn1; cbn; lia|]. eapply kept_trans; [by split|done].
Qed.

(** ** Names *)
Lemma find_name_spec names i w : NoDup names -> names !! i = Some w -> find_name names w = Some i.
Proof.
  intros Hd Hi. unfold find_name. destruct (list_find (eq w) names) as [[j v]|] eqn:E.
  - apply list_find_Some in E as (Hj & <- & _). cbn. f_equal. by eapply NoDup_lookup.
  - apply list_find_None in E. rewrite Forall_forall in E. by destruct (E w (elem_of_list_lookup_2 _ _ _ Hi)).
Qed.
Section Net.
Context (B : bnet) (HB : bnet_ok B).
Definition bnames : list str := bv_name <$> bn_vars B.
Lemma bn_name_lookup v : v < bn_size B -> bnames !! v = Some (bn_name B v) /\ name_ok (bn_name B v).
Proof using HB.
  intros Hv. destruct (lookup_lt_is_Some_2 (bn_vars B) v Hv) as [w Hw]. unfold bn_name, bnames. rewrite list_lookup_fmap, Hw. split; [done|].
  destruct HB as [[_ H] _ _ _ _ _]. rewrite Forall_forall in H. apply H. by eapply elem_of_list_lookup_2.
Qed.
Lemma find_bn_name v : v < bn_size B -> find_name bnames (bn_name B v) = Some v.
Proof using HB. intros Hv. apply find_name_spec; [apply HB|by apply bn_name_lookup]. Qed.
Lemma bif_parents_run ps e : Forall (fun p => p < bn_size B) ps -> bif_parents bnames (comma_list [] (bn_name B <$> ps) ++ lit ")" :: e) = Ok (Some <$> ps).
Proof using HB.
  intros H. induction H as [|p ps Hp Hps IH]; [done|]. destruct (bn_name_lookup p Hp) as [_ (Hw & Hl & Hn)]. cbn [fmap list_fmap].
  assert (forall s rest, s = [comma] \/ s = [] -> bif_parents bnames ((bn_name B p ++ s) :: rest) = (ps ← bif_parents bnames rest; Ok (Some p :: ps))) as Hone.
  { intros s rest Hs. cbn [bif_parents]. rewrite bool_decide_false.
    - rewrite trim_comma_name by done. cbn [mbind outcome_bind]. by rewrite find_bn_name.
    - destruct Hs as [-> | ->]; [|by rewrite app_nil_r]. intros E. apply (f_equal last) in E. by rewrite last_snoc in E. }
  destruct ps as [|p' ps].
  - cbn [fmap list_fmap comma_list app]. rewrite Hone by (by right). reflexivity.
  - cbn [fmap list_fmap] in *. change (comma_list [] (bn_name B p :: bn_name B p' :: (bn_name B <$> ps))) with ((bn_name B p ++ [comma]) :: comma_list [] (bn_name B p' :: (bn_name B <$> ps))).
    cbn [app]. rewrite Hone by (by left). rewrite IH. done.
Qed.
Lemma mcollect_deref (ps : list nat) : mcollect (Some <$> ps) deref = Ok ps.
Proof. induction ps as [|p ps IH]; [done|]. cbn [fmap list_fmap mcollect deref mbind outcome_bind]. by rewrite IH. Qed.

(** ** The head line *)
Lemma head_run D L this0 ps0 stod : bd_node D < bn_size B -> Forall (fun p => p < bn_size B) (bd_parents D) -> ld_names L = bnames ->
  prob_step stod (head_words B D) (L, this0, ps0) =
  (N ← mfor (bd_parents D) (fun p N => load_arc N p (bd_node D)) (ld_net L); Ok (mkLoaded (ld_names L) (ld_ids L) N (ld_counters L), Some (bd_node D), bd_parents D)).
Proof using HB.
  intros Hx Hps Hn. destruct (decide (bd_parents D = [])) as [E|E].
  - unfold head_words. rewrite bool_decide_true by done. cbn [app]. unfold prob_step.
    transitivity (Ok (L, find_name (ld_names L) (bn_name B (bd_node D)), @nil nat)); [reflexivity|]. rewrite Hn, find_bn_name by done.
    rewrite E. cbn [mfor mbind outcome_bind]. rewrite <-Hn. by destruct L.
  - unfold head_words. rewrite bool_decide_false by done. cbn [app]. unfold prob_step.
    transitivity (ops ← bif_parents (ld_names L) (comma_list [] (bn_name B <$> bd_parents D) ++ [lit ")"; lit "{"]);
      x ← deref (find_name (ld_names L) (bn_name B (bd_node D))); ps ← mcollect ops deref;
      N ← mfor ps (fun p N => load_arc N p x) (ld_net L);
      Ok (mkLoaded (ld_names L) (ld_ids L) N (ld_counters L), find_name (ld_names L) (bn_name B (bd_node D)), ps)).
    { unfold vat. cbn [lookup list_lookup mbind outcome_bind]. rewrite bool_decide_true by done. unfold bif_head, vat. cbn [lookup list_lookup mbind outcome_bind]. reflexivity. }
    rewrite Hn, find_bn_name, bif_parents_run by done. cbn [mbind outcome_bind deref]. rewrite mcollect_deref. done.
Qed.

(** ** A row *)
Definition bids : list (gmap str nat) := xml_ids ∘ bv_values <$> bn_vars B.
Definition cfg (ps vs : list nat) : config := foldl (fun u pv => cins pv u) [] (zip ps vs).
Lemma bids_lookup v : v < bn_size B -> exists m, bids !! v = Some m /\ size m = bn_dom B v /\ forall x, x < bn_dom B v -> m !! bn_value B v x = Some x /\ value_ok (bn_value B v x).
Proof using HB.
  intros Hv. destruct (lookup_lt_is_Some_2 (bn_vars B) v Hv) as [w Hw]. unfold bids. rewrite list_lookup_fmap, Hw. cbn. eexists. split; [done|].
  destruct HB as [_ Ho _ _ _ _]. rewrite Forall_forall in Ho. destruct (Ho w) as (_ & _ & Hd & Hok); [by eapply elem_of_list_lookup_2|].
  destruct (xml_ids_spec _ Hd) as [Hs Hl]. unfold bn_dom, bn_value. rewrite Hw. cbn. split; [done|]. intros x Hx. destruct (lookup_lt_is_Some_2 _ _ Hx) as [s Hs']. rewrite Hs'. cbn.
  split; [by apply Hl|]. rewrite Forall_forall in Hok. apply Hok. by eapply elem_of_list_lookup_2.
Qed.
Lemma scaled_range q : (0 <= q)%Qc -> (q <= 1)%Qc -> (0 <= scaled q <= 10000)%Z.
Proof.
  intros H0 H1. assert (0 <= q * qz 10000)%Qc as Hq. { apply (Qcmult_le_compat_r 0 q (qz 10000)) in H0; [by rewrite Qcmult_0_l in H0|done]. }
  destruct (qtrunc_spec (q * qz 10000)%Qc Hq) as (Ha & _ & Hc). split; [done|]. apply UtilProofs.qz_le. etransitivity; [exact Ha|].
  apply (Qcmult_le_compat_r q 1 (qz 10000)) in H1; [|done]. by rewrite Qcmult_1_l in H1.
Qed.
Lemma per10000_ok q : (0 <= q)%Qc -> (q <= 1)%Qc -> per10000 q = Ok (scaled q).
Proof. intros H0 H1. unfold per10000. fold (scaled q). pose proof (scaled_range q H0 H1). unfold fits_int. by rewrite bool_decide_true by lia. Qed.
Lemma vat_at {A} (l : list A) i x : l !! i = Some x -> vat l i = Ok x.
Proof. intros H. unfold vat. by rewrite H. Qed.
Lemma cfg_snoc ps vs p v : length ps = length vs -> cfg (ps ++ [p]) (vs ++ [v]) = cins (p, v) (cfg ps vs).
Proof. intros H. unfold cfg. rewrite zip_with_app by done. by rewrite foldl_app. Qed.
Lemma open_list_length l : length (open_list l) = length l.
Proof. by destruct l. Qed.
Lemma row_value_token ps vs i p v rest : Forall2 (fun p x => x < bn_dom B p) ps vs -> Forall (fun p => p < bn_size B) ps -> ps !! i = Some p -> vs !! i = Some v ->
  exists t v1, vat (open_list (comma_list (lit ")") (zip_with (bn_value B) ps vs)) ++ rest) i = Ok t /\ trim_left_parenthesis t = Ok v1 /\ trim_right_one [44%Z; 41%Z] v1 = Ok (bn_value B p v).
Proof using HB.
  intros HF Hps Hp Hv. assert (zip_with (bn_value B) ps vs !! i = Some (bn_value B p v)) as Hz.
  { apply lookup_zip_with_Some. eauto. }
  destruct (comma_list_lookup (lit ")") _ _ _ Hz) as (s & Hs & Hsep).
  assert (v < bn_dom B p) as Hlt by (exact (Forall2_lookup_lr _ _ _ _ _ _ HF Hp Hv)).
  assert (p < bn_size B) as Hpn by (exact (Forall_lookup_1 _ _ _ _ Hps Hp)).
  destruct (bids_lookup p Hpn) as (m & _ & _ & Hm). destruct (Hm v Hlt) as [_ (Hw & _ & Hh)].
  assert (trim_right_one [44%Z; 41%Z] (bn_value B p v ++ s) = Ok (bn_value B p v)) as Htr.
  { destruct Hsep as [-> | ->]; apply trim_right_one_snoc; [left|right; left]. }
  set (cl := comma_list (lit ")") (zip_with (bn_value B) ps vs)) in *. destruct cl as [|w0 cl'] eqn:Ecl; [done|]. destruct i as [|i].
  - cbn in Hs. injection Hs as ->. eexists _, _. split_and!; [reflexivity|reflexivity|]. done.
  - change (cl' !! i = Some (bn_value B p v ++ s)) in Hs. eexists _, _. split_and!; [| |exact Htr].
    + assert ((cl' ++ rest) !! i = Some (bn_value B p v ++ s)) as H by (apply lookup_app_l_Some; exact Hs).
      apply (vat_at ((open_list (w0 :: cl')) ++ rest) (S i) _ H).
    + destruct (bn_value B p v) as [|c w] eqn:E; [by destruct Hw|]. cbn [app trim_left_parenthesis]. rewrite bool_decide_false; [done|]. intros ->. by apply Hh.
Qed.
Definition row_hist (num : str -> Qc) (D : bdist) (r : list nat * list str) : history :=
  imap (fun i s => (i, cfg (bd_parents D) r.1, scaled (num s))) r.2.
Lemma row_run stod num D r L nd c : bd_node D < bn_size B -> Forall (fun p => p < bn_size B) (bd_parents D) -> row_ok B D r ->
  (forall s, s ∈ r.2 -> stod s = Ok (num s) /\ (0 <= num s)%Qc /\ (num s <= 1)%Qc) ->
  ld_ids L = bids -> nt_nodes (ld_net L) !! bd_node D = Some nd -> ld_counters L !! bd_node D = Some c ->
  prob_step stod (row_words B (bd_parents D) r) (L, Some (bd_node D), bd_parents D) =
  Ok (mkLoaded (ld_names L) (ld_ids L) (ld_net L) (<[bd_node D := add_counts nd (row_hist num D r) c]> (ld_counters L)), Some (bd_node D), bd_parents D).
Proof using HB.
  intros Hx Hps (HF & Hlen & Hw) Hnum Hids Hnd Hc. set (x := bd_node D) in *. set (ps := bd_parents D) in *.
  assert (exists t, vat (row_words B ps r) 0 = Ok t /\ t <> lit "probability" /\ t <> lit "}") as (t & Ht & Ht1 & Ht2).
  { unfold row_words. case_bool_decide as E; [by exists (lit "table")|]. destruct ps as [|p ps'] eqn:Eps; [done|].
    destruct r.1 as [|v vs']; [by inversion HF|]. cbn [zip_with]. destruct (comma_list (lit ")") (bn_value B p v :: zip_with (bn_value B) ps' vs')) as [|w0 l0] eqn:E0.
    { apply (f_equal length) in E0. rewrite comma_list_length in E0. done. }
    cbn [open_list]. eexists. split; [reflexivity|]. split; intros E1; apply (f_equal head) in E1; by vm_compute in E1. }
  unfold prob_step. rewrite Ht. cbn [mbind outcome_bind]. rewrite !bool_decide_false by done.
  assert (bif_row stod (row_words B ps r) (Some x) ps L = Ok (mkLoaded (ld_names L) (ld_ids L) (ld_net L) (<[x := add_counts nd (row_hist num D r) c]> (ld_counters L)))) as ->; [|done].
  unfold bif_row. cbn [deref mbind outcome_bind]. destruct (bids_lookup x Hx) as (m & Hm & Hsz & _). rewrite Hids, (vget_ok _ _ _ Hm). cbn [mbind outcome_bind]. rewrite Hsz.
  match goal with |- context [mfor (seq 0 (length ps)) ?f ?s0] => destruct (mfor_inv (fun done st => st = (cfg (take (length done) ps) (take (length done) r.1), bids)) (seq 0 (length ps)) f s0) as (st & Hst & ->) end.
  { unfold cfg. by rewrite !take_0. }
  { intros dn i rest st Hs ->. assert (i = length dn /\ i < length ps) as [-> Hi].
    { assert (seq 0 (length ps) !! length dn = Some i) as H by (rewrite Hs; by apply list_lookup_middle). apply lookup_seq in H. cbn in H. lia. }
    pose proof (Forall2_length _ _ _ HF) as HLn. destruct (lookup_lt_is_Some_2 _ _ Hi) as [p Hp]. destruct (lookup_lt_is_Some_2 r.1 (length dn)) as [v Hv]; [by rewrite <-HLn|].
    destruct (row_value_token ps r.1 (length dn) p v (comma_list (lit ";") r.2) HF Hps Hp Hv) as (tk & v1 & Htk & Hv1 & Hv2).
    assert (v < bn_dom B p) as Hlt by (exact (Forall2_lookup_lr _ _ _ _ _ _ HF Hp Hv)). assert (p < bn_size B) as Hpn by (exact (Forall_lookup_1 _ _ _ _ Hps Hp)).
    destruct (bids_lookup p Hpn) as (mp & Hmp & _ & Hval). destruct (Hval v Hlt) as [Hval' _].
    eexists. unfold row_words. rewrite bool_decide_false by (by intros ->). rewrite Htk. cbn [mbind outcome_bind]. rewrite Hv1. cbn [mbind outcome_bind]. rewrite Hv2. cbn [mbind outcome_bind].
    rewrite (vget_ok _ _ _ Hp). cbn [mbind outcome_bind]. rewrite (vget_ok _ _ _ Hmp). cbn [mbind outcome_bind]. rewrite Hval'. split; [done|].
    rewrite app_length. cbn [length]. rewrite Nat.add_1_r, (take_S_r _ _ _ Hp), (take_S_r _ _ _ Hv), cfg_snoc; [done|]. rewrite !take_length. lia. }
  rewrite Hst. cbn [mbind outcome_bind]. rewrite seq_length. rewrite (take_ge ps), (take_ge r.1) by (try rewrite <-(Forall2_length _ _ _ HF); lia).
  rewrite <-Hlen. set (pos := if bool_decide (ps = []) then 1 else length ps).
  assert (forall i s, r.2 !! i = Some s -> exists t, vat (row_words B ps r) (pos + i) = Ok t /\ trim_right_one [44%Z; 59%Z] t = Ok s) as Htok.
  { intros i s Hs. destruct (comma_list_lookup (lit ";") _ _ _ Hs) as (sf & Hsf & Hsep). exists (s ++ sf). split.
    - apply vat_at. unfold row_words, pos. case_bool_decide as E.
      + rewrite lookup_app_r by (cbn; lia). cbn [length]. replace (1 + i - 1) with i by lia. exact Hsf.
      + assert (length (open_list (comma_list (lit ")") (zip_with (bn_value B) ps r.1))) = length ps) as Hol.
        { rewrite open_list_length, comma_list_length, zip_with_length, <-(Forall2_length _ _ _ HF). lia. }
        rewrite lookup_app_r by lia. rewrite Hol. replace (length ps + i - length ps) with i by lia. exact Hsf.
    - destruct Hsep as [-> | ->]; apply trim_right_one_snoc; [left|right; left]. }
  match goal with |- context [mfor (seq 0 (length r.2)) ?f ?s0] => destruct (mfor_inv (fun done cs => cs = <[x := add_counts nd (take (length done) (row_hist num D r)) c]> (ld_counters L)) (seq 0 (length r.2)) f s0) as (cs & Hcs & ->) end.
  { cbn [length]. rewrite take_0. cbn. by rewrite list_insert_id. }
  { intros dn i rest cs Hs ->. assert (i = length dn /\ i < length r.2) as [-> Hi].
    { assert (seq 0 (length r.2) !! length dn = Some i) as H by (rewrite Hs; by apply list_lookup_middle). apply lookup_seq in H. cbn in H. lia. }
    destruct (lookup_lt_is_Some_2 _ _ Hi) as [s Hs']. destruct (Htok _ _ Hs') as (tk & Htk & Hv). destruct (Hnum s) as (Hst1 & Hq0 & Hq1); [by eapply elem_of_list_lookup_2|].
    eexists. rewrite Htk. cbn [mbind outcome_bind]. rewrite Hv. cbn [mbind outcome_bind]. rewrite Hst1. cbn [mbind outcome_bind]. rewrite per10000_ok by done. cbn [mbind outcome_bind].
    unfold add_count_to. rewrite (find_node_ok _ _ _ Hnd). cbn [mbind outcome_bind]. assert (x < length (ld_counters L)) as Hxl by (by eapply lookup_lt_Some).
    rewrite (vget_ok _ x (add_counts nd (take (length dn) (row_hist num D r)) c)) by (by apply list_lookup_insert). cbn [mbind outcome_bind].
    rewrite vset_ok by (by rewrite insert_length). split; [done|]. rewrite list_insert_insert. f_equal. rewrite app_length. cbn [length]. rewrite Nat.add_1_r.
    rewrite (take_S_r _ _ (length dn, cfg ps r.1, scaled (num s))) by (unfold row_hist; rewrite list_lookup_imap, Hs'; done). unfold add_counts. by rewrite foldl_app. }
  rewrite Hcs. cbn [mbind outcome_bind]. rewrite seq_length, take_ge by (unfold row_hist; by rewrite imap_length). done.
Qed.
End Net.
