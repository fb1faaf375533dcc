From Coq Require Import Ascii String.
From Coq Require Import Field QArith.
From Verif Require Import PipeModel PipeSpec DataProofs CSVTheorems UtilProofs NetProofs NetProofs2 NetProofs3 BIFProofs BIFProofs2 BIFTheorems BIFTables BIFXml BIFMain EvalTheorems JTTheorems StructProofs LearnProofs.
From Verif Require Import LearnTheorems.
Local Open Scope nat_scope.

(** ** The test file *)
Lemma value_id_spec d s v : NoDup d -> value_id d s = Some v <-> d !! v = Some s.
Proof.
  intros Hd. unfold value_id. split.
  - intros H. apply fmap_Some in H as ([i x] & H & ->). apply list_find_Some in H as (H & <- & _). done.
  - intros H. apply fmap_Some. exists (v, s). split; [|done]. apply list_find_Some. split_and!; [done|done|]. intros j y Hj Hlt ->. pose proof (NoDup_lookup _ _ _ _ Hd Hj H). lia.
Qed.
Definition same_map (m : gmap str nat) (d : list str) : Prop := forall s, m !! s = value_id d s.
Lemma csv_line_map n sample ms ds : Forall2 same_map ms ds -> csv_test_line_map n sample ms = csv_test_line n sample ds.
Proof.
  intros HF. unfold csv_test_line_map, csv_test_line. destruct (trim_right sample) as [s|]; [|done]. cbn [mbind outcome_bind]. destruct (split_str s [comma]) as [cells|]; [|done]. cbn [mbind outcome_bind].
  apply mfor_ext. intros i row _. unfold vget. change (list Z) with str in *. destruct (cells !! i) as [c|]; [|done]. cbn [mbind outcome_bind]. case_bool_decide; [done|].
  destruct (ms !! i) as [m|] eqn:Hm.
  - destruct (Forall2_lookup_l _ _ _ _ _ HF Hm) as (d & Hd & E). rewrite Hd. cbn [mbind outcome_bind]. by rewrite (E c).
  - pose proof (Forall2_length _ _ _ HF) as Hl. apply lookup_ge_None in Hm. rewrite (proj2 (lookup_ge_None ds i)) by lia. done.
Qed.
Lemma csv_testing_map n ms ds text : Forall2 same_map ms ds -> load_csv_testing_map n ms text = load_csv_testing n ds text.
Proof.
  intros HF. unfold load_csv_testing_map, load_csv_testing. assert (bool_decide (ms = []) = bool_decide (ds = [])) as ->.
  { apply bool_decide_ext. destruct HF; split; congruence. }
  case_bool_decide; [done|]. destruct (getline text) as [[[header rest] ?] eof]. destruct (line_after header rest eof) as [line rest'].
  generalize (S (length rest')). intros fuel. generalize (@nil rowv). revert line rest'. induction fuel as [|f IH]; intros line rest' rows; [done|]. cbn [csv_test_loop_map csv_test_loop]. rewrite (csv_line_map _ _ _ _ HF).
  destruct (csv_test_line n line ds) as [row|]; [|done]. cbn [mbind outcome_bind]. destruct (getline rest') as [[[l r] ok] ?]. destruct ok; [apply IH|done].
Qed.
Lemma sorted_unique (E E' : list (nat * nat)) : StronglySorted lt (fst <$> E) -> StronglySorted lt (fst <$> E') -> (forall p, p ∈ E <-> p ∈ E') -> E = E'.
Proof.
  revert E'. induction E as [|[v x] E IH]; intros [|[w y] E'] H1 H2 Hiff; [done| | |].
  - exfalso. by apply (not_elem_of_nil (w, y)), Hiff; left.
  - exfalso. by apply (not_elem_of_nil (v, x)), Hiff; left.
  - cbn in H1, H2. inversion_clear H1 as [|? ? S1 F1]. inversion_clear H2 as [|? ? S2 F2]. rewrite Forall_forall in F1, F2.
    assert ((v, x) = (w, y)) as E0.
    { destruct (proj1 (elem_of_cons _ _ _) (proj1 (Hiff (v, x)) (elem_of_list_here _ _))) as [->|Ha]; [done|].
      destruct (proj1 (elem_of_cons _ _ _) (proj2 (Hiff (w, y)) (elem_of_list_here _ _))) as [->|Hb]; [done|].
      assert (w < v) by (apply F2; by apply (elem_of_list_fmap_1 fst _ (v, x))). assert (v < w) by (apply F1; by apply (elem_of_list_fmap_1 fst _ (w, y))). lia. }
    rewrite E0. f_equal. apply IH; [done..|]. injection E0 as <- <-. intros p. specialize (Hiff p). rewrite !elem_of_cons in Hiff. split; intros Hp.
    + destruct (proj1 Hiff (or_intror Hp)) as [->|?]; [|done]. assert (v < v) by (apply F1; by apply (elem_of_list_fmap_1 fst _ (v, x))). lia.
    + destruct (proj2 Hiff (or_intror Hp)) as [->|?]; [|done]. assert (v < v) by (apply F2; by apply (elem_of_list_fmap_1 fst _ (v, x))). lia.
Qed.
Definition zrow (E : list (nat * nat)) : rowv := (fun p => (p.1, Z.of_nat p.2)) <$> E.
Lemma as_evidence_zrow E : as_evidence (zrow E) = Ok E.
Proof.
  unfold as_evidence. rewrite (mcollect_ok _ _ (fun p => (p.1, Z.to_nat p.2))).
  - f_equal. unfold zrow. rewrite <-list_fmap_compose. rewrite <-(list_fmap_id E) at 2. apply list_fmap_ext. intros i [v x] _. cbn. by rewrite Nat2Z.id.
  - intros [v z] (E0 & -> & _)%elem_of_list_fmap. cbn. rewrite bool_decide_false by lia. done.
Qed.
Lemma evidence_zero row : evidence_of 0 row = match row with [] => Err Thrown | p :: row' => Ok (row', snd p) end.
Proof.
  unfold evidence_of. destruct row as [|p row]; [done|]. cbn [length seq zip zip_with]. rewrite filter_cons_False by (cbn; lia).
  unfold vat. cbn [lookup list_lookup mbind outcome_bind]. f_equal. f_equal.
  enough (forall k, 0 < k -> (fun jp : nat * (nat * Z) => jp.2) <$> filter (fun jp => jp.1 <> 0) (zip (seq k (length row)) row) = row) as H by (apply H; lia).
  clear p. induction row as [|p row IH]; intros k Hk; [done|]. cbn [length seq zip zip_with]. rewrite filter_cons_True by (cbn; lia). cbn [fmap list_fmap]. f_equal. apply IH. lia.
Qed.

(** ** The loaded network *)
Lemma sumv_dom d1 d2 vs F a : (forall v, v ∈ vs -> d1 v = d2 v) -> sumv d1 vs F a = sumv d2 vs F a.
Proof.
  revert a. induction vs as [|v vs IH]; intros a H; [done|]. cbn. rewrite (H v) by left. apply qsum_ext. intros x _. apply IH. intros w Hw. apply H. by right.
Qed.
Section xml.
Context (B : bnet) (HB : bnet_ok B) (stod : str -> outcome Qc) (num : str -> Qc) (Hnum : reads_numbers stod num B).
Lemma nodes_perm : length (bn_dists B) = bn_size B -> bd_node <$> bn_dists B ≡ₚ seq 0 (bn_size B).
Proof using HB.
  intros Hl. apply submseteq_Permutation_length_eq; [rewrite seq_length, fmap_length; lia|]. apply NoDup_submseteq; [apply HB|].
  intros x (D & -> & HD)%elem_of_list_fmap. apply elem_of_seq. pose proof (proj1 (Forall_forall _ _) (bo_parents _ HB) D HD) as (H & _). lia.
Qed.
Lemma qprod_fmap {A C} (g : A -> C) l (f : C -> Qc) : qprod (g <$> l) f = qprod l (fun x => f (g x)).
Proof. induction l as [|x l IH]; [done|]. cbn [fmap list_fmap]. rewrite !BeliefProofs.qprod_cons. by rewrite IH. Qed.
Record holds_file (L : loaded) (ts : list ptable) : Prop := {
  hf_size : net_size (ld_net L) = bn_size B;
  hf_dom : forall v, v < bn_size B -> net_dom (ld_net L) v = bn_dom B v;
  hf_ok : net_ok (ld_net L);
  hf_inv : netinv (ld_net L);
  hf_topo : nt_topo (ld_net L) = [];
  hf_names : ld_names L = bv_name <$> bn_vars B;
  hf_ids : ld_ids L = xml_ids ∘ bv_values <$> bn_vars B;
  hf_arc : forall x y, child_rel (ld_net L) x y <-> bn_arc B x y;
  hf_tables : node_tables (ld_net L) (ld_counters L) = Ok ts;
  hf_length : length ts = bn_size B;
  hf_cpt : forall x t, ts !! x = Some t -> cpt_ok (ld_net L) x (parents_of (ld_net L) x) (tval t) t;
  hf_family : Forall (table_of_family (ld_net L)) ts;
  hf_positive : forall t a, t ∈ ts -> valid (net_dom (ld_net L)) a -> (0 < tval t a)%Qc;
  hf_entry : forall D t a, D ∈ bn_dists B -> ts !! bd_node D = Some t -> valid (net_dom (ld_net L)) a -> tval t a = file_entry num D a;
  hf_joint : forall a, valid (net_dom (ld_net L)) a -> joint ts a = file_joint num B a }.
Lemma load_xml_main vars probs : is_xml B vars probs -> length (bn_dists B) = bn_size B -> Forall (complete_rows B) (bn_dists B) ->
  exists L ts, load_xmlbif stod vars probs = Ok L /\ holds_file L ts.
Proof using HB Hnum.
  intros Hx Hl Hc. destruct (load_xml_ok B HB stod num Hnum vars probs Hx Hl Hc) as (L0 & L & HL & HI & En & Ei & EN & EE & Et & Ene & Hinv & ET).
  destruct (bind_tables B HB stod num Hnum L0 HI) as (ts & Hts & Hlen & Hcpt & HD). exists L, ts. split; [done|].
  assert (net_size (ld_net L) = bn_size B) as Hsz by (unfold net_size; rewrite EN; apply HI).
  assert (domain_sizes (ld_net L) = domain_sizes (ld_net L0)) as Ed by (unfold domain_sizes; by rewrite EN).
  assert (net_dom (ld_net L) = net_dom (ld_net L0)) as End by (unfold net_dom; by rewrite Ed).
  assert (forall v, v < bn_size B -> net_dom (ld_net L) v = bn_dom B v) as Hdom by (intros v Hv; rewrite End; by apply (binv_dom B num)).
  assert (doms_positive (ld_net L)) as Hpos.
  { apply Forall_forall. intros d Hd. rewrite Ed in Hd. apply elem_of_list_lookup in Hd as [v Hd]. unfold domain_sizes in Hd. rewrite list_lookup_fmap in Hd. destruct (nt_nodes (ld_net L0) !! v) as [nd|] eqn:Hv; [|done]. cbn in Hd. injection Hd as <-.
    rewrite (bi_dom _ _ _ _ HI v nd Hv). apply (bn_dom_pos B HB). rewrite <-(bi_size _ _ _ _ HI). by eapply lookup_lt_Some. }
  assert (forall x y, child_rel (ld_net L) x y <-> bn_arc B x y) as Harc.
  { intros x y. destruct (ni_consistent _ Hinv x y) as [Hcp Hhd]. transitivity (has_directed (ld_net L) x y); [tauto|]. unfold has_directed, bn_arc, bn_arcs. setoid_rewrite EE. setoid_rewrite (bi_edges _ _ _ _ HI). setoid_rewrite elem_of_list_fmap. split.
    - intros (e & ([a b] & -> & Hin) & Ea & Eb & _). cbn in Ea, Eb. by subst.
    - intros Hin. eexists. split; [by exists (x, y)|]. done. }
  assert (forall D t a, D ∈ bn_dists B -> ts !! bd_node D = Some t -> valid (net_dom (ld_net L)) a -> tval t a = file_entry num D a) as Hentry.
  { intros D t a HDin Ht Ha. destruct (proj1 (Forall_forall _ _) Hc D HDin) as [Hnd Hall]. destruct (HD D HDin Hnd) as (t' & Ht' & _ & Hrow & _). rewrite Ht in Ht'. injection Ht' as <-. unfold file_entry.
    destruct (list_find (fun r => r.1 = a <$> bd_parents D) (bd_rows D)) as [[i r]|] eqn:Ef.
    - apply list_find_Some in Ef as (Hr & Hr1 & _). apply Hrow; [by eapply elem_of_list_lookup_2|by rewrite <-End|]. done.
    - exfalso. apply list_find_None in Ef. rewrite Forall_forall in Ef. assert (a <$> bd_parents D ∈ (bd_rows D).*1) as Hin.
      { apply Hall. apply Forall2_fmap_r, Forall_Forall2_diag, Forall_forall. intros p Hp. destruct (proj1 (Forall_forall _ _) (bo_parents _ HB) D HDin) as (_ & _ & Hps). rewrite Forall_forall in Hps. specialize (Hps p Hp). rewrite <-Hdom by done. apply Ha. }
      apply elem_of_list_fmap in Hin as (r & E & Hr). by apply (Ef r Hr). }
  assert (forall x t, ts !! x = Some t -> cpt_ok (ld_net L) x (parents_of (ld_net L) x) (tval t) t) as Hcpt'.
  { intros x t Ht. specialize (Hcpt x t Ht). unfold cpt_ok, is_cpt in *. unfold parents_of in *. rewrite End, EN. exact Hcpt. }
  constructor; try done.
  - by apply netinv_ok.
  - by rewrite En, (bi_names _ _ _ _ HI).
  - by rewrite Ei, (bi_ids _ _ _ _ HI).
  - by rewrite ET.
  - apply Forall_forall. intros t Ht'. apply elem_of_list_lookup in Ht' as [x Hxt]. destruct (lookup_lt_is_Some_2 (nt_nodes (ld_net L)) x) as [nd Hnd]; [unfold net_size in Hsz; rewrite Hsz, <-Hlen; by eapply lookup_lt_Some|].
    destruct (Hcpt' x t Hxt) as [HC _]. unfold parents_of in HC. rewrite Hnd in HC. by eapply is_cpt_family.
  - intros t a Ht' Ha. apply elem_of_list_lookup in Ht' as [x Hxt]. destruct (Hcpt' x t Hxt) as (_ & HC & _). by apply HC.
  - intros a Ha. set (f := fun x => match ts !! x with Some t => tval t a | None => 0%Qc end).
    transitivity (qprod (seq 0 (bn_size B)) f). { rewrite <-Hlen. apply (joint_product ts (fun x _ => f x) a). intros x t Ht. unfold f. by rewrite Ht. }
    rewrite <-(BeliefProofs.qprod_perm _ _ f (nodes_perm Hl)). rewrite qprod_fmap. unfold file_joint. apply BeliefProofs.qprod_ext. intros D HDin. unfold f.
    destruct (lookup_lt_is_Some_2 ts (bd_node D)) as [t Ht]. { rewrite Hlen. by destruct (proj1 (Forall_forall _ _) (bo_parents _ HB) D HDin). } rewrite Ht. by apply Hentry.
Qed.

Section use.
Context (L : loaded) (ts : list ptable) (HF : holds_file L ts).
Definition known (E : list (nat * nat)) : Prop := forall v x, (v, x) ∈ E -> v < bn_size B /\ x < bn_dom B v.
Lemma known_range E : known E -> evidence_in_range (ld_net L) E.
Proof using HF. intros HE v x Hin Hv. destruct (HE v x Hin) as [H1 H2]. by rewrite (hf_dom _ _ HF v H1). Qed.
Lemma known_valid E a : known E -> valid (net_dom (ld_net L)) a -> valid (net_dom (ld_net L)) (set_evidence E a).
Proof using HF.
  intros HE Ha. unfold set_evidence. induction E as [|[w x] E IH]; [done|]. cbn. apply valid_upd.
  - apply IH. intros v y Hin. apply HE. by right.
  - destruct (HE w x (elem_of_list_here _ _)) as [H1 H2]. by rewrite (hf_dom _ _ HF w H1).
Qed.
Lemma sum_file E vs a : known E -> valid (net_dom (ld_net L)) a -> (forall v, v ∈ vs -> v < bn_size B) ->
  sumv (net_dom (ld_net L)) vs (fun a => joint ts (set_evidence E a)) a = sumv (bn_dom B) vs (fun a => file_joint num B (set_evidence E a)) a.
Proof using HF.
  intros HE Ha Hvs. rewrite (sumv_ext _ _ _ (fun a => file_joint num B (set_evidence E a))) by (try done; intros b Hb _; apply (hf_joint _ _ HF); by apply known_valid).
  apply sumv_dom. intros v Hv. apply (hf_dom _ _ HF). by apply Hvs.
Qed.
Lemma posterior_file E v k : known E -> v < bn_size B -> k < bn_dom B v -> posterior (ld_net L) ts E v k = file_posterior num B E v k.
Proof using HF.
  intros HE Hv Hk. pose proof (net_dom_pos _ (hf_ok _ _ HF)) as Hpos. assert (valid (net_dom (ld_net L)) (fun _ => 0)) as H0 by (intros w; apply Hpos).
  unfold posterior, file_posterior, weight, evidence_weight, file_weight. cbn [app fmap list_fmap fst set_evidence foldr snd]. rewrite (hf_size _ _ HF). f_equal.
  - apply sum_file; [done| |].
    + apply valid_upd; [done|]. by rewrite (hf_dom _ _ HF).
    + intros w [_ Hw]%elem_of_list_filter. apply elem_of_seq in Hw. lia.
  - apply sum_file; [done|done|]. intros w [_ Hw]%elem_of_list_filter. apply elem_of_seq in Hw. lia.
Qed.
Lemma compared_file E ref : known E -> compared (ld_net L) ts E ref = file_compared num B E ref.
Proof using HF.
  intros HE. unfold compared, file_compared. rewrite (hf_size _ _ HF).
  assert (forall v, v ∈ filter (fun v => v ∉ fst <$> E) (seq 0 (bn_size B)) -> v < bn_size B) as Hall by (intros w [_ Hw]%elem_of_list_filter; apply elem_of_seq in Hw; lia).
  induction (filter (fun v => v ∉ fst <$> E) (seq 0 (bn_size B))) as [|v vs IH]; [done|]. assert (v < bn_size B) as Hv by (apply Hall; left).
  change ((v :: vs) ≫= ?f) with (f v ++ (vs ≫= f)). rewrite IH by (intros w Hw; apply Hall; by right). f_equal. rewrite (hf_dom _ _ HF v Hv).
  assert (forall k, k ∈ filter (fun k => (0 < ref v k)%Qc) (seq 0 (bn_dom B v)) -> k < bn_dom B v) as Hks by (intros w [_ Hw]%elem_of_list_filter; apply elem_of_seq in Hw; lia).
  induction (filter (fun k => (0 < ref v k)%Qc) (seq 0 (bn_dom B v))) as [|k ks IHk]; [done|]. change ((k :: ks) ≫= ?f) with (f k ++ (ks ≫= f)). rewrite IHk by (intros w Hw; apply Hks; by right).
  f_equal. f_equal. f_equal. rewrite posterior_file; [done|done|done|]. apply Hks. left.
Qed.
Lemma shape_size : net_size (file_shape B) = bn_size B.
Proof using. unfold net_size, file_shape, new_network. cbn. by rewrite !fmap_length. Qed.
Lemma shape_dom v : v < bn_size B -> net_dom (file_shape B) v = bn_dom B v.
Proof using.
  intros Hv. destruct (lookup_lt_is_Some_2 (bn_vars B) v Hv) as [w Hw]. unfold net_dom, dom_of, domain_sizes, file_shape, new_network, bn_dom. cbn. by rewrite <-!list_fmap_compose, list_lookup_fmap, Hw.
Qed.
Lemma reference_file Es refs text : is_reference stod (file_shape B) Es refs text -> is_reference stod (ld_net L) Es refs text.
Proof using HF.
  intros [Hl (lss & HF2 & Ht)]. split; [done|]. exists lss. split; [|done]. eapply Forall2_impl; [exact HF2|]. intros [E ref] ls [H1 H2]. cbn [fst snd] in *. rewrite shape_size in H1. split; [by rewrite (hf_size _ _ HF)|].
  intros v l Hv. specialize (H2 v l Hv). assert (v < bn_size B) as Hlt by (rewrite <-H1; by eapply lookup_lt_Some). rewrite shape_dom in H2 by done. by rewrite (hf_dom _ _ HF v Hlt).
Qed.
Lemma connected_file : file_connected B -> weakly_connected (ld_net L).
Proof using HF.
  intros HC x y Hx Hy. rewrite (hf_size _ _ HF) in Hx, Hy. eapply rtc_subrel; [|by apply HC]. intros a b [H|H]; [left|right]; by apply (hf_arc _ _ HF).
Qed.
End use.
End xml.
