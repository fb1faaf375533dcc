From Coq Require Import Ascii String.
From Coq Require Import Field QArith.
From Verif Require Import DataProofs UtilProofs NetProofs NetProofs2 NetProofs3 BIFProofs BIFProofs2 LearnProofs BIFTheorems BIFTables BIFBound BIFXml.
From Verif Require Import LearnTheorems.
Local Open Scope nat_scope.

Section Main.
Context (B : bnet) (HB : bnet_ok B) (stod : str -> outcome Qc) (num : str -> Qc) (Hnum : reads_numbers stod num B).
Lemma binv_structure L : binv B num (bn_dists B) L -> holds_structure B L.
Proof using HB.
  intros HI. constructor.
  - apply HI.
  - apply HI.
  - intros v Hv. rewrite (bi_names _ _ _ _ HI). by apply (bn_name_lookup B HB).
  - intros v Hv. by apply (binv_dom B num).
  - intros v x Hv Hx. rewrite (bi_ids _ _ _ _ HI). destruct (bids_lookup B HB v Hv) as (m & Hm & _ & Hval). exists m. split; [done|]. by apply Hval.
  - apply HI.
  - apply HI.
Qed.
Theorem load_bif_main text : is_bif B text -> exists L ts, load_bif stod text = Ok L /\ holds_structure B L /\ node_tables (ld_net L) (ld_counters L) = Ok ts /\ length ts = bn_size B /\
  (forall x t, ts !! x = Some t -> cpt_ok (ld_net L) x (parents_of (ld_net L) x) (tval t) t) /\
  (forall D, D ∈ bn_dists B -> NoDup (bd_rows D).*1 -> exists t, ts !! bd_node D = Some t /\ parents_of (ld_net L) (bd_node D) ≡ₚ bd_parents D /\
    (forall r a, r ∈ bd_rows D -> valid (net_dom (ld_net L)) a -> row_agrees D r a -> tval t a = smoothed_entry (num <$> r.2) (a (bd_node D))) /\
    (forall a, valid (net_dom (ld_net L)) a -> (forall r, r ∈ bd_rows D -> ~ row_agrees D r a) -> tval t a = (1 / qn (bn_dom B (bd_node D)))%Qc)) /\
  forall o, weakly_connected (ld_net L) -> valid_order o -> exists T, jt_build o (ld_net L) ts = Ok T /\
    forall sch E, valid_scheduler sch -> evidence_in_range (ld_net L) E -> query_probs sch T E (jt_backup T) = Ok (jt_backup T, answer_all (ld_net L) ts E).
Proof using HB Hnum.
  intros Ht. destruct (load_bif_ok B HB stod num Hnum text Ht) as (L & HL & HI). destruct (bind_tables B HB stod num Hnum L HI) as (ts & Hts & Hlen & Hcpt & HD). exists L, ts.
  split_and!; try done; [by apply binv_structure|]. intros o Hw Ho. pose proof (bi_inv _ _ _ _ HI) as Hinv. pose proof (bi_size _ _ _ _ HI) as Hsz.
  assert (doms_positive (ld_net L)) as Hpos.
  { apply Forall_forall. intros d Hd. apply elem_of_list_lookup in Hd as [v Hd]. unfold domain_sizes in Hd. rewrite list_lookup_fmap in Hd. destruct (nt_nodes (ld_net L) !! v) as [nd|] eqn:Hv; [|done]. cbn in Hd. injection Hd as <-.
    rewrite (bi_dom _ _ _ _ HI v nd Hv). apply (bn_dom_pos B HB). rewrite <-Hsz. by eapply lookup_lt_Some. }
  assert (0 < bn_size B) as Hn. { destruct (bn_dists B) as [|D Ds] eqn:ED; [by destruct (proj1 (bo_dists _ HB))|]. destruct (proj1 (Forall_forall _ _) (bo_parents _ HB) D) as (Hx & _); [rewrite ED; left|]. lia. }
  apply positive_queries; try done.
  - by apply netinv_ok.
  - unfold net_size. by rewrite Hsz.
  - apply Forall_forall. intros t Ht'. apply elem_of_list_lookup in Ht' as [x Hx]. destruct (lookup_lt_is_Some_2 (nt_nodes (ld_net L)) x) as [nd Hnd]; [rewrite Hsz, <-Hlen; by eapply lookup_lt_Some|].
    destruct (Hcpt x t Hx) as [HC _]. unfold parents_of in HC. rewrite Hnd in HC. by eapply is_cpt_family.
  - intros t a Ht' Ha. apply elem_of_list_lookup in Ht' as [x Hx]. destruct (Hcpt x t Hx) as (_ & HC & _). by apply HC.
Qed.
Theorem row_entry_close D r y s : D ∈ bn_dists B -> r ∈ bd_rows D -> sums_to_one num r -> r.2 !! y = Some s ->
  (num s - qn (bn_dom B (bd_node D)) / qz 10000 <= smoothed_entry (num <$> r.2) y)%Qc /\ (smoothed_entry (num <$> r.2) y <= num s + 1 / qz 10000)%Qc.
Proof using HB Hnum.
  intros HD Hr Hs Hy. destruct (proj1 (Forall_forall _ _) (proj1 (Forall_forall _ _) (bo_rows _ HB) D HD) r Hr) as (_ & Hlen & _). rewrite <-Hlen.
  replace (length r.2) with (length (num <$> r.2)) by apply fmap_length. apply entry_bound; [|done|by rewrite list_lookup_fmap, Hy].
  apply Forall_fmap, Forall_forall. intros s' Hs'. by apply (Hnum D r s').
Qed.
Theorem row_entry_exact D r y s : D ∈ bn_dists B -> r ∈ bd_rows D -> sums_to_one num r -> four_decimals num r -> r.2 !! y = Some s ->
  (smoothed_entry (num <$> r.2) y = (num s * qz 10000 + 1) / (qz 10000 + qn (bn_dom B (bd_node D))))%Qc /\
  (smoothed_entry (num <$> r.2) y = num s <-> num s = 1 / qn (bn_dom B (bd_node D)))%Qc.
Proof using HB.
  intros HD Hr Hs H4 Hy. destruct (proj1 (Forall_forall _ _) (proj1 (Forall_forall _ _) (bo_rows _ HB) D HD) r Hr) as (_ & Hlen & _).
  assert (exists zs, num <$> r.2 = (fun z => (qz z / qz 10000)%Qc) <$> zs) as [zs Hz].
  { unfold four_decimals in H4. clear -H4. induction H4 as [|s l [z Hz] _ [zs IH]]; [by exists []|]. exists (z :: zs). cbn. by rewrite Hz, IH. }
  assert (length zs = length r.2) as Hl. { apply (f_equal length) in Hz. rewrite !fmap_length in Hz. done. }
  unfold sums_to_one in Hs. rewrite Hz in Hs. assert (sumz zs (fun z => z) = 10000%Z) as Hsum.
  { assert (forall zs, (qsum ((fun z => qz z / qz 10000) <$> zs) (fun q => q) = qz (sumz zs (fun z => z)) / qz 10000)%Qc) as Hq.
    { clear. induction zs as [|z zs IH]; [apply (bool_decide_unpack _); vm_compute; exact I|]. change (sumz (z :: zs) (fun z => z)) with (z + sumz zs (fun z => z))%Z. rewrite UtilProofs.qz_add. cbn [fmap list_fmap].
      change (qsum ((qz z / qz 10000)%Qc :: ((fun z => (qz z / qz 10000)%Qc) <$> zs)) (fun q => q)) with (qz z / qz 10000 + qsum ((fun z => (qz z / qz 10000)%Qc) <$> zs) (fun q => q))%Qc. rewrite IH. unfold UtilModel.qz, LearnModel.qz. generalize (Q2Qc (inject_Z z)), (Q2Qc (inject_Z (sumz zs (fun z => z)))). intros a b. field. by intros ?. }
    rewrite Hq in Hs. assert (qz (sumz zs (fun z => z)) = qz 10000) as E.
    { replace (qz (sumz zs (fun z => z))) with (qz (sumz zs (fun z => z)) / qz 10000 * qz 10000)%Qc by (field; by intros ?). rewrite Hs. by rewrite Qcmult_1_l. }
    apply (f_equal (fun q => scaled (q / qz 10000)%Qc)) in E. by rewrite !scaled_exact in E. }
  destruct (lookup_lt_is_Some_2 zs y) as [z Hzy]; [rewrite Hl; by eapply lookup_lt_Some|]. rewrite Hz. assert (num s = (qz z / qz 10000)%Qc) as Hn.
  { apply (f_equal (fun l => l !! y)) in Hz. rewrite !list_lookup_fmap, Hy, Hzy in Hz. by injection Hz as ->. }
  destruct (entry_exact zs y z Hsum Hzy) as [H1 H2]. rewrite Hl, Hlen in H1, H2. rewrite Hn. split; [|exact H2]. rewrite H1. replace (qz z / qz 10000 * qz 10000)%Qc with (qz z) by (field; by intros ?). done.
Qed.
Theorem bif_xml_same text vars probs : is_bif B text -> is_xml B vars probs -> length (bn_dists B) = bn_size B -> Forall (complete_rows B) (bn_dists B) ->
  exists L L', load_bif stod text = Ok L /\ load_xmlbif stod vars probs = Ok L' /\ ld_names L' = ld_names L /\ ld_ids L' = ld_ids L /\
    nt_nodes (ld_net L') = nt_nodes (ld_net L) /\ nt_edges (ld_net L') ≡ₚ nt_edges (ld_net L) /\ nt_num_edges (ld_net L') = nt_num_edges (ld_net L) /\
    netinv (ld_net L') /\ exists ts, node_tables (ld_net L) (ld_counters L) = Ok ts /\ node_tables (ld_net L') (ld_counters L') = Ok ts.
Proof using HB Hnum.
  intros Hb Hx Hl Hc. destruct (load_bif_ok B HB stod num Hnum text Hb) as (L & HL & HI). destruct (load_xml_ok B HB stod num Hnum vars probs Hx Hl Hc) as (L0 & L' & HL' & HG & En & Ei & EN & EE & _ & Ene & HI' & ET).
  rewrite (binv_unique B num _ _ _ HG HI) in *. destruct (bind_tables B HB stod num Hnum L HI) as (ts & Hts & _). exists L, L'. split_and!; try done. exists ts. split; [done|]. by rewrite ET.
Qed.
End Main.
