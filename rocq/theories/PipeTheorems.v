From Coq Require Import Ascii String.
From Coq Require Import Field QArith.
From Verif Require Import PipeModel PipeSpec PipeProofs DataProofs CSVTheorems BIFProofs BIFProofs2 EvalTheorems JTTheorems StructProofs LearnProofs.
From Verif Require Import LearnTheorems.
Local Open Scope nat_scope.

Section jobs.
Context (B : bnet) (HB : bnet_ok B) (stod : str -> outcome Qc) (num : str -> Qc) (Hnum : reads_numbers stod num B)
  (vars : list xml_var) (probs : list xml_prob) (Hxml : is_xml B vars probs) (Hl : length (bn_dists B) = bn_size B) (Hc : Forall (complete_rows B) (bn_dists B))
  (test : str) (header : list str) (rows : list (list str)) (Htest : csv_table test header rows) (Hh : length header = bn_size B)
  (Es : list (list (nat * nat))) (HEs : Forall2 (observed B) rows Es).
Lemma maps_values : Forall2 same_map (xml_ids ∘ bv_values <$> bn_vars B) (bv_values <$> bn_vars B).
Proof using HB.
  apply Forall2_fmap, Forall_Forall2_diag, Forall_forall. intros w Hw. pose proof (proj1 (Forall_forall _ _) (bo_values _ HB) w Hw) as (_ & _ & Hd & _). intros s. cbn.
  destruct (xml_ids_spec _ Hd) as [_ Hs]. destruct (xml_ids (bv_values w) !! s) as [i|] eqn:E; symmetry.
  - apply Hs in E. by apply (value_id_spec _ _ _ Hd).
  - destruct (value_id (bv_values w) s) as [i|] eqn:Ev; [|done]. apply (value_id_spec _ _ _ Hd) in Ev. apply Hs in Ev. congruence.
Qed.
Lemma values_NoDup d : d ∈ bv_values <$> bn_vars B -> NoDup d.
Proof using HB. intros (w & -> & Hw)%elem_of_list_fmap. by destruct (proj1 (Forall_forall _ _) (bo_values _ HB) w Hw) as (_ & _ & Hd & _). Qed.
Lemma test_rows : load_csv_testing_map (bn_size B) (xml_ids ∘ bv_values <$> bn_vars B) test = Ok (zrow <$> Es).
Proof using HB Htest Hh HEs.
  rewrite (csv_testing_map _ _ _ _ maps_values). destruct (csv_testing test header rows (bv_values <$> bn_vars B) Htest) as (coded & Hcd & Hlen & Hcodes); [by rewrite fmap_length|by apply values_NoDup|].
  rewrite fmap_length in Hcd. unfold bn_size. rewrite Hcd. f_equal. apply list_eq. intros j. rewrite list_lookup_fmap. destruct (coded !! j) as [row|] eqn:Hrow.
  - destruct (lookup_lt_is_Some_2 rows j) as [cells Hcells]; [rewrite <-Hlen; by eapply lookup_lt_Some|]. destruct (Forall2_lookup_l _ _ _ _ _ HEs Hcells) as (E & HE & [Hs Hin]). rewrite HE. cbn. f_equal.
    destruct (Hcodes j cells row Hcells Hrow) as [Hs' Hin'].
    assert (row = zrow ((fun p => (p.1, Z.to_nat p.2)) <$> row)) as Hz.
    { unfold zrow. rewrite <-list_fmap_compose. rewrite <-(list_fmap_id row) at 1. apply list_fmap_ext. intros i [v z] Hi. cbn. apply elem_of_list_lookup_2 in Hi. apply Hin' in Hi as (c & d & x & _ & _ & _ & _ & ->). by rewrite Nat2Z.id. }
    rewrite Hz. f_equal. apply sorted_unique.
    + rewrite <-list_fmap_compose. exact Hs'.
    + exact Hs.
    + intros [v x]. rewrite Hin. split.
      * intros ([v' z] & E0 & Hi)%elem_of_list_fmap. cbn in E0. injection E0 as -> ->. apply Hin' in Hi as (c & d & y & Hc1 & Hc2 & Hd & Hy & ->). rewrite Nat2Z.id.
        apply list_lookup_fmap_Some in Hd as (w & Hw & ->). by exists c, w.
      * intros (c & w & Hc1 & Hc2 & Hw & Hx). apply elem_of_list_fmap. exists (v, Z.of_nat x). cbn. rewrite Nat2Z.id. split; [done|]. apply Hin'. exists c, (bv_values w), x. split_and!; try done. by rewrite list_lookup_fmap, Hw.
  - apply lookup_ge_None in Hrow. rewrite Hlen, (Forall2_length _ _ _ HEs) in Hrow. by rewrite (proj2 (lookup_ge_None Es j)).
Qed.
Lemma observed_known E : E ∈ Es -> known B E.
Proof using HEs.
  intros [j Hj]%elem_of_list_lookup. destruct (Forall2_lookup_r _ _ _ _ _ HEs Hj) as (cells & _ & [_ Hin]). intros v x Hvx. apply Hin in Hvx as (c & w & _ & _ & Hw & Hx). split; [by eapply lookup_lt_Some|].
  unfold bn_dom. rewrite Hw. by eapply lookup_lt_Some.
Qed.
Lemma queries_ok : Forall (fun E => E <> []) Es -> exists qs, make_queries 0 (zrow <$> Es) = Ok qs /\ (fst <$> qs) = zrow ∘ tail <$> Es.
Proof using.
  intros Hne. clear -Hne. unfold make_queries. induction Hne as [|E Es HE _ (qs & Hqs & Efst)]; [by exists []|]. destruct E as [|p E]; [done|]. rewrite fmap_cons. cbn [mcollect]. rewrite evidence_zero.
  change (zrow (p :: E)) with ((p.1, Z.of_nat p.2) :: zrow E). cbv beta iota. cbn [mbind outcome_bind]. rewrite Hqs. cbn [mbind outcome_bind]. eexists. split; [reflexivity|]. rewrite !fmap_cons, Efst. done.
Qed.
Lemma queries_bad : ~ Forall (fun E => E <> []) Es -> make_queries 0 (zrow <$> Es) = Err Thrown.
Proof using.
  intros Hne. clear -Hne. unfold make_queries. induction Es as [|E Es' IH]; [by destruct Hne|]. rewrite fmap_cons. cbn [mcollect]. rewrite evidence_zero. destruct E as [|p E]; [done|].
  change (zrow (p :: E)) with ((p.1, Z.of_nat p.2) :: zrow E). cbv beta iota. cbn [mbind outcome_bind]. rewrite IH; [done|]. intros HF; apply Hne; constructor; done.
Qed.
Lemma all_evidence (qs : list (list (nat * Z) * Z)) (Fs : list (list (nat * nat))) : (fst <$> qs) = zrow <$> Fs -> mcollect qs (fun q => as_evidence (fst q)) = Ok Fs.
Proof using.
  revert Fs. induction qs as [|q qs IH]; intros [|F Fs] E; [done|done|done|]. cbn in E. injection E as E1 E2. cbn [mcollect]. rewrite E1. change ((fun p : nat * nat => (p.1, Z.of_nat p.2)) <$> F) with (zrow F). rewrite as_evidence_zrow. cbn [mbind outcome_bind]. rewrite (IH Fs E2). done.
Qed.
Theorem exact_inference_ok sq o sch refs reference : Forall (fun E => E <> []) Es -> file_connected B -> valid_order o -> (forall i, valid_scheduler (sch i)) -> 20 <= length rows ->
  is_reference stod (file_shape B) (tail <$> Es) refs reference -> (forall i E ref, Es !! i = Some E -> refs !! i = Some ref -> file_compared num B (tail E) ref <> []) ->
  exact_inference sq stod o sch vars probs test reference =
    Ok (average (zip_with (fun E ref => root_mean_square sq (fun x => x) (file_compared num B (tail E) ref)) Es refs),
        average (zip_with (fun E ref => root_mean_square sq sq (file_compared num B (tail E) ref)) Es refs)).
Proof using HB Hnum Hxml Hl Hc Htest Hh HEs.
  intros Hne Hconn Ho Hs Hlen Href Hcmp. destruct (load_xml_main B HB stod num Hnum vars probs Hxml Hl Hc) as (L & ts & HL & HF). unfold exact_inference. rewrite HL. cbn [mbind outcome_bind].
  assert (length (nt_nodes (ld_net L)) = bn_size B) as -> by apply (hf_size _ _ _ _ HF). rewrite (hf_ids _ _ _ _ HF), test_rows. cbn [mbind outcome_bind].
  destruct (queries_ok Hne) as (qs & Hqs & Efst). rewrite Hqs. cbn [mbind outcome_bind]. rewrite (hf_tables _ _ _ _ HF). cbn [mbind outcome_bind].
  assert (0 < bn_size B) as Hn. { rewrite <-Hh. destruct Htest as (_ & Hne0 & _). destruct header; [done|cbn; lia]. }
  assert (0 < net_size (ld_net L)) as Hn' by (by rewrite (hf_size _ _ _ _ HF)).
  assert (Forall (nonneg (net_dom (ld_net L))) ts) as Hnn. { apply Forall_forall. intros t Ht a Ha. apply Qclt_le_weak. by apply (hf_positive _ _ _ _ HF). }
  destruct (positive_queries (ld_net L) ts o (hf_ok _ _ _ _ HF) Hn' (connected_file _ _ _ _ HF Hconn) Ho (hf_family _ _ _ _ HF) (hf_positive _ _ _ _ HF)) as (T & HT & _).
  rewrite HT. cbn [mbind outcome_bind]. rewrite (all_evidence qs (tail <$> Es)) by (by rewrite <-list_fmap_compose). cbn [mbind outcome_bind].
  assert (forall E, E ∈ Es -> known B (tail E)) as Hkn. { intros E HE v x Hvx. apply (observed_known E HE). destruct E as [|p E]; [done|]. by right. }
  rewrite (evaluate_ok sq stod (ld_net L) (hf_ok _ _ _ _ HF) Hn' o Ho ts (hf_family _ _ _ _ HF) Hnn T HT sch (tail <$> Es) refs reference Hs).
  - f_equal. unfold errors_of.
    assert (forall f, zip_with (fun E ref => root_mean_square sq f (compared (ld_net L) ts E ref)) (tail <$> Es) refs = zip_with (fun E ref => root_mean_square sq f (file_compared num B (tail E) ref)) Es refs) as Hz.
    { intros f. clear -Hkn HF. revert refs. induction Es as [|E Es' IH]; intros [|ref refs]; [done..|]. cbn [fmap list_fmap zip_with]. f_equal.
      - rewrite (compared_file _ _ _ _ HF); [done|]. apply Hkn. left.
      - apply IH. intros E' HE'. apply Hkn. by right. }
    by rewrite !Hz.
  - rewrite fmap_length. by rewrite <-(Forall2_length _ _ _ HEs).
  - apply Forall_forall. intros E' (E & -> & HE)%elem_of_list_fmap. split; [by apply (known_range _ _ _ _ HF), Hkn|].
    apply evidence_weight_positive; [apply (hf_ok _ _ _ _ HF)|apply (hf_family _ _ _ _ HF)|apply (hf_positive _ _ _ _ HF)|by apply (known_range _ _ _ _ HF), Hkn].
  - by apply (reference_file _ stod _ _ _ HF).
  - intros i E' ref Hi Hr. apply list_lookup_fmap_Some in Hi as (E & Hi & ->). rewrite (compared_file _ _ _ _ HF); [by apply (Hcmp i)|]. apply Hkn. by eapply elem_of_list_lookup_2.
Qed.
Theorem exact_inference_unobserved sq o sch reference : ~ Forall (fun E => E <> []) Es -> exact_inference sq stod o sch vars probs test reference = Err Thrown.
Proof using HB Hnum Hxml Hl Hc Htest Hh HEs.
  intros Hne. destruct (load_xml_main B HB stod num Hnum vars probs Hxml Hl Hc) as (L & ts & HL & HF). unfold exact_inference. rewrite HL. cbn [mbind outcome_bind].
  assert (length (nt_nodes (ld_net L)) = bn_size B) as -> by apply (hf_size _ _ _ _ HF). rewrite (hf_ids _ _ _ _ HF), test_rows. cbn [mbind outcome_bind]. by rewrite (queries_bad Hne).
Qed.
End jobs.
