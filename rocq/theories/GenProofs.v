From Coq Require Import Ascii String.
From Coq Require Import Field QArith.
From Verif Require Import GenModel GenSpec DataProofs SVMTheorems CSVTheorems UtilProofs NetProofs NetProofs2 NetProofs3 SampleProofs BIFProofs PipeProofs PipeTheorems StructProofs LearnProofs.
From Verif Require Import LearnTheorems.
Local Open Scope nat_scope.

(** ** Writing with the maps of a network *)
Lemma csv_values_same n ms ds row : Forall2 same_map ms ds -> (forall d, d ∈ ds -> NoDup d) -> csv_values_map n ms row = csv_values n ds row.
Proof.
  intros HF Hnd. unfold csv_values_map, csv_values. apply mfor_ext. intros [i z] value _. cbn [fst snd]. unfold vget. change (list Z) with str in *.
  destruct (ms !! i) as [m|] eqn:Hm.
  - destruct (Forall2_lookup_l _ _ _ _ _ HF Hm) as (d & Hd & E). rewrite Hd. cbn [mbind outcome_bind].
    assert (NoDup d) as Hdd by (apply Hnd; by eapply elem_of_list_lookup_2).
    assert (match list_find (fun kv : str * nat => Z.of_nat (snd kv) = z) (map_to_list m) with Some (_, kv) => fst kv | None => ([] : str) end
            = if bool_decide (z < 0)%Z then ([] : str) else default ([] : str) (d !! Z.to_nat z)) as ->; [|done].
    destruct (list_find (fun kv : str * nat => Z.of_nat (snd kv) = z) (map_to_list m)) as [[k [s v]]|] eqn:Ef.
    + apply list_find_Some in Ef as (Hk & Hz & _). cbn [fst snd] in *. apply elem_of_list_lookup_2, elem_of_map_to_list in Hk. rewrite (E s) in Hk. apply PipeProofs.value_id_spec in Hk; [|done].
      rewrite bool_decide_false by lia. rewrite <-Hz, Nat2Z.id, Hk. done.
    + case_bool_decide; [done|]. destruct (d !! Z.to_nat z) as [s|] eqn:Hs; [|done]. exfalso. apply list_find_None in Ef. rewrite Forall_forall in Ef. apply (Ef (s, Z.to_nat z)).
      * apply elem_of_map_to_list. rewrite (E s). by apply PipeProofs.value_id_spec.
      * cbn. lia.
  - pose proof (Forall2_length _ _ _ HF) as Hl. apply lookup_ge_None in Hm. rewrite (proj2 (lookup_ge_None ds i)) by lia. done.
Qed.
Lemma store_csv_same names n ms ds rows : Forall2 same_map ms ds -> (forall d, d ∈ ds -> NoDup d) -> store_csv_map names n ms rows = store_csv names n ds rows.
Proof.
  intros HF Hnd. unfold store_csv_map, store_csv. assert (bool_decide (ms = []) = bool_decide (ds = [])) as ->. { apply bool_decide_ext. destruct HF; split; congruence. }
  assert (mcollect rows (fun row => v ← csv_values_map n ms row; Ok (csv_line v)) = mcollect rows (fun row => v ← csv_values n ds row; Ok (csv_line v))) as ->; [|done].
  induction rows as [|row rows IH]; [done|]. cbn [mcollect]. rewrite IH. by rewrite (csv_values_same _ _ _ _ HF Hnd).
Qed.

(** ** The samples *)
Lemma generate_loop N cs ts N' topo us : node_tables N cs = Ok ts -> netinv N -> nt_topo N = [] -> doms_positive N -> distributions N ts -> 0 < net_size N ->
  get_topo_ord N = Ok (N', topo) -> (forall u, u ∈ us -> uniform u) ->
  exists M samples, generate_samples N cs us = Ok (M, samples) /\ Forall2 (fun u s => sample_once ts topo (net_size N) u = Ok s /\ full_sample N s) us samples.
Proof.
  intros Hts HN Ht Hd Hdist Hpos Hg0 Hu. destruct (get_topo_ord_fresh N HN Ht) as (N1 & topo1 & Hg & Htopo' & _ & Hnodes & Htopo). rewrite Hg in Hg0. injection Hg0 as -> ->.
  unfold generate_samples. rewrite Hts. cbn [mbind outcome_bind].
  assert (topo <> []) as Htne. { intros ->. destruct Htopo as [HP _]. apply Permutation_length in HP. rewrite seq_length in HP. cbn in HP. unfold net_size in Hpos. lia. }
  assert (forall us M acc, (M = N \/ M = N') -> (forall u, u ∈ us -> uniform u) -> exists M' samples,
    mfor us (fun u st => nt ← get_topo_ord (fst st); s ← sample_once ts (snd nt) (length (nt_nodes N)) u; Ok (fst nt, snd st ++ [s])) (M, acc) = Ok (M', acc ++ samples) /\
    Forall2 (fun u s => sample_once ts topo (net_size N) u = Ok s /\ full_sample N s) us samples) as Hloop.
  { clear us Hu. induction us as [|u us IH]; intros M acc HM Hu; [exists M, []; cbn; by rewrite app_nil_r|]. cbn [mfor fst].
    assert (get_topo_ord M = Ok (N', topo)) as ->. { destruct HM as [->| ->]; [done|]. unfold get_topo_ord. rewrite Htopo'. by rewrite bool_decide_false. }
    cbn [mbind outcome_bind fst snd]. destruct (sample_run N HN Hd ts Hdist topo Htopo u (Hu u (elem_of_list_here _ _))) as (s & Hs & Hf & _). unfold net_size in Hs. rewrite Hs. cbn [mbind outcome_bind].
    destruct (IH N' (acc ++ [s])) as (M' & samples & -> & HF); [by right|intros u' Hu'; apply Hu; by right|]. exists M', (s :: samples). rewrite <-app_assoc. split; [done|]. constructor; [done|done]. }
  destruct (Hloop us N [] (or_introl eq_refl) Hu) as (M & samples & HE & HF). exists M, samples. done.
Qed.

Section gen.
Context (B : bnet) (HB : bnet_ok B) (stod : str -> outcome Qc) (num : str -> Qc) (Hnum : reads_numbers stod num B)
  (vars : list xml_var) (probs : list xml_prob) (Hxml : is_xml B vars probs) (Hl : length (bn_dists B) = bn_size B) (Hc : Forall (complete_rows B) (bn_dists B))
  (cls : nat).
Lemma size_pos : 0 < bn_size B.
Proof using HB.
  clear Hl Hc Hxml Hnum. destruct (bo_dists _ HB) as [Hne _]. destruct (bn_dists B) as [|D Ds] eqn:E; [done|]. pose proof (bo_parents _ HB) as HF. rewrite E in HF. inversion_clear HF as [|? ? [H _] _]. lia.
Qed.
Lemma holds_distributions L ts : holds_file B num L ts -> distributions (ld_net L) ts.
Proof using.
  clear HB Hl Hc Hxml Hnum. intros HF. split; [by rewrite (hf_length _ _ _ _ HF), (hf_size _ _ _ _ HF)|]. intros x t Ht. destruct (hf_cpt _ _ _ _ HF x t Ht) as ((Hw & Hv & _) & Hp & Hs).
  split_and!; [done|done| |done]. intros a Ha. apply Qclt_le_weak. by apply Hp.
Qed.
Lemma holds_positive L ts : holds_file B num L ts -> doms_positive (ld_net L).
Proof using.
  clear HB Hl Hc Hxml Hnum. intros HF. apply Forall_forall. intros d Hd. apply elem_of_list_lookup in Hd as [v Hd]. pose proof (net_dom_pos _ (hf_ok _ _ _ _ HF) v) as H. unfold net_dom, dom_of in H. rewrite Hd in H. exact H.
Qed.
Lemma sample_file L ts s : holds_file B num L ts -> full_sample (ld_net L) s <-> file_sample B s.
Proof using.
  clear HB Hl Hc Hxml Hnum. intros HF. unfold full_sample, file_sample. rewrite Forall2_lookup, (hf_size _ _ _ _ HF). split.
  - intros [H1 H2] i. destruct (s !! i) as [x|] eqn:Hx.
    + assert (i < bn_size B) as Hi by (rewrite <-H1; by eapply lookup_lt_Some). destruct (lookup_lt_is_Some_2 (bn_vars B) i Hi) as [w Hw]. rewrite Hw. constructor. specialize (H2 i x Hx). rewrite (hf_dom _ _ _ _ HF i Hi) in H2. unfold bn_dom in H2. by rewrite Hw in H2.
    + rewrite (proj2 (lookup_ge_None (bn_vars B) i)); [constructor|]. apply lookup_ge_None in Hx. unfold bn_size in H1. lia.
  - intros H. assert (length s = bn_size B) as Hls.
    { eapply (Forall2_length (fun x w => x < length (bv_values w))). by apply Forall2_lookup. }
    split; [done|]. intros v x Hx. specialize (H v). rewrite Hx in H. inversion H as [? w Hlt E1 E2|]. subst. assert (v < bn_size B) as Hv by (rewrite <-Hls; by eapply lookup_lt_Some).
    rewrite (hf_dom _ _ _ _ HF v Hv). unfold bn_dom. by rewrite <-E2.
Qed.
Lemma sample_lookup s v x : file_sample B s -> s !! v = Some x -> exists w c, bn_vars B !! v = Some w /\ bv_values w !! x = Some c /\ bn_value B v x = c /\ c <> [].
Proof using HB.
  intros Hs Hx. destruct (Forall2_lookup_l _ _ _ _ _ Hs Hx) as (w & Hw & Hlt). destruct (lookup_lt_is_Some_2 _ _ Hlt) as [c Hcv]. exists w, c. split_and!; [done|done| |].
  - unfold bn_value. rewrite Hw. cbn. by rewrite Hcv.
  - destruct (proj1 (Forall_forall _ _) (bo_values _ HB) w (elem_of_list_lookup_2 _ _ _ Hw)) as (_ & _ & _ & Hv). rewrite Forall_forall in Hv. apply (Hv c). by eapply elem_of_list_lookup_2.
Qed.
Lemma sample_names_length s : length (sample_names B s) = length s.
Proof using. unfold sample_names. apply imap_length. Qed.
Lemma names_codes s : file_sample B s -> test_codes (bv_values <$> bn_vars B) (sample_names B s) = zrow (sample_row s).
Proof using HB.
  clear Hl Hc Hxml Hnum stod num vars probs. intros Hs. pose proof (Forall2_length _ _ _ Hs) as Hls. apply codes_unique.
  - apply (values_NoDup B HB).
  - by rewrite fmap_length, sample_names_length.
  - intros c (v & x & -> & Hx)%elem_of_lookup_imap. destruct (sample_lookup s v x Hs Hx) as (w & c & _ & _ & -> & Hne). done.
  - split; [unfold zrow, sample_row; rewrite fmap_length, zip_with_length, seq_length, sample_names_length; lia|].
    intros i c Hi. unfold sample_names in Hi. rewrite list_lookup_imap in Hi. apply fmap_Some in Hi as (x & Hx & ->). destruct (sample_lookup s i x Hs Hx) as (w & c & Hw & Hcv & -> & Hne). exists (bv_values w), x. split_and!.
    + by rewrite list_lookup_fmap, Hw.
    + done.
    + unfold zrow, sample_row. rewrite list_lookup_fmap. assert (i < length s) as Hi by (by eapply lookup_lt_Some). rewrite (proj2 (lookup_zip_with_Some _ _ _ _ _) (ex_intro _ i (ex_intro _ x (conj eq_refl (conj (proj2 (lookup_seq 0 (length s) i i) (conj eq_refl Hi)) Hx))))). done.
Qed.
Lemma names_known s : file_sample B s -> known_cells (bv_values <$> bn_vars B) (sample_names B s) = sample_names B s.
Proof using HB.
  clear Hl Hc Hxml Hnum stod num vars probs. intros Hs. pose proof (Forall2_length _ _ _ Hs) as Hls. apply list_eq. intros i. unfold known_cells. rewrite list_lookup_fmap, lookup_zip_with, list_lookup_fmap. unfold sample_names at 2. unfold sample_names. rewrite !list_lookup_imap.
  destruct (s !! i) as [x|] eqn:Hx.
  - destruct (sample_lookup s i x Hs Hx) as (w & c & Hw & Hcv & Hbv & Hne). rewrite Hw. cbn. rewrite Hbv. f_equal. unfold known_cell. cbn [fst snd]. rewrite bool_decide_false by done.
    rewrite (proj2 (PipeProofs.value_id_spec (bv_values w) c x (values_NoDup B HB _ (elem_of_list_fmap_1 bv_values _ w (elem_of_list_lookup_2 _ _ _ Hw)))) Hcv). done.
  - apply lookup_ge_None in Hx. rewrite (proj2 (lookup_ge_None (bn_vars B) i)) by lia. done.
Qed.
Lemma file_samples_spec s : s ∈ file_samples B <-> file_sample B s.
Proof using. unfold file_samples, file_sample. rewrite elem_of_configs. unfold in_range. by rewrite Forall2_fmap_r. Qed.

Lemma svm_back samples : cls < bn_size B -> (Z.of_nat (bn_size B) <= 2147483648)%Z -> Forall (file_sample B) samples ->
  exists text, output_svm cls ((fun s : list nat => Z.of_nat <$> s) <$> samples) = Ok text /\ load_svm_testing (bn_size B) cls text = Ok ((fun s => zrow (sample_row s)) <$> samples).
Proof using HB.
  clear Hl Hc Hxml Hnum stod num vars probs. intros Hcls Hn HS. rewrite Forall_forall in HS.
  rewrite (output_svm_store (bn_size B)); [|done|]. 2:{ intros x (s & -> & Hs)%elem_of_list_fmap. rewrite fmap_length. apply (Forall2_length _ _ _ (HS s Hs)). }
  assert (forall s, zip (seq 0 (length (Z.of_nat <$> s))) (Z.of_nat <$> s) = zrow (sample_row s)) as Hz.
  { intros s. unfold zrow, sample_row. rewrite fmap_length. generalize 0. induction s as [|x s IH]; intros k; [done|]. cbn [length seq fmap list_fmap zip zip_with]. f_equal. apply IH. }
  rewrite <-list_fmap_compose. 
  assert (((fun x : list Z => zip (seq 0 (length x)) x) ∘ (fun s : list nat => Z.of_nat <$> s)) <$> samples = (fun s => zrow (sample_row s)) <$> samples) as ->.
  { apply list_fmap_ext. intros i s _. apply Hz. }
  assert (forall s, s ∈ samples -> fst <$> zrow (sample_row s) = seq 0 (bn_size B)) as Hfst.
  { intros s Hs. unfold zrow, sample_row. rewrite <-list_fmap_compose. change (fst ∘ (fun p : nat * nat => (p.1, Z.of_nat p.2))) with (fst : nat * nat -> nat). rewrite fst_zip by (by rewrite seq_length). by rewrite (Forall2_length _ _ _ (HS s Hs)). }
  destruct (svm_testing_round_trip (bn_size B) cls ((fun s => zrow (sample_row s)) <$> samples)) as (text & loaded & E1 & E2 & E3 & E4); [done|done| |].
  { intros row (s & -> & Hs)%elem_of_list_fmap. split_and!.
    - rewrite <-(fmap_length fst), (Hfst s Hs). apply seq_length.
    - rewrite (Hfst s Hs). apply NoDup_seq.
    - intros v z Hin. split. { assert (v ∈ fst <$> zrow (sample_row s)) as H by (by apply (elem_of_list_fmap_1 fst _ (v, z))). rewrite (Hfst s Hs) in H. apply elem_of_seq in H. lia. }
      unfold zrow in Hin. apply elem_of_list_fmap in Hin as ([v' x] & [= -> ->] & Hin). cbn [fst snd]. unfold sample_row in Hin. apply elem_of_list_lookup in Hin as [i Hi]. apply lookup_zip_with_Some in Hi as (a & b & [= <- <-] & Ha & Hb).
      destruct (Forall2_lookup_l _ _ _ _ _ (HS s Hs) Hb) as (w & Hw & Hlt). destruct (proj1 (Forall_forall _ _) (bo_values _ HB) w (elem_of_list_lookup_2 _ _ _ Hw)) as (_ & Hmax & _). lia. }
  exists text. split; [done|]. rewrite E2. f_equal. apply list_eq. intros j. destruct (loaded !! j) as [row'|] eqn:Hj.
  - destruct (lookup_lt_is_Some_2 ((fun s => zrow (sample_row s)) <$> samples) j) as [row Hrow]; [rewrite <-E3; by eapply lookup_lt_Some|]. rewrite Hrow. f_equal. destruct (E4 j row row' Hrow Hj) as [H1 H2].
    rewrite list_lookup_fmap in Hrow. apply fmap_Some in Hrow as (s & Hs & ->). apply elem_of_list_lookup_2 in Hs. specialize (Hfst s Hs). apply list_eq. intros v. destruct (zrow (sample_row s) !! v) as [[v' z]|] eqn:Hv.
    + assert (v' = v). { apply (f_equal (fmap fst)) in Hv. rewrite <-list_lookup_fmap, Hfst in Hv. cbn in Hv. apply lookup_seq in Hv. lia. } subst v'. apply H2. by eapply elem_of_list_lookup_2.
    + apply lookup_ge_None in Hv. rewrite <-(fmap_length fst), Hfst, seq_length in Hv. apply lookup_ge_None. lia.
  - apply lookup_ge_None in Hj. symmetry. apply lookup_ge_None. lia.
Qed.
Lemma csv_written samples : Forall (file_sample B) samples ->
  store_csv_map (bv_name <$> bn_vars B) (bn_size B) (xml_ids ∘ bv_values <$> bn_vars B) ((fun s => zrow (sample_row s)) <$> samples) =
  Ok (text_of (glue comma <$> (bv_name <$> bn_vars B) :: (sample_names B <$> samples))).
Proof using HB.
  clear Hl Hc Hxml Hnum stod num vars probs. intros HS. rewrite Forall_forall in HS. rewrite (store_csv_same _ _ _ _ _ (maps_values B HB) (values_NoDup B HB)).
  assert ((fun s => zrow (sample_row s)) <$> samples = test_codes (bv_values <$> bn_vars B) <$> (sample_names B <$> samples)) as ->.
  { rewrite <-list_fmap_compose. apply list_fmap_ext. intros i s Hs. cbn. symmetry. apply names_codes, HS. by eapply elem_of_list_lookup_2. }
  unfold bn_size. rewrite <-(fmap_length bv_name (bn_vars B)) at 1. rewrite csv_store.
  - f_equal. f_equal. f_equal. f_equal. rewrite <-list_fmap_compose. apply list_fmap_ext. intros i s Hs. cbn. apply names_known, HS. by eapply elem_of_list_lookup_2.
  - pose proof size_pos as H. unfold bn_size in H. destruct (bn_vars B); [cbn in H; lia|done].
  - by rewrite !fmap_length.
  - apply (values_NoDup B HB).
  - intros cells (s & -> & Hs)%elem_of_list_fmap. rewrite sample_names_length, fmap_length. apply (Forall2_length _ _ _ (HS s Hs)).
Qed.
Theorem generator_ok : cls < bn_size B -> (Z.of_nat (bn_size B) <= 2147483648)%Z ->
  qsum (file_samples B) (fun s => file_joint num B (values s)) = 1%Qc /\
  exists box, (forall s, file_sample B s -> length (box s) = bn_size B /\ volume (box s) = file_joint num B (values s)) /\
  forall us, (forall u, u ∈ us -> uniform u) -> exists samples svm,
    Forall2 (fun u s => file_sample B s /\ forall s', file_sample B s' -> in_box u (box s') <-> s' = s) us samples /\
    generate_svm stod vars probs cls us = Ok svm /\ load_svm_testing (bn_size B) cls svm = Ok ((fun s => zrow (sample_row s)) <$> samples) /\
    generate_csv stod vars probs cls us = Ok (text_of (glue comma <$> (bv_name <$> bn_vars B) :: (sample_names B <$> samples))).
Proof using HB Hnum Hxml Hl Hc.
  intros Hcls Hn. destruct (load_xml_main B HB stod num Hnum vars probs Hxml Hl Hc) as (L & ts & HL & HF).
  pose proof (holds_distributions L ts HF) as Hdist. pose proof (holds_positive L ts HF) as Hpos. pose proof (hf_inv _ _ _ _ HF) as HN. pose proof (hf_topo _ _ _ _ HF) as Htp.
  destruct (get_topo_ord_fresh _ HN Htp) as (N' & topo & Hg & _ & _ & _ & Htopo).
  assert (uniform (fun _ => 1%Qc)) as H1u by (intros k; split; by vm_compute).
  assert (forall s, file_sample B s -> joint ts (values s) = file_joint num B (values s)) as Hj.
  { intros s Hs. apply (hf_joint _ _ _ _ HF). apply (full_valid _ HN Hpos ts Hdist topo Htopo _ H1u). by apply (sample_file L ts). }
  split.
  { rewrite <-(forward_total _ ts HN Htp Hpos Hdist). assert (domain_sizes (ld_net L) = (fun w => length (bv_values w)) <$> bn_vars B) as ->.
    - apply list_eq. intros v. rewrite list_lookup_fmap. destruct (bn_vars B !! v) as [w|] eqn:Hw.
      + assert (v < bn_size B) as Hv by (by eapply lookup_lt_Some). pose proof (hf_dom _ _ _ _ HF v Hv) as H. unfold net_dom, dom_of, bn_dom in H. rewrite Hw in H. cbn. 
        destruct (lookup_lt_is_Some_2 (domain_sizes (ld_net L)) v) as [d Hd]; [unfold domain_sizes; rewrite fmap_length; pose proof (hf_size _ _ _ _ HF) as Hz; unfold net_size in Hz; by rewrite Hz|]. rewrite Hd in H |- *. by rewrite <-H.
      + cbn. apply lookup_ge_None. apply lookup_ge_None in Hw. unfold domain_sizes. rewrite fmap_length. pose proof (hf_size _ _ _ _ HF) as Hz. unfold net_size, bn_size in Hz. lia.
    - apply qsum_ext. intros s Hs. symmetry. apply Hj. by apply file_samples_spec. }
  exists (fun s => interval ts s <$> topo). split.
  { intros s Hs. split.
    - rewrite fmap_length. destruct Htopo as [HP _]. rewrite HP, seq_length. apply (hf_size _ _ _ _ HF).
    - rewrite <-(Hj s Hs). eapply (box_volume _ HN Hpos ts Hdist topo Htopo _ H1u). }
  intros us Hus. destruct (generate_loop (ld_net L) (ld_counters L) ts N' topo us) as (M & samples & HE & HS); try done.
  { apply (hf_tables _ _ _ _ HF). } { rewrite (hf_size _ _ _ _ HF). apply size_pos. }
  assert (Forall2 (fun u s => file_sample B s /\ forall s', file_sample B s' -> in_box u (interval ts s' <$> topo) <-> s' = s) us samples) as HB2.
  { apply Forall2_same_length_lookup_2. { by eapply Forall2_length. } intros j u s Hju Hjs. destruct (Forall2_lookup_lr _ _ _ _ _ _ HS Hju Hjs) as [H1 H2]. split; [by apply (sample_file L ts)|].
    intros s' Hs'. apply (sample_file L ts _ HF) in Hs'. rewrite <-(sample_iff _ HN Hpos ts Hdist topo Htopo u) by (done || (apply Hus; by eapply elem_of_list_lookup_2)). rewrite H1. split; [by intros [= ->]|by intros ->]. }
  assert (Forall (file_sample B) samples) as HSF.
  { apply Forall_forall. intros s Hs. apply elem_of_list_lookup in Hs as [j Hs]. destruct (Forall2_lookup_r _ _ _ _ _ HB2 Hs) as (u & _ & H & _). done. }
  destruct (svm_back samples Hcls Hn HSF) as (svm & E1 & E2). exists samples, svm.
  assert (generate_svm stod vars probs cls us = Ok svm) as Hsvm. { unfold generate_svm. rewrite HL. cbn [mbind outcome_bind]. rewrite HE. cbn [mbind outcome_bind snd]. done. }
  split_and!; [done|done|done|]. unfold generate_csv. rewrite Hsvm. cbn [mbind outcome_bind]. rewrite HL. cbn [mbind outcome_bind].
  pose proof (hf_size _ _ _ _ HF) as Hz. unfold net_size in Hz. rewrite Hz, E2. cbn [mbind outcome_bind]. rewrite (hf_names _ _ _ _ HF), (hf_ids _ _ _ _ HF). by apply csv_written.
Qed.
(** The class variable is not checked. *)
Theorem generator_class us : bn_size B <= cls -> us <> [] -> (forall u, u ∈ us -> uniform u) ->
  generate_svm stod vars probs cls us = Err OutOfBounds /\ generate_csv stod vars probs cls us = Err OutOfBounds.
Proof using HB Hnum Hxml Hl Hc.
  intros Hcls Hne Hus. destruct (load_xml_main B HB stod num Hnum vars probs Hxml Hl Hc) as (L & ts & HL & HF).
  pose proof (holds_distributions L ts HF) as Hdist. pose proof (holds_positive L ts HF) as Hpos. pose proof (hf_inv _ _ _ _ HF) as HN. pose proof (hf_topo _ _ _ _ HF) as Htp.
  destruct (get_topo_ord_fresh _ HN Htp) as (N' & topo & Hg & _).
  destruct (generate_loop (ld_net L) (ld_counters L) ts N' topo us) as (M & samples & HE & HS); try done.
  { apply (hf_tables _ _ _ _ HF). } { rewrite (hf_size _ _ _ _ HF). apply size_pos. }
  assert (generate_svm stod vars probs cls us = Err OutOfBounds) as Hsvm.
  { unfold generate_svm. rewrite HL. cbn [mbind outcome_bind]. rewrite HE. cbn [mbind outcome_bind snd]. destruct us as [|u us]; [done|]. inversion_clear HS as [|? s ? samples' [_ Hs] _]. destruct Hs as [Hs _].
    unfold output_svm. rewrite fmap_cons. cbn [mcollect]. assert (vget (Z.of_nat <$> s) cls = Err OutOfBounds) as ->; [|done]. unfold vget. rewrite (proj2 (lookup_ge_None (Z.of_nat <$> s) cls)); [done|]. rewrite fmap_length, Hs, (hf_size _ _ _ _ HF). done. }
  split; [done|]. unfold generate_csv. by rewrite Hsvm.
Qed.
(** The files can be read back. *)
Lemma glue_last sep pre c : pre <> [] -> glue sep (pre ++ [c]) = glue sep pre ++ sep :: c.
Proof using. intros Hp. rewrite glue_snoc. by destruct pre. Qed.
Lemma csv_row_names n (r : list str) : length r = n -> 0 < n -> (forall c, c ∈ r -> csv_name c) -> csv_row n r.
Proof using.
  clear HB Hl Hc Hxml Hnum. intros Hn Hp Hr. split_and!; [done|intros c Hcr; by apply Hr|]. intros x Hx. destruct r as [|c r _] using rev_ind; [cbn in Hn; lia|]. rewrite glue_snoc in Hx.
  assert (csv_name c) as [_ Ht]; [apply Hr, elem_of_app; right; left|]. destruct r as [|a r]; [by apply Ht|]. rewrite last_app, last_cons in Hx. destruct (last c) as [y|] eqn:Ey; [by apply Ht; rewrite Ey|]. injection Hx as <-. by vm_compute.
Qed.
Theorem generated_readable samples : csv_names B -> samples <> [] -> Forall (file_sample B) samples ->
  csv_table (text_of (glue comma <$> (bv_name <$> bn_vars B) :: (sample_names B <$> samples))) (bv_name <$> bn_vars B) (sample_names B <$> samples) /\
  Forall2 (observed B) (sample_names B <$> samples) (sample_row <$> samples).
Proof using HB.
  clear Hl Hc Hxml Hnum stod num vars probs. intros Hcsv Hne HS. unfold csv_names in Hcsv. rewrite Forall_forall in HS. rewrite Forall_forall in Hcsv. pose proof size_pos as Hp. split.
  - split_and!.
    + by left.
    + unfold bn_size in Hp. destruct (bn_vars B); [cbn in Hp; lia|done].
    + apply csv_row_names; [done|by rewrite fmap_length|]. intros c (w & -> & Hw)%elem_of_list_fmap. by apply Hcsv.
    + by destruct samples.
    + intros r (s & -> & Hs)%elem_of_list_fmap. specialize (HS s Hs). apply csv_row_names.
      * rewrite sample_names_length, fmap_length. apply (Forall2_length _ _ _ HS).
      * by rewrite fmap_length.
      * intros c (v & x & -> & Hx)%elem_of_lookup_imap. destruct (sample_lookup s v x HS Hx) as (w & c & Hw & Hcv & -> & _). destruct (Hcsv w (elem_of_list_lookup_2 _ _ _ Hw)) as [_ Hv]. rewrite Forall_forall in Hv. apply Hv. by eapply elem_of_list_lookup_2.
  - apply Forall2_fmap, Forall_Forall2_diag, Forall_forall. intros s Hs. specialize (HS s Hs). split.
    + unfold sample_row. rewrite fst_zip by (by rewrite seq_length). generalize 0. induction (length s) as [|n IH]; intros k; [constructor|]. cbn [seq]. constructor; [apply IH|]. apply Forall_forall. intros x Hx. apply elem_of_seq in Hx. lia.
    + intros v x. unfold sample_row. rewrite elem_of_list_lookup. split.
      * intros [i Hi]. apply lookup_zip_with_Some in Hi as (a & b & [= <- <-] & Ha & Hb). apply lookup_seq in Ha as [-> _]. cbn. destruct (sample_lookup s i x HS Hb) as (w & c & Hw & Hcv & Hbv & Hn). exists c, w. split_and!; try done. unfold sample_names. rewrite list_lookup_imap, Hb. cbn. by rewrite Hbv.
      * intros (c & w & Hcell & Hn & Hw & Hcv). unfold sample_names in Hcell. rewrite list_lookup_imap in Hcell. apply fmap_Some in Hcell as (y & Hy & Ec). destruct (sample_lookup s v y HS Hy) as (w' & c' & Hw' & Hcv' & Hbv & _). rewrite Hw in Hw'. injection Hw' as <-.
        assert (y = x) as ->. { subst c. rewrite Hbv in Hcv. eapply NoDup_lookup; [|exact Hcv'|exact Hcv]. apply (values_NoDup B HB). apply elem_of_list_fmap_1. by eapply elem_of_list_lookup_2. }
        exists v. apply lookup_zip_with_Some. exists v, x. split_and!; [done| |done]. apply lookup_seq. split; [done|]. by eapply lookup_lt_Some.
Qed.
End gen.
