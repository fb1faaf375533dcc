(** The files of the sample generator job hold every combination of values as often as the network file says. *)
From Coq Require Import Field QArith.
From Verif Require Import GenModel GenSpec GenProofs DataProofs SVMTheorems CSVTheorems UtilProofs NetProofs NetProofs2 NetProofs3 SampleProofs BIFProofs PipeProofs PipeTheorems StructProofs LearnProofs LearnTheorems SimulateSpec SimulateProofs.
Local Open Scope nat_scope.

Theorem generated_file B : bnet_ok B -> forall stod num, reads_numbers stod num B ->
  forall vars probs, is_xml B vars probs -> length (bn_dists B) = bn_size B -> Forall (complete_rows B) (bn_dists B) ->
  forall cls, cls < bn_size B -> (Z.of_nat (bn_size B) <= 2147483648)%Z ->
  forall us e, us <> [] -> (forall u, u ∈ us -> uniform u) -> discrepancy e (bn_size B) us -> exists samples svm,
    length samples = length us /\ Forall (file_sample B) samples /\
    generate_svm stod vars probs cls us = Ok svm /\ load_svm_testing (bn_size B) cls svm = Ok ((fun s => (fun p => (p.1, Z.of_nat p.2)) <$> sample_row s) <$> samples) /\
    generate_csv stod vars probs cls us = Ok (text_of (glue comma <$> (bv_name <$> bn_vars B) :: (sample_names B <$> samples))) /\
    forall s, file_sample B s -> differ_by e (qn (length (filter (fun s' => s' = s) samples)) / qn (length samples))%Qc (file_joint num B (values s)).
Proof.
  intros HB stod num Hnum vars probs Hxml Hl Hc cls Hcls Hn us e Hne Hus HD. destruct (load_xml_main B HB stod num Hnum vars probs Hxml Hl Hc) as (L & ts & HL & HF).
  pose proof (holds_distributions B num L ts HF) as Hdist. pose proof (holds_positive B num L ts HF) as Hpos. pose proof (hf_inv _ _ _ _ HF) as HN. pose proof (hf_topo _ _ _ _ HF) as Htp.
  destruct (get_topo_ord_fresh _ HN Htp) as (N' & topo & Hg & _ & _ & _ & Htopo).
  assert (uniform (fun _ => 1%Qc)) as H1u by (intros k; split; by vm_compute).
  destruct (generate_loop (ld_net L) (ld_counters L) ts N' topo us) as (M & samples & HE & HS); try done.
  { apply (hf_tables _ _ _ _ HF). } { rewrite (hf_size _ _ _ _ HF). by apply GenProofs.size_pos. }
  assert (Forall (file_sample B) samples) as HSF.
  { apply Forall_forall. intros s Hs. apply elem_of_list_lookup in Hs as [j Hs]. destruct (Forall2_lookup_r _ _ _ _ _ HS Hs) as (u & _ & _ & H). by apply (sample_file B num L ts). }
  destruct (svm_back B HB cls samples Hcls Hn HSF) as (svm & E1 & E2). exists samples, svm.
  assert (generate_svm stod vars probs cls us = Ok svm) as Hsvm. { unfold generate_svm. rewrite HL. cbn [mbind outcome_bind]. rewrite HE. cbn [mbind outcome_bind snd]. done. }
  split_and!; [symmetry; by eapply Forall2_length|done|done|done|..].
  - unfold generate_csv. rewrite Hsvm. cbn [mbind outcome_bind]. rewrite HL. cbn [mbind outcome_bind].
    pose proof (hf_size _ _ _ _ HF) as Hz. unfold net_size in Hz. rewrite Hz, E2. cbn [mbind outcome_bind]. rewrite (hf_names _ _ _ _ HF), (hf_ids _ _ _ _ HF). by apply csv_written.
  - intros s Hs. apply (sample_file B num L ts _ HF) in Hs. rewrite <-(Forall2_length _ _ _ HS).
    assert (length (filter (fun s' => s' = s) samples) = hits us (interval ts s <$> topo)) as ->.
    { symmetry. apply (filter_pairs us samples _ _ _ HS). intros u s' Hin [Hs' _]. rewrite <-(sample_iff _ HN Hpos ts Hdist topo Htopo u (Hus u Hin) s Hs), Hs'. split; [by intros [= ->]|by intros ->]. }
    rewrite <-(hf_joint _ _ _ _ HF) by (by apply (full_valid _ HN Hpos ts Hdist topo Htopo _ H1u)). rewrite <-(box_volume _ HN Hpos ts Hdist topo Htopo _ H1u s). apply HD. rewrite <-(hf_size _ _ _ _ HF). by apply sample_box.
Qed.
