(** C80, for the files of the sample generator job.
    Vocabulary: BIFSpec.v ([bnet_ok], [reads_numbers], [is_xml], [complete_rows]) - a network file with proper contents;
    PipeSpec.v ([file_joint]) - its distribution; GenSpec.v ([file_sample], [sample_names], [sample_row]); SimulateSpec.v
    ([discrepancy], [grid]); RecoverSpec.v ([differ_by]). *)
From Coq Require Import Field QArith.
From Verif Require Import GenModel GenSpec GenWitness BIFWitness PipeWitness SimulateSpec SimulateTheorems SimulateFiles.
Local Open Scope nat_scope.

(** From a network file to the files of samples: both hold the same samples, and every combination of values is as frequent among them
    as the network file says, up to the discrepancy of the numbers drawn. *)
Theorem C80_files : forall B, bnet_ok B -> forall stod num, reads_numbers stod num B ->
  forall vars probs, is_xml B vars probs -> length (bn_dists B) = bn_size B -> Forall (complete_rows B) (bn_dists B) ->
  forall cls, cls < bn_size B -> (Z.of_nat (bn_size B) <= 2147483648)%Z ->
  forall us e, us <> [] -> (forall u, u ∈ us -> uniform u) -> discrepancy e (bn_size B) us -> exists samples svm,
    length samples = length us /\ Forall (file_sample B) samples /\
    generate_svm stod vars probs cls us = Ok svm /\ load_svm_testing (bn_size B) cls svm = Ok ((fun s => (fun p => (p.1, Z.of_nat p.2)) <$> sample_row s) <$> samples) /\
    generate_csv stod vars probs cls us = Ok (text_of (glue comma <$> (bv_name <$> bn_vars B) :: (sample_names B <$> samples))) /\
    forall s, file_sample B s -> differ_by e (qn (length (filter (fun s' => s' = s) samples)) / qn (length samples))%Qc (file_joint num B (values s)).
Proof. exact generated_file. Qed.
Print Assumptions C80_files.
Example C80_files_witness :
  (bnet_ok garden /\ reads_numbers stod4 num4 garden /\ is_xml garden garden_vars garden_probs /\
   length (bn_dists garden) = bn_size garden /\ Forall (complete_rows garden) (bn_dists garden)) /\
  discrepancy (qn (bn_size garden) / qn 50)%Qc (bn_size garden) (grid 50 (bn_size garden)) /\ (forall u, u ∈ grid 50 (bn_size garden) -> uniform u) /\ length (grid 50 (bn_size garden)) = 50 ^ bn_size garden.
Proof. exact (conj (conj garden_ok (conj garden_numbers (conj garden_is_xml garden_complete))) (grid_discrepancy 50 _ (Nat.lt_0_succ 49))). Qed.
