(** Property theorems about the sample generator job: C56.
    Vocabulary: BIFSpec.v ([bnet_ok], [reads_numbers], [is_xml], [complete_rows]) - a network file with proper contents;
    PipeSpec.v ([file_joint]) - its distribution, ([observed]) - the cells of a row that are observed; SampleSpec.v ([uniform],
    [in_box], [volume], [values]); DataSpec.v ([text_of], [glue], [csv_table]); GenSpec.v ([file_sample], [file_samples],
    [sample_names], [sample_row], [csv_names]). *)
From Coq Require Import Field QArith.
From Verif Require Import GenModel GenSpec GenProofs GenWitness BIFWitness PipeWitness SampleWitness.
Local Open Scope nat_scope.

(** ** C56 *)
(** Every sample has a box of draws, of the volume of its probability in the network file; the probabilities sum to one. Any
    number of samples: the [j]-th one is the sample whose box contains the [j]-th draws. The LIBSVM file reads back as
    the samples, and the CSV file lists the names of the variables and of the values. *)
Theorem C56_generator : forall B, bnet_ok B -> forall stod num, reads_numbers stod num B ->
  forall vars probs, is_xml B vars probs -> length (bn_dists B) = bn_size B -> Forall (complete_rows B) (bn_dists B) ->
  forall cls, cls < bn_size B -> (Z.of_nat (bn_size B) <= 2147483648)%Z ->
  qsum (file_samples B) (fun s => file_joint num B (values s)) = 1%Qc /\
  exists box, (forall s, file_sample B s -> length (box s) = bn_size B /\ volume (box s) = file_joint num B (values s)) /\
  forall us, (forall u, u ∈ us -> uniform u) -> exists samples svm,
    Forall2 (fun u s => file_sample B s /\ forall s', file_sample B s' -> in_box u (box s') <-> s' = s) us samples /\
    generate_svm stod vars probs cls us = Ok svm /\ load_svm_testing (bn_size B) cls svm = Ok ((fun s => (fun p => (p.1, Z.of_nat p.2)) <$> sample_row s) <$> samples) /\
    generate_csv stod vars probs cls us = Ok (text_of (glue comma <$> (bv_name <$> bn_vars B) :: (sample_names B <$> samples))).
Proof. exact generator_ok. Qed.
Print Assumptions C56_generator.
Example C56_generator_witness :
  (bnet_ok garden /\ reads_numbers stod4 num4 garden /\ is_xml garden garden_vars garden_probs /\
   length (bn_dists garden) = bn_size garden /\ Forall (complete_rows garden) (bn_dists garden)) /\
  (forall u, u ∈ [some_draws; high_draws] -> uniform u) /\
  generate_svm stod4 garden_vars garden_probs 0 [some_draws; high_draws] = Ok garden_svm /\
  generate_csv stod4 garden_vars garden_probs 0 [some_draws; high_draws] = Ok garden_csv.
Proof. exact (conj (conj garden_ok (conj garden_numbers (conj garden_is_xml garden_complete))) (conj garden_draws garden_generated)). Qed.
(** [file_samples] lists the samples. *)
Theorem C56_all_samples : forall B s, s ∈ file_samples B <-> file_sample B s.
Proof. exact file_samples_spec. Qed.
Print Assumptions C56_all_samples.
(** The CSV file is a table that the other jobs read with every cell observed, provided no name has commas, newlines or trailing
    blanks in it. *)
Theorem C56_readable : forall B, bnet_ok B -> forall samples, csv_names B -> samples <> [] -> Forall (file_sample B) samples ->
  csv_table (text_of (glue comma <$> (bv_name <$> bn_vars B) :: (sample_names B <$> samples))) (bv_name <$> bn_vars B) (sample_names B <$> samples) /\
  Forall2 (observed B) (sample_names B <$> samples) (sample_row <$> samples).
Proof. exact generated_readable. Qed.
Print Assumptions C56_readable.
Example C56_readable_witness : csv_names garden /\ Forall (file_sample garden) [[1; 0; 2]; [1; 1; 2]].
Proof. exact (conj garden_csv_names garden_two). Qed.
(** The class variable is not checked: from the number of variables on, the samples are read outside their bounds. *)
Theorem C56_class_unchecked : forall B, bnet_ok B -> forall stod num, reads_numbers stod num B ->
  forall vars probs, is_xml B vars probs -> length (bn_dists B) = bn_size B -> Forall (complete_rows B) (bn_dists B) ->
  forall cls us, bn_size B <= cls -> us <> [] -> (forall u, u ∈ us -> uniform u) ->
  generate_svm stod vars probs cls us = Err OutOfBounds /\ generate_csv stod vars probs cls us = Err OutOfBounds.
Proof. exact generator_class. Qed.
Print Assumptions C56_class_unchecked.
