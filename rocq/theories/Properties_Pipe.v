(** Property theorems about whole jobs of the command line program: C55.
    Vocabulary: BIFSpec.v ([bnet_ok], [reads_numbers], [is_xml], [complete_rows]) - a network file with proper contents;
    DataSpec.v ([csv_table]) - a CSV file; EvalSpec.v ([is_reference], [root_mean_square], [average]) - the reference file and
    the errors; PipeSpec.v ([observed], [file_posterior], [file_compared], [file_connected], [file_shape]). *)
From Coq Require Import Field QArith.
From Verif Require Import PipeModel PipeSpec PipeTheorems PipeWitness EvalWitness BIFWitness JTWitness.
Local Open Scope nat_scope.

(** ** C55 *)
(** Exact inference (-j 2 -m 1) for a network file, a test file and a reference file. The numbers printed compare the reference
    with the posterior probabilities of the distribution of the network file, given the observed cells of each row EXCEPT THE
    FIRST. Missing: the first observed cell of each row (see below); fewer than twenty rows (C54). *)
Theorem C55_exact_inference_partial : forall B, bnet_ok B -> forall stod num, reads_numbers stod num B ->
  forall vars probs, is_xml B vars probs -> length (bn_dists B) = bn_size B -> Forall (complete_rows B) (bn_dists B) ->
  forall test header rows, csv_table test header rows -> length header = bn_size B -> forall Es, Forall2 (observed B) rows Es ->
  forall sq o sch refs reference, Forall (fun E => E <> []) Es -> file_connected B -> valid_order o -> (forall i, valid_scheduler (sch i)) -> 20 <= length rows ->
  is_reference stod (file_shape B) (tail <$> Es) refs reference ->
  (forall i E ref, Es !! i = Some E -> refs !! i = Some ref -> file_compared num B (tail E) ref <> []) ->
  exact_inference sq stod o sch vars probs test reference =
    Ok (average (zip_with (fun E ref => root_mean_square sq (fun x => x) (file_compared num B (tail E) ref)) Es refs),
        average (zip_with (fun E ref => root_mean_square sq sq (file_compared num B (tail E) ref)) Es refs)).
Proof. exact exact_inference_ok. Qed.
Print Assumptions C55_exact_inference_partial.
Example C55_exact_inference_partial_witness :
  (bnet_ok garden /\ reads_numbers stod4 num4 garden /\ is_xml garden garden_vars garden_probs /\
   (length (bn_dists garden) = bn_size garden /\ Forall (complete_rows garden) (bn_dists garden)) /\ file_connected garden) /\
  (csv_table visits visit_header visit_rows /\ Forall2 (observed garden) visit_rows seen_cells /\ Forall (fun E => E <> []) seen_cells) /\
  (is_reference stod4 (file_shape garden) (tail <$> seen_cells) (numbers <$> used_numbers) (reference_of used_numbers) /\
   forall i E ref, seen_cells !! i = Some E -> (numbers <$> used_numbers) !! i = Some ref -> file_compared num4 garden (tail E) ref <> []) /\
  exists m, garden_run (reference_of used_numbers) = Ok (m, m) /\ (0 < m)%Qc.
Proof.
  exact (conj (conj garden_ok (conj garden_numbers (conj garden_is_xml (conj garden_complete garden_connected))))
        (conj (conj visits_table (conj visits_seen visits_nonempty)) (conj (conj used_reference used_compared) garden_run_ok))).
Qed.
(** The full statement, with all the observed cells as evidence, fails. *)
Theorem C55_first_cell_refuted : exists B stod num vars probs test header rows Es refs reference sq o sch,
  bnet_ok B /\ reads_numbers stod num B /\ is_xml B vars probs /\ length (bn_dists B) = bn_size B /\ Forall (complete_rows B) (bn_dists B) /\ file_connected B /\
  csv_table test header rows /\ length header = bn_size B /\ Forall2 (observed B) rows Es /\ Forall (fun E => E <> []) Es /\ 20 <= length rows /\
  is_reference stod (file_shape B) Es refs reference /\ valid_order o /\ (forall i : nat, valid_scheduler (sch i)) /\
  exact_inference sq stod o sch vars probs test reference <>
    Ok (average (zip_with (fun E ref => root_mean_square sq (fun x => x) (file_compared num B E ref)) Es refs),
        average (zip_with (fun E ref => root_mean_square sq sq (file_compared num B E ref)) Es refs)).
Proof. exact first_cell_refutes. Qed.
Print Assumptions C55_first_cell_refuted.
(** A row without any observed cell ends the program with an uncaught exception. *)
Theorem C55_unobserved_row : forall B, bnet_ok B -> forall stod num, reads_numbers stod num B ->
  forall vars probs, is_xml B vars probs -> length (bn_dists B) = bn_size B -> Forall (complete_rows B) (bn_dists B) ->
  forall test header rows, csv_table test header rows -> length header = bn_size B -> forall Es, Forall2 (observed B) rows Es ->
  forall sq o sch reference, ~ Forall (fun E => E <> []) Es -> exact_inference sq stod o sch vars probs test reference = Err Thrown.
Proof. exact exact_inference_unobserved. Qed.
Print Assumptions C55_unobserved_row.
Example C55_unobserved_row_witness : csv_table blind_visits visit_header blind_rows /\ Forall2 (observed garden) blind_rows [[(0, 0)]; []] /\
  ~ Forall (fun E : list (nat * nat) => E <> []) [[(0, 0)]; []].
Proof. exact (conj blind_table (conj blind_seen blind_not_all)). Qed.
