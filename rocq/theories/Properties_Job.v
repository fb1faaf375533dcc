(** Property theorems about the jobs of the command line program: the comparison with a reference network, C59.
    Vocabulary: DataSpec.v ([csv_table]); BIFSpec.v ([bnet]: a network as data, [bnet_ok], [is_bif]: its text, [reads_numbers]); JobSpec.v ([reference_graph],
    [comparable], [same_network]); DSepSpec.v ([dag], [dsep_oracle], [markov_equivalent]); PCSpec.v ([decides], [valid_sched]); SaveModel.v ([learn_network]: the
    files of the learning job, see C58). *)
From Coq Require Import Field QArith.
From Verif Require Import JobModel JobSpec JobProofs CellSpec PCSpec PCWitness ClassWitness SaveWitness BIFWitness JobWitness.
From Verif Require Import DSepWitness.
Local Open Scope nat_scope.

(** ** C59 *)
(** Tests that are those of a graph [g] over the columns; a reference network with as many variables. The jobs write the same files as without
    the reference, and the distance they report is 0 exactly if the reference is Markov equivalent to [g], variable i of the reference standing
    for column i.  Same restriction on the reference as in C35.  If the columns are all independent, the comparison throws. *)
Theorem C59_distance_partial : forall train header rows, csv_table train header rows -> NoDup header ->
  exists d D, load_csv_training train = Ok d /\ columns_of d = Ok D /\
  forall accept size ssch g ind gmax depth coin flips show stod num B ref, dag (length header) g -> dsep_oracle ind (length header) g ->
  decides (independence_result accept D (d_sizes d)) ind (length header) gmax -> 1 <= size <= gmax -> valid_sched ssch -> (forall v, length (dag_parents (length header) g v) < depth) ->
  bnet_ok B -> reads_numbers stod num B -> is_bif B ref -> bn_size B = length header -> comparable B ->
  exists F, forall fuel, F <= fuel ->
    ((exists x y, g x y = true) -> exists k, (k = 0 <-> markov_equivalent g (reference_graph B)) /\
       forall ss sp, exists s p, learn_network accept depth fuel size ssch coin flips show ss sp train = Ok (s, p) /\
         structure_job accept depth fuel size ssch coin stod ss (Some ref) train = Ok (s, Some k) /\
         learning_job accept depth fuel size ssch coin flips show stod ss sp (Some ref) train = Ok (s, Some k, p)) /\
    ((forall x y, g x y = false) -> structure_job accept depth fuel size ssch coin stod false (Some ref) train = Err Thrown /\
       forall sp, learning_job accept depth fuel size ssch coin flips show stod false sp (Some ref) train = Err Thrown).
Proof. exact jobs_distance. Qed.
Print Assumptions C59_distance_partial.
Example C59_distance_partial_witness : ((csv_table lamp_train lamp_header lamp_rows /\ NoDup lamp_header) /\
    (bnet_ok lamp_net /\ reads_numbers stod4 num4 lamp_net /\ is_bif lamp_net (plain_bif lamp_net) /\ bn_size lamp_net = length lamp_header /\ comparable lamp_net) /\
    (bnet_ok lamp_chain /\ reads_numbers stod4 num4 lamp_chain /\ is_bif lamp_chain (plain_bif lamp_chain) /\ bn_size lamp_chain = length lamp_header /\ comparable lamp_chain)) /\
  (exists d D ind, load_csv_training lamp_train = Ok d /\ columns_of d = Ok D /\ dag 3 lamp_graph /\ dsep_oracle ind 3 lamp_graph /\
    decides (independence_result exactly_balanced D (d_sizes d)) ind 3 1 /\ (forall v, length (dag_parents 3 lamp_graph v) < 1000) /\ lamp_graph 0 2 = true) /\
  lamp_job false lamp_net = Ok (None, Some 0) /\ lamp_job false lamp_chain = Ok (None, Some 1).
Proof. exact (conj lamp_reference (conj lamp_tests lamp_distances)). Qed.
(** Without a reference, the learning job is the one of C58. *)
Theorem C59_no_reference : forall accept depth fuel size ssch coin flips show stod ss sp train,
  learning_job accept depth fuel size ssch coin flips show stod ss sp None train = (sp ← learn_network accept depth fuel size ssch coin flips show ss sp train; Ok (sp.1, None, sp.2)).
Proof. exact jobs_alone. Qed.
Print Assumptions C59_no_reference.
Example C59_no_reference_witness : learn_network exactly_balanced 1000 1000 1 forwards (fun _ => true) some_flips show_fraction true true lamp_train = Ok (Some (text_of lamp_structure), Some (text_of lamp_parameters)).
Proof. exact lamp_files. Qed.
(** Names and values do not matter: whatever the tests answer, two references with the same arcs between positions give the same results. *)
Theorem C59_positions : forall stod num B B' ref ref', bnet_ok B -> bnet_ok B' -> reads_numbers stod num B -> reads_numbers stod num B' -> is_bif B ref -> is_bif B' ref' ->
  bn_arcs B = bn_arcs B' -> (fun w => length (bv_values w)) <$> bn_vars B = (fun w => length (bv_values w)) <$> bn_vars B' ->
  forall accept depth fuel size ssch coin flips show ss sp train,
    structure_job accept depth fuel size ssch coin stod ss (Some ref) train = structure_job accept depth fuel size ssch coin stod ss (Some ref') train /\
    learning_job accept depth fuel size ssch coin flips show stod ss sp (Some ref) train = learning_job accept depth fuel size ssch coin flips show stod ss sp (Some ref') train.
Proof. exact jobs_positions. Qed.
Print Assumptions C59_positions.
Example C59_positions_witness : (bnet_ok lamp_net /\ reads_numbers stod4 num4 lamp_net) /\ bnet_ok lamp_renamed /\ reads_numbers stod4 num4 lamp_renamed /\ is_bif lamp_renamed (plain_bif lamp_renamed) /\ bn_arcs lamp_renamed = bn_arcs lamp_net /\
  (fun w => length (bv_values w)) <$> bn_vars lamp_renamed = (fun w => length (bv_values w)) <$> bn_vars lamp_net /\ bv_name <$> bn_vars lamp_renamed <> bv_name <$> bn_vars lamp_net.
Proof. exact (conj (conj lamp_net_ok lamp_net_numbers) renamed_reference). Qed.
(** So the same network, listed in another order of the variables, is reported as different: distance 0 in the order of the columns, 3 in another. *)
Theorem C59_order_refuted : exists train header rows B B' ref ref' stod num accept depth fuel size ssch coin, csv_table train header rows /\ NoDup header /\ header = bv_name <$> bn_vars B /\ same_network B B' /\
  bnet_ok B /\ bnet_ok B' /\ reads_numbers stod num B /\ reads_numbers stod num B' /\ is_bif B ref /\ is_bif B' ref' /\
  structure_job accept depth fuel size ssch coin stod false (Some ref) train = Ok (None, Some 0) /\ structure_job accept depth fuel size ssch coin stod false (Some ref') train = Ok (None, Some 3).
Proof. exact moved_reference. Qed.
Print Assumptions C59_order_refuted.
(** A reference with fewer variables than columns makes the jobs fail, whatever the tests answer. The classification job adds ROOT before the
    comparison: it fails with every reference that has no more variables than there are columns. *)
Theorem C59_fewer_variables : forall train header rows stod num B ref, csv_table train header rows -> NoDup header -> bnet_ok B -> reads_numbers stod num B -> is_bif B ref ->
  (bn_size B < length header -> 2 <= length header -> forall accept depth fuel size ssch coin flips show ss sp r,
     structure_job accept depth fuel size ssch coin stod ss (Some ref) train <> Ok r /\ forall r, learning_job accept depth fuel size ssch coin flips show stod ss sp (Some ref) train <> Ok r) /\
  (bn_size B <= length header -> forall accept depth fuel size ssch coin flips show o sch ss sp test r, classification_job accept depth fuel size ssch coin flips show stod o sch ss sp (Some ref) train test <> Ok r).
Proof. exact jobs_fewer. Qed.
Print Assumptions C59_fewer_variables.
Example C59_fewer_variables_witness : bnet_ok lamp_less /\ reads_numbers stod4 num4 lamp_less /\ is_bif lamp_less (plain_bif lamp_less) /\ bn_size lamp_less < length lamp_header /\ lamp_job false lamp_less = Err Exit1.
Proof. exact less_reference. Qed.
(** Further variables of the reference are not compared: distance 0 although the reference has arcs that were not learned. *)
Theorem C59_more_variables_refuted : exists train header rows B ref stod num accept depth fuel size ssch coin, csv_table train header rows /\ NoDup header /\ bnet_ok B /\ reads_numbers stod num B /\ is_bif B ref /\
  length header < bn_size B /\ (exists x y, bn_arc B x y /\ length header <= y) /\
  structure_job accept depth fuel size ssch coin stod false (Some ref) train = Ok (None, Some 0).
Proof. exact more_reference. Qed.
Print Assumptions C59_more_variables_refuted.
