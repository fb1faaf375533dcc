(** Property theorems about the files that the classification job writes: C60.
    Vocabulary: DataSpec.v ([csv_table], [column], [first_appearance], [text_of]) - a CSV file and its value numbers; ClassSpec.v ([coded_as]); SaveSpec.v
    ([parameter_lines], [structure_lines], [shown_edge], [joined_pairs]); ClassFileSpec.v ([class_probability], [one_root_each], [lists_rooted]); DSepSpec.v ([dag], [dsep_oracle],
    [v_structure]); PCSpec.v ([decides], [valid_sched]); [classify] is the accuracy of the job, see C57. *)
From Coq Require Import Ascii String.
From Coq Require Import Field QArith.
From Verif Require Import ClassFileSpec ClassFiles CellSpec PCSpec PCWitness JTSpec JTWitness ClassWitness SaveWitness ClassFileWitness.
From Verif Require Import DSepWitness.
Local Open Scope nat_scope.

(** ** C60 *)
(** Whatever the tests answer: if the structure is learned, the parameter file has one line for every value of every column and of ROOT
    and all values of the parents, and the accuracy is that without files. If not, the job fails alike with and without files. *)
Theorem C60_parameter_file : forall train header rows, csv_table train header rows -> NoDup header ->
  exists d D, load_csv_training train = Ok d /\ columns_of d = Ok D /\ d_names d = header /\ (forall i dict, d_dicts d !! i = Some dict -> first_appearance (column i rows) dict) /\ coded_as (d_dicts d) rows D /\
  forall accept depth fuel size ssch coin flips show stod o sch test, (forall x j, flips x j < 2) ->
  match learn_structure accept depth fuel size ssch true coin d D with
  | Err _ => exists e, classify accept depth fuel size ssch coin flips o sch train test = Err e /\ forall ss sp ref, classification_job accept depth fuel size ssch coin flips show stod o sch ss sp ref train test = Err e
  | Ok N => exists roots N', find_roots N = Ok roots /\ add_root_node N roots = Ok N' /\
      forall sp, classification_job accept depth fuel size ssch coin flips show stod o sch false sp None train test =
        (a ← classify accept depth fuel size ssch coin flips o sch train test;
         Ok (None, None, if sp then Some (text_of (parameter_lines show (header ++ [lit "ROOT"]) (d_dicts d ++ [[lit "0"; lit "1"]]) N' (class_probability N' D flips))) else None, a))
  end.
Proof. exact class_job_parameters. Qed.
Print Assumptions C60_parameter_file.
(** If the tests are those of a directed graph [g] in which two columns are not adjacent, the structure file lists the arcs of a graph [h] with the
    adjacencies and v-structures' arcs of [g], and one arc from ROOT into every connected component, under the right numbers of nodes and edges.
    It does not change the other results. If all columns are adjacent, the structure is not learned: the vector of edges is read past its end. *)
Theorem C60_structure_file : forall train header rows, csv_table train header rows -> NoDup header ->
  exists d D, load_csv_training train = Ok d /\ columns_of d = Ok D /\
  forall accept size ssch g ind gmax depth coin flips show stod o sch, dag (length header) g -> dsep_oracle ind (length header) g ->
  decides (independence_result accept D (d_sizes d)) ind (length header) gmax -> 1 <= size <= gmax -> valid_sched ssch -> (forall v, length (dag_parents (length header) g v) < depth) -> (forall x j, flips x j < 2) ->
  exists F, forall fuel, F <= fuel ->
    ((exists x y, x < length header /\ y < length header /\ x <> y /\ ~ adjacent g x y) -> exists h roots ls,
       dag (length header) h /\ (forall x y, adjacent h x y <-> adjacent g x y) /\ (forall x y z, v_structure g x y z -> h x y = true) /\ one_root_each (length header) h roots /\ lists_rooted (length header) h roots ls /\
       (exists N, learn_structure accept depth fuel size ssch true coin d D = Ok N /\ find_roots N = Ok roots /\ forall x y, x ∈ parents_of N y <-> h x y = true) /\
       forall sp, exists p, forall ss test, classification_job accept depth fuel size ssch coin flips show stod o sch ss sp None train test =
         (a ← classify accept depth fuel size ssch coin flips o sch train test; Ok (if ss then Some (text_of (structure_lines (header ++ [lit "ROOT"]) (S (length header)) ls)) else None, None, p, a))) /\
    (2 <= length header -> (forall x y, x < length header -> y < length header -> x <> y -> adjacent g x y) -> learn_structure accept depth fuel size ssch true coin d D = Err OutOfBounds).
Proof. exact class_job_structure. Qed.
Print Assumptions C60_structure_file.
Example C60_files_witness : (csv_table lamp_train lamp_header lamp_rows /\ NoDup lamp_header) /\ (csv_table lamp_test lamp_header lamp_tests_rows /\ 20 <= length lamp_tests_rows /\ class_known lamp_rows lamp_tests_rows) /\
  (exists d D ind, load_csv_training lamp_train = Ok d /\ columns_of d = Ok D /\ dag 3 lamp_graph /\ dsep_oracle ind 3 lamp_graph /\
    decides (independence_result exactly_balanced D (d_sizes d)) ind 3 1 /\ (forall v, length (dag_parents 3 lamp_graph v) < 1000) /\ lamp_graph 0 2 = true) /\
  classification_job exactly_balanced 1000 1000 1 forwards (fun _ => true) some_flips show_fraction (fun _ => Err Thrown) addr_order (fun _ => wild_sched) true true None lamp_train lamp_test =
  Ok (Some (text_of class_structure), None, Some (text_of class_parameters), (1 + 1 + 1) / (1 + 1 + 1 + 1))%Qc.
Proof. exact (conj lamp_table (conj lamp_test_table (conj lamp_tests lamp_class_files))). Qed.
(** Whatever the tests answer: the structure file is written whenever the structure is learned, also without an edge between columns.
    The number of edges in its first line is that of the joined pairs and the roots, and every further line is an edge of the structure or
    from ROOT to a root. Not shown: that every edge is listed, which needs consistent tests. *)
Theorem C60_structure_any_tests_partial : forall train header rows, csv_table train header rows -> NoDup header ->
  exists d D, load_csv_training train = Ok d /\ columns_of d = Ok D /\
  forall accept depth fuel size ssch coin flips show stod o sch N, (forall x j, flips x j < 2) -> learn_structure accept depth fuel size ssch true coin d D = Ok N ->
    exists roots E ls, find_roots N = Ok roots /\ joined_pairs N E /\
      (forall x y, Arc x y ∈ ls -> has_directed N x y \/ x = length header /\ y ∈ roots) /\ (forall x y, Link x y ∈ ls -> undirected_edge x y ∈ nt_edges N) /\
      forall sp, exists p, forall ss test, classification_job accept depth fuel size ssch coin flips show stod o sch ss sp None train test =
         (a ← classify accept depth fuel size ssch coin flips o sch train test;
          Ok (if ss then Some (text_of (structure_head (S (length header)) (length E + length roots) :: imap (shown_edge (header ++ [lit "ROOT"])) ls)) else None, None, p, a)).
Proof. exact class_job_any. Qed.
Print Assumptions C60_structure_any_tests_partial.
Example C60_structure_any_tests_partial_witness : exists d D N, load_csv_training play_train = Ok d /\ columns_of d = Ok D /\ learn_structure exactly_balanced 1000 1000 1 forwards true (fun _ => true) d D = Ok N /\ nd_parents <$> nt_nodes N = [[1]; []; []].
Proof. exact play_learned. Qed.
(** Two columns that always agree cannot be learned: the job does not classify with the complete graph. *)
Theorem C60_complete_refuted : exists train header rows, csv_table train header rows /\ NoDup header /\ exists d D, load_csv_training train = Ok d /\ columns_of d = Ok D /\
  learn_structure exactly_balanced 1000 1000 1 forwards true (fun _ => true) d D = Err OutOfBounds.
Proof. exact (ex_intro _ both_train (ex_intro _ both_header (ex_intro _ both_rows both_fails))). Qed.
Print Assumptions C60_complete_refuted.
