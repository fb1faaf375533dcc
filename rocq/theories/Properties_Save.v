(** Property theorems about the learning job and the files it writes: C58.
    Vocabulary: DataSpec.v ([csv_table], [column], [first_appearance], [text_of]) - a CSV file and its value numbers; ClassSpec.v
    ([coded_as]); LearnSpec.v ([smoothed]: (count + 1) / (count of the parents' values + number of values)); SaveSpec.v
    ([parameter_lines], [structure_lines], [lists_essential], [joined_pairs]); DSepSpec.v ([dag], [dsep_oracle], [markov_equivalent]); PCSpec.v
    ([decides], [valid_sched]). *)
From Coq Require Import Field QArith.
From Verif Require Import SaveModel SaveSpec SaveProofs SaveAny CellSpec PCSpec PCWitness ClassWitness SaveWitness.
From Verif Require Import DSepWitness.
Local Open Scope nat_scope.

(** ** C58 *)
(** Whatever the tests answer: if the structure is learned, the parameter file is written, and it has one line for every value of
    every variable and all values of its parents in the learned structure, with the smoothed relative frequency in the rows.
    Nothing fails after the structure is learned. *)
Theorem C58_parameter_file : forall train header rows, csv_table train header rows -> NoDup header ->
  forall accept depth fuel size ssch coin flips show,
  exists d D, load_csv_training train = Ok d /\ columns_of d = Ok D /\ d_names d = header /\ (forall i dict, d_dicts d !! i = Some dict -> first_appearance (column i rows) dict) /\ coded_as (d_dicts d) rows D /\
  match learn_structure accept depth fuel size ssch false coin d D with
  | Err e => forall ss sp, learn_network accept depth fuel size ssch coin flips show ss sp train = Err e
  | Ok N => acyclic (parent_rel N) /\ domain_sizes N = length <$> d_dicts d /\
      forall sp, learn_network accept depth fuel size ssch coin flips show false sp train =
        Ok (None, if sp then Some (text_of (parameter_lines show header (d_dicts d) N (fun x => smoothed N (co_cols D) (co_rows D) 1 x (parents_of N x)))) else None)
  end.
Proof. exact learn_network_parameters. Qed.
Print Assumptions C58_parameter_file.
(** If the tests are those of a directed graph [g], the structure file lists the essential graph of [g], with the right number of
    edges, and the parameter file is the same as without a structure file. If the variables are all independent, the job reads
    past the end of the list of edges. *)
Theorem C58_structure_file : forall train header rows, csv_table train header rows -> NoDup header ->
  exists d D, load_csv_training train = Ok d /\ columns_of d = Ok D /\
  forall accept size ssch g ind gmax depth coin flips show, dag (length header) g -> dsep_oracle ind (length header) g ->
  decides (independence_result accept D (d_sizes d)) ind (length header) gmax -> 1 <= size <= gmax -> valid_sched ssch -> (forall v, length (dag_parents (length header) g v) < depth) ->
  exists F, forall fuel, F <= fuel ->
    ((exists x y, g x y = true) -> forall sp, exists ls p, learn_network accept depth fuel size ssch coin flips show true sp train = Ok (Some (text_of (structure_lines header (length header) ls)), p) /\
       lists_essential (length header) g ls /\ learn_network accept depth fuel size ssch coin flips show false sp train = Ok (None, p)) /\
    ((forall x y, g x y = false) -> forall sp, learn_network accept depth fuel size ssch coin flips show true sp train = Err OutOfBounds).
Proof. exact learn_network_structure. Qed.
Print Assumptions C58_structure_file.
Example C58_files_witness : (csv_table lamp_train lamp_header lamp_rows /\ NoDup lamp_header) /\
  (exists d D ind, load_csv_training lamp_train = Ok d /\ columns_of d = Ok D /\ dag 3 lamp_graph /\ dsep_oracle ind 3 lamp_graph /\
    decides (independence_result exactly_balanced D (d_sizes d)) ind 3 1 /\ (forall v, length (dag_parents 3 lamp_graph v) < 1000) /\ lamp_graph 0 2 = true) /\
  learn_network exactly_balanced 1000 1000 1 forwards (fun _ => true) some_flips show_fraction true true lamp_train = Ok (Some (text_of lamp_structure), Some (text_of lamp_parameters)).
Proof. exact (conj lamp_table (conj lamp_tests lamp_files)). Qed.
(** Whatever the tests answer: the structure file is written exactly if the learned structure has an edge. The number of edges
    in its first line is the number of pairs that are joined, and every further line is an edge of the structure. Not every edge
    need be there, see [C58_missing_edge_refuted]. *)
Theorem C58_structure_any_tests_partial : forall train header rows, csv_table train header rows -> NoDup header ->
  forall accept depth fuel size ssch coin flips show,
  exists d D, load_csv_training train = Ok d /\ columns_of d = Ok D /\
  forall N, learn_structure accept depth fuel size ssch false coin d D = Ok N ->
    (nt_edges N = [] -> forall sp, learn_network accept depth fuel size ssch coin flips show true sp train = Err OutOfBounds) /\
    (nt_edges N <> [] -> forall sp, exists E ls p, joined_pairs N E /\
      learn_network accept depth fuel size ssch coin flips show true sp train = Ok (Some (text_of (structure_head (length header) (length E) :: imap (shown_edge header) ls)), p) /\
      learn_network accept depth fuel size ssch coin flips show false sp train = Ok (None, p) /\
      (forall x y, Arc x y ∈ ls -> has_directed N x y) /\ (forall x y, Link x y ∈ ls -> undirected_edge x y ∈ nt_edges N)).
Proof. exact structure_any. Qed.
Print Assumptions C58_structure_any_tests_partial.
Example C58_structure_any_tests_partial_witness : exists train header rows accept depth fuel size ssch coin flips show, csv_table train header rows /\ NoDup header /\ rows = twin_rows /\
  learn_network accept depth fuel size ssch coin flips show true true train = Ok (Some (text_of twin_structure), Some (text_of twin_parameters)).
Proof. exact twin_files. Qed.
(** Undirected edges of the structure are not in the parameters: for two columns that determine each other, the edge is in the
    structure file, but both tables are marginal, and their product gives every combination the probability 1/4. *)
Theorem C58_undirected_refuted : exists train header rows accept depth fuel size ssch coin flips show, csv_table train header rows /\ NoDup header /\
  rows = twin_rows /\
  learn_network accept depth fuel size ssch coin flips show true true train = Ok (Some (text_of twin_structure), Some (text_of twin_parameters)).
Proof. exact twin_files. Qed.
Print Assumptions C58_undirected_refuted.
(** With tests that are not those of a graph, an edge of the learned structure can be missing in the file. *)
Theorem C58_missing_edge_refuted : exists ind tst n coin N lines x y, decides tst ind n 1 /\ run_pc tst n false coin = Ok N /\ undirected_edge x y ∈ nt_edges N /\ x < y /\
  save_bn_structure N = Ok lines /\ Link x y ∉ lines /\ Link y x ∉ lines /\ Arc x y ∉ lines /\ Arc y x ∉ lines.
Proof. exact missing_edge. Qed.
Print Assumptions C58_missing_edge_refuted.
