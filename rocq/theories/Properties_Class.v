(** Property theorems about the classification job: C57, and about the structures it learns: C21.
    Vocabulary: DataSpec.v ([csv_table], [column]) - a CSV file; ClassSpec.v ([coded_as], [evidence_cells], [class_known],
    [is_class], [most_probable], [correct_fraction], [family_ok]); GraphSpec.v ([acyclic], [parent_rel], [child_rel]);
    JTModel.v and JTSpec.v ([valid_scheduler], [valid_order]). *)
From Coq Require Import Field QArith.
From Verif Require Import ClassModel ClassSpec OrientSafe ClassProofs CellSpec PCWitness JTSpec JTWitness ClassWitness.
Local Open Scope nat_scope.

(** ** C57 *)
(** The structure is learned from the training rows; if this fails, so does the job, and nothing else fails. Otherwise every
    test row gets the first most probable class, under the learned distribution, given its other known cells; the answer
    is the fraction of the rows for which that is the class in the file. *)
Theorem C57_classify : forall train header rows, csv_table train header rows -> NoDup header ->
  forall test theader trows, csv_table test theader trows -> length theader = length header -> 20 <= length trows -> class_known rows trows ->
  forall accept depth fuel size ssch coin flips o sch, (forall x j, flips x j < 2) -> valid_order o -> (forall i, valid_scheduler (sch i)) ->
  exists d D, load_csv_training train = Ok d /\ columns_of d = Ok D /\ coded_as (d_dicts d) rows D /\
  match learn_structure accept depth fuel size ssch true coin d D with
  | Err e => classify accept depth fuel size ssch coin flips o sch train test = Err e
  | Ok N => acyclic (parent_rel N) /\ domain_sizes N = length <$> d_dicts d /\
      exists roots N' labels, find_roots N = Ok roots /\ add_root_node N roots = Ok N' /\
        Forall2 (fun cells l => exists E, evidence_cells (d_dicts d) cells E /\ most_probable N' D flips E l) trows labels /\
        classify accept depth fuel size ssch coin flips o sch train test = Ok (correct_fraction (d_dicts d) trows labels)
  end.
Proof. exact classify_ok. Qed.
Print Assumptions C57_classify.
Example C57_classify_witness : (csv_table play_train play_header play_rows /\ NoDup play_header) /\
  (csv_table play_test play_header play_tests /\ 20 <= length play_tests /\ class_known play_rows play_tests) /\
  (exists d D N, load_csv_training play_train = Ok d /\ columns_of d = Ok D /\ learn_structure exactly_balanced 1000 1000 1 forwards true (fun _ => true) d D = Ok N /\ nd_parents <$> nt_nodes N = [[1]; []; []]) /\
  classify exactly_balanced 1000 1000 1 forwards (fun _ => true) some_flips addr_order (fun _ => wild_sched) play_train play_test = Ok (1 / (1 + 1))%Qc.
Proof. exact (conj play_table (conj play_test_table (conj play_learned play_classified))). Qed.
(** A row with an unknown class is compared in another column: the accuracy can be 1 although no row is classified as in the
    file. *)
Theorem C57_unknown_class_refuted : exists train header rows test theader trows accept depth fuel size ssch coin flips o sch,
  csv_table train header rows /\ NoDup header /\ csv_table test theader trows /\ length theader = length header /\ 20 <= length trows /\
  (forall x j, flips x j < 2) /\ valid_order o /\ (forall i : nat, valid_scheduler (sch i)) /\
  (forall cells c, cells ∈ trows -> cells !! 0 = Some c -> c ∉ column 0 rows) /\
  classify accept depth fuel size ssch coin flips o sch train test = Ok 1%Qc.
Proof. exact unknown_class_counted. Qed.
Print Assumptions C57_unknown_class_refuted.
(** With fewer than twenty rows the report of the progress divides by zero. *)
Theorem C57_few_rows_refuted : exists train header rows test theader trows accept depth fuel size ssch coin flips o sch,
  csv_table train header rows /\ NoDup header /\ csv_table test theader trows /\ length theader = length header /\ class_known rows trows /\
  (forall x j, flips x j < 2) /\ valid_order o /\ (forall i : nat, valid_scheduler (sch i)) /\
  classify accept depth fuel size ssch coin flips o sch train test = Err DivZero.
Proof. exact few_rows. Qed.
Print Assumptions C57_few_rows_refuted.

(** ** C21 *)
(** Whatever the tests answered: the parents recorded in the nodes of the result are acyclic, agree with the recorded children
    and have the numbers of values of the data. *)
Theorem C21_families : forall fuel doms dag coin es adj sep N, orient_skeleton fuel doms dag coin es adj sep = Ok N -> family_ok N /\ domain_sizes N = doms.
Proof. exact orient_kept. Qed.
Print Assumptions C21_families.
Example C21_families_witness : exists d D N, load_csv_training play_train = Ok d /\ columns_of d = Ok D /\ learn_structure exactly_balanced 1000 1000 1 forwards true (fun _ => true) d D = Ok N /\ nd_parents <$> nt_nodes N = [[1]; []; []].
Proof. exact play_learned. Qed.
