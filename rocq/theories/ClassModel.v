(** The classification job of the command line program: fastpgm_api.cpp L96-135. *)
From Verif Require Export OrientModel PipeModel LearnModel DataModel GraphModel2.
Local Open Scope nat_scope.

(** ** The training data as columns of value numbers *)
(** Dataset.h [dataset_columns], [num_instance] and [num_vars]. The numbers come from counters and are never negative; a
    negative one would index outside a table. *)
Definition columns_of (d : dataset) : outcome columns :=
  cols ← mcollect (d_columns d) (fun col => mcollect col (fun z => if bool_decide (z < 0)%Z then Err OutOfBounds else Ok (Z.to_nat z)));
  Ok (mkCols cols (length (d_rows d)) (d_nvars d)).

(** ** PCStable.cpp L26-56 [StructLearnCompData], with [dag] *)
(** The nodes get the numbers of values of the data (StructureLearning.cpp L11-34 [AssignNodeInformation]). [accept] is the
    comparison of the p-value with alpha (see CellModel.v), [fuel] bounds the loops, [size] is the group size, [ssch] the
    order in which the threads take the edges, [coin] the sequence of [Random01]. [depth] is the constant 1000 of PCStable.h
    L26. *)
Definition learn_structure (accept : list (nat * nat * nat * nat) -> nat -> bool) (depth fuel size : nat) (ssch : nat -> schedule) (dag : bool) (coin : nat -> bool)
    (d : dataset) (D : columns) : outcome network :=
  s ← skeleton_search (independence_result accept D (d_sizes d)) (d_nvars d) depth fuel size ssch;
  let '(es, adj, sep) := s in
  orient_skeleton fuel (d_sizes d) dag coin es adj sep.

(** ** fastpgm_api.cpp L96-135 [C_PCStable_JT] without a reference network, structure or parameter file *)
(** L100-104: the test file is read with the value numbers of the training file (Dataset.cpp L15-18). L109: structure with
    ROOT. L124: parameters with alpha = 1. L127: the class variable is variable 0. L130: predictions and accuracy
    (Inference.cpp L49-71). *)
Definition classify (accept : list (nat * nat * nat * nat) -> nat -> bool) (depth fuel size : nat) (ssch : nat -> schedule) (coin : nat -> bool) (flips : nat -> nat -> nat)
    (o : mem_order) (sch : nat -> scheduler) (train test : str) : outcome Qc :=
  d ← load_csv_training train;
  rows ← load_csv_testing (d_nvars d) (d_dicts d) test;
  D ← columns_of d;
  N ← learn_structure accept depth fuel size ssch true coin d D;
  roots ← find_roots N;
  N ← add_root_node N roots;
  ts ← learn_params N D 1 flips [];
  qs ← make_queries 0 rows;
  T ← jt_build o N ts;
  Es ← mcollect qs (fun q => as_evidence (fst q));
  labels ← predict sch T 0 Es;
  accuracy (snd <$> qs) (Z.of_nat <$> labels).
