(** C64: every object of a job is used only while it exists and given back exactly once. The jobs are run with
    [strict = false]: a node is deleted through a pointer to its base class, whose destructor is not virtual, and the
    theorems take this as the deletion of the node, as compilers do; with [strict = true] it is an error of its own. *)
From Verif Require Import MemoryModel MemorySpec MemoryProofs6 MemoryWitness.

(** The sampling job never fails and leaves nothing. *)
Theorem C64_sampling_leaves_nothing n es libsvm samples parents :
  below_all n es ->
  exists h, job_sample false n es libsvm samples parents nothing = Done tt h /\ h_live h = [].
Proof. exact (run_sample n es libsvm samples parents). Qed.
Print Assumptions C64_sampling_leaves_nothing.
Example C64_sampling_witness :
  below_all 3 [(0, 1); (1, 2)] /\
  left_by (job_sample false 3 [(0, 1); (1, 2)] false 4 (fun i => bool_decide (i < 2))) = Some [].
Proof. split; [repeat constructor; cbn; lia|]. vm_compute. reflexivity. Qed.

(** The inference job never fails; it leaves one array for every marginal it computed. *)
Theorem C64_inference_leaves_index_arrays_partial n es rows t qs :
  below_all n es -> linked t ->
  exists h, job_infer false n es rows t qs nothing = Done tt h /\ kinds (h_live h) ≡ₚ index_arrays qs.
Proof. exact (run_infer n es rows t qs). Qed.
Print Assumptions C64_inference_leaves_index_arrays_partial.
Example C64_inference_witness :
  linked example_tree /\
  left_by (job_infer false 3 [(0, 1); (1, 2)] 4 example_tree [example_query; example_query]) = Some [KInts; KInts; KInts; KInts].
Proof. split; [exact example_linked|]. vm_compute. reflexivity. Qed.

(** The job that learns a structure leaves the learner and the tables of the tests without degree of freedom. *)
Theorem C64_structure_job_leaves_partial rows vars save r ref :
  proper vars r -> proper_reference ref ->
  leaves (job_structure false rows vars save r ref) (fun h => KLearner :: lost_tables h).
Proof. exact (run_structure rows vars save r ref). Qed.
Print Assumptions C64_structure_job_leaves_partial.
Example C64_structure_witness :
  proper 3 example_learning /\ proper_reference (Some (3, [(0, 1)])) /\
  left_by (job_structure false 2 3 true example_learning (Some (3, [(0, 1)]))) =
    Some ([KCounts3; KInts; KInts; KInts; KInts] ++ [KCounts3; KInts; KInts; KInts; KInts; KInts] ++ [KCounts2; KInts; KInts; KInts] ++ [KLearner]).
Proof. split_and!; [exact example_proper|repeat constructor; cbn; lia|]. vm_compute. reflexivity. Qed.

(** The job that learns a network leaves in addition the parameter learner, its timer and, if the network is saved,
    one array for every node with parents. *)
Theorem C64_learning_job_leaves_partial rows vars save_struct save_param r ref parents :
  proper vars r -> proper_reference ref ->
  leaves (job_learn false rows vars save_struct save_param r ref parents)
    (fun h => [KLearner; KParams; KTimer] ++ saved_arrays save_param vars parents ++ lost_tables h).
Proof. exact (run_learn rows vars save_struct save_param r ref parents). Qed.
Print Assumptions C64_learning_job_leaves_partial.
Example C64_learning_witness :
  proper 3 example_learning /\
  left_by (job_learn false 2 3 true true example_learning (Some (3, [(0, 1)])) (fun i => bool_decide (i < 2))) =
    Some ([KInts; KInts; KTimer; KParams] ++
          [KCounts3; KInts; KInts; KInts; KInts] ++ [KCounts3; KInts; KInts; KInts; KInts; KInts] ++ [KCounts2; KInts; KInts; KInts] ++ [KLearner]).
Proof. split; [exact example_proper|]. vm_compute. reflexivity. Qed.

(** The classification job deletes both learners. *)
Theorem C64_classification_job_leaves_partial rows vars test_rows save_struct save_param r ref parents t qs :
  proper vars r -> proper_reference ref -> linked t ->
  leaves (job_classify false rows vars test_rows save_struct save_param r ref parents t qs)
    (fun h => [KTimer] ++ saved_arrays save_param (vars + 1) parents ++ index_arrays qs ++ lost_tables h).
Proof. exact (run_classify rows vars test_rows save_struct save_param r ref parents t qs). Qed.
Print Assumptions C64_classification_job_leaves_partial.
Example C64_classification_witness :
  proper 3 example_learning /\ linked example_tree /\
  left_by (job_classify false 2 3 4 true true example_learning None (fun i => bool_decide (i < 2)) example_tree [example_query]) =
    Some ([KInts; KInts] ++ [KInts; KInts; KTimer] ++
          [KCounts3; KInts; KInts; KInts; KInts] ++ [KCounts3; KInts; KInts; KInts; KInts; KInts] ++ [KCounts2; KInts; KInts; KInts]).
Proof. split_and!; [exact example_proper|exact example_linked|]. vm_compute. reflexivity. Qed.

(** Not every job gives everything back. *)
Theorem C64_everything_is_given_back_refuted :
  exists n es rows t qs, below_all n es /\ linked t /\
    left_by (job_infer false n es rows t qs) <> Some [] /\ left_by (job_infer false n es rows t qs) <> None.
Proof.
  exists 3, [(0, 1); (1, 2)], 4, example_tree, [example_query].
  split; [repeat constructor; cbn; lia|]. split; [exact example_linked|]. split; vm_compute; discriminate.
Qed.
Print Assumptions C64_everything_is_given_back_refuted.

(** By the letter of the language every job that deletes a network with nodes is undefined. *)
Theorem C64_nodes_are_deleted_through_their_class_refuted :
  exists n es libsvm samples parents, below_all n es /\ job_sample true n es libsvm samples parents nothing = Fault NoVirtual.
Proof.
  exists 3, [(0, 1); (1, 2)], true, 1, (fun _ => true). split; [repeat constructor; cbn; lia|]. vm_compute. reflexivity.
Qed.
Print Assumptions C64_nodes_are_deleted_through_their_class_refuted.

(** A tree whose cliques do not hang together makes the program use a null pointer. *)
Theorem C64_unlinked_cliques_refuted :
  exists n es rows t qs, below_all n es /\ 0 < t_cliques t /\ job_infer false n es rows t qs nothing = Fault UseNull.
Proof.
  exists 2, [], 1, (mkShape 2 (fun _ _ => 0) 0 0 0), []. split; [constructor|]. split; [cbn; lia|]. vm_compute. reflexivity.
Qed.
Print Assumptions C64_unlinked_cliques_refuted.
