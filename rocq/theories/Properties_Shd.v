(** Property theorems about the structural Hamming distance between a true DAG and a learned graph: C35, C53.
    Specifications used: GraphSpec2.v ([single_extra], [agree], [loosened]), EssentialSpec.v ([arcs_of]: the directed edges as
    a graph, [compelled], [has_undirected], [essential_graph], [mixed_graph]: a learned graph, [same_graph], [fresh_dag]: the
    true DAG), DSepSpec.v ([dag], [markov_equivalent], [dsep_oracle], [dag_parents]), PCSpec.v ([decides], [valid_sched]). *)
From Verif Require Import ShdProofs PCModel PCSpec OrientModel DSepSpec DSepTheorems GraphWitness EssentialSpec ShdTheorems ShdWitness ShdWitness2 DSepWitness.
Local Open Scope nat_scope.

(** ** C35 *)
(** A learned DAG is at distance 0 exactly when it has the edges of the true DAG. *)
Theorem C35_dag_zero : forall T L, mixed_graph T -> mixed_graph L -> length (nt_nodes T) = length (nt_nodes L) ->
  (exists e0, nt_edges L !! 0 = Some e0 /\ is_directed e0 = true) -> get_shd T L = Ok 0 <-> same_graph T L.
Proof. exact shd_same. Qed.
Print Assumptions C35_dag_zero.
Example C35_dag_zero_witness : mixed_graph shd_true /\ (exists e0, nt_edges shd_true !! 0 = Some e0 /\ is_directed e0 = true) /\ get_shd shd_true shd_true = Ok 0.
Proof. exact (conj (fresh_mixed _ shd_true_fresh) (conj (ex_intro _ _ (conj eq_refl eq_refl)) eq_refl)). Qed.

(** A learned pattern is compared with the essential graph of the true DAG, pair by pair; the distance is 0 exactly when the
    pattern is that essential graph.  Proved when every node y of the true DAG, with x its last parent in the topological order
    that the program computes, has at most one other parent that is not a parent of x, or some w -> x that all equivalent graphs
    have while y has no parent w.  Missing: other true DAGs (C35_three_parents_refuted, C35_wrong_label_refuted). *)
Theorem C35_shd_of_pattern_partial : forall T L, fresh_dag T -> mixed_graph L -> length (nt_nodes T) = length (nt_nodes L) ->
  (exists e0, nt_edges L !! 0 = Some e0 /\ is_directed e0 = false) ->
  (forall T1 t, get_topo_ord T = Ok (T1, t) -> single_extra (compelled (length (nt_nodes T)) (arcs_of T)) T t) ->
  exists T' bad, to_pattern T = Ok T' /\ Forall2 loosened (nt_edges T) (nt_edges T') /\
    essential_graph (length (nt_nodes T)) (arcs_of T) T' /\
    get_shd T L = Ok (length bad) /\ NoDup bad /\
    (forall i j, (i, j) ∈ bad <-> i < j /\ j < length (nt_nodes L) /\ ~ agree T' L i j) /\
    (get_shd T L = Ok 0 <-> essential_graph (length (nt_nodes T)) (arcs_of T) L).
Proof. exact shd_essential. Qed.
Print Assumptions C35_shd_of_pattern_partial.
Example C35_shd_of_pattern_partial_witness : fresh_dag shd_true /\ mixed_graph shd_pat /\ length (nt_nodes shd_true) = length (nt_nodes shd_pat) /\
  (exists e0, nt_edges shd_pat !! 0 = Some e0 /\ is_directed e0 = false) /\
  (forall T1 t, get_topo_ord shd_true = Ok (T1, t) -> single_extra (compelled (length (nt_nodes shd_true)) (arcs_of shd_true)) shd_true t) /\
  get_shd shd_true shd_pat = Ok 1.
Proof. exact (conj shd_true_fresh (conj shd_pat_mixed (conj eq_refl (conj (ex_intro _ _ (conj eq_refl eq_refl)) (conj shd_true_single_extra eq_refl))))). Qed.

Example C35_shd_of_pattern_partial_witness_three_parents : fresh_dag three_true /\ (forall T1 t, get_topo_ord three_true = Ok (T1, t) -> single_extra (compelled 7 (arcs_of three_true)) three_true t) /\
  has_directed three_true 2 5 /\ has_directed three_true 3 5 /\ has_directed three_true 4 5.
Proof. exact (conj three_fresh (conj three_extra three_parents)). Qed.

(** The restriction cannot be dropped, even where the conversion ends normally: a DAG for which it keeps 3 -> 5 although an
    equivalent DAG has 5 -> 3. *)
Theorem C35_wrong_label_refuted : fresh_dag wrong_true /\
  exists P h, to_pattern wrong_true = Ok P /\ has_directed P 3 5 /\ dag 6 h /\ markov_equivalent (arcs_of wrong_true) h /\ h 5 3 = true.
Proof. exact (conj wrong_fresh wrong_label). Qed.
Print Assumptions C35_wrong_label_refuted.

(** ** C53 *)
(** Structure learning with tests that answer by d-separation in the true DAG, followed by the comparison with that DAG, gives
    distance 0.  Same restriction on the true DAG as above, and it has an edge (C35_no_edges_refuted). *)
Theorem C53_perfect_tests_distance_zero_partial : forall T ind tst gmax size sch depth doms coin, let n := length (nt_nodes T) in
  fresh_dag T -> nt_edges T <> [] -> (forall T1 t, get_topo_ord T = Ok (T1, t) -> single_extra (compelled n (arcs_of T)) T t) ->
  dsep_oracle ind n (arcs_of T) -> decides tst ind n gmax -> 1 <= size <= gmax -> valid_sched sch ->
  (forall v, length (dag_parents n (arcs_of T) v) < depth) -> length doms = n ->
  exists F, forall fuel, F <= fuel -> exists es A S N, skeleton_search tst n depth fuel size sch = Ok (es, A, S) /\ orient_skeleton fuel doms false coin es A S = Ok N /\
    get_shd T N = Ok 0.
Proof. exact pc_distance_zero. Qed.
Print Assumptions C53_perfect_tests_distance_zero_partial.
Example C53_perfect_tests_distance_zero_partial_witness : fresh_dag shd_true /\ (forall T1 t, get_topo_ord shd_true = Ok (T1, t) -> single_extra (compelled (length (nt_nodes shd_true)) (arcs_of shd_true)) shd_true t) /\
  dsep_oracle shd_ind 4 (arcs_of shd_true) /\ decides (lone_test shd_ind) shd_ind 4 1 /\ (forall v, length (dag_parents 4 (arcs_of shd_true) v) < 4) /\
  exists N, run_pc (lone_test shd_ind) 4 false (fun _ => false) = Ok N /\ arrows (Ok N) = Some [(0, 1, false); (1, 3, true); (2, 3, true)] /\ get_shd shd_true N = Ok 0.
Proof. exact (conj shd_true_fresh (conj shd_true_single_extra shd_run)). Qed.

(** The distance between what is learned and a given DAG is 0 exactly when that DAG is Markov equivalent to the one the tests
    answer for.  Same restriction on the given DAG. *)
Theorem C53_zero_iff_equivalent_partial : forall T g ind tst gmax size sch depth doms coin, let n := length (nt_nodes T) in
  fresh_dag T -> (forall T1 t, get_topo_ord T = Ok (T1, t) -> single_extra (compelled n (arcs_of T)) T t) ->
  dag n g -> (exists x y, g x y = true) -> dsep_oracle ind n g -> decides tst ind n gmax -> 1 <= size <= gmax -> valid_sched sch ->
  (forall v, length (dag_parents n g v) < depth) -> length doms = n ->
  exists F, forall fuel, F <= fuel -> exists es A S N k, skeleton_search tst n depth fuel size sch = Ok (es, A, S) /\ orient_skeleton fuel doms false coin es A S = Ok N /\
    get_shd T N = Ok k /\ (k = 0 <-> markov_equivalent g (arcs_of T)).
Proof. exact pc_distance. Qed.
Print Assumptions C53_zero_iff_equivalent_partial.
Example C53_zero_iff_equivalent_partial_witness : (fresh_dag away_true /\ fresh_dag meet_true) /\ (forall fixed t, single_extra fixed away_true t /\ single_extra fixed meet_true t) /\
  dag 3 line /\ (exists x y, line x y = true) /\ dsep_oracle (dsep_of 3 line) 3 line /\ decides (lone_test (dsep_of 3 line)) (dsep_of 3 line) 3 1 /\ (forall v, length (dag_parents 3 line v) < 3) /\
  exists N, run_pc (lone_test (dsep_of 3 line)) 3 false (fun _ => false) = Ok N /\ get_shd away_true N = Ok 0 /\ get_shd meet_true N = Ok 2.
Proof. exact (conj away_fresh (conj away_extra away_run)). Qed.

(** Without the restriction the distance can be wrong: perfect tests of the true DAG itself, distance 1. *)
Theorem C53_wrong_distance_refuted : fresh_dag wrong_true /\ dsep_oracle wrong_ind 6 (arcs_of wrong_true) /\ decides (lone_test wrong_ind) wrong_ind 6 1 /\
  exists N, run_pc (lone_test wrong_ind) 6 false (fun _ => false) = Ok N /\ get_shd wrong_true N = Ok 1.
Proof. exact wrong_run. Qed.
Print Assumptions C53_wrong_distance_refuted.
