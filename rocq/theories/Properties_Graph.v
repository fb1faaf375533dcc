(** Property theorems about networks: C13, C14, C15, C16, C26, C35, C36, C43.
    Specifications used (GraphSpec.v, GraphSpec2.v): [acyclic], [topological], [square_matrix],
    [matrix_rel], [indegrees_of], [has_directed] (there is a directed edge x -> y), [child_rel],
    [consistent], [netinv], [no_dup_directed], [is_config], [combos_exact], [edit], [run],
    [edge_before], [single_extra], [single], [agree], [loosened], [adj].
    [netinv] and [no_dup_directed] hold of every network reached by edits that add no edge twice
    (C15_reachable). *)
From Verif Require Import GraphWitness ComboProofs.
Local Open Scope nat_scope.

(** ** C13 *)
Theorem C13_cycle_check_exact : forall graph n ins,
  square_matrix n graph -> indegrees_of n graph ins ->
  exists b, directed_graph_contains_circle graph ins n = Ok b /\ (b = true <-> ~ acyclic (matrix_rel graph)).
Proof. exact contains_circle_spec. Qed.
Print Assumptions C13_cycle_check_exact.
Example C13_cycle_check_exact_witness :
  (square_matrix 3 [[0;1;0];[0;0;1];[1;0;0]] /\ indegrees_of 3 [[0;1;0];[0;0;1];[1;0;0]] [1;1;1]%Z) /\
  directed_graph_contains_circle [[0;1;0];[0;0;1];[1;0;0]] [1;1;1]%Z 3 = Ok true.
Proof. exact (conj ex_matrix eq_refl). Qed.

(** The check on a network, for any recorded children (including self loops). *)
Theorem C13_network_cycle_check_exact : forall N,
  children_ok N -> exists b, contain_circle N = Ok b /\ (b = true <-> ~ acyclic (child_rel N)).
Proof. exact contain_circle_spec. Qed.
Print Assumptions C13_network_cycle_check_exact.
Example C13_network_cycle_check_exact_witness : children_ok ex_net /\ contain_circle ex_net = Ok false.
Proof. exact (conj (ni_children _ (proj1 ex_inv)) eq_refl). Qed.

(** ** C14 *)
Theorem C14_order_of_matrix : forall graph n ins,
  square_matrix n graph -> indegrees_of n graph ins ->
  exists r, topo_sort graph ins n = Ok r /\
    (acyclic (matrix_rel graph) -> topological (matrix_rel graph) n r) /\
    (~ acyclic (matrix_rel graph) -> length r < n) /\
    (length r = n -> acyclic (matrix_rel graph)).
Proof. exact topo_sort_spec. Qed.
Print Assumptions C14_order_of_matrix.
Example C14_order_of_matrix_witness : square_matrix 3 [[0;1;0];[0;0;1];[1;0;0]] /\ indegrees_of 3 [[0;1;0];[0;0;1];[1;0;0]] [1;1;1]%Z.
Proof. exact ex_matrix. Qed.

Theorem C14_generated_order : forall N,
  children_ok N -> exists t, gen_topo_ord N = Ok (set_topo N t, t) /\
    (acyclic (child_rel N) -> topological (child_rel N) (length (nt_nodes N)) t) /\
    (~ acyclic (child_rel N) -> length t < length (nt_nodes N)).
Proof. exact gen_topo_ord_spec. Qed.
Print Assumptions C14_generated_order.
Example C14_generated_order_witness : children_ok ex_net /\ snd <$> gen_topo_ord ex_net = Ok [0;2;4;1;3].
Proof. exact (conj (ni_children _ (proj1 ex_inv)) eq_refl). Qed.

(** The getter, when no order has been cached yet.  Missing: calls after later edits. *)
Theorem C14_first_order_partial : forall N,
  netinv N -> nt_topo N = [] -> exists N' t, get_topo_ord N = Ok (N', t) /\ nt_topo N' = t /\ nt_edges N' = nt_edges N /\ nt_nodes N' = nt_nodes N /\
    topological (has_directed N) (length (nt_nodes N)) t.
Proof. exact get_topo_ord_fresh. Qed.
Print Assumptions C14_first_order_partial.
Example C14_first_order_partial_witness : netinv ex_net /\ nt_topo ex_net = [].
Proof. exact (conj (proj1 ex_inv) eq_refl). Qed.

(** The order is cached and not refreshed by a later edit. *)
Theorem C14_cached_order_refuted :
  exists N1 N2 N3 t, get_topo_ord (new_network [2;2]) = Ok (N1, [0;1]) /\ add_directed_edge N1 1 0 = Ok (N2, true) /\
    get_topo_ord N2 = Ok (N3, t) /\ ~ topological (has_directed N2) 2 t.
Proof. exact stale_topo_counterexample. Qed.
Print Assumptions C14_cached_order_refuted.

(** ** C15 *)
(** Missing: histories which add an edge that is already there. *)
Theorem C15_histories_partial : forall doms ops,
  Forall (edit_in_range (length doms)) ops -> no_repeated_add (new_network doms) ops ->
  exists N', run (new_network doms) ops = Ok N' /\ acyclic (has_directed N') /\ consistent N'.
Proof. exact histories_consistent. Qed.
Print Assumptions C15_histories_partial.
Example C15_histories_partial_witness : Forall (edit_in_range 5) ex_ops /\ no_repeated_add (new_network [2;3;2;2;3]) ex_ops.
Proof. exact ex_range. Qed.

(** Such histories lead to networks with the invariants assumed by other theorems. *)
Theorem C15_reachable : forall doms ops,
  Forall (edit_in_range (length doms)) ops -> no_repeated_add (new_network doms) ops ->
  exists N', run (new_network doms) ops = Ok N' /\ netinv N' /\ no_dup_directed N' /\ length (nt_nodes N') = length doms.
Proof. exact histories_inv. Qed.
Print Assumptions C15_reachable.
Example C15_reachable_witness : Forall (edit_in_range 5) ex_ops /\ no_repeated_add (new_network [2;3;2;2;3]) ex_ops.
Proof. exact ex_range. Qed.

(** An addition is refused exactly when it would close a cycle; a refusal leaves edges, parents
    and children as they were. *)
Theorem C15_add_edge : forall N p c,
  netinv N -> p < length (nt_nodes N) -> c < length (nt_nodes N) ->
  exists N' b, add_directed_edge N p c = Ok (N', b) /\ netinv N' /\
    length (nt_nodes N') = length (nt_nodes N) /\ nt_topo N' = nt_topo N /\ nt_num_edges N' = nt_num_edges N /\
    (b = true <-> ~ (p = c \/ tc (has_directed N) c p)) /\
    (b = true -> nt_edges N' = nt_edges N ++ [directed_edge p c]) /\
    (b = false -> nt_edges N' = nt_edges N /\
       forall i nd, nt_nodes N !! i = Some nd -> exists nd', nt_nodes N' !! i = Some nd' /\ node_same nd nd').
Proof. exact add_directed_edge_spec. Qed.
Print Assumptions C15_add_edge.
Example C15_add_edge_witness : netinv ex_net /\ snd <$> add_directed_edge ex_net 3 0 = Ok false /\ snd <$> add_directed_edge ex_net 3 4 = Ok true.
Proof. exact (conj (proj1 ex_inv) (conj eq_refl eq_refl)). Qed.

Theorem C15_delete_edge : forall N p c,
  netinv N -> no_dup_directed N -> p < length (nt_nodes N) -> c < length (nt_nodes N) ->
  exists N' b, delete_directed_edge N p c = Ok (N', b) /\ netinv N' /\ no_dup_directed N' /\
    length (nt_nodes N') = length (nt_nodes N) /\
    (b = true <-> has_directed N p c) /\ (b = false -> N' = N) /\
    (forall x y, has_directed N' x y <-> has_directed N x y /\ ~ (x = p /\ y = c)).
Proof. exact delete_directed_edge_spec. Qed.
Print Assumptions C15_delete_edge.
Example C15_delete_edge_witness : netinv ex_net /\ no_dup_directed ex_net /\ snd <$> delete_directed_edge ex_net 1 3 = Ok true.
Proof. exact (conj (proj1 ex_inv) (conj (proj2 ex_inv) eq_refl)). Qed.

(** Adding an edge twice, deleting it once and adding its reverse gives a cyclic network whose
    parent sets do not match its edges. *)
Theorem C15_repeated_add_refuted :
  exists N', run (new_network [2;2]) [AddD 0 1; AddD 0 1; DelD 0 1; AddD 1 0] = Ok N' /\
    ~ acyclic (has_directed N') /\ ~ consistent N'.
Proof. exact repeated_add_counterexample. Qed.
Print Assumptions C15_repeated_add_refuted.

(** ** C16 *)
Theorem C16_added_parents : forall dom ps d,
  let nd := add_parents dom ps (new_node d) in
  combos_exact dom nd /\ StronglySorted lt (nd_parents nd) /\ (forall p, p ∈ nd_parents nd <-> p ∈ ps).
Proof. exact add_parents_exact. Qed.
Print Assumptions C16_added_parents.
Example C16_added_parents_witness : length (nd_combos (add_parents (fun _ => 2) [3;1] (new_node 2))) = 4.
Proof. exact eq_refl. Qed.

(** Removal of a parent is right only for a parent with a single value. *)
Theorem C16_removal_partial : forall dom p nd nd',
  StronglySorted lt (nd_parents nd) -> combos_exact dom nd -> p ∈ nd_parents nd ->
  (forall v, v ∈ nd_parents nd -> 0 < dom v) ->
  node_remove_parent p (dom p) nd = Ok nd' ->
  (combos_exact dom nd' <-> dom p = 1).
Proof. exact remove_parent_exact_iff. Qed.
Print Assumptions C16_removal_partial.
Example C16_removal_partial_witness :
  let dom v := match v with 0 => 1 | _ => 2 end in
  combos_exact dom (add_parents dom [0;1] (new_node 2)) /\ StronglySorted lt (nd_parents (add_parents dom [0;1] (new_node 2))) /\
  exists nd', node_remove_parent 0 (dom 0) (add_parents dom [0;1] (new_node 2)) = Ok nd' /\ nd_combos nd' = [[(1, 0)]; [(1, 1)]].
Proof. exact remove_parent_witness. Qed.

Theorem C16_removal_refuted :
  exists nd', node_remove_parent 0 2 (add_parents (fun _ => 2) [0;1] (new_node 2)) = Ok nd' /\ ~ combos_exact (fun _ => 2) nd'.
Proof. exact remove_parent_counterexample. Qed.
Print Assumptions C16_removal_refuted.

(** In a network: after any additions of directed edges that close no cycle, every node has exactly the parents of the
    edges, and exactly the configurations of these parents. *)
Theorem C16_network_parents : forall doms es,
  (forall p c, (p, c) ∈ es -> p < length doms /\ c < length doms) -> acyclic (fun p c => (p, c) ∈ es) ->
  exists N, run (new_network doms) ((fun e => AddD e.1 e.2) <$> es) = Ok N /\ length (nt_nodes N) = length doms /\
    forall v nd, nt_nodes N !! v = Some nd ->
      combos_exact (fun w => default 0 (doms !! w)) nd /\ forall p, p ∈ nd_parents nd <-> (p, v) ∈ es.
Proof. exact network_combos. Qed.
Print Assumptions C16_network_parents.
Example C16_network_parents_witness :
  ((forall p c, (p, c) ∈ [(0, 2); (1, 2)] -> p < 3 /\ c < 3) /\ acyclic (fun p c => (p, c) ∈ [(0, 2); (1, 2)])) /\
  exists N nd, run (new_network [2;3;2]) [AddD 0 2; AddD 1 2] = Ok N /\ nt_nodes N !! 2 = Some nd /\ length (nd_combos nd) = 6.
Proof. exact network_combos_witness. Qed.

(** An addition that is refused can leave configurations that mention a variable which is no parent. *)
Theorem C16_refused_addition_refuted :
  exists N, run (new_network [2;2]) [AddD 0 1; AddD 1 0] = Ok N /\
    exists nd, nt_nodes N !! 0 = Some nd /\ nd_parents nd = [] /\ ~ combos_exact (fun _ => 2) nd.
Proof. exact refused_combos. Qed.
Print Assumptions C16_refused_addition_refuted.

(** ** C26 *)
Theorem C26_root_connects : forall N,
  netinv N ->
  exists roots N', find_roots N = Ok roots /\ add_root_node N roots = Ok N' /\
    length (nt_nodes N') = S (length (nt_nodes N)) /\
    (forall r, r ∈ roots -> r < length (nt_nodes N) /\ forall x, ~ has_directed N x r) /\
    NoDup roots /\
    (forall v, v < length (nt_nodes N) -> exists r, r ∈ roots /\ rtc (adj N) v r /\ forall r', r' ∈ roots -> rtc (adj N) v r' -> r' = r) /\
    (forall x y, has_directed N' x y <-> has_directed N x y \/ x = length (nt_nodes N) /\ y ∈ roots) /\
    acyclic (has_directed N') /\ consistent N' /\
    (forall v w, v < length (nt_nodes N') -> w < length (nt_nodes N') -> rtc (adj N') v w).
Proof. exact root_connects. Qed.
Print Assumptions C26_root_connects.
Example C26_root_connects_witness : netinv ex_net /\ find_roots ex_net = Ok [0;4].
Proof. exact (conj (proj1 ex_inv) eq_refl). Qed.

(** ** C35 *)
(** A learned DAG: the distance is the number of node pairs on which the graphs differ. *)
Theorem C35_shd_of_dag : forall T L,
  single T -> single L -> length (nt_nodes T) = length (nt_nodes L) ->
  (exists e0, nt_edges L !! 0 = Some e0 /\ is_directed e0 = true) ->
  exists bad, get_shd T L = Ok (length bad) /\ NoDup bad /\
    forall i j, (i, j) ∈ bad <-> i < j /\ j < length (nt_nodes L) /\ ~ agree T L i j.
Proof. exact get_shd_dag. Qed.
Print Assumptions C35_shd_of_dag.
Example C35_shd_of_dag_witness : single shd_true /\ single shd_dag2 /\ length (nt_nodes shd_true) = length (nt_nodes shd_dag2) /\
  (exists e0, nt_edges shd_dag2 !! 0 = Some e0 /\ is_directed e0 = true) /\ get_shd shd_true shd_dag2 = Ok 3.
Proof. exact shd_dag_hyps. Qed.

(** A learned pattern: Properties_Shd.v. *)

(** A true DAG with a node with three parents: an element is erased from an empty vector. *)
Theorem C35_three_parents_refuted :
  exists T L, run (new_network [2;2;2;2]) [AddD 0 3; AddD 1 3; AddD 2 3] = Ok T /\
    run (new_network [2;2;2;2]) [AddU 0 3; AddD 1 3; AddD 2 3] = Ok L /\ get_shd T L = Err OutOfBounds.
Proof. exact shd_three_parents_counterexample. Qed.
Print Assumptions C35_three_parents_refuted.

(** Graphs without edges: [at(0)] throws. *)
Theorem C35_no_edges_refuted : exists T L, get_shd T L = Err Thrown.
Proof. exact (ex_intro _ _ (ex_intro _ _ shd_no_edges_counterexample)). Qed.
Print Assumptions C35_no_edges_refuted.

(** ** C36 *)
Theorem C36_edges_ordered : forall N,
  netinv N -> no_dup_directed N -> nt_topo N = [] ->
  (forall e, e ∈ nt_edges N -> e_ep1 e = Tail /\ e_ep2 e = Arrow /\ e_ordered e = false) ->
  exists N' l t, order_edge N = Ok (N', l) /\ topological (has_directed N) (length (nt_nodes N)) t /\
    epair <$> l ≡ₚ epair <$> nt_edges N /\
    (forall e, e ∈ l -> e_ep1 e = Tail /\ e_ep2 e = Arrow) /\
    StronglySorted (edge_before t) (epair <$> l) /\
    nt_nodes N' = nt_nodes N /\ nt_topo N' = t /\
    nt_edges N' = (fun e => mkEdge (e_n1 e) (e_n2 e) (e_ep1 e) (e_ep2 e) true (e_label e)) <$> nt_edges N.
Proof. exact order_edge_spec. Qed.
Print Assumptions C36_edges_ordered.
Example C36_edges_ordered_witness : (netinv ex_net /\ no_dup_directed ex_net) /\ nt_topo ex_net = [] /\
  (forall e, e ∈ nt_edges ex_net -> e_ep1 e = Tail /\ e_ep2 e = Arrow /\ e_ordered e = false).
Proof. exact (conj ex_inv ex_fresh). Qed.

(** The ordering can be computed only once: a second call ends the process. *)
Theorem C36_second_call : forall N,
  netinv N -> no_dup_directed N -> nt_topo N = [] -> nt_edges N <> [] ->
  (forall e, e ∈ nt_edges N -> e_ep1 e = Tail /\ e_ep2 e = Arrow /\ e_ordered e = false) ->
  exists N' l, order_edge N = Ok (N', l) /\ order_edge N' = Err Exit1.
Proof. exact order_edge_twice. Qed.
Print Assumptions C36_second_call.
Example C36_second_call_witness : (netinv ex_net /\ no_dup_directed ex_net) /\ nt_topo ex_net = [] /\
  (forall e, e ∈ nt_edges ex_net -> e_ep1 e = Tail /\ e_ep2 e = Arrow /\ e_ordered e = false).
Proof. exact (conj ex_inv ex_fresh). Qed.

(** ** C43 *)
(** Missing: networks without edges. *)
Theorem C43_save_dag_partial : forall N,
  netinv N -> nt_topo N = [] -> (exists e0, nt_edges N !! 0 = Some e0 /\ is_directed e0 = true) ->
  exists lines, save_bn_structure N = Ok lines /\ NoDup lines /\
    (forall l, l ∈ lines <-> exists x y, l = Arc x y /\ has_directed N x y).
Proof. exact save_dag_ok. Qed.
Print Assumptions C43_save_dag_partial.
Example C43_save_dag_partial_witness :
  (exists e0, nt_edges ex_net !! 0 = Some e0 /\ is_directed e0 = true) /\ save_bn_structure ex_net = Ok [Arc 0 1; Arc 2 3; Arc 1 3].
Proof. exact save_witness. Qed.

Theorem C43_save_pattern_partial : forall N,
  nt_num_edges N = length (nt_edges N) -> (exists e0, nt_edges N !! 0 = Some e0 /\ is_directed e0 = false) ->
  Forall (fun e => e_ep1 e = Tail) (nt_edges N) ->
  save_bn_structure N = Ok ((fun e => match e_ep2 e with Arrow => Arc (e_n1 e) (e_n2 e) | Tail => Link (e_n1 e) (e_n2 e) end) <$> nt_edges N).
Proof. exact save_pattern_ok. Qed.
Print Assumptions C43_save_pattern_partial.
Example C43_save_pattern_partial_witness :
  nt_num_edges pat_net = length (nt_edges pat_net) /\ (exists e0, nt_edges pat_net !! 0 = Some e0 /\ is_directed e0 = false) /\
  Forall (fun e => e_ep1 e = Tail) (nt_edges pat_net) /\ save_bn_structure pat_net = Ok [Link 0 1; Arc 1 3; Arc 3 2].
Proof. exact save_pattern_witness. Qed.

Theorem C43_no_edges_refuted : forall N, nt_edges N = [] -> save_bn_structure N = Err OutOfBounds.
Proof. exact save_no_edges. Qed.
Print Assumptions C43_no_edges_refuted.
Example C43_no_edges_refuted_witness : nt_edges (new_network [2;3]) = [].
Proof. exact eq_refl. Qed.
