(** C75: copies of networks (Network.cpp).

    Vocabulary.  GraphSpec.v: [netinv] - the invariant of networks built through the API (C15);
    [has_directed N x y], [child_rel], [parent_rel], [topological], [directed_pairs],
    [no_dup_directed], [consistent].  JTSpec.v: [posterior], [answer_all], [evidence_in_range],
    [weakly_connected].
    Model (CopyModel.v): [copy_network N] - the original, the copy and the copy's tables;
    [check_edges] - the two numbers CheckEdges prints; [parent_idxes], [children_idxes]. *)
From Verif Require Import CopyModel GraphSpec GraphSpec2 JTSpec JTWitness LearnWitness CopyTheorems CopyWitness.
Local Open Scope nat_scope.

(** The copy's nodes have the original's domains, parents and children, and its topological order is one of the original;
    parameter learning on it, and inference with given tables, are the same.  The original keeps its nodes and edges.
    Missing: the edges and the tables, see [C75_edges_refuted] and [C75_tables_refuted]. *)
Theorem C75_nodes_partial : forall N, netinv N -> nt_topo N = [] -> exists N1 C, copy_network N = Ok (N1, (C, [])) /\ nt_nodes N1 = nt_nodes N /\ nt_edges N1 = nt_edges N /\
  domain_sizes C = domain_sizes N /\ (forall x y, (child_rel C x y <-> has_directed N x y) /\ (parent_rel C x y <-> has_directed N x y)) /\
  (forall i, parent_idxes C i = parent_idxes N i /\ children_idxes C i = children_idxes N i) /\ check_edges C = check_edges N /\
  topological (has_directed N) (length (nt_nodes C)) (nt_topo C) /\ (0 < length (nt_nodes N) -> get_topo_ord C = Ok (C, nt_topo C)) /\
  (forall o pts, jt_build o C pts = jt_build o N pts) /\ (forall D alpha coin pts, learn_params C D alpha coin pts = learn_params N D alpha coin pts).
Proof. exact copy_spec. Qed.
Print Assumptions C75_nodes_partial.
Example C75_nodes_partial_witness : netinv jt_net /\ nt_topo jt_net = [] /\ exists N1, copy_network jt_net = Ok (N1, (jt_copy, [])) /\ nt_topo jt_copy = [0; 1; 2; 3] /\ check_edges jt_copy = (3, 3).
Proof. exact jt_copied. Qed.

(** CheckEdges prints the number of directed edges twice, when no edge was added twice. *)
Theorem C75_edge_counts : forall N, netinv N -> no_dup_directed N -> check_edges N = (length (directed_pairs (nt_edges N)), length (directed_pairs (nt_edges N))).
Proof. exact check_edges_spec. Qed.
Print Assumptions C75_edge_counts.
Example C75_edge_counts_witness : netinv jt_net /\ no_dup_directed jt_net.
Proof. exact (conj jt_inv jt_nodup). Qed.

(** Refuted: the copy has no edges, its nodes' parents and children do not match them, and comparing it with the original throws. *)
Theorem C75_edges_refuted : exists N N1 C ts, netinv N /\ no_dup_directed N /\ nt_topo N = [] /\ copy_network N = Ok (N1, (C, ts)) /\ has_directed N 0 2 /\ (forall x y, ~ has_directed C x y) /\ nt_num_edges C = 0 /\ ~ consistent C /\
  get_shd N1 N1 = Ok 0 /\ get_shd N1 C = Err Thrown.
Proof. exact edges_lost. Qed.
Print Assumptions C75_edges_refuted.
(** Refuted: inference on the copy gives other answers, ... *)
Theorem C75_tables_refuted : exists N ts N1 C ts' T T' ps ps', netinv N /\ nt_topo N = [] /\ copy_network N = Ok (N1, (C, ts')) /\ jt_build addr_order N ts = Ok T /\ jt_build addr_order C ts' = Ok T' /\
  query_probs seq_sched T [] (jt_backup T) = Ok (jt_backup T, ps) /\ query_probs seq_sched T' [] (jt_backup T') = Ok (jt_backup T', ps') /\ ps !! 0 = Some (frac 1 4) /\ ps' !! 0 = Some (frac 1 2).
Proof. exact tables_lost. Qed.
Print Assumptions C75_tables_refuted.
(** ... namely, for every connected network, equal probabilities for all values, whatever the evidence and without an error. *)
Theorem C75_uniform_answers : forall N o, net_ok N -> 0 < net_size N -> weakly_connected N -> valid_order o ->
  exists T, jt_build o N [] = Ok T /\ forall sch E, valid_scheduler sch -> evidence_in_range N E ->
    query_probs sch T E (jt_backup T) = Ok (jt_backup T, answer_all N [] E) /\ forall q x, q < net_size N -> q ∉ fst <$> E -> x < net_dom N q -> posterior N [] E q x = (1 / qn (net_dom N q))%Qc.
Proof. exact no_tables_uniform. Qed.
Print Assumptions C75_uniform_answers.
Example C75_uniform_answers_witness : net_ok jt_net /\ 0 < net_size jt_net /\ weakly_connected jt_net.
Proof. exact (conj (proj1 jt_hyps) (conj (proj1 (proj2 jt_hyps)) jt_connected)). Qed.
