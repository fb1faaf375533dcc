(** C67: integer overflow in exact inference (PotentialTableBase.cpp, JunctionTreeStructure.cpp,
    JunctionTree.cpp).

    Vocabulary (IntSpec.v): [engine_tables T] - the clique tables and separator tables of the engine T;
    [unless_overflow x y] - y is x, or y is the outcome [Overflow].  JTSpec.v: as in Properties_JT.v
    ([moral N x y] - x and y are parent and child or have a common child).
    Model (IntModel.v): [jt_build_i M], [run_queries_i M] - construction and a session of queries when the
    largest int is M; a product or sum beyond M that gives a size, a stride or a position is the outcome
    [Overflow].  [jt_build] and [run_queries] (JTModel.v) compute with unlimited integers. *)
From Verif Require Import JTModel JTSpec GraphSpec IntModel IntSpec JTWitness IntTheorems IntWitness.
Local Open Scope nat_scope.

(** For any input at all: the outcome with unlimited integers, or overflow.  No wrong answer without
    an overflow. *)
Theorem C67_same_or_overflow : forall M,
  (forall o N pts, unless_overflow (jt_build o N pts) (jt_build_i M o N pts)) /\
  (forall T qs st, unless_overflow (run_queries T qs st) (run_queries_i M T qs st)).
Proof. exact same_or_overflow. Qed.
Print Assumptions C67_same_or_overflow.
Example C67_same_or_overflow_witness : jt_build_i 24 rev_order jt_net jt_pts = Ok jt_tree /\ jt_build_i 7 rev_order jt_net jt_pts = Err Overflow.
Proof. vm_compute. done. Qed.

(** When no table has more than B entries and V variables, nothing overflows if M is at least B V, B times
    the number of tables, and the sum of all domain sizes: construction and every session of queries,
    under every schedule, are those of unlimited integers.  The exact statement of the property
    (no condition on the tables) is refuted below. *)
Theorem C67_no_overflow_partial : forall N o pts T M B V, net_ok N -> 0 < net_size N -> valid_order o -> Forall (table_of_family N) pts ->
  jt_build o N pts = Ok T ->
  (forall t, t ∈ engine_tables T -> pt_size t <= B /\ pt_nv t <= V) ->
  B * V <= M -> length (engine_tables T) * B <= M -> foldr Nat.add 0 (domain_sizes N) <= M ->
  jt_build_i M o N pts = Ok T /\
  forall qs, Forall (fun sq => valid_scheduler (fst sq)) qs -> run_queries_i M T qs (jt_backup T) = run_queries T qs (jt_backup T).
Proof. exact ints_suffice. Qed.
Print Assumptions C67_no_overflow_partial.
Example C67_no_overflow_witness : net_ok jt_net /\ Forall (table_of_family jt_net) jt_pts /\ jt_build rev_order jt_net jt_pts = Ok jt_tree /\
  ((forall t, t ∈ engine_tables jt_tree -> pt_size t <= 8 /\ pt_nv t <= 3) /\ 8 * 3 <= 24 /\ length (engine_tables jt_tree) * 8 <= 24 /\ foldr Nat.add 0 (domain_sizes jt_net) <= 24) /\
  Forall (fun sq => valid_scheduler (fst sq)) int_session /\
  exists r, run_queries_i 24 jt_tree int_session (jt_backup jt_tree) = Ok r.
Proof. split_and!; [exact (proj1 jt_hyps)|exact jt_tables|exact jt_tree_built|apply int_bounds..|exact int_session_valid|]. eexists. vm_compute. reflexivity. Qed.

(** Construction overflows whenever some pairwise joined nodes (for instance a node and its parents)
    have more than M combinations of values. *)
Theorem C67_overflow : forall N o pts T M S, net_ok N -> 0 < net_size N -> valid_order o -> Forall (table_of_family N) pts -> jt_build o N pts = Ok T ->
  NoDup S -> S <> [] -> (forall x, x ∈ S -> x < net_size N) -> (forall x y, x ∈ S -> y ∈ S -> x <> y -> moral N x y) ->
  M < foldr Nat.mul 1 (net_dom N <$> S) ->
  jt_build_i M o N pts = Err Overflow.
Proof. exact ints_overflow. Qed.
Print Assumptions C67_overflow.
Example C67_overflow_witness : NoDup [0; 1; 2] /\ (forall x, x ∈ [0; 1; 2] -> x < net_size jt_net) /\
  (forall x y, x ∈ [0; 1; 2] -> y ∈ [0; 1; 2] -> x <> y -> moral jt_net x y) /\
  7 < foldr Nat.mul 1 (net_dom jt_net <$> [0; 1; 2]) /\ jt_build_i 7 rev_order jt_net jt_pts = Err Overflow.
Proof. exact int_family. Qed.

(** However large int is, there is a network of binary nodes, with about (log M)^2 nodes and a uniform
    table of at most 8 entries per node, built by adding edges, on which construction overflows. *)
Theorem C67_small_tables_refuted : forall M o, valid_order o -> exists doms es N pts T,
  run (new_network doms) ((fun e => AddD e.1 e.2) <$> es) = Ok N /\ net_ok N /\ weakly_connected N /\ Forall (fun d => d = 2) doms /\
  net_size N <= (Nat.log2 M + 2) * (Nat.log2 M + 2) /\
  Forall (table_of_family N) pts /\ length pts = net_size N /\
  (forall x t, pts !! x = Some t -> forall v, v ∈ pt_vars t <-> v = x \/ child_rel N v x) /\
  Forall (fun t => pt_size t <= 8 /\ Forall (fun p => p = Q2Qc (QArith_base.Qmake 1 2)) (pt_pots t)) pts /\
  jt_build o N pts = Ok T /\ jt_build_i M o N pts = Err Overflow.
Proof. exact small_tables_overflow. Qed.
Print Assumptions C67_small_tables_refuted.
Example C67_small_tables_witness : valid_order rev_order.
Proof. exact rev_order_valid. Qed.
