(** Edge orientation after the skeleton search, and PC-stable as a whole. [skeleton_of n E A]: [A] lists the neighbours in
    the undirected graph with the nodes 0..n-1 and the edges [E]; [pattern n E N U D]: the network [N] has the undirected
    edges [U] and the directed edges [D], together the edges [E]; [into A S x y]: some collider demands x -> y;
    [implied A D x y]: one of the three rules demands x -> y (OrientSpec.v). [dag], d-separation, v-structures and Markov
    equivalence are in DSepSpec.v; [decides] and [valid_sched] in PCSpec.v. *)
From Verif Require Import PCModel PCSpec PCWitness OrientModel OrientSpec OrientTheorems OrientWitness OrientSound OrientReach ClassSpec GraphModel2 GraphSpec GraphSpec2 LearnedProofs LearnedWitness DSepSpec DSepTheorems DSepWitness.
Local Open Scope nat_scope.

(** ** C20 *)
(** When the colliders demand directions without a cycle (some numbering increases along them), exactly the demanded
    directions are set. Missing: colliders that contradict each other, see [C20_refuted]. *)
Theorem C20_colliders_partial : forall (n : nat) (E : pairs) (A : adjs) (S : sepmap) (rank : nat -> nat) (doms : list nat) (es : list pedge) (fuel : nat),
  skeleton_of n E A -> (forall x y, into A S x y -> rank x < rank y) -> length doms = n -> pe_pair <$> es = E -> n * n < fuel ->
  exists N U D, orient_v_structures fuel A S (skeleton_network doms es) = Ok N /\ pattern n E N U D /\ forall x y, (x, y) ∈ D <-> into A S x y.
Proof. exact colliders_theorem. Qed.
Print Assumptions C20_colliders_partial.
Example C20_colliders_partial_witness : skeleton_of 4 tee_edges tee_adj /\ (forall x y, into tee_adj tee_sep x y -> x < y) /\ into tee_adj tee_sep 0 2 /\ pe_pair <$> (new_pedge <$> tee_edges) = tee_edges.
Proof. exact tee_ok. Qed.
(** In such a pattern every pair of neighbours has one edge and no other pair has any. *)
Theorem C20_one_edge : forall n E A N U D x y, skeleton_of n E A -> pattern n E N U D -> x <> y ->
  (linked A x y -> edges_between N x y = 1) /\ (~ linked A x y -> edges_between N x y = 0).
Proof. exact once_between. Qed.
Print Assumptions C20_one_edge.
Example C20_one_edge_witness : exists N U, pattern 4 tee_edges N U [(0, 2); (1, 2)].
Proof. exact tee_pattern. Qed.
(** Whatever the tests answer: the lists of neighbours are those of the edges left by the search, and no step of the
    orientation loses or invents an adjacency, whether or not the remaining edges are directed at random. *)
Theorem C20_adjacencies : forall tst n depth fuel g sch es A S ofuel doms dag coin N, skeleton_search tst n depth fuel g sch = Ok (es, A, S) -> orient_skeleton ofuel doms dag coin es A S = Ok N ->
  skeleton_of n (pe_pair <$> es) A /\ forall x y, 0 < edges_between N x y <-> linked A x y.
Proof. intros tst n depth fuel g sch es A S ofuel doms dag coin N H1 H2. exact (conj (learned_skeleton tst n depth fuel g sch es A S H1) (learned_adjacencies tst n depth fuel g sch es A S H1 ofuel doms dag coin N H2)). Qed.
Print Assumptions C20_adjacencies.
Example C20_adjacencies_witness : exists es A S N, skeleton_search (lone_test table_ind) 6 6 1000 1 forwards = Ok (es, A, S) /\ orient_skeleton 1000 (replicate 6 2) false second es A S = Ok N /\
  edges_between N 4 5 = 2 /\ linked A 4 5 /\ es <> [] /\ length (nt_edges N) = 7 /\ save_bn_structure N = Ok clash_lines.
Proof. exact clash_run. Qed.
(** Refuted for some decisions: after the search two neighbours have both a directed and an undirected edge. *)
Theorem C20_refuted : exists ind tst n es A sep doms N x y, decides tst ind n 1 /\ skeleton_search tst n n 1000 1 forwards = Ok (es, A, sep) /\ length doms = n /\
  orient_v_structures 1000 A sep (skeleton_network doms es) = Ok N /\ linked A x y /\ edges_between N x y = 2 /\ has_directed N x y /\ undirected_edge x y ∈ nt_edges N.
Proof. exact two_edges. Qed.
Print Assumptions C20_refuted.

(** ** C44 *)
(** [L] lists the new directions in the order in which they are set; each one is demanded by a rule at that time and closes
    no cycle. This first theorem also shows that the rules come to an end, and that at the end no rule demands a direction
    that would close no cycle; it is for patterns whose undirected edges come first in the edge list, and an edge vector with
    room for one more edge. [C44_sound] has no such restrictions. *)
Theorem C44_closed : forall n E A cap N U D fuel, skeleton_of n E A -> pattern n E N U D -> length E < cap -> length E < fuel ->
  exists N' U' L, orient_implied fuel cap A N = Ok N' /\ pattern n E N' U' (D ++ L) /\ directing (implied A) A D L /\
  forall x y, open_edge A (D ++ L) x y -> implied A (D ++ L) x y -> ~ addable (D ++ L) x y.
Proof. exact implied_theorem. Qed.
Print Assumptions C44_closed.
Example C44_closed_witness : exists N U, pattern 4 tee_edges N U [(0, 2); (1, 2)] /\ length tee_edges < edge_capacity 4 /\ implied tee_adj [(0, 2); (1, 2)] 2 3.
Proof. exact tee_implied. Qed.

(** Soundness for every network in which the recorded parents and children agree and form no cycle ([family_ok]), with any
    list of edges: if the rules come to an end, every direction was demanded by a rule when it was set and closed no cycle,
    no direction was lost, and the same pairs are joined by edges. *)
Theorem C44_sound : forall n E A cap fuel N D N', skeleton_of n E A -> family_ok N -> (forall x y, (x, y) ∈ D <-> parent_rel N x y) -> orient_implied fuel cap A N = Ok N' ->
  exists L, directing (implied A) A D L /\ (forall x y, (x, y) ∈ D ++ L <-> parent_rel N' x y) /\ acyclic (parent_rel N') /\ forall x y, edges_between N' x y <> 0 <-> edges_between N x y <> 0.
Proof. exact implied_is_sound. Qed.
Print Assumptions C44_sound.
Example C44_sound_witness : exists N N', skeleton_of 4 tee_edges tee_adj /\ family_ok N /\ (forall x y, (x, y) ∈ [(0, 2); (1, 2)] <-> parent_rel N x y) /\
  orient_implied 10 6 tee_adj N = Ok N' /\ parent_rel N' 2 3 /\ ~ parent_rel N 2 3.
Proof. exact tee_sound. Qed.
(** Every pattern that the program can meet is such a network: whatever the tests answered, also if the colliders contradict
    each other. *)
Theorem C44_learned : forall tst n depth fuel g sch es A S ofuel doms N D ifuel cap N', skeleton_search tst n depth fuel g sch = Ok (es, A, S) ->
  orient_v_structures ofuel A S (skeleton_network doms es) = Ok N -> (forall x y, (x, y) ∈ D <-> parent_rel N x y) -> orient_implied ifuel cap A N = Ok N' ->
  exists L, directing (implied A) A D L /\ (forall x y, (x, y) ∈ D ++ L <-> parent_rel N' x y) /\ acyclic (parent_rel N') /\ forall x y, edges_between N' x y <> 0 <-> linked A x y.
Proof. exact learned_sound. Qed.
Print Assumptions C44_learned.
Example C44_learned_witness : exists es A S N N', skeleton_search (lone_test table_ind) 6 6 1000 1 forwards = Ok (es, A, S) /\ orient_v_structures 1000 A S (skeleton_network (replicate 6 2) es) = Ok N /\
  (forall x y, (x, y) ∈ [(2, 0); (5, 0); (0, 1); (3, 1); (4, 5)] <-> parent_rel N x y) /\ edges_between N 4 5 = 2 /\ orient_implied 1000 15 A N = Ok N'.
Proof. exact clash_sound. Qed.

(** ** C21 *)
(** Every remaining edge gets a direction that closes no cycle. Missing: a full vector of edges, see [C21_complete_graph],
    and patterns whose undirected edges do not come first, see [C21_refuted]. *)
Theorem C21_extension_partial : forall n E A cap coin N U D fuel, skeleton_of n E A -> pattern n E N U D -> length E < cap -> length E < fuel ->
  exists N' L, direct_left_edges fuel cap A coin 0 0 N = Ok N' /\ pattern n E N' [] (D ++ L) /\ directing (fun _ _ _ => True) A D L.
Proof. exact left_theorem. Qed.
Print Assumptions C21_extension_partial.
Example C21_extension_partial_witness : exists N U, pattern 4 tee_edges N U [(0, 2); (1, 2)] /\ length tee_edges < edge_capacity 4.
Proof. exact tee_extend. Qed.
(** When every pair is adjacent, the extension always ends with the use of an invalid iterator. *)
Theorem C21_complete_graph : forall n E A S doms es coin fuel, skeleton_of n E A -> edge_capacity n <= length E -> 2 <= n -> length doms = n -> pe_pair <$> es = E ->
  n * n < fuel -> length E < fuel -> orient_skeleton fuel doms true coin es A S = Err OutOfBounds.
Proof. exact complete_overflows. Qed.
Print Assumptions C21_complete_graph.
Example C21_complete_graph_witness : skeleton_of 2 [(0, 1)] [[1]; [0]] /\ edge_capacity 2 <= length [(0, 1)].
Proof. exact edge_complete. Qed.
(** Refuted: two dependent variables; and some decisions after which an edge is left undirected. *)
Theorem C21_invalid_iterator_refuted : exists ind tst n g coin, dag n g /\ dsep_oracle ind n g /\ decides tst ind n 1 /\ run_pc tst n true coin = Err OutOfBounds.
Proof. exact pair_refutes. Qed.
Print Assumptions C21_invalid_iterator_refuted.
Theorem C21_refuted : exists ind tst n coin N x y, decides tst ind n 1 /\ run_pc tst n true coin = Ok N /\ undirected_edge x y ∈ nt_edges N.
Proof. exact left_undirected. Qed.
Print Assumptions C21_refuted.

(** ** C48 *)
(** With tests that answer by d-separation in the graph [g], and a search depth above the number of parents of every node,
    PC-stable finds exactly the adjacencies of [g], directs all v-structures, and every direction it sets is the direction
    in every graph that is Markov equivalent to [g] (in [g], in particular). *)
Theorem C48_pattern : forall n g ind tst gmax size sch depth doms coin, dag n g -> dsep_oracle ind n g -> decides tst ind n gmax -> 1 <= size <= gmax -> valid_sched sch ->
  (forall v, length (dag_parents n g v) < depth) -> length doms = n ->
  exists F, forall fuel, F <= fuel -> exists es A S N, skeleton_search tst n depth fuel size sch = Ok (es, A, S) /\ orient_skeleton fuel doms false coin es A S = Ok N /\
  netinv N /\ length (nt_nodes N) = n /\
  (forall x y, x <> y -> (adjacent g x y -> edges_between N x y = 1) /\ (~ adjacent g x y -> edges_between N x y = 0)) /\
  (forall x y z, v_structure g x y z -> has_directed N x y) /\
  (forall x y h, has_directed N x y -> dag n h -> markov_equivalent g h -> h x y = true).
Proof. exact pc_dsep. Qed.
Print Assumptions C48_pattern.
Example C48_pattern_witness : dag 4 fork /\ dsep_oracle (dsep_of 4 fork) 4 fork /\ decides (lone_test (dsep_of 4 fork)) (dsep_of 4 fork) 4 1 /\ (forall v, length (dag_parents 4 fork v) < 4) /\
  v_structure fork 0 2 1 /\ arrows (run_pc (lone_test (dsep_of 4 fork)) 4 false (fun _ => false)) = Some [(0, 2, true); (1, 2, true); (2, 3, true)].
Proof. exact fork_run. Qed.
(** Every acyclic graph has such tests. *)
Theorem C48_oracle_exists : forall n g, dag n g -> exists ind, dsep_oracle ind n g.
Proof. exact oracle_exists. Qed.
Print Assumptions C48_oracle_exists.

(** ** C49 *)
(** The extension of that pattern: for a graph with a non-adjacent pair it is an acyclic graph with the same adjacencies
    that contains all v-structures. Missing: no further v-structures, see [C49_refuted]. *)
Theorem C49_extension_partial : forall n g ind tst gmax size sch depth doms coin, dag n g -> dsep_oracle ind n g -> decides tst ind n gmax -> 1 <= size <= gmax -> valid_sched sch ->
  (forall v, length (dag_parents n g v) < depth) -> length doms = n -> (exists x y, x < n /\ y < n /\ x <> y /\ ~ adjacent g x y) ->
  exists F, forall fuel, F <= fuel -> exists es A S N, skeleton_search tst n depth fuel size sch = Ok (es, A, S) /\ orient_skeleton fuel doms true coin es A S = Ok N /\
  netinv N /\ length (nt_nodes N) = n /\
  (forall x y, has_directed N x y \/ has_directed N y x <-> adjacent g x y) /\ (forall x y, x <> y -> edges_between N x y <= 1) /\
  (forall x y z, v_structure g x y z -> has_directed N x y).
Proof. exact pc_dsep_dag. Qed.
Print Assumptions C49_extension_partial.
Example C49_extension_partial_witness : exists x y, x < 4 /\ y < 4 /\ x <> y /\ ~ adjacent fork x y.
Proof. exact fork_gap. Qed.
(** Without a non-adjacent pair it never returns a network. *)
Theorem C49_complete_graph : forall n g ind tst gmax size sch depth doms coin, dag n g -> dsep_oracle ind n g -> decides tst ind n gmax -> 1 <= size <= gmax -> valid_sched sch ->
  (forall v, length (dag_parents n g v) < depth) -> length doms = n -> 2 <= n -> (forall x y, x < n -> y < n -> x <> y -> adjacent g x y) ->
  exists F, forall fuel, F <= fuel -> exists es A S, skeleton_search tst n depth fuel size sch = Ok (es, A, S) /\ orient_skeleton fuel doms true coin es A S = Err OutOfBounds.
Proof. exact pc_dsep_complete. Qed.
Print Assumptions C49_complete_graph.
Example C49_complete_graph_witness : dag 2 pair /\ dsep_oracle (dsep_of 2 pair) 2 pair /\ decides (lone_test (dsep_of 2 pair)) (dsep_of 2 pair) 2 1 /\ (forall v, length (dag_parents 2 pair v) < 2) /\
  (forall x y, x < 2 -> y < 2 -> x <> y -> adjacent pair x y) /\ run_pc (lone_test (dsep_of 2 pair)) 2 true second = Err OutOfBounds.
Proof. exact pair_run. Qed.
(** Refuted: the chain 0 -> 1 -> 2 is extended to 0 -> 1 <- 2. *)
Theorem C49_refuted : exists n g ind tst coin N, dag n g /\ dsep_oracle ind n g /\ decides tst ind n 1 /\ (forall v, length (dag_parents n g v) < n) /\
  run_pc tst n true coin = Ok N /\ exists x y z, has_directed N x y /\ has_directed N z y /\ x <> z /\ ~ adjacent g x z /\ ~ v_structure g x y z.
Proof. exact line_collider. Qed.
Print Assumptions C49_refuted.

(** ** C52 *)
(** With tests that answer by d-separation in [g] the result is the essential graph of [g]: x -> y is in it exactly when
    every graph that is Markov equivalent to [g] has x -> y, and x -- y is in it exactly when some such graph has x -> y and
    some such graph has y -> x. *)
Theorem C52_essential : forall n g ind tst gmax size sch depth doms coin, dag n g -> dsep_oracle ind n g -> decides tst ind n gmax -> 1 <= size <= gmax -> valid_sched sch ->
  (forall v, length (dag_parents n g v) < depth) -> length doms = n ->
  exists F, forall fuel, F <= fuel -> exists es A S N, skeleton_search tst n depth fuel size sch = Ok (es, A, S) /\ orient_skeleton fuel doms false coin es A S = Ok N /\
  (forall x y, has_directed N x y <-> forall h, dag n h -> markov_equivalent g h -> h x y = true) /\
  (forall x y, undirected_edge x y ∈ nt_edges N <-> (exists h, dag n h /\ markov_equivalent g h /\ h x y = true) /\ (exists h, dag n h /\ markov_equivalent g h /\ h y x = true)).
Proof. exact pc_essential. Qed.
Print Assumptions C52_essential.
Example C52_essential_witness : dag 4 kite /\ dsep_oracle (dsep_of 4 kite) 4 kite /\ decides (lone_test (dsep_of 4 kite)) (dsep_of 4 kite) 4 1 /\ (forall v, length (dag_parents 4 kite v) < 4) /\
  arrows (run_pc (lone_test (dsep_of 4 kite)) 4 false (fun _ => false)) = Some [(0, 1, false); (0, 2, false); (1, 3, true); (2, 3, true); (0, 3, true)].
Proof. exact kite_run. Qed.

(** ** C43, of learned structures *)
(** Whatever the tests answer: the learned structure can be saved exactly if the search left an edge. What is saved are edges of
    the structure. If they are all directed, they are exactly the parents of every node; otherwise there are as many as pairs of
    neighbours. *)
Theorem C43_learned_partial : forall tst n depth fuel g sch es A S ofuel doms dag coin N, skeleton_search tst n depth fuel g sch = Ok (es, A, S) -> orient_skeleton ofuel doms dag coin es A S = Ok N ->
  (es = [] -> save_bn_structure N = Err OutOfBounds) /\
  (es <> [] -> exists lines, save_bn_structure N = Ok lines /\
    (forall x y, Arc x y ∈ lines -> has_directed N x y) /\
    (forall x y, Link x y ∈ lines -> undirected_edge x y ∈ nt_edges N) /\
    ((forall x y, Arc x y ∈ lines <-> x ∈ parents_of N y) /\ NoDup lines /\ (forall x y, Link x y ∉ lines) \/ length lines = length es)).
Proof. intros tst n depth fuel g sch es A S ofuel doms dag coin N H1 H2. exact (learned_saved tst n depth fuel g sch es A S H1 ofuel doms dag coin N H2). Qed.
Print Assumptions C43_learned_partial.
Example C43_learned_partial_witness : exists es A S N, skeleton_search (lone_test table_ind) 6 6 1000 1 forwards = Ok (es, A, S) /\ orient_skeleton 1000 (replicate 6 2) false second es A S = Ok N /\
  edges_between N 4 5 = 2 /\ linked A 4 5 /\ es <> [] /\ length (nt_edges N) = 7 /\ save_bn_structure N = Ok clash_lines.
Proof. exact clash_run. Qed.
