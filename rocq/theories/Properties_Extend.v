(** C78: directing the edges that structure learning leaves undirected (StructureLearning.cpp,
    PCStable.cpp), and learning a network from data through to the answers.

    Vocabulary.  ExtendSpec.v: [reversible], [reversible_cliques].  DSepSpec.v: [dag], [adjacent],
    [v_structure], [markov_equivalent], [dsep_oracle].  PCSpec.v: [decides].  RecoverSpec.v:
    [representative].  IndepSpec.v: [faithful].  GSquareSpec.v: [each_row], [pick_rows],
    [chi_square_like].  JTSpec.v: [joint], [answer_all], [evidence_weight].  [coin] is the random
    choice of a direction for the n-th edge left. *)
From Coq Require Import Reals.
From Verif Require Import ExtendSpec RecoverSpec IndepSpec EssentialSpec DSepSpec PCSpec SampleSpec GSquareSpec GSquareModel LearnSpec OrientModel OrientSpec PCModel GraphSpec DSepTheorems OrientSafe ShdTheorems ExtendTheorems ExtendNeeded ExtendPipe ExtendLearn DSepWitness PCWitness GSquareWitness RecoverWitness IndepWitness ExtendWitness TableProofs.
Local Open Scope nat_scope.

(** With tests that never err, whatever the coin says, the graph has the adjacencies of the true one and
    every arrow that the whole equivalence class has; only edges that occur in both directions are chosen. *)
Theorem C78_compelled : forall n g ind tst gmax size sch depth doms, dag n g -> dsep_oracle ind n g -> decides tst ind n gmax -> 1 <= size <= gmax -> valid_sched sch ->
  (forall v, length (dag_parents n g v) < depth) -> length doms = n -> (exists x y, x < n /\ y < n /\ x <> y /\ ~ adjacent g x y) ->
  exists F, forall fuel, F <= fuel -> exists es A S, skeleton_search tst n depth fuel size sch = Ok (es, A, S) /\ forall coin, exists N, orient_skeleton fuel doms true coin es A S = Ok N /\
  netinv N /\ length (nt_nodes N) = n /\ (forall x y, adjacent (arcs_of N) x y <-> adjacent g x y) /\
  (forall x y, (forall h, dag n h -> markov_equivalent g h -> h x y = true) -> arcs_of N x y = true) /\
  (forall x y, adjacent g x y -> reversible n g x y \/ (forall h, dag n h -> markov_equivalent g h -> h x y = true) \/ (forall h, dag n h -> markov_equivalent g h -> h y x = true)).
Proof. exact pc_dag_compelled. Qed.
Print Assumptions C78_compelled.
Example C78_compelled_witness : dag 3 lone_edge /\ reversible 3 lone_edge 0 1 /\ reversible_cliques 3 lone_edge /\ dsep_oracle (dsep_of 3 lone_edge) 3 lone_edge /\ exists x y, x < 3 /\ y < 3 /\ x <> y /\ ~ adjacent lone_edge x y.
Proof. exact lone_cliques. Qed.

(** If any two edges at a node that occur in both directions belong to a triangle, the graph is in the class. *)
Theorem C78_class : forall n g ind tst gmax size sch depth doms, dag n g -> dsep_oracle ind n g -> decides tst ind n gmax -> 1 <= size <= gmax -> valid_sched sch ->
  (forall v, length (dag_parents n g v) < depth) -> length doms = n -> (exists x y, x < n /\ y < n /\ x <> y /\ ~ adjacent g x y) ->
  exists F, forall fuel, F <= fuel -> exists es A S, skeleton_search tst n depth fuel size sch = Ok (es, A, S) /\ (reversible_cliques n g -> forall coin, exists N, orient_skeleton fuel doms true coin es A S = Ok N /\
  netinv N /\ length (nt_nodes N) = n /\ dag n (arcs_of N) /\ markov_equivalent g (arcs_of N)).
Proof. exact pc_dag_class. Qed.
Print Assumptions C78_class.
Example C78_class_witness : reversible_cliques 3 (arcs_of meet_net) /\ dsep_oracle meet_ind 3 (arcs_of meet_net) /\ decides (lone_test meet_ind) meet_ind 3 1 /\ (forall v, length (parents_of meet_net v) < 3) /\ (exists x y, x < net_size meet_net /\ y < net_size meet_net /\ x <> y /\ ~ adjacent (arcs_of meet_net) x y).
Proof. exact (conj meet_cliques meet_oracle). Qed.

(** If two such edges do not, some flips of the coin make a collider that the true graph does not have. *)
Theorem C78_leaves : forall n g ind tst gmax size sch depth doms, dag n g -> dsep_oracle ind n g -> decides tst ind n gmax -> 1 <= size <= gmax -> valid_sched sch ->
  (forall v, length (dag_parents n g v) < depth) -> length doms = n ->
  exists F, forall fuel, F <= fuel -> exists es A S, skeleton_search tst n depth fuel size sch = Ok (es, A, S) /\
  forall x y z, reversible n g x y -> reversible n g z y -> x <> z -> ~ adjacent g x z -> exists coin N, orient_skeleton fuel doms true coin es A S = Ok N /\
  v_structure (arcs_of N) x y z /\ ~ v_structure g x y z.
Proof. exact pc_dag_leaves. Qed.
Print Assumptions C78_leaves.
Example C78_leaves_witness : reversible 3 (arcs_of relay_net) 0 1 /\ reversible 3 (arcs_of relay_net) 2 1 /\ ~ adjacent (arcs_of relay_net) 0 2.
Proof. exact relay_reversible. Qed.

(** So the graph is in the class for every coin exactly under that condition. *)
Theorem C78_exactly : forall n g ind tst gmax size sch depth doms, dag n g -> dsep_oracle ind n g -> decides tst ind n gmax -> 1 <= size <= gmax -> valid_sched sch ->
  (forall v, length (dag_parents n g v) < depth) -> length doms = n -> (exists x y, x < n /\ y < n /\ x <> y /\ ~ adjacent g x y) ->
  exists F, forall fuel, F <= fuel -> exists es A S, skeleton_search tst n depth fuel size sch = Ok (es, A, S) /\
  ((forall coin, exists N, orient_skeleton fuel doms true coin es A S = Ok N /\ markov_equivalent g (arcs_of N)) <-> reversible_cliques n g).
Proof. exact pc_dag_exactly. Qed.
Print Assumptions C78_exactly.
Example C78_exactly_witness : reversible_cliques 3 (arcs_of meet_net) /\ ~ reversible_cliques 3 (arcs_of relay_net).
Proof. exact (conj meet_cliques relay_cliques). Qed.

(** Then learning the structure, learning the parameters from representative data, and querying gives the
    probabilities of the true network. *)
Theorem C78_pipeline : forall N0, netinv N0 -> doms_positive N0 -> reversible_cliques (net_size N0) (arcs_of N0) ->
  forall ind tst gmax size psch depth pcoin, dsep_oracle ind (net_size N0) (arcs_of N0) -> decides tst ind (net_size N0) gmax -> 1 <= size <= gmax -> valid_sched psch ->
  (forall v, length (parents_of N0 v) < depth) -> (exists x y, x < net_size N0 /\ y < net_size N0 /\ x <> y /\ ~ adjacent (arcs_of N0) x y) ->
  forall ts D, distributions N0 ts -> (forall a, valid (net_dom N0) a -> joint ts a <> 0%Qc) -> complete N0 D -> co_vars D = net_size N0 -> representative N0 ts D ->
  exists F, forall fuel, F <= fuel -> exists es A S N, skeleton_search tst (net_size N0) depth fuel size psch = Ok (es, A, S) /\ orient_skeleton fuel (domain_sizes N0) true pcoin es A S = Ok N /\
  markov_equivalent (arcs_of N0) (arcs_of N) /\ forall coin, exists ts2, learn_params N D 0 coin [] = Ok ts2 /\
    (forall a, valid (net_dom N0) a -> joint ts2 a = joint ts a) /\
    (weakly_connected N0 -> forall o, valid_order o -> exists T, jt_build o N ts2 = Ok T /\
       forall sch E, valid_scheduler sch -> evidence_in_range N0 E -> evidence_weight N0 ts E <> 0%Qc -> query_probs sch T E (jt_backup T) = Ok (jt_backup T, answer_all N0 ts E)).
Proof. exact clique_pipeline. Qed.
Print Assumptions C78_pipeline.
Example C78_pipeline_witness : netinv meet_net /\ doms_positive meet_net /\ distributions meet_net meet_tables /\ complete meet_net rows16 /\ representative meet_net meet_tables rows16 /\ weakly_connected meet_net /\ (forall a, valid (net_dom meet_net) a -> joint meet_tables a <> 0%Qc).
Proof. exact (conj meet_inv (conj meet_doms (conj meet_distributions (conj (proj1 rows16_complete) (conj meet_representative (conj meet_connected meet_positive)))))). Qed.

(** The same with the G-square test on enough copies of the data in any order, instead of tests that never err. *)
Theorem C78_answers : forall N, netinv N -> doms_positive N -> reversible_cliques (net_size N) (arcs_of N) -> (exists x y, x < net_size N /\ y < net_size N /\ x <> y /\ ~ adjacent (arcs_of N) x y) ->
  forall ts D, distributions N ts -> (forall a, valid (net_dom N) a -> joint ts a <> 0%Qc) -> faithful N ts -> complete N D -> co_vars D = net_size N -> representative N ts D ->
  forall F alpha size psch depth, chi_square_like F -> (0 < alpha < 1)%R -> size = 1 \/ 1 <= size <= 8 /\ (alpha < 1 - F 0 0%nat)%R -> valid_sched psch -> (forall v, length (parents_of N v) < depth) ->
  exists K, forall k p, K <= k -> each_row k (co_rows D) p -> forall pcoin,
  exists fuel0, forall fuel, fuel0 <= fuel -> exists es A S M, skeleton_search (gsquare_test F alpha (pick_rows p D) (domain_sizes N)) (net_size N) depth fuel size psch = Ok (es, A, S) /\ orient_skeleton fuel (domain_sizes N) true pcoin es A S = Ok M /\
  markov_equivalent (arcs_of N) (arcs_of M) /\ forall coin, exists ts2, learn_params M (pick_rows p D) 0 coin [] = Ok ts2 /\
    (forall a, valid (net_dom N) a -> joint ts2 a = joint ts a) /\
    (weakly_connected N -> forall o, valid_order o -> exists T, jt_build o M ts2 = Ok T /\
       forall sch E, valid_scheduler sch -> evidence_in_range N E -> evidence_weight N ts E <> 0%Qc -> query_probs sch T E (jt_backup T) = Ok (jt_backup T, answer_all N ts E)).
Proof. exact learned_answers. Qed.
Print Assumptions C78_answers.
Example C78_answers_witness : faithful meet_net meet_tables /\ co_vars rows16 = net_size meet_net /\ chi_square_like chi_two /\ valid_sched forwards.
Proof. exact (conj meet_faithful (conj (proj2 rows16_complete) (conj chi_two_like forwards_valid))). Qed.
