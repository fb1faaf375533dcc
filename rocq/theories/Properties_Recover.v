(** C76: learning from data that look like draws from a network gives back the network
    (ParameterLearning.cpp, PCStable.cpp, JunctionTree.cpp).

    Vocabulary.  RecoverSpec.v: [chance], [fraction], [differ_by], [representative],
    [nearly_representative].  SampleSpec.v: [distributions N ts] - ts are conditional probability
    tables of N.  JTSpec.v: [joint], [posterior], [evidence_in_range], [evidence_weight],
    [answer_all].  DSepSpec.v: [dsep_oracle], [v_structure], [markov_equivalent].  PCSpec.v:
    [decides tst ind n g] - the test program computes ind, g tests at a time. *)
From Coq Require Import QArith.
From Verif Require Import RecoverSpec DSepSpec PCSpec EssentialSpec RecoverTheorems RecoverClose RecoverPipe JTWitness LearnWitness LikelihoodWitness PCWitness DSepWitness RecoverWitness TableProofs.
Local Open Scope nat_scope.

(** Exact data, the network's own structure: every learned entry is the network's. *)
Theorem C76_tables : forall N, netinv N -> doms_positive N ->
  forall ts D, distributions N ts -> complete N D -> co_vars D = net_size N -> representative N ts D -> forall coin ts2, learn_params N D 0 coin [] = Ok ts2 ->
  forall x q t a, ts !! x = Some q -> ts2 !! x = Some t -> valid (net_dom N) a -> tval t a = tval q a.
Proof. exact recovered_tables. Qed.
Print Assumptions C76_tables.
Example C76_tables_witness : netinv relay_net /\ doms_positive relay_net /\ distributions relay_net relay_tables /\ complete relay_net rows18 /\ co_vars rows18 = net_size relay_net /\ representative relay_net relay_tables rows18 /\
  learn_params relay_net rows18 0 (fun _ _ => 0) [] = Ok relay_tables.
Proof. exact (conj relay_inv (conj relay_doms (conj relay_distributions (conj (proj1 rows18_complete) (conj (proj2 rows18_complete) (conj relay_representative relay_learn)))))). Qed.

(** Exact data, any equivalent structure: the same distribution, and the answers of the junction tree are the network's. *)
Theorem C76_equivalent : forall N1 N2, netinv N1 -> netinv N2 -> doms_positive N1 -> 0 < net_size N1 -> domain_sizes N1 = domain_sizes N2 -> markov_equivalent (arcs_of N1) (arcs_of N2) ->
  forall ts D, distributions N1 ts -> complete N1 D -> co_vars D = net_size N1 -> representative N1 ts D -> forall coin ts2, learn_params N2 D 0 coin [] = Ok ts2 ->
  (forall a, valid (net_dom N1) a -> joint ts2 a = joint ts a) /\
  (forall E q x, evidence_in_range N1 E -> x < net_dom N1 q -> posterior N2 ts2 E q x = posterior N1 ts E q x) /\
  (weakly_connected N1 -> forall o, valid_order o -> exists T, jt_build o N2 ts2 = Ok T /\
     forall sch E, valid_scheduler sch -> evidence_in_range N1 E -> evidence_weight N1 ts E <> 0%Qc -> query_probs sch T E (jt_backup T) = Ok (jt_backup T, answer_all N1 ts E)).
Proof. exact recovered. Qed.
Print Assumptions C76_equivalent.
Example C76_equivalent_witness : (netinv relay_net /\ netinv yaler_net /\ doms_positive relay_net /\ 0 < net_size relay_net /\ domain_sizes relay_net = domain_sizes yaler_net /\ markov_equivalent (arcs_of relay_net) (arcs_of yaler_net) /\
  distributions relay_net relay_tables /\ complete relay_net rows18 /\ co_vars rows18 = net_size relay_net /\ representative relay_net relay_tables rows18) /\ weakly_connected relay_net /\
  (evidence_weight relay_net relay_tables [(2, 0)] = frac 1 2 /\ posterior relay_net relay_tables [(2, 0)] 0 0 = frac 5 9) /\
  exists ts, learn_params yaler_net rows18 0 (fun _ _ => 0) [] = Ok ts /\ pt_vars <$> ts = [[0; 1]; [1; 2]; [2]] /\ posterior yaler_net ts [(2, 0)] 0 0 = frac 5 9.
Proof. exact (conj relay_hyps (conj relay_connected (conj relay_weight yaler_learn))). Qed.

(** Structure learning with tests that never err, then parameters, then answers.  Missing in general:
    the structure found may have v-structures the network does not have, and then the statement is
    false (C76_pipeline_refuted). *)
Theorem C76_pipeline_partial : forall N0, netinv N0 -> doms_positive N0 -> forall ind tst gmax size psch depth pcoin, dsep_oracle ind (net_size N0) (arcs_of N0) -> decides tst ind (net_size N0) gmax -> 1 <= size <= gmax -> valid_sched psch ->
  (forall v, length (parents_of N0 v) < depth) -> (exists x y, x < net_size N0 /\ y < net_size N0 /\ x <> y /\ ~ adjacent (arcs_of N0) x y) ->
  forall ts D, distributions N0 ts -> (forall a, valid (net_dom N0) a -> joint ts a <> 0%Qc) -> complete N0 D -> co_vars D = net_size N0 -> representative N0 ts D ->
  exists F, forall fuel, F <= fuel -> exists es A S N, skeleton_search tst (net_size N0) depth fuel size psch = Ok (es, A, S) /\ orient_skeleton fuel (domain_sizes N0) true pcoin es A S = Ok N /\
  ((forall x y z, v_structure (arcs_of N) x y z -> v_structure (arcs_of N0) x y z) -> forall coin, exists ts2, learn_params N D 0 coin [] = Ok ts2 /\
    (forall a, valid (net_dom N0) a -> joint ts2 a = joint ts a) /\
    (weakly_connected N0 -> forall o, valid_order o -> exists T, jt_build o N ts2 = Ok T /\
       forall sch E, valid_scheduler sch -> evidence_in_range N0 E -> evidence_weight N0 ts E <> 0%Qc -> query_probs sch T E (jt_backup T) = Ok (jt_backup T, answer_all N0 ts E))).
Proof. exact pipeline. Qed.
Print Assumptions C76_pipeline_partial.
Example C76_pipeline_partial_witness : (dsep_oracle relay_ind 3 (arcs_of relay_net) /\ decides (lone_test relay_ind) relay_ind 3 1 /\ (forall v, length (parents_of relay_net v) < 3) /\
  (exists x y, x < net_size relay_net /\ y < net_size relay_net /\ x <> y /\ ~ adjacent (arcs_of relay_net) x y)) /\ (forall a, valid (net_dom relay_net) a -> joint relay_tables a <> 0%Qc) /\
  exists es A S N, skeleton_search (lone_test relay_ind) 3 3 1000 1 forwards = Ok (es, A, S) /\ orient_skeleton 1000 (domain_sizes relay_net) true (fun _ => false) es A S = Ok N /\
  forall x y z, v_structure (arcs_of N) x y z -> v_structure (arcs_of relay_net) x y z.
Proof. exact (conj relay_oracle (conj relay_positive relay_found)). Qed.

(** Without the condition: from exact data and perfect tests, another distribution is learned. *)
Theorem C76_pipeline_refuted : exists N0 ind tst size psch depth pcoin fuel ts D es A S N coin ts2 a, netinv N0 /\ doms_positive N0 /\ dsep_oracle ind (net_size N0) (arcs_of N0) /\ decides tst ind (net_size N0) size /\ 1 <= size /\ valid_sched psch /\
  (forall v, length (parents_of N0 v) < depth) /\ distributions N0 ts /\ (forall b, valid (net_dom N0) b -> joint ts b <> 0%Qc) /\ complete N0 D /\ co_vars D = net_size N0 /\ representative N0 ts D /\
  skeleton_search tst (net_size N0) depth fuel size psch = Ok (es, A, S) /\ orient_skeleton fuel (domain_sizes N0) true pcoin es A S = Ok N /\ learn_params N D 0 coin [] = Ok ts2 /\ valid (net_dom N0) a /\ joint ts2 a <> joint ts a.
Proof. exact pipeline_refutes. Qed.
Print Assumptions C76_pipeline_refuted.

(** Data that are off by at most [e], [k] occurrences added to every count: learning succeeds and no
    entry is off by more than the bound, which goes to 0 with [e] and with [k] over the rows. *)
Theorem C76_near_tables : forall N, netinv N -> doms_positive N -> forall ts D, distributions N ts -> complete N D -> co_vars D = net_size N ->
  forall e p, nearly_representative e N ts D -> (forall x a, x < net_size N -> valid (net_dom N) a -> (p <= chance N ts (parents_of N x) a)%Qc) -> (e < p)%Qc -> forall k coin,
  exists ts2, learn_params N D (Z.of_nat k) coin [] = Ok ts2 /\ distributions N ts2 /\
  forall x q t a, ts !! x = Some q -> ts2 !! x = Some t -> valid (net_dom N) a ->
    differ_by (((1 + 1) * e + qn k / qn (co_rows D) * qn (net_dom N x)) / (p - e))%Qc (tval t a) (tval q a).
Proof. exact close_tables. Qed.
Print Assumptions C76_near_tables.
Example C76_near_tables_witness : (distributions arrow_net wire_tables /\ complete arrow_net rows800 /\ co_vars rows800 = net_size arrow_net) /\
  (nearly_representative (frac 1 800) arrow_net wire_tables rows800 /\ ~ representative arrow_net wire_tables rows800) /\
  (forall x a, x < net_size arrow_net -> valid (net_dom arrow_net) a -> (frac 1 2 <= chance arrow_net wire_tables (parents_of arrow_net x) a)%Qc) /\
  (((1 + 1) * frac 1 800 + qn 1 / qn (co_rows rows800) * qn (net_dom arrow_net 1)) / (frac 1 2 - frac 1 800))%Qc = frac 4 399.
Proof. exact (conj (conj wire_distributions rows800_complete) (conj wire_near (conj wire_chance (proj1 wire_bounds)))). Qed.

(** ... and neither are the junction tree's answers. *)
Theorem C76_near_answers : forall N, netinv N -> doms_positive N -> 0 < net_size N -> weakly_connected N -> forall ts D, distributions N ts -> complete N D -> co_vars D = net_size N ->
  forall e p, nearly_representative e N ts D -> (forall x a, x < net_size N -> valid (net_dom N) a -> (p <= chance N ts (parents_of N x) a)%Qc) -> (e < p)%Qc ->
  forall k d, (forall v, net_dom N v <= d) -> forall coin o, valid_order o ->
  let h := (qn (net_size N * prod_list (domain_sizes N)) * (((1 + 1) * e + qn k / qn (co_rows D) * qn d) / (p - e)))%Qc in
  exists ts2 T, learn_params N D (Z.of_nat k) coin [] = Ok ts2 /\ jt_build o N ts2 = Ok T /\
  forall sch E, valid_scheduler sch -> evidence_in_range N E -> (h < evidence_weight N ts E)%Qc ->
    query_probs sch T E (jt_backup T) = Ok (jt_backup T, answer_all N ts2 E) /\
    forall q x, q < net_size N -> q ∉ fst <$> E -> x < net_dom N q -> differ_by ((1 + 1) * h / evidence_weight N ts E)%Qc (posterior N ts2 E q x) (posterior N ts E q x).
Proof. exact close_learning. Qed.
Print Assumptions C76_near_answers.
Example C76_near_answers_witness : let h := (qn (net_size arrow_net * prod_list (domain_sizes arrow_net)) * (((1 + 1) * frac 1 800 + qn 1 / qn (co_rows rows800) * qn 2) / (frac 1 2 - frac 1 800)))%Qc in
  (h < evidence_weight arrow_net wire_tables [(1, 0)%nat])%Qc /\ ((1 + 1) * h / evidence_weight arrow_net wire_tables [(1, 0)%nat])%Qc = frac 128 399.
Proof. exact (proj2 wire_bounds). Qed.

(** How far answers can be off when parameters are: two sets of tables whose entries differ by at most [e]. *)
Theorem C76_sensitivity : forall N, netinv N -> doms_positive N -> 0 < net_size N -> forall ts ts2, distributions N ts -> distributions N ts2 ->
  forall e, (forall x q t a, ts !! x = Some q -> ts2 !! x = Some t -> valid (net_dom N) a -> differ_by e (tval t a) (tval q a)) ->
  forall E, evidence_in_range N E -> (qn (net_size N * prod_list (domain_sizes N)) * e < evidence_weight N ts E)%Qc ->
  evidence_weight N ts2 E <> 0%Qc /\ forall q x, q < net_size N -> q ∉ fst <$> E -> x < net_dom N q ->
  differ_by ((1 + 1) * (qn (net_size N * prod_list (domain_sizes N)) * e) / evidence_weight N ts E)%Qc (posterior N ts2 E q x) (posterior N ts E q x).
Proof. exact answers_close. Qed.
Print Assumptions C76_sensitivity.
Example C76_sensitivity_witness : distributions relay_net relay_tables /\ weakly_connected relay_net /\ (qn (net_size relay_net * prod_list (domain_sizes relay_net)) * frac 1 1000 < evidence_weight relay_net relay_tables [(2, 0)%nat])%Qc.
Proof. exact (conj relay_distributions (conj relay_connected relay_small)). Qed.

(** Exact data do not give the network's tables when occurrences are added. *)
Theorem C76_smoothed_refuted : exists N ts D k coin ts2 x q t a, netinv N /\ doms_positive N /\ distributions N ts /\ complete N D /\ co_vars D = net_size N /\ representative N ts D /\
  learn_params N D k coin [] = Ok ts2 /\ ts !! x = Some q /\ ts2 !! x = Some t /\ valid (net_dom N) a /\ tval q a = frac 2 3 /\ tval t a = frac 7 11.
Proof. exact smoothed_refutes. Qed.
Print Assumptions C76_smoothed_refuted.
