(** The test and structure learning on representative data. *)
From Coq Require Import Reals.
From Verif Require Import IndepSpec GSquareModel GSquareSpec OrientModel GSquareProofs GSquareProofs2 GSquareTheorems ShdTheorems IndepProofs IndepData.
Local Open Scope R_scope.

Theorem separated_accepted N : netinv N -> doms_positive N -> forall ts D, distributions N ts -> complete N D -> co_vars D = net_size N -> representative N ts D ->
  forall x y zs, (x < net_size N)%nat -> (y < net_size N)%nat -> Forall (fun v => (v < net_size N)%nat) zs -> NoDup (zs ++ [x; y]) -> ~ d_connected (arcs_of N) x y zs ->
  forall F alpha, chi_square_like F -> 0 <= alpha < 1 -> exists r, gsquare_test F alpha D (domain_sizes N) x y zs 1 = Ok r /\ ci_indep r = true.
Proof.
  intros HN Hd ts D Hts HD Hs HR x y zs Hx Hy Hzs Hdup Hsep F alpha HF Ha. assert (length (domain_sizes N) = net_size N) as HL by (unfold domain_sizes; apply fmap_length).
  apply accepts_independent; rewrite ?HL; try done; [by eapply complete_tabulated|]. by eapply separated_data.
Qed.
Theorem faithful_learning N : netinv N -> doms_positive N -> forall ts D, distributions N ts -> faithful N ts -> complete N D -> co_vars D = net_size N -> representative N ts D ->
  forall F alpha size sch depth coin, chi_square_like F -> 0 < alpha < 1 -> size = 1%nat \/ (1 <= size <= 8)%nat /\ alpha < 1 - F 0 0%nat -> valid_sched sch -> (forall v, (length (parents_of N v) < depth)%nat) ->
  exists K, forall k p, (K <= k)%nat -> each_row k (co_rows D) p ->
  exists fuel0, forall fuel, (fuel0 <= fuel)%nat -> exists es A S M, skeleton_search (gsquare_test F alpha (pick_rows p D) (domain_sizes N)) (net_size N) depth fuel size sch = Ok (es, A, S) /\ orient_skeleton fuel (domain_sizes N) false coin es A S = Ok M /\
  (forall x y, has_directed M x y <-> forall h, dag (net_size N) h -> markov_equivalent (arcs_of N) h -> h x y = true) /\
  (forall x y, undirected_edge x y ∈ nt_edges M <-> (exists h, dag (net_size N) h /\ markov_equivalent (arcs_of N) h /\ h x y = true) /\ (exists h, dag (net_size N) h /\ markov_equivalent (arcs_of N) h /\ h y x = true)).
Proof.
  intros HN Hd ts D Hts Hf HD Hs HR F alpha size sch depth coin HF Ha Hsz Hsch Hdep. assert (length (domain_sizes N) = net_size N) as HL by (unfold domain_sizes; apply fmap_length).
  pose proof (learns_from_rows F alpha D (domain_sizes N) (arcs_of N) size sch depth coin) as H. rewrite HL in H. apply H; try done.
  - by eapply complete_tabulated.
  - by apply fresh_dag_dag.
  - by eapply faithful_data.
  - intros v. eapply Nat.le_lt_trans; [|apply (Hdep v)]. apply submseteq_length, NoDup_submseteq; [apply NoDup_filter, NoDup_seq|]. intros p Hp. by apply EquivTheorems.parents_of_arcs.
Qed.
