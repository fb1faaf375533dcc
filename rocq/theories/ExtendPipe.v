(** Learning the structure and the parameters and querying, where the reversible edges form cliques. *)
From Coq Require Import Field QArith.
From Verif Require Import ExtendSpec ExtendTheorems DSepTheorems OrientSafe ShdTheorems RecoverSpec RecoverTheorems RecoverClose RecoverPipe EssentialSpec CoverProofs EquivTheorems PCSpec TableProofs.
Local Open Scope nat_scope.

Theorem clique_pipeline N0 : netinv N0 -> doms_positive N0 -> reversible_cliques (net_size N0) (arcs_of N0) ->
  forall ind tst gmax size psch depth pcoin, dsep_oracle ind (net_size N0) (arcs_of N0) -> decides tst ind (net_size N0) gmax -> 1 <= size <= gmax -> valid_sched psch ->
  (forall v, length (parents_of N0 v) < depth) -> (exists x y, x < net_size N0 /\ y < net_size N0 /\ x <> y /\ ~ adjacent (arcs_of N0) x y) ->
  forall ts D, distributions N0 ts -> (forall a, valid (net_dom N0) a -> joint ts a <> 0%Qc) -> complete N0 D -> co_vars D = net_size N0 -> representative N0 ts D ->
  exists F, forall fuel, F <= fuel -> exists es A S N, skeleton_search tst (net_size N0) depth fuel size psch = Ok (es, A, S) /\ orient_skeleton fuel (domain_sizes N0) true pcoin es A S = Ok N /\
  markov_equivalent (arcs_of N0) (arcs_of N) /\ forall coin, exists ts2, learn_params N D 0 coin [] = Ok ts2 /\
    (forall a, valid (net_dom N0) a -> joint ts2 a = joint ts a) /\
    (weakly_connected N0 -> forall o, valid_order o -> exists T, jt_build o N ts2 = Ok T /\
       forall sch E, valid_scheduler sch -> evidence_in_range N0 E -> evidence_weight N0 ts E <> 0%Qc -> query_probs sch T E (jt_backup T) = Ok (jt_backup T, answer_all N0 ts E)).
Proof.
  intros HN Hd Hcl ind tst gmax size psch depth pcoin Ho Hdec Hsz Hsch Hdeg Hmiss ts D Hts Hpos HD Hs HR.
  assert (length (domain_sizes N0) = net_size N0) as Hl by (unfold domain_sizes; by rewrite fmap_length).
  destruct (pc_dag_class (net_size N0) (arcs_of N0) ind tst gmax size psch depth (domain_sizes N0)) as (F1 & HF1); try done.
  { by apply fresh_dag_dag. }
  { intros v. eapply Nat.le_lt_trans; [|apply (Hdeg v)]. apply submseteq_length, NoDup_submseteq; [apply NoDup_filter, NoDup_seq|]. intros w Hw. by apply (parents_of_arcs N0 v w HN). }
  destruct (pipeline N0 HN Hd ind tst gmax size psch depth pcoin Ho Hdec Hsz Hsch Hdeg Hmiss ts D Hts Hpos HD Hs HR) as (F2 & HF2).
  exists (Nat.max F1 F2). intros fuel Hf. destruct (HF1 fuel ltac:(lia)) as (es & A & S & H1 & HC), (HF2 fuel ltac:(lia)) as (es' & A' & S' & N & H1' & H2 & HP). rewrite H1 in H1'. injection H1' as <- <- <-.
  destruct (HC Hcl pcoin) as (N' & H2' & _ & _ & _ & Heq). rewrite H2 in H2'. injection H2' as <-. exists es, A, S, N. split_and!; [done|done|done|]. apply HP. intros x y z. by apply Heq.
Qed.
