(** From data to predictions: structure learning with the G-square test, parameter learning, the
    junction tree and its predictions on other data. *)
From Coq Require Import Field QArith Reals Lra.
From Verif Require Import BayesSpec BayesTheorems ExtendSpec ExtendTheorems ExtendPipe ExtendLearn GSquareSpec GSquareProofs2 GSquareTheorems SaveWitness CellSpec GibbsProofs IndepSpec IndepData IndepLearn DSepTheorems OrientSafe ShdTheorems RecoverSpec RecoverTheorems RecoverClose RecoverPipe EssentialSpec CoverProofs EquivTheorems PCSpec LearnSpec TableProofs.
Local Open Scope nat_scope.

Theorem learned_predictions N : netinv N -> doms_positive N -> weakly_connected N -> reversible_cliques (net_size N) (arcs_of N) -> (exists x y, x < net_size N /\ y < net_size N /\ x <> y /\ ~ adjacent (arcs_of N) x y) ->
  forall ts D, distributions N ts -> (forall a, valid (net_dom N) a -> joint ts a <> 0%Qc) -> faithful N ts -> complete N D -> co_vars D = net_size N -> representative N ts D ->
  forall F alpha size psch depth, chi_square_like F -> (0 < alpha < 1)%R -> size = 1 \/ 1 <= size <= 8 /\ (alpha < 1 - F 0 0%nat)%R -> valid_sched psch -> (forall v, length (parents_of N v) < depth) ->
  exists K, forall k p, K <= k -> each_row k (co_rows D) p -> forall pcoin,
  exists fuel0, forall fuel, fuel0 <= fuel -> exists es A S M, skeleton_search (gsquare_test F alpha (pick_rows p D) (domain_sizes N)) (net_size N) depth fuel size psch = Ok (es, A, S) /\ orient_skeleton fuel (domain_sizes N) true pcoin es A S = Ok M /\
  forall coin, exists ts2, learn_params M (pick_rows p D) 0 coin [] = Ok ts2 /\ forall o, valid_order o -> exists T, jt_build o M ts2 = Ok T /\
  forall test, complete N test -> co_vars test = net_size N -> representative N ts test -> 20 <= co_rows test ->
  forall q xs, q < net_size N -> (forall v, v ∈ xs -> v < net_size N) -> q ∉ xs -> forall sch, (forall i, valid_scheduler (sch i)) ->
  exists labels acc, predict sch T q (row_questions test xs) = Ok labels /\ accuracy (row_truths test q) (Z.of_nat <$> labels) = Ok acc /\
  forall ps, from_evidence (row_questions test xs) ps -> exists acc', accuracy (row_truths test q) ps = Ok acc' /\ (acc' <= acc)%Qc.
Proof.
  intros HN Hd Hc Hcl Hmiss ts D Hts Hpos Hf HD Hs HR F alpha size psch depth HF Ha Hsz Hsch Hdep. assert (length (domain_sizes N) = net_size N) as HL by (unfold domain_sizes; apply fmap_length).
  assert (tabulated D (domain_sizes N)) as HT by (by apply tabulated_complete). destruct (eventually_oracle F alpha D (domain_sizes N) (arcs_of N) HT) as [K HK]; rewrite ?HL; try done; [by apply fresh_dag_dag|by eapply faithful_data|].
  exists (S K). intros k p Hk Hp pcoin. destruct (HK k p ltac:(lia) Hp) as (ind & Hind & He). pose proof (pick_tabulated k p D _ HT Hp) as HD'. destruct (test_decides F alpha (pick_rows p D) (domain_sizes N) size HD' ltac:(lra)) as (gmax & Hgm & Hdec); [tauto|].
  rewrite HL in *. assert (complete N (pick_rows p D)) as HDk by (by eapply copies_complete). assert (representative N ts (pick_rows p D)) as HRk by (apply (copies_representative N ts D k p); [lia|done..]).
  assert (decides (gsquare_test F alpha (pick_rows p D) (domain_sizes N)) ind (net_size N) gmax) as Hdec' by (by eapply decides_ext).
  destruct (pc_dag_class (net_size N) (arcs_of N) ind (gsquare_test F alpha (pick_rows p D) (domain_sizes N)) gmax size psch depth (domain_sizes N)) as (F1 & HF1); try done; [by apply fresh_dag_dag|lia| |].
  { intros v. eapply Nat.le_lt_trans; [|apply (Hdep v)]. apply submseteq_length, NoDup_submseteq; [apply NoDup_filter, NoDup_seq|]. intros w Hw. by apply (parents_of_arcs N v w HN). }
  destruct (clique_pipeline N HN Hd Hcl ind _ gmax size psch depth pcoin Hind Hdec' ltac:(lia) Hsch Hdep Hmiss ts (pick_rows p D) Hts Hpos HDk Hs HRk) as (F2 & HF2).
  exists (Nat.max F1 F2). intros fuel Hfu. destruct (HF1 fuel ltac:(lia)) as (es & A & S & H1 & HC), (HF2 fuel ltac:(lia)) as (es' & A' & S' & M & H1' & H2 & HE & HP). rewrite H1 in H1'. injection H1' as <- <- <-.
  destruct (HC Hcl pcoin) as (M' & H2' & HM & _). rewrite H2 in H2'. injection H2' as <-. exists es, A, S, M. split; [done|]. split; [done|]. intros coin. destruct (HP coin) as (ts2 & L & _ & HQ). exists ts2. split; [done|]. intros o Ho. destruct (HQ Hc o Ho) as (T & HB & _). exists T. split; [done|].
  assert (domain_sizes N = domain_sizes M) as Hdom by (symmetry; by apply (orient_kept _ _ _ _ _ _ _ _ H2)). assert (0 < net_size N) as Hn by (destruct Hmiss as (? & ? & ? & _); lia).
  intros test Htest Hst HRt Hm. destruct (learned_best N M HN HM Hd Hn Hc Hdom HE ts (pick_rows p D) Hts HDk Hs HRk coin ts2 L test Htest Hst HRt Hm o Ho) as (T' & HB' & HX). rewrite HB in HB'. injection HB' as <-. exact HX.
Qed.
