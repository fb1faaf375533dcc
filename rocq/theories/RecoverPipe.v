(** Structure learning with tests that never err, then parameter learning, then the junction tree. *)
From Coq Require Import Field QArith.
From Verif Require Import DSepTheorems OrientSafe ShdTheorems RecoverSpec RecoverTheorems RecoverClose EssentialSpec CoverProofs EquivTheorems PCSpec TableProofs.
Local Open Scope nat_scope.

Lemma has_directed_arcs N x y : has_directed N x y <-> arcs_of N x y = true.
Proof. unfold has_directed. by rewrite arcs_of_spec. Qed.
Lemma kept_equivalent g h : (forall x y, h x y = true \/ h y x = true <-> adjacent g x y) -> (forall x y z, v_structure g x y z -> h x y = true) ->
  (forall x y z, v_structure h x y z -> v_structure g x y z) -> markov_equivalent g h.
Proof.
  intros HA HK HX. split; [intros x y; unfold adjacent at 2; by rewrite HA|]. intros x y z. split; [|apply HX]. intros Hv. pose proof Hv as (H1 & H2 & H3).
  destruct H1 as [M1 M2]. split_and!; [|done|].
  - split; [by apply (HK x y z)|]. apply (HK z y x). split_and!; [by split|by apply not_eq_sym|]. intros [?|?]; apply H3; [by right|by left].
  - unfold adjacent at 1. by rewrite HA.
Qed.
Lemma occurrences_mono cols rows l1 l2 a : (forall v, v ∈ l1 -> v ∈ l2) -> occurrences cols rows l2 a <= occurrences cols rows l1 a.
Proof.
  intros H. unfold occurrences. apply submseteq_length, NoDup_submseteq; [apply NoDup_filter, NoDup_seq|]. intros j [Hj Hr]%elem_of_list_filter. apply elem_of_list_filter. split; [|done].
  unfold agrees in *. rewrite Forall_forall in *. intros v Hv. by apply Hj, H.
Qed.
Theorem pipeline N0 : netinv N0 -> doms_positive N0 -> forall ind tst gmax size psch depth pcoin, dsep_oracle ind (net_size N0) (arcs_of N0) -> decides tst ind (net_size N0) gmax -> 1 <= size <= gmax -> valid_sched psch ->
  (forall v, length (parents_of N0 v) < depth) -> (exists x y, x < net_size N0 /\ y < net_size N0 /\ x <> y /\ ~ adjacent (arcs_of N0) x y) ->
  forall ts D, distributions N0 ts -> (forall a, valid (net_dom N0) a -> joint ts a <> 0%Qc) -> complete N0 D -> co_vars D = net_size N0 -> representative N0 ts D ->
  exists F, forall fuel, F <= fuel -> exists es A S N, skeleton_search tst (net_size N0) depth fuel size psch = Ok (es, A, S) /\ orient_skeleton fuel (domain_sizes N0) true pcoin es A S = Ok N /\
  ((forall x y z, v_structure (arcs_of N) x y z -> v_structure (arcs_of N0) x y z) -> forall coin, exists ts2, learn_params N D 0 coin [] = Ok ts2 /\
    (forall a, valid (net_dom N0) a -> joint ts2 a = joint ts a) /\
    (weakly_connected N0 -> forall o, valid_order o -> exists T, jt_build o N ts2 = Ok T /\
       forall sch E, valid_scheduler sch -> evidence_in_range N0 E -> evidence_weight N0 ts E <> 0%Qc -> query_probs sch T E (jt_backup T) = Ok (jt_backup T, answer_all N0 ts E))).
Proof.
  intros HN Hd ind tst gmax size psch depth pcoin Ho Hdec Hsz Hsch Hdeg Hmiss ts D Hts Hpos HD Hs HR.
  assert (length (domain_sizes N0) = net_size N0) as Hl by (unfold domain_sizes; by rewrite fmap_length).
  destruct (pc_dsep_dag (net_size N0) (arcs_of N0) ind tst gmax size psch depth (domain_sizes N0) pcoin) as (F & HF); try done.
  { by apply fresh_dag_dag. }
  { intros v. eapply Nat.le_lt_trans; [|apply (Hdeg v)]. apply submseteq_length, NoDup_submseteq; [apply NoDup_filter, NoDup_seq|]. intros w Hw. by apply (parents_of_arcs N0 v w HN). }
  exists F. intros fuel Hf. destruct (HF fuel Hf) as (es & A & S & N & H1 & H2 & HN2 & HL & HA & _ & HV). exists es, A, S, N. split; [done|]. split; [done|]. intros HX coin.
  assert (domain_sizes N0 = domain_sizes N) as Hdom by (symmetry; by apply (orient_kept _ _ _ _ _ _ _ _ H2)). assert (net_size N0 = net_size N) as Hnz by (by unfold net_size).
  assert (net_dom N0 = net_dom N) as Hdm by (unfold net_dom; by rewrite Hdom).
  assert (markov_equivalent (arcs_of N0) (arcs_of N)) as HE. { apply kept_equivalent; [|intros x y z Hv; by apply has_directed_arcs, (HV x y z)|done]. intros x y. by rewrite <-!has_directed_arcs. }
  assert (0 < net_size N0) as Hn by (destruct Hmiss as (? & ? & ? & _); lia).
  destruct (learn_succeeds N HN2 ltac:(unfold doms_positive; by rewrite <-Hdom) D) with (k := 0) (coin := coin) as [ts2 L].
  { destruct HD as (C1 & C2 & C3). split_and!; [done|rewrite <-Hnz; done|]. by rewrite <-Hdm. } { by rewrite Hs. }
  { rewrite <-Hdm, <-Hnz. intros x a Hx Ha. destruct HR as [Hm HR]. specialize (Hpos a Ha). rewrite <-(HR a Ha) in Hpos. unfold fraction in Hpos. intros E. apply Hpos.
    assert (occurrences (co_cols D) (co_rows D) (seq 0 (net_size N0)) a = 0) as ->; [|unfold Qcdiv; apply Qcmult_0_l].
    pose proof (occurrences_mono (co_cols D) (co_rows D) (parents_of N x) (seq 0 (net_size N0)) a) as HM. rewrite E in HM. apply Nat.le_0_r, HM. intros w Hw.
    apply (parents_of_arcs N x w HN2), dag_parents_elem in Hw as [_ Hw]. apply elem_of_seq. lia. }
  exists ts2. split; [done|]. destruct (recovered N0 N HN HN2 Hd Hn Hdom HE ts D Hts HD Hs HR coin ts2 L) as (R1 & _ & R3). by split.
Qed.
