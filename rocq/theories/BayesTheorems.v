(** Predictions on data that look like draws from a network. *)
From Coq Require Import Field QArith.
From Verif Require Import BayesSpec BayesProofs UtilProofs NetProofs2 BuildProofs CountProofs QueryProofs Sums LearnProofs LearnTheorems JTTheorems LikelihoodProofs EssentialSpec EquivTheorems RecoverProofs RecoverTheorems RecoverClose GibbsProofs TableProofs2 TableProofs.
Local Open Scope nat_scope.

Lemma predicted_rows N : netinv N -> doms_positive N -> forall ts, distributions N ts -> forall o, valid_order o -> forall T, jt_build o N ts = Ok T ->
  forall D, complete N D -> co_vars D = net_size N -> representative N ts D -> 20 <= co_rows D ->
  forall q xs, q < net_size N -> (forall v, v ∈ xs -> v < net_size N) -> q ∉ xs -> forall sch, (forall i, valid_scheduler (sch i)) ->
  exists labels, predict sch T q (row_questions D xs) = Ok labels /\ length labels = co_rows D /\ forall j, j < co_rows D -> best_label N ts (observed xs (data_row D j)) q (default 0 (labels !! j)).
Proof.
  intros HN Hd ts Hts o Ho T HT D HD Hs HR Hm q xs Hq Hxs Hqx sch Hsch. destruct (learned_family N ts HN Hd Hts) as [F G].
  destruct (predict_ok N o ts T sch q (row_questions D xs)) as (labels & HP & HL); try done; [by apply netinv_ok|lia|right; unfold row_questions; by rewrite fmap_length, seq_length| |].
  { unfold row_questions. apply Forall_fmap, Forall_forall. intros j Hj. apply elem_of_seq in Hj. destruct (row_evidence N HN Hd ts Hts D HD Hs HR q xs Hq Hxs Hqx j ltac:(lia)) as (H1 & H2 & H3). cbn. split_and!; [done| |done]. intros E. rewrite E in H2. by apply (Qclt_not_eq 0 0). }
  exists labels. split; [done|]. pose proof (Forall2_length _ _ _ HL) as Hlen. unfold row_questions in Hlen. rewrite fmap_length, seq_length in Hlen. split; [done|]. intros j Hj. destruct (lookup_lt_is_Some_2 labels j ltac:(lia)) as [l Hl]. rewrite Hl. cbn.
  apply (Forall2_lookup_lr _ _ _ j _ _ HL); [|done]. unfold row_questions. rewrite list_lookup_fmap, lookup_seq_lt by done. done.
Qed.
Theorem best_accuracy N : netinv N -> doms_positive N -> forall ts, distributions N ts -> forall o, valid_order o -> forall T, jt_build o N ts = Ok T ->
  forall D, complete N D -> co_vars D = net_size N -> representative N ts D -> 20 <= co_rows D ->
  forall q xs, q < net_size N -> (forall v, v ∈ xs -> v < net_size N) -> q ∉ xs -> forall sch, (forall i, valid_scheduler (sch i)) ->
  exists labels p, predict sch T q (row_questions D xs) = Ok labels /\ accuracy (row_truths D q) (Z.of_nat <$> labels) = Ok p /\ from_evidence (row_questions D xs) (Z.of_nat <$> labels) /\
  forall ps, from_evidence (row_questions D xs) ps -> exists p', accuracy (row_truths D q) ps = Ok p' /\ (p' <= p)%Qc.
Proof.
  intros HN Hd ts Hts o Ho T HT D HD Hs HR Hm q xs Hq Hxs Hqx sch Hsch. destruct (predicted_rows N HN Hd ts Hts o Ho T HT D HD Hs HR Hm q xs Hq Hxs Hqx sch Hsch) as (labels & HP & HL & HB).
  assert (forall j, j < co_rows D -> row_questions D xs !! j = Some (observed xs (data_row D j))) as HQ. { intros j Hj. unfold row_questions. by rewrite list_lookup_fmap, lookup_seq_lt. }
  assert (length (row_questions D xs) = co_rows D) as HQL. { unfold row_questions. by rewrite fmap_length, seq_length. }
  set (lab := fun j => Z.of_nat (default 0 (labels !! j))). assert (Z.of_nat <$> labels = lab <$> seq 0 (co_rows D)) as Hlab.
  { apply list_eq. intros i. rewrite !list_lookup_fmap. destruct (labels !! i) as [l|] eqn:E; [|apply lookup_ge_None in E; by rewrite lookup_seq_ge by lia]. rewrite lookup_seq_lt by (apply lookup_lt_Some in E; lia). cbn. unfold lab. by rewrite E. }
  set (t := fun j => Z.of_nat (data_row D j q)). exists labels, (qn (length (filter (fun i => t i = lab i) (seq 0 (co_rows D)))) / qn (co_rows D))%Qc. split; [done|]. split; [rewrite Hlab; apply (accuracy_function t lab); lia|].
  assert (forall i j, i < co_rows D -> j < co_rows D -> observed xs (data_row D i) = observed xs (data_row D j) -> lab i = lab j) as Hsame.
  { intros i j Hi Hj E. unfold lab. f_equal. pose proof (HB i Hi) as H1. pose proof (HB j Hj) as H2. rewrite E in H1. by apply (best_unique _ _ _ _ _ _ H1). }
  split.
  - split; [by rewrite fmap_length, HL, HQL|]. intros i j E Hi Hj. pose proof (lookup_lt_Some _ _ _ Hi) as Li. pose proof (lookup_lt_Some _ _ _ Hj) as Lj. rewrite HQL in Li, Lj. rewrite HQ in Hi, Hj by done. rewrite Hlab, !list_lookup_fmap, !lookup_seq_lt by done. cbn. f_equal. apply Hsame; [done|done|congruence].
  - intros ps [Hps1 Hps2]. rewrite HQL in Hps1. set (pr := fun j => default 0%Z (ps !! j)). exists (qn (length (filter (fun i => t i = pr i) (seq 0 (co_rows D)))) / qn (co_rows D))%Qc. split; [rewrite (as_function ps (co_rows D) Hps1); apply (accuracy_function t pr); lia|].
    apply qn_div_le; [lia|]. apply (best_count (fun j => observed xs (data_row D j)) t pr lab (co_rows D)).
    + by rewrite seq_length.
    + intros i j Hi%elem_of_seq Hj%elem_of_seq E. unfold pr. f_equal. apply (Hps2 i j (observed xs (data_row D i))); [apply HQ; lia|rewrite E; apply HQ; lia].
    + intros i j Hi%elem_of_seq Hj%elem_of_seq E. apply Hsame; [lia|lia|done].
    + intros j x Hj%elem_of_seq. apply (label_count N HN Hd ts Hts D HD Hs HR q xs Hq Hxs Hqx); [lia|apply HB; lia].
Qed.
(** More evidence. *)
Theorem more_evidence N : netinv N -> doms_positive N -> forall ts, distributions N ts -> forall o, valid_order o -> forall T, jt_build o N ts = Ok T ->
  forall D, complete N D -> co_vars D = net_size N -> representative N ts D -> 20 <= co_rows D ->
  forall q xs ys, q < net_size N -> (forall v, v ∈ xs -> v ∈ ys) -> (forall v, v ∈ ys -> v < net_size N) -> q ∉ ys -> forall sch sch', (forall i, valid_scheduler (sch i)) -> (forall i, valid_scheduler (sch' i)) ->
  exists labels labels' p p', predict sch T q (row_questions D xs) = Ok labels /\ predict sch' T q (row_questions D ys) = Ok labels' /\
  accuracy (row_truths D q) (Z.of_nat <$> labels) = Ok p /\ accuracy (row_truths D q) (Z.of_nat <$> labels') = Ok p' /\ (p <= p')%Qc.
Proof.
  intros HN Hd ts Hts o Ho T HT D HD Hs HR Hm q xs ys Hq Hsub Hys Hqy sch sch' Hsch Hsch'.
  destruct (best_accuracy N HN Hd ts Hts o Ho T HT D HD Hs HR Hm q xs Hq ltac:(auto) ltac:(auto) sch Hsch) as (labels & p & H1 & H2 & [H3 H4] & _). destruct (best_accuracy N HN Hd ts Hts o Ho T HT D HD Hs HR Hm q ys Hq Hys Hqy sch' Hsch') as (labels' & p' & H1' & H2' & _ & Hbest).
  destruct (Hbest (Z.of_nat <$> labels)) as (p2 & Hp2 & Hle); [|rewrite H2 in Hp2; injection Hp2 as <-; by exists labels, labels', p, p'].
  split; [rewrite H3; unfold row_questions; by rewrite !fmap_length|]. intros i j E Hi Hj. unfold row_questions in Hi, Hj. rewrite list_lookup_fmap in Hi, Hj. destruct (seq 0 (co_rows D) !! i) as [i'|] eqn:Ei; [|done]. destruct (seq 0 (co_rows D) !! j) as [j'|] eqn:Ej; [|done]. cbn in Hi, Hj.
  apply (H4 i j (observed xs (data_row D i'))); unfold row_questions; rewrite list_lookup_fmap; [by rewrite Ei|rewrite Ej; cbn; f_equal]. unfold observed. apply list_fmap_ext. intros k v Hv. f_equal.
  assert (observed ys (data_row D i') = observed ys (data_row D j')) as Hy by congruence. apply elem_of_list_lookup_2, Hsub in Hv. rewrite <-(value_observed ys (data_row D i') (fun _ => 0) v Hv), <-(value_observed ys (data_row D j') (fun _ => 0) v Hv). by rewrite Hy.
Qed.
(** A network learned from data of the same kind. *)
Theorem learned_best N1 N2 : netinv N1 -> netinv N2 -> doms_positive N1 -> 0 < net_size N1 -> weakly_connected N1 -> domain_sizes N1 = domain_sizes N2 -> markov_equivalent (arcs_of N1) (arcs_of N2) ->
  forall ts train, distributions N1 ts -> complete N1 train -> co_vars train = net_size N1 -> representative N1 ts train -> forall coin ts2, learn_params N2 train 0 coin [] = Ok ts2 ->
  forall test, complete N1 test -> co_vars test = net_size N1 -> representative N1 ts test -> 20 <= co_rows test -> forall o, valid_order o -> exists T, jt_build o N2 ts2 = Ok T /\
  forall q xs, q < net_size N1 -> (forall v, v ∈ xs -> v < net_size N1) -> q ∉ xs -> forall sch, (forall i, valid_scheduler (sch i)) ->
  exists labels p, predict sch T q (row_questions test xs) = Ok labels /\ accuracy (row_truths test q) (Z.of_nat <$> labels) = Ok p /\
  forall ps, from_evidence (row_questions test xs) ps -> exists p', accuracy (row_truths test q) ps = Ok p' /\ (p' <= p)%Qc.
Proof.
  intros HN1 HN2 Hd Hn Hc Hdom HE ts train Hts HD Hs HR coin ts2 L test HD' Hs' HR' Hm o Ho.
  pose proof (recovered_distributions N1 N2 HN1 HN2 Hd Hdom HE ts Hts train HD Hs HR coin ts2 L) as H2. destruct (recovered N1 N2 HN1 HN2 Hd Hn Hdom HE ts train Hts HD Hs HR coin ts2 L) as (HJ & _ & HT). destruct (HT Hc o Ho) as (T & HB & _). exists T. split; [done|].
  assert (net_size N1 = net_size N2) as Hsz. { pose proof (f_equal length Hdom) as H. unfold domain_sizes in H. by rewrite !fmap_length in H. }
  assert (net_dom N1 = net_dom N2) as Hdm by (unfold net_dom; by rewrite Hdom).
  intros q xs Hq Hxs Hqx sch Hsch. rewrite Hsz in Hq, Hxs.
  destruct (best_accuracy N2 HN2 ltac:(unfold doms_positive; by rewrite <-Hdom) ts2 H2 o Ho T HB test) with (q := q) (xs := xs) (sch := sch) as (labels & p & P1 & P2 & _ & P3); try done.
  - destruct HD' as (C1 & C2 & C3). split_and!; [done|rewrite <-Hsz; done|]. by rewrite <-Hdm.
  - by rewrite <-Hsz.
  - destruct HR' as [R1 R2]. split; [done|]. rewrite <-Hsz, <-Hdm. intros a Ha. rewrite HJ by done. by apply R2.
  - by exists labels, p.
Qed.
