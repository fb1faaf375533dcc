(** Generating samples and learning from them. *)
From Coq Require Import Field QArith Lqa.
From Verif Require Import SimulateSpec SimulateProofs BayesSpec BayesProofs BayesClose UtilProofs NetProofs2 NetProofs3 BuildProofs CountProofs QueryProofs Sums BeliefProofs LearnProofs LearnTheorems LikelihoodSpec SampleProofs GenProofs EquivTheorems RecoverProofs RecoverTheorems RecoverClose GibbsProofs CoverProofs TableProofs2 TableProofs.
Local Open Scope nat_scope.

Theorem generated_frequencies N cs ts : netinv N -> nt_topo N = [] -> doms_positive N -> 0 < net_size N -> node_tables N cs = Ok ts -> distributions N ts ->
  forall us e, us <> [] -> (forall u, u ∈ us -> uniform u) -> discrepancy e (net_size N) us -> exists M samples, generate_samples N cs us = Ok (M, samples) /\ length samples = length us /\
  complete N (sample_columns (net_size N) samples) /\ (forall a, valid (net_dom N) a -> differ_by e (fraction (sample_columns (net_size N) samples) (seq 0 (net_size N)) a) (joint ts a)) /\
  forall j, j < length samples -> joint ts (data_row (sample_columns (net_size N) samples) j) <> 0%Qc.
Proof.
  intros HN Ht Hd Hn Hcs Hts us e Hne Hu HD. destruct (get_topo_ord_fresh N HN Ht) as (N' & topo & Hg & _ & _ & _ & Htopo).
  destruct (generate_loop N cs ts N' topo us Hcs HN Ht Hd Hts Hn Hg Hu) as (M & samples & HG & HF). exists M, samples. split; [done|]. split; [symmetry; by eapply Forall2_length|]. split_and!.
  - apply sample_complete. intros s Hs. apply elem_of_list_lookup in Hs as [j Hj]. destruct (Forall2_lookup_r _ _ _ _ _ HF Hj) as (u & _ & _ & Hf). done.
  - by apply (simulated N HN Hd ts Hts topo Htopo us).
  - by apply (simulated_possible N HN Hd ts Hts topo Htopo us).
Qed.
Lemma margins_near N ts D e : netinv N -> doms_positive N -> 0 < net_size N -> distributions N ts -> complete N D -> co_vars D = net_size N -> 0 < co_rows D ->
  (forall a, valid (net_dom N) a -> differ_by e (fraction D (seq 0 (net_size N)) a) (joint ts a)) -> (forall j, j < co_rows D -> joint ts (data_row D j) <> 0%Qc) ->
  nearly_representative (qn (prod_list (domain_sizes N)) * e)%Qc N ts D.
Proof.
  intros HN Hd Hn Hts HD Hs Hm Hnear Hposs. split; [done|]. intros x a Hx Ha. assert (forall v, v ∈ @nil nat -> v < net_size N) as H0 by (by intros v []%elem_of_nil). assert (x ∉ @nil nat) as H1 by (by intros []%elem_of_nil).
  pose proof (gap_nonneg N HN Hd ts Hts D HD Hs Hm e Hnear Hposs x [] Hx H0 H1) as He.
  assert (forall l, (forall v, v ∈ l -> v < net_size N) -> differ_by (qn (prod_list (domain_sizes N)) * e)%Qc (fraction D l a) (chance N ts l a)) as HA.
  { intros l Hl. destruct (near_margin N HN Hd ts Hts D HD Hs Hm e Hnear Hposs x [] Hx H0 H1 l a Hl Ha) as [C1 C2]. pose proof (prod_filter (net_dom N) (fun v => v ∉ l) (seq 0 (net_size N)) (dpos N HN Hd)) as Hle. rewrite doms_seq in Hle. set (k := prod_list (net_dom N <$> filter _ _)) in *.
    assert (qn k * e <= qn (prod_list (domain_sizes N)) * e)%Qc as HK by (apply Qcmult_le_compat_r; [by apply qn_mono|done]). set (y1 := (qn k * e)%Qc) in *. set (y2 := (qn (prod_list (domain_sizes N)) * e)%Qc) in *. set (y3 := fraction D l a) in *. set (y4 := chance N ts l a) in *. clearbody y1 y2 y3 y4. clear -C1 C2 HK. split; to_q; lra. }
  assert (forall v, v ∈ parents_of N x -> v < net_size N) as Hp by (intros v Hv; apply (parents_of_arcs N x v HN), dag_parents_elem in Hv as [_ Hv]; done).
  split; apply HA; [done|]. intros v [->|Hv]%elem_of_cons; auto.
Qed.
Theorem generated_learned N cs ts : netinv N -> nt_topo N = [] -> doms_positive N -> 0 < net_size N -> weakly_connected N -> node_tables N cs = Ok ts -> distributions N ts ->
  forall us e p, us <> [] -> (forall u, u ∈ us -> uniform u) -> discrepancy e (net_size N) us ->
  (forall x a, x < net_size N -> valid (net_dom N) a -> (p <= chance N ts (parents_of N x) a)%Qc) -> let g := (qn (prod_list (domain_sizes N)) * e)%Qc in (g < p)%Qc ->
  forall k d, (forall v, net_dom N v <= d) -> forall coin o, valid_order o -> exists M samples ts2 T, generate_samples N cs us = Ok (M, samples) /\
  learn_params N (sample_columns (net_size N) samples) (Z.of_nat k) coin [] = Ok ts2 /\ jt_build o N ts2 = Ok T /\
  (forall x q t a, ts !! x = Some q -> ts2 !! x = Some t -> valid (net_dom N) a -> differ_by (((1 + 1) * g + qn k / qn (length us) * qn (net_dom N x)) / (p - g))%Qc (tval t a) (tval q a)) /\
  let h := (qn (net_size N * prod_list (domain_sizes N)) * (((1 + 1) * g + qn k / qn (length us) * qn d) / (p - g)))%Qc in
  forall sch E, valid_scheduler sch -> evidence_in_range N E -> (h < evidence_weight N ts E)%Qc ->
    query_probs sch T E (jt_backup T) = Ok (jt_backup T, answer_all N ts2 E) /\
    forall q x, q < net_size N -> q ∉ fst <$> E -> x < net_dom N q -> differ_by ((1 + 1) * h / evidence_weight N ts E)%Qc (posterior N ts2 E q x) (posterior N ts E q x).
Proof.
  intros HN Ht Hd Hn Hc Hcs Hts us e p Hne Hu HD Hp g Hg k d Hdd coin o Ho. destruct (generated_frequencies N cs ts HN Ht Hd Hn Hcs Hts us e Hne Hu HD) as (M & samples & HG & HL & HC & Hnear & Hposs). set (D := sample_columns (net_size N) samples) in *.
  assert (co_rows D = length us) as Hrows by exact HL. assert (0 < co_rows D) as Hm by (rewrite Hrows; destruct us; [done|cbn; lia]). assert (co_vars D = net_size N) as Hs by done.
  pose proof (margins_near N ts D e HN Hd Hn Hts HC Hs Hm Hnear Hposs) as HR. fold g in HR.
  destruct (close_tables N HN Hd ts D Hts HC Hs g p HR Hp Hg k coin) as (ts2 & L & _ & HT). destruct (close_learning N HN Hd Hn Hc ts D Hts HC Hs g p HR Hp Hg k d Hdd coin o Ho) as (ts3 & T & L' & HB & HQ). rewrite L in L'. injection L' as <-.
  exists M, samples, ts2, T. rewrite Hrows in HT, HQ. done.
Qed.
Theorem generated_predictions N cs ts : netinv N -> nt_topo N = [] -> doms_positive N -> 0 < net_size N -> weakly_connected N -> node_tables N cs = Ok ts -> distributions N ts ->
  forall us e p, us <> [] -> (forall u, u ∈ us -> uniform u) -> discrepancy e (net_size N) us ->
  (forall x a, x < net_size N -> valid (net_dom N) a -> (p <= chance N ts (parents_of N x) a)%Qc) -> let g := (qn (prod_list (domain_sizes N)) * e)%Qc in (g < p)%Qc ->
  forall k c, 0 < k -> (forall x, x < net_size N -> (((1 + 1) * g + qn k / qn (length us) * qn (net_dom N x)) / (p - g) <= c)%Qc) ->
  forall us' e', 20 <= length us' -> (forall u, u ∈ us' -> uniform u) -> discrepancy e' (net_size N) us' -> forall coin o, valid_order o ->
  exists M samples M' tests ts2 T, generate_samples N cs us = Ok (M, samples) /\ generate_samples N cs us' = Ok (M', tests) /\ learn_params N (sample_columns (net_size N) samples) (Z.of_nat k) coin [] = Ok ts2 /\ jt_build o N ts2 = Ok T /\
  forall q xs, q < net_size N -> (forall v, v ∈ xs -> v < net_size N) -> NoDup xs -> q ∉ xs -> forall sch, (forall i, valid_scheduler (sch i)) -> let D := sample_columns (net_size N) tests in
  exists labels acc, predict sch T q (row_questions D xs) = Ok labels /\ accuracy (row_truths D q) (Z.of_nat <$> labels) = Ok acc /\
  forall ps, from_evidence (row_questions D xs) ps -> exists acc', accuracy (row_truths D q) ps = Ok acc' /\ (acc' <= acc + (1 + 1) * qn (prod_list (domain_sizes N)) * (e' + qn (net_size N) * c))%Qc.
Proof.
  intros HN Ht Hd Hn Hc Hcs Hts us e p Hne Hu HD Hp g Hg k c Hk Hcb us' e' Hm' Hu' HD' coin o Ho. destruct (generated_frequencies N cs ts HN Ht Hd Hn Hcs Hts us e Hne Hu HD) as (M & samples & HG & HL & HC & Hnear & Hposs). set (D := sample_columns (net_size N) samples) in *.
  assert (co_rows D = length us) as Hrows by exact HL. assert (0 < co_rows D) as Hm by (rewrite Hrows; destruct us; [done|cbn; lia]). assert (co_vars D = net_size N) as Hs by done.
  pose proof (margins_near N ts D e HN Hd Hn Hts HC Hs Hm Hnear Hposs) as HR. fold g in HR.
  destruct (generated_frequencies N cs ts HN Ht Hd Hn Hcs Hts us' e') as (M' & tests & HG' & HL' & HC' & Hnear' & _); [by intros ->; cbn in Hm'; lia|done|done|].
  destruct (learned_nearly_best N HN Hd Hn Hc ts D Hts HC Hs g p HR Hp Hg k c Hk ltac:(by rewrite Hrows) coin (sample_columns (net_size N) tests) HC' eq_refl ltac:(cbn; lia) e' Hnear' o Ho) as (ts2 & T & L & HB & HX).
  exists M, samples, M', tests, ts2, T. done.
Qed.

(** ** The grid *)
Lemma grid_length m d : length (grid m d) = m ^ d.
Proof.
  induction d as [|d IH]; [done|]. cbn [grid Nat.pow]. rewrite <-IH. rewrite <-(seq_length m 0) at 2. induction (seq 0 m) as [|x l IHl]; [done|]. rewrite bind_cons, app_length, fmap_length, IHl. cbn [length]. lia.
Qed.
Lemma grid_uniform m d u : 0 < m -> u ∈ grid m d -> uniform u.
Proof.
  intros Hm. revert u. induction d as [|d IH]; intros u; cbn [grid].
  - intros ->%elem_of_list_singleton k. split; by vm_compute.
  - intros (x & (u' & -> & Hu)%elem_of_list_fmap & Hx)%elem_of_list_bind. apply elem_of_seq in Hx. intros [|k]; cbn [before]; [|by apply IH]. pose proof (qn_pos m Hm) as Hmp. split; [apply Qc_div_pos; [apply qn_pos; lia|done]|].
    assert (qn m / qn m = 1)%Qc as <- by (field; by apply qn_ne). apply qn_div_le; [done|lia].
Qed.
Definition steps (m : nat) (b : Qc * Qc) : nat := length (filter (fun x => (fst b < qn (S x) / qn m)%Qc /\ (qn (S x) / qn m <= snd b)%Qc) (seq 0 m)).
Lemma hits_app us us' box : hits (us ++ us') box = hits us box + hits us' box.
Proof. unfold hits. by rewrite filter_app, app_length. Qed.
Lemma hits_before r us b box : hits (before r <$> us) (b :: box) = if decide ((fst b < r)%Qc /\ (r <= snd b)%Qc) then hits us box else 0.
Proof.
  unfold hits. induction us as [|u us IH]; [by destruct (decide _)|]. cbn [fmap list_fmap]. destruct (decide ((fst b < r)%Qc /\ (r <= snd b)%Qc)) as [H|H].
  - destruct (decide (in_box u box)) as [Hu|Hu]; [rewrite !filter_cons_True; [cbn [length]; by rewrite <-IH|done|by apply in_box_cons]|rewrite !filter_cons_False; [by rewrite <-IH|done|by intros [_ ?]%in_box_cons]].
  - rewrite filter_cons_False by (by intros [? _]%in_box_cons). exact IH.
Qed.
Lemma grid_hits m d box : length box = d -> hits (grid m d) box = foldr Nat.mul 1 (steps m <$> box).
Proof.
  revert box. induction d as [|d IH]; intros [|b box] Hl; try done.
  injection Hl as Hl. cbn [grid fmap list_fmap foldr]. fold (fmap (M := list) (steps m) box). rewrite <-(IH box Hl). unfold steps. induction (seq 0 m) as [|x l IHl]; [done|]. rewrite bind_cons, hits_app, hits_before, IHl.
  destruct (decide ((fst b < qn (S x) / qn m)%Qc /\ (qn (S x) / qn m <= snd b)%Qc)) as [H|H]; [rewrite filter_cons_True by done; cbn [length]; lia|rewrite filter_cons_False by done; lia].
Qed.
Lemma count_upto (t : Qc) k : (0 <= t)%Qc -> let j := length (filter (fun x => (qn (S x) <= t)%Qc) (seq 0 k)) in j <= k /\ (qn j <= t)%Qc /\ (j = k \/ (t < qn (S j))%Qc).
Proof.
  intros Ht. induction k as [|k IH]; cbn zeta in *; [split_and!; [done|done|by left]|]. replace (S k) with (k + 1) by lia. rewrite seq_app, filter_app, app_length, Nat.add_0_l. cbn [seq]. set (j := length (filter _ (seq 0 k))) in *. destruct IH as (I1 & I2 & I3).
  destruct (decide (qn (S k) <= t)%Qc) as [H|H].
  - rewrite filter_cons_True by done. cbn [filter list_filter length]. assert (j = k) as ->. { destruct I3 as [I3|I3]; [done|]. destruct (decide (j = k)) as [|Hjk]; [done|]. exfalso. apply (Qclt_not_le _ _ I3). eapply Qcle_trans; [|exact H]. apply qn_mono. lia. }
    split_and!; [lia| |by left]. by replace (k + 1) with (S k) by lia.
  - rewrite filter_cons_False by done. cbn [filter list_filter length]. rewrite Nat.add_0_r. apply Qcnot_le_lt in H. split_and!; [lia|done|]. right. destruct I3 as [->|I3]; done.
Qed.
Lemma steps_close m b : 0 < m -> (0 <= fst b)%Qc -> (fst b <= snd b)%Qc -> (snd b <= 1)%Qc -> differ_by (1 / qn m)%Qc (qn (steps m b) / qn m)%Qc (snd b - fst b)%Qc /\ steps m b <= m.
Proof.
  destruct b as [lo hi]. cbn [fst snd]. intros Hm H0 H1 H2. pose proof (qn_pos m Hm) as Hmp. assert (qn m <> 0)%Qc as Hne by (by apply qn_ne).
  assert (forall x (r : Qc), (qn (S x) / qn m <= r)%Qc <-> (qn (S x) <= r * qn m)%Qc) as Hsc.
  { intros x r. assert (qn (S x) / qn m * qn m = qn (S x))%Qc as E by (by field). split; intros H.
    - rewrite <-E. apply Qcmult_le_compat_r; [done|by apply Qclt_le_weak].
    - rewrite <-E in H. apply Qcmult_lt_0_le_reg_r in H; done. }
  assert (length (filter (fun x => (qn (S x) <= hi * qn m)%Qc) (seq 0 m)) = length (filter (fun x => (qn (S x) <= lo * qn m)%Qc) (seq 0 m)) + steps m (lo, hi)) as HS.
  { rewrite (filter_split (fun x => (qn (S x) <= hi * qn m)%Qc) (fun x => (qn (S x) <= lo * qn m)%Qc)). rewrite !list_filter_filter. unfold steps. cbn [fst snd]. f_equal; f_equal; apply filter_same; intros x _; rewrite <-!Hsc.
    - split; [tauto|]. intros H. split; [|done]. by eapply Qcle_trans.
    - split; intros [A1 A2]; split; [by apply Qcnot_le_lt|done|done|by apply Qclt_not_le]. }
  assert (forall r : Qc, (0 <= r)%Qc -> (r <= 1)%Qc -> (qn (length (filter (fun x => (qn (S x) <= r * qn m)%Qc) (seq 0 m))) <= r * qn m)%Qc /\ (r * qn m < qn (length (filter (fun x => (qn (S x) <= r * qn m)%Qc) (seq 0 m))) + 1)%Qc) as HJ.
  { intros r Hr0 Hr1. destruct (count_upto (r * qn m)%Qc m) as (J1 & J2 & J3); [apply Qc_le_mul_nonneg; [done|by apply Qclt_le_weak]|]. set (j := length (filter _ _)) in *. split; [done|]. destruct J3 as [->|J3].
    - apply (Qcmult_le_compat_r _ _ (qn m)) in Hr1; [|by apply Qclt_le_weak]. rewrite Qcmult_1_l in Hr1. set (y := (r * qn m)%Qc) in *. set (z := qn m) in *. clearbody y z. clear -Hr1. to_q. lra.
    - rewrite qn_S in J3. set (y := (r * qn m)%Qc) in *. set (z := qn j) in *. clearbody y z. clear -J3. to_q. lra. }
  destruct (HJ lo) as [L1 L2]; [done|by eapply Qcle_trans|]. destruct (HJ hi) as [U1 U2]; [by eapply Qcle_trans|done|]. rewrite HS, qn_add in U1, U2. set (j := qn (length (filter (fun x => (qn (S x) <= lo * qn m)%Qc) (seq 0 m)))) in *. set (s := qn (steps m (lo, hi))) in *.
  split.
  - assert (1 / qn m * qn m = 1)%Qc as E1 by (by field). assert (s / qn m * qn m = s)%Qc as E2 by (by field). split; apply (Qcmult_lt_0_le_reg_r _ _ (qn m) Hmp); rewrite Qcmult_plus_distr_l, ?E1, ?E2; unfold Qcminus; rewrite Qcmult_plus_distr_l; replace (- lo * qn m)%Qc with (- (lo * qn m))%Qc by ring;
      set (y := (lo * qn m)%Qc) in *; set (z := (hi * qn m)%Qc) in *; clearbody y z j s; clear -L1 L2 U1 U2; to_q; lra.
  - unfold steps. etransitivity; [apply filter_length|]. by rewrite seq_length.
Qed.
Theorem grid_discrepancy m d : 0 < m -> discrepancy (qn d / qn m)%Qc d (grid m d) /\ (forall u, u ∈ grid m d -> uniform u) /\ length (grid m d) = m ^ d.
Proof.
  intros Hm. split; [|split; [intros u; by apply grid_uniform|apply grid_length]]. intros box [Hl HB]. rewrite grid_hits, grid_length by done. assert (qn m <> 0)%Qc as Hne by (by apply qn_ne). pose proof (qn_pos m Hm) as Hmp.
  assert (qn (foldr Nat.mul 1%nat (steps m <$> box)) / qn (m ^ d)%nat = qprod box (fun b => qn (steps m b) / qn m))%Qc as ->.
  { subst d. clear HB. induction box as [|b box IH]; [by apply (bool_decide_unpack _); vm_compute|]. rewrite qprod_cons, <-IH. cbn [fmap list_fmap foldr length Nat.pow]. rewrite !qn_mul. fold (fmap (M := list) (steps m) box). field. split; [|done]. apply qn_ne. apply Nat.neq_0_lt_0, Nat.pow_nonzero. lia. }
  unfold volume. destruct (decide (box = [])) as [->|Hb]; [cbn in Hl; subst d; change (qn 0) with 0%Qc; replace (0 / qn m)%Qc with 0%Qc by (by field); split; (change (1 <= 1 + 0)%Qc; rewrite Qcplus_0_r; apply Qcle_refl)|].
  replace (qn d / qn m)%Qc with (qn (length box) * (1 / qn m))%Qc by (rewrite Hl; by field). apply qprod_close; [|done]. intros b Hin. rewrite Forall_forall in HB. destruct (HB b Hin) as (B0 & B1 & B2). destruct (steps_close m b Hm B0 B1 B2) as [HC Hst]. split; [|done].
  assert (qn m / qn m = 1)%Qc as E by (by field). split_and!.
  - unfold Qcdiv. apply Qc_le_mul_nonneg; [apply qn_nn|]. apply Qclt_le_weak. assert (/ qn m = 1 / qn m)%Qc as -> by (by field). by apply Qc_div_pos.
  - rewrite <-E. by apply qn_div_le.
  - clear -B1. to_q. lra.
  - clear -B0 B2. to_q. lra.
Qed.
