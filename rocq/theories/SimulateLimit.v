(** Learning from generated samples in the limit. *)
From Coq Require Import Field QArith Lqa.
From Verif Require Import Sums SimulateSpec SimulateProofs SimulateTheorems BayesSpec BayesProofs LearnProofs RecoverProofs RecoverClose IndepTheorems GibbsProofs CoverProofs TableProofs2 TableProofs.
Local Open Scope nat_scope.

Lemma small_enough A x y : (0 <= A)%Qc -> (0 < x)%Qc -> (0 < y)%Qc -> exists c, (0 < c)%Qc /\ (c <= x)%Qc /\ (A * c <= y)%Qc.
Proof.
  intros HA Hx Hy. assert (0 <= A * x)%Qc as Ht by (clear -HA Hx; to_q; nra). set (t := (A * x)%Qc) in *. assert (0 < y + t)%Qc as Hs by (clear -Hy Ht; clearbody t; to_q; lra).
  assert ((y + t)%Qc <> 0%Qc) as Hne by (intros E; rewrite E in Hs; by apply Qclt_not_eq in Hs).
  exists (x * y / (y + t))%Qc. set (c := (x * y / (y + t))%Qc). assert (c * (y + t) = x * y)%Qc as E by (unfold c; by field). assert (A * c * (y + t) = t * y)%Qc as E2 by (unfold c, t in *; by field).
  clearbody c. set (b := (A * c)%Qc) in *. clearbody b t. assert (c * (y + t) <= x * y)%Qc as E1 by (rewrite E; apply Qcle_refl). assert (x * y <= c * (y + t))%Qc as E1' by (rewrite E; apply Qcle_refl).
  assert (b * (y + t) <= t * y)%Qc as E3 by (rewrite E2; apply Qcle_refl). clear E E2 HA Hne A. to_q. split_and!; nra.
Qed.
Lemma many_enough (z : Qc) : exists n, 0 < n /\ forall m, n <= m -> (z <= qn m)%Qc.
Proof.
  exists (S (Z.to_nat (Qnum z))). split; [lia|]. intros m Hm. unfold qn, LearnModel.qz, Qcle. cbn [this Q2Qc]. rewrite Qred_correct. unfold Qle. cbn [Qnum Qden inject_Z]. pose proof (Pos2Z.is_pos (Qden z)). nia.
Qed.

Lemma quotient_le x y c : (0 < y)%Qc -> (x <= c * y)%Qc -> (x / y <= c)%Qc.
Proof.
  intros Hy H. assert (y <> 0%Qc) as Hne by (intros ->; by apply Qclt_not_eq in Hy). set (r := (x / y)%Qc). assert (x = r * y)%Qc as E by (unfold r; by field). rewrite E in H. clearbody r. clear E Hne. to_q. nra.
Qed.
Lemma dom_le_prod ds v : Forall (fun d => 0 < d) ds -> dom_of ds v <= prod_list ds.
Proof.
  intros H. unfold dom_of. revert v. induction H as [|d ds Hd Hds IH]; intros v; [destruct v; cbn; lia|]. pose proof (prod_list_pos ds Hds). destruct v as [|v]; cbn [lookup list_lookup default]; cbn; fold (prod_list ds); [nia|]. specialize (IH v). change (ds !! v) with (@lookup nat nat (list nat) _ v ds). nia.
Qed.
(** Finitely many positive numbers have a positive lower bound. *)
Lemma below_list (l : list nat) (f : nat -> Qc -> Prop) : (forall i, i ∈ l -> exists p, (0 < p)%Qc /\ forall q, (0 < q)%Qc -> (q <= p)%Qc -> f i q) -> exists p, (0 < p)%Qc /\ forall i, i ∈ l -> f i p.
Proof.
  intros H. cut (exists p, (0 < p)%Qc /\ forall q, (0 < q)%Qc -> (q <= p)%Qc -> forall i, i ∈ l -> f i q). { intros (p & Hp & Hq). exists p. split; [done|]. by apply Hq, Qcle_refl. }
  induction l as [|i l IH]; [exists 1%Qc; split; [done|]; by intros q _ _ i []%elem_of_nil|].
  destruct IH as (p & Hp & IH); [intros j Hj; apply H; by right|]. destruct (H i) as (p' & Hp' & Hi); [by left|]. destruct (small_enough 1 p p') as (c & Hc & Hc1 & Hc2); [done|done|done|]. rewrite Qcmult_1_l in Hc2.
  exists c. split; [done|]. intros q Hq Hle j [->|Hj]%elem_of_cons; [apply Hi|apply IH]; try done; by eapply Qcle_trans.
Qed.
Lemma below_all (dom : nat -> nat) (l : list nat) (F : asg -> Qc) : (forall v, 0 < dom v) -> (forall a b, (forall v, v ∈ l -> a v = b v) -> F a = F b) -> (forall a, valid dom a -> (0 < F a)%Qc) -> exists p, (0 < p)%Qc /\ forall a, valid dom a -> (p <= F a)%Qc.
Proof.
  intros Hdom. revert F. induction l as [|v l IH]; intros F HF Hpos.
  - exists (F (fun _ => 0)). split; [by apply Hpos|]. intros a _. rewrite (HF a (fun _ => 0)); [apply Qcle_refl|by intros v []%elem_of_nil].
  - destruct (below_list (seq 0 (dom v)) (fun i q => forall a, valid dom a -> (q <= F (upd a v i))%Qc)) as (p & Hp & Hall).
    { intros i Hi%elem_of_seq. destruct (IH (fun a => F (upd a v i))) as (p & Hp & Hb).
      - intros a b Hab. apply HF. intros w Hw. unfold upd. case_bool_decide; [done|]. apply Hab. by apply elem_of_cons in Hw as [->|Hw].
      - intros a Ha. apply Hpos. apply valid_upd; [done|lia].
      - exists p. split; [done|]. intros q _ Hq a Ha. eapply Qcle_trans; [done|]. by apply Hb. }
    exists p. split; [done|]. intros a Ha. rewrite (HF a (upd a v (a v))); [|intros w _; unfold upd; case_bool_decide; congruence]. apply Hall; [|done]. apply elem_of_seq. specialize (Ha v). lia.
Qed.
Lemma dom_positive N v : doms_positive N -> 0 < net_dom N v.
Proof. intros H. unfold net_dom, dom_of. destruct (domain_sizes N !! v) as [d|] eqn:E; cbn; [|lia]. by eapply (proj1 (Forall_lookup _ _) H). Qed.
Lemma parents_possible N ts : netinv N -> doms_positive N -> distributions N ts -> (forall x a, x < net_size N -> valid (net_dom N) a -> (0 < chance N ts (parents_of N x) a)%Qc) ->
  exists p, (0 < p)%Qc /\ forall x a, x < net_size N -> valid (net_dom N) a -> (p <= chance N ts (parents_of N x) a)%Qc.
Proof.
  intros HN Hd Hts H. destruct (below_list (seq 0 (net_size N)) (fun x q => forall a, valid (net_dom N) a -> (q <= chance N ts (parents_of N x) a)%Qc)) as (p & Hp & Hall).
  - intros x Hx%elem_of_seq. destruct (below_all (net_dom N) (parents_of N x) (chance N ts (parents_of N x))) as (p & Hp & Hb).
    + intros v. by apply dom_positive.
    + intros a b Hab. by apply chance_dep.
    + intros a Ha. apply H; [lia|done].
    + exists p. split; [done|]. intros q _ Hq a Ha. eapply Qcle_trans; [done|]. by apply Hb.
  - exists p. split; [done|]. intros x a Hx Ha. apply Hall; [|done]. apply elem_of_seq. lia.
Qed.
Lemma rate_small D k p c : 0 < D -> (0 < p)%Qc -> (0 < c)%Qc -> exists e m, (0 < e)%Qc /\ 0 < m /\ (qn D * e < p)%Qc /\
  forall L d, m <= L -> d <= D -> (((1 + 1) * (qn D * e) + qn k / qn L * qn d) / (p - qn D * e) <= c)%Qc.
Proof.
  intros HD Hp Hc. assert (0 < qn D)%Qc as HqD by by apply qn_pos. set (four := (1 + 1 + 1 + 1)%Qc). assert (0 <= four)%Qc as H4 by done.
  destruct (small_enough four p p H4 Hp Hp) as (hp & Hhp & _ & Hhp4).
  destruct (small_enough four hp (c * p)) as (z & Hz & Hz1 & Hz2); [done|done|clear -Hc Hp; to_q; nra|].
  destruct (small_enough (qn D) 1 z) as (e & He & _ & He1); [by apply Qclt_le_weak|done|done|].
  destruct (many_enough (qn k * qn D / z)%Qc) as (m & Hm & Hmany). exists e, m. split; [done|]. split; [done|].
  assert (0 <= qn D * e)%Qc as Hg0 by (clear -He HqD; to_q; nra).
  assert ((qn D * e < p)%Qc) as Hg by (clear -He1 Hz1 Hhp4 Hhp; unfold four in *; set (g := (qn D * e)%Qc) in *; clearbody g; to_q; lra). split; [done|].
  intros L d Hlen Hd'. assert (0 < L) as Hl by lia. apply quotient_le; [clear -Hg; set (g := (qn D * e)%Qc) in *; clearbody g; to_q; lra|].
    assert (qn k / qn L * qn d <= z)%Qc as Hs.
    { pose proof (Hmany L Hlen) as Hq. pose proof (qn_mono _ _ Hd') as Hdd. pose proof (qn_pos L Hl) as HLp. pose proof (qn_ne L Hl) as HLn. assert (z <> 0%Qc) as Hzn by (intros ->; by apply Qclt_not_eq in Hz).
      assert (0 <= qn k)%Qc as Hk0 by (apply (qn_mono 0); lia).
      replace (qn k / qn L * qn d)%Qc with (qn k * qn d / qn L)%Qc by (by field). apply quotient_le; [done|].
      assert (qn k * qn D <= z * qn L)%Qc as H1. { set (r := (qn k * qn D / z)%Qc) in *. assert (qn k * qn D = r * z)%Qc as -> by (unfold r; by field). clearbody r. clear -Hq Hz. to_q. nra. }
      assert (qn k * qn d <= qn k * qn D)%Qc as H2 by (clear -Hdd Hk0; to_q; nra). by eapply Qcle_trans. }
    set (g := (qn D * e)%Qc) in *. set (s := (qn k / qn L * qn d)%Qc) in *. clearbody g s. clear -Hs He1 Hg0 Hz1 Hz2 Hhp4 Hhp Hc Hz Hp. unfold four in *. assert (c * (four * g) <= c * p)%Qc as H1 by (unfold four; to_q; nra). unfold four in *. to_q. lra.
Qed.
Theorem generated_limit N cs ts : netinv N -> nt_topo N = [] -> doms_positive N -> 0 < net_size N -> weakly_connected N -> node_tables N cs = Ok ts -> distributions N ts ->
  forall w err k, (0 < w)%Qc -> (0 < err)%Qc -> (forall x a, x < net_size N -> valid (net_dom N) a -> (0 < chance N ts (parents_of N x) a)%Qc) ->
  exists e m, (0 < e)%Qc /\ forall us, m <= length us -> (forall u, u ∈ us -> uniform u) -> discrepancy e (net_size N) us -> forall coin o, valid_order o ->
  exists M samples ts2 T, generate_samples N cs us = Ok (M, samples) /\ learn_params N (sample_columns (net_size N) samples) (Z.of_nat k) coin [] = Ok ts2 /\ jt_build o N ts2 = Ok T /\
  (forall x q t a, ts !! x = Some q -> ts2 !! x = Some t -> valid (net_dom N) a -> differ_by err (tval t a) (tval q a)) /\
  forall sch E, valid_scheduler sch -> evidence_in_range N E -> (w <= evidence_weight N ts E)%Qc ->
    query_probs sch T E (jt_backup T) = Ok (jt_backup T, answer_all N ts2 E) /\
    forall q x, q < net_size N -> q ∉ fst <$> E -> x < net_dom N q -> differ_by err (posterior N ts2 E q x) (posterior N ts E q x).
Proof.
  intros HN Ht Hd Hn Hw Hcs Hts w err k Hw0 Herr Hpos0. destruct (parents_possible N ts HN Hd Hts Hpos0) as (p & Hp & Hpos).
  pose proof (prod_list_pos _ Hd) as HD. set (D := prod_list (domain_sizes N)) in *. set (A := qn (net_size N * D)).
  assert (0 < A)%Qc as HA by (apply qn_pos; nia). assert (0 < qn D)%Qc as HqD by by apply qn_pos.
  set (four := (1 + 1 + 1 + 1)%Qc). assert (0 <= four)%Qc as H4 by done.
  destruct (small_enough four w w H4 Hw0 Hw0) as (hw & Hhw & _ & Hhw4).
  destruct (small_enough 1 hw (err * hw)) as (y & Hy & Hy1 & Hy2); [done|done|clear -Herr Hhw; to_q; nra|].
  destruct (small_enough A err y) as (c & Hc & Hc1 & Hc2); [by apply Qclt_le_weak|done|done|].
  destruct (rate_small D k p c HD Hp Hc) as (e & m & He & Hm & Hg & Hrate). exists e, m. split; [done|]. intros us Hlen Hu Hdis coin o Ho.
  assert (us <> []) as Hne by (intros ->; cbn in Hlen; lia). assert (forall v, net_dom N v <= D) as Hdom by (intros v; by apply dom_le_prod).
  set (L := length us) in *. pose proof (fun d => Hrate L d Hlen) as HB.
  destruct (generated_learned N cs ts HN Ht Hd Hn Hw Hcs Hts us e p Hne Hu Hdis Hpos Hg k D Hdom coin o Ho) as (M & samples & ts2 & T & G1 & G2 & G3 & G4 & G5).
  exists M, samples, ts2, T. split_and!; [done|done|done|..].
  - intros x q t a Hq Hqt Ha. destruct (G4 x q t a Hq Hqt Ha) as [Q1 Q2]. pose proof (HB (net_dom N x) (Hdom x)) as B. fold D L in Q1, Q2. set (b := (((1 + 1) * (qn D * e) + qn k / qn L * qn (net_dom N x)) / (p - qn D * e))%Qc) in *. clearbody b. clear -Q1 Q2 B Hc1. set (t1 := tval t a) in *. set (t2 := tval q a) in *. clearbody t1 t2. split; to_q; lra.
  - intros sch E Hsch HE HwE. specialize (G5 sch E Hsch HE). pose proof (HB D (le_n D)) as B. fold D L in G5. fold A in G5. set (b := (((1 + 1) * (qn D * e) + qn k / qn L * qn D) / (p - qn D * e))%Qc) in *.
    set (W := evidence_weight N ts E) in *. assert (A * b <= y)%Qc as Hh by (clearbody b A; clear -B Hc2 HA; to_q; nra). set (h := (A * b)%Qc) in *.
    assert (h < W)%Qc as HhW by (clear -Hh Hy1 Hhw4 HwE Hhw; clearbody h W; unfold four in *; to_q; lra). destruct (G5 HhW) as [R1 R2]. split; [done|]. intros q x Hq Hqe Hx. destruct (R2 q x Hq Hqe Hx) as [S1 S2].
    assert ((1 + 1) * h / W <= err)%Qc as HE2.
    { clearbody h W. clear -HwE Hw0 Hh Hy2 Hhw4 Herr Hhw. unfold four in *. apply quotient_le; [to_q; lra|]. assert (err * w <= err * W)%Qc as K1 by (to_q; nra). assert (err * ((1 + 1 + 1 + 1) * hw) <= err * w)%Qc as K2 by (clear -Hhw4 Herr; set (v := ((1 + 1 + 1 + 1) * hw)%Qc) in *; clearbody v; to_q; nra). set (v := (err * hw)%Qc) in *. replace (err * ((1 + 1 + 1 + 1) * hw))%Qc with ((1 + 1 + 1 + 1) * v)%Qc in K2 by (unfold v; ring). assert (0 <= v)%Qc as K3 by (clear -Hhw Herr; unfold v; to_q; nra). clearbody v. set (u1 := (err * w)%Qc) in *. set (u2 := (err * W)%Qc) in *. clearbody u1 u2. to_q. lra. }
    set (b2 := ((1 + 1) * h / W)%Qc) in *. clearbody b2. set (t1 := posterior N ts2 E q x) in *. set (t2 := posterior N ts E q x) in *. clearbody t1 t2. clear -S1 S2 HE2. split; to_q; lra.
Qed.
Theorem predictions_limit N cs ts : netinv N -> nt_topo N = [] -> doms_positive N -> 0 < net_size N -> weakly_connected N -> node_tables N cs = Ok ts -> distributions N ts ->
  forall err k, (0 < err)%Qc -> 0 < k -> (forall x a, x < net_size N -> valid (net_dom N) a -> (0 < chance N ts (parents_of N x) a)%Qc) ->
  exists e m, (0 < e)%Qc /\ forall us us', m <= length us -> m <= length us' -> (forall u, u ∈ us ++ us' -> uniform u) -> discrepancy e (net_size N) us -> discrepancy e (net_size N) us' -> forall coin o, valid_order o ->
  exists M samples M' tests ts2 T, generate_samples N cs us = Ok (M, samples) /\ generate_samples N cs us' = Ok (M', tests) /\ learn_params N (sample_columns (net_size N) samples) (Z.of_nat k) coin [] = Ok ts2 /\ jt_build o N ts2 = Ok T /\
  forall q xs, q < net_size N -> (forall v, v ∈ xs -> v < net_size N) -> NoDup xs -> q ∉ xs -> forall sch, (forall i, valid_scheduler (sch i)) -> let D := sample_columns (net_size N) tests in
  exists labels acc, predict sch T q (row_questions D xs) = Ok labels /\ accuracy (row_truths D q) (Z.of_nat <$> labels) = Ok acc /\
  forall ps, from_evidence (row_questions D xs) ps -> exists acc', accuracy (row_truths D q) ps = Ok acc' /\ (acc' <= acc + err)%Qc.
Proof.
  intros HN Ht Hd Hn Hw Hcs Hts err k Herr Hk Hpos0. destruct (parents_possible N ts HN Hd Hts Hpos0) as (p & Hp & Hpos).
  pose proof (prod_list_pos _ Hd) as HD. set (D := prod_list (domain_sizes N)) in *. assert (0 < qn D)%Qc as HqD by by apply qn_pos. pose proof (qn_pos _ Hn) as Hqn.
  set (four := (1 + 1 + 1 + 1)%Qc). assert (0 <= four)%Qc as H4 by done. assert (0 <= four * qn D)%Qc as H4D by (clear -HqD; unfold four; to_q; lra).
  destruct (small_enough (four * qn D) err err H4D Herr Herr) as (y & Hy & _ & Hy4).
  destruct (small_enough (qn (net_size N)) y y) as (c & Hc & _ & Hc2); [by apply Qclt_le_weak|done|done|].
  destruct (rate_small D k p c HD Hp Hc) as (e & m & He & Hm & Hg & Hrate).
  destruct (small_enough 1 e y) as (e1 & He1 & Hee & Hey); [done|done|done|]. exists e1, (m `max` 20). split; [done|].
  intros us us' Hl Hl' Hu Hdis Hdis' coin o Ho. assert (us <> []) as Hne by (intros ->; cbn in Hl; lia).
  assert (discrepancy e (net_size N) us) as Hdise. { intros box Hbox. destruct (Hdis box Hbox) as [Q1 Q2]. split; (eapply Qcle_trans; [eassumption|]); apply Qcplus_le_compat; done || apply Qcle_refl. }
  assert (forall u, u ∈ us -> uniform u) as Hu1 by (intros u H; apply Hu, elem_of_app; by left).
  destruct (generated_predictions N cs ts HN Ht Hd Hn Hw Hcs Hts us e p Hne Hu1 Hdise Hpos Hg k c Hk) with (us' := us') (e' := e1) (coin := coin) (o := o) as (M & samples & M' & tests & ts2 & T & G1 & G2 & G3 & G4 & G5); [..|done|].
  { intros x Hx. apply Hrate; [lia|by apply dom_le_prod]. } { lia. } { intros u H. apply Hu, elem_of_app. by right. } { done. }
  exists M, samples, M', tests, ts2, T. split_and!; [done..|]. intros q xs Hq Hxs Hnd Hqx sch Hsch.
  destruct (G5 q xs Hq Hxs Hnd Hqx sch Hsch) as (labels & acc & R1 & R2 & R3). exists labels, acc. split_and!; [done..|]. intros ps Hps. destruct (R3 ps Hps) as (acc' & S1 & S2). exists acc'. split; [done|]. fold D in S2.
  assert ((1 + 1) * qn D * (e1 + qn (net_size N) * c) <= err)%Qc as HE.
  { set (v := (qn (net_size N) * c)%Qc) in *. clearbody v. clear -Hc2 Hey Hy4 HqD. unfold four in *. assert (qn D * e1 <= qn D * y)%Qc as K1 by (to_q; nra). assert (qn D * v <= qn D * y)%Qc as K2 by (to_q; nra). set (x := qn D) in *. clearbody x. to_q. lra. }
  set (b := ((1 + 1) * qn D * (e1 + qn (net_size N) * c))%Qc) in *. clearbody b. clear -S2 HE. to_q. lra.
Qed.
Theorem draws_exist d e m : 0 < d -> (0 < e)%Qc -> exists us, m <= length us /\ (forall u, u ∈ us -> uniform u) /\ discrepancy e d us.
Proof.
  intros Hd He. assert (e <> 0%Qc) as Hne by (intros ->; by apply Qclt_not_eq in He). destruct (many_enough (qn d / e)%Qc) as (n & Hn & Hmany). set (k := n `max` m). assert (0 < k) as Hk by lia.
  destruct (grid_discrepancy k d Hk) as (H1 & H2 & H3). exists (grid k d). split_and!; [|done|].
  - rewrite H3. transitivity k; [lia|]. rewrite <-(Nat.pow_1_r k) at 1. apply Nat.pow_le_mono_r; lia.
  - assert (qn d / qn k <= e)%Qc as Hle. { apply quotient_le; [by apply qn_pos|]. assert (n <= k) as Hnk by lia. pose proof (Hmany k Hnk) as Hq. set (r := (qn d / e)%Qc) in *. assert (qn d = r * e)%Qc as -> by (unfold r; by field). clearbody r. clear -Hq He. to_q. nra. }
    intros box Hbox. destruct (H1 box Hbox) as [Q1 Q2]. split; (eapply Qcle_trans; [eassumption|]); apply Qcplus_le_compat; done || apply Qcle_refl.
Qed.
