(** Learning from more and more representative data, in the limit. *)
From Coq Require Import Field QArith Lqa.
From Verif Require Import Sums SimulateSpec SimulateProofs SimulateTheorems SimulateLimit BayesSpec BayesProofs LearnProofs RecoverProofs RecoverClose IndepTheorems GibbsProofs CoverProofs TableProofs2 TableProofs.
Local Open Scope nat_scope.

Theorem close_limit N ts : netinv N -> doms_positive N -> 0 < net_size N -> weakly_connected N -> distributions N ts ->
  forall w err k, (0 < w)%Qc -> (0 < err)%Qc -> (forall x a, x < net_size N -> valid (net_dom N) a -> (0 < chance N ts (parents_of N x) a)%Qc) ->
  exists e m, (0 < e)%Qc /\ forall D, complete N D -> co_vars D = net_size N -> m <= co_rows D -> nearly_representative e N ts D -> forall coin o, valid_order o ->
  exists ts2 T, learn_params N D (Z.of_nat k) coin [] = Ok ts2 /\ jt_build o N ts2 = Ok T /\
  (forall x q t a, ts !! x = Some q -> ts2 !! x = Some t -> valid (net_dom N) a -> differ_by err (tval t a) (tval q a)) /\
  forall sch E, valid_scheduler sch -> evidence_in_range N E -> (w <= evidence_weight N ts E)%Qc ->
    query_probs sch T E (jt_backup T) = Ok (jt_backup T, answer_all N ts2 E) /\
    forall q x, q < net_size N -> q ∉ fst <$> E -> x < net_dom N q -> differ_by err (posterior N ts2 E q x) (posterior N ts E q x).
Proof.
  intros HN Hd Hn Hw Hts w err k Hw0 Herr Hpos0. destruct (parents_possible N ts HN Hd Hts Hpos0) as (p & Hp & Hpos).
  pose proof (prod_list_pos _ Hd) as HD. set (D := prod_list (domain_sizes N)) in *. set (A := qn (net_size N * D)).
  assert (0 < A)%Qc as HA by (apply qn_pos; nia). assert (0 < qn D)%Qc as HqD by by apply qn_pos.
  set (four := (1 + 1 + 1 + 1)%Qc). assert (0 <= four)%Qc as H4 by done.
  destruct (small_enough four w w H4 Hw0 Hw0) as (hw & Hhw & _ & Hhw4).
  destruct (small_enough 1 hw (err * hw)) as (y & Hy & Hy1 & Hy2); [done|done|clear -Herr Hhw; to_q; nra|].
  destruct (small_enough A err y) as (c & Hc & Hc1 & Hc2); [by apply Qclt_le_weak|done|done|].
  destruct (rate_small D k p c HD Hp Hc) as (e & m & He & Hm & Hg & Hrate). exists (qn D * e)%Qc, m. split; [clear -He HqD; to_q; nra|]. intros data HC Hs Hlen HR coin o Ho.
  assert (forall v, net_dom N v <= D) as Hdom by (intros v; by apply dom_le_prod).
  set (L := co_rows data) in *. pose proof (fun d => Hrate L d Hlen) as HB.
  destruct (close_tables N HN Hd ts data Hts HC Hs (qn D * e)%Qc p HR Hpos Hg k coin) as (ts2 & L1 & _ & G4). destruct (close_learning N HN Hd Hn Hw ts data Hts HC Hs (qn D * e)%Qc p HR Hpos Hg k D Hdom coin o Ho) as (ts3 & T & L2 & G3 & G5). rewrite L1 in L2. injection L2 as <-.
  exists ts2, T. split_and!; [done|done|..].
  - intros x q t a Hq Hqt Ha. destruct (G4 x q t a Hq Hqt Ha) as [Q1 Q2]. pose proof (HB (net_dom N x) (Hdom x)) as B. fold D L in Q1, Q2. set (b := (((1 + 1) * (qn D * e) + qn k / qn L * qn (net_dom N x)) / (p - qn D * e))%Qc) in *. clearbody b. clear -Q1 Q2 B Hc1. set (t1 := tval t a) in *. set (t2 := tval q a) in *. clearbody t1 t2. split; to_q; lra.
  - intros sch E Hsch HE HwE. specialize (G5 sch E Hsch HE). pose proof (HB D (le_n D)) as B. fold D L in G5. fold A in G5. set (b := (((1 + 1) * (qn D * e) + qn k / qn L * qn D) / (p - qn D * e))%Qc) in *.
    set (W := evidence_weight N ts E) in *. assert (A * b <= y)%Qc as Hh by (clearbody b A; clear -B Hc2 HA; to_q; nra). set (h := (A * b)%Qc) in *.
    assert (h < W)%Qc as HhW by (clear -Hh Hy1 Hhw4 HwE Hhw; clearbody h W; unfold four in *; to_q; lra). destruct (G5 HhW) as [R1 R2]. split; [done|]. intros q x Hq Hqe Hx. destruct (R2 q x Hq Hqe Hx) as [S1 S2].
    assert ((1 + 1) * h / W <= err)%Qc as HE2.
    { clearbody h W. clear -HwE Hw0 Hh Hy2 Hhw4 Herr Hhw. unfold four in *. apply quotient_le; [to_q; lra|]. assert (err * w <= err * W)%Qc as K1 by (to_q; nra). assert (err * ((1 + 1 + 1 + 1) * hw) <= err * w)%Qc as K2 by (clear -Hhw4 Herr; set (v := ((1 + 1 + 1 + 1) * hw)%Qc) in *; clearbody v; to_q; nra). set (v := (err * hw)%Qc) in *. replace (err * ((1 + 1 + 1 + 1) * hw))%Qc with ((1 + 1 + 1 + 1) * v)%Qc in K2 by (unfold v; ring). assert (0 <= v)%Qc as K3 by (clear -Hhw Herr; unfold v; to_q; nra). clearbody v. set (u1 := (err * w)%Qc) in *. set (u2 := (err * W)%Qc) in *. clearbody u1 u2. to_q. lra. }
    set (b2 := ((1 + 1) * h / W)%Qc) in *. clearbody b2. set (t1 := posterior N ts2 E q x) in *. set (t2 := posterior N ts E q x) in *. clearbody t1 t2. clear -S1 S2 HE2. split; to_q; lra.
Qed.
