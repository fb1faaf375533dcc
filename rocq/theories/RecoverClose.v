(** How far learned parameters and answers can be from those of the network the data look like. *)
From Coq Require Import Field QArith Lqa.
From Verif Require RoundProofs.
From Verif Require Import RecoverSpec EssentialSpec NetProofs2 BuildProofs CountProofs QueryProofs Sums BeliefProofs LearnProofs LearnTheorems JTTheorems ShdTheorems SampleProofs GibbsProofs LikelihoodProofs CoverProofs EquivTheorems RecoverProofs RecoverTheorems FlowProofs TableProofs2 TableProofs.
Local Open Scope nat_scope.

Lemma ratio_close (f g s C q d e p : Qc) : (0 <= q -> q <= 1 -> 1 <= d -> 0 <= s -> differ_by e g C -> differ_by e f (q * C) -> p <= C -> e < p ->
  differ_by (((1 + 1) * e + s * d) / (p - e)) ((f + s) / (g + s * d)) q)%Qc.
Proof.
  intros Hq0 Hq1 Hd Hs [G1 G2] [F1 F2] Hp He.
  set (t := ((f + s) / (g + s * d))%Qc). set (r := (((1 + 1) * e + s * d) / (p - e))%Qc).
  assert (0 < p - e)%Qc as Hpe by (to_q; lra).
  assert (0 <= s * d)%Qc as Hsd by (apply Qc_le_mul_nonneg; [done|]; to_q; lra).
  assert (p - e <= g + s * d)%Qc as Hg by (to_q; lra).
  assert (0 < g + s * d)%Qc as Hg0 by (to_q; lra).
  assert (t * (g + s * d) = f + s)%Qc as Ht by (unfold t; field; intros E; rewrite E in Hg0; by apply Qclt_not_eq in Hg0).
  assert (r * (p - e) = (1 + 1) * e + s * d)%Qc as Hr by (unfold r; field; intros E; rewrite E in Hpe; by apply Qclt_not_eq in Hpe).
  assert (0 <= e)%Qc as He0 by (to_q; lra).
  assert (0 <= r)%Qc as Hr0. { unfold r. apply Qc_div_nonneg; [|by apply Qclt_le_weak]. to_q. lra. }
  clearbody t r. apply (f_equal this) in Ht, Hr. assert (this (t * (g + s * d))%Qc == this (f + s)%Qc)%Q as Ht' by (by rewrite Ht). assert (this (r * (p - e))%Qc == this ((1 + 1) * e + s * d)%Qc)%Q as Hr' by (by rewrite Hr). clear Ht Hr.
  unfold differ_by. to_q.
  set (F := this f) in *. set (G := this g) in *. set (S := this s) in *. set (c := this C) in *. set (Q := this q) in *. set (d' := this d) in *. set (E := this e) in *. set (P := this p) in *. set (T := this t) in *. set (R := this r) in *. clearbody F G S c Q d' E P T R.
  assert (0 <= S * d' * Q)%Q as A1 by nra. assert (S * d' * Q <= S * d')%Q as A2 by nra. assert (S <= S * d')%Q as A3 by nra.
  assert (Q * G <= Q * c + E)%Q as A4 by nra. assert (Q * c <= Q * G + E)%Q as A5 by nra.
  split.
  - destruct (Qlt_le_dec (Q + R) T) as [Hlt|]; [exfalso|done].
    assert (0 < (T - Q - R) * (P - E))%Q as B1 by (apply Qmult_lt_0_compat; lra). assert (0 <= (T - Q) * (G + S * d' - (P - E)))%Q as B2 by (apply Qmult_le_0_compat; lra). nra.
  - destruct (Qlt_le_dec (T + R) Q) as [Hlt|]; [exfalso|done].
    assert (0 < (Q - T - R) * (P - E))%Q as B1 by (apply Qmult_lt_0_compat; lra). assert (0 <= (Q - T) * (G + S * d' - (P - E)))%Q as B2 by (apply Qmult_le_0_compat; lra). nra.
Qed.

(** ** Tables *)
Lemma learn_succeeds N : netinv N -> doms_positive N -> forall D, complete N D -> co_vars D = net_size N -> forall k coin,
  (forall x a, x < net_size N -> valid (net_dom N) a -> occurrences (co_cols D) (co_rows D) (parents_of N x) a <> 0) -> exists ts, learn_params N D (Z.of_nat k) coin [] = Ok ts.
Proof.
  intros HN Hd D HD Hs k coin Ho. destruct (decide (k = 0)) as [->|Hk].
  - destruct (learn_params_zero N HN Hd D HD 0 Hs coin eq_refl) as [H1 _]. destruct H1 as (ts & Hts & _); [|by exists ts]. intros x nd a Hx Ha. rewrite <-(parents_lookup N x nd Hx). apply Ho; [|done]. unfold net_size. by eapply lookup_lt_Some.
  - destruct (learn_params_plain N HN Hd D HD (Z.of_nat k) Hs ltac:(lia) coin) as (ts & Hts & _). by exists ts.
Qed.
Lemma qn_mul a b : (qn (a * b) = qn a * qn b)%Qc.
Proof. induction a as [|a IH]; [change (qn 0) with 0%Qc; by rewrite Qcmult_0_l|]. cbn [Nat.mul]. rewrite qn_add, IH, qn_S. ring. Qed.
Lemma qn_nn m : (0 <= qn m)%Qc.
Proof. destruct m; [by apply Qcle_refl|]. apply Qclt_le_weak, qn_pos. lia. Qed.
Theorem close_tables N : netinv N -> doms_positive N -> forall ts D, distributions N ts -> complete N D -> co_vars D = net_size N ->
  forall e p, nearly_representative e N ts D -> (forall x a, x < net_size N -> valid (net_dom N) a -> (p <= chance N ts (parents_of N x) a)%Qc) -> (e < p)%Qc -> forall k coin,
  exists ts2, learn_params N D (Z.of_nat k) coin [] = Ok ts2 /\ distributions N ts2 /\
  forall x q t a, ts !! x = Some q -> ts2 !! x = Some t -> valid (net_dom N) a ->
    differ_by (((1 + 1) * e + qn k / qn (co_rows D) * qn (net_dom N x)) / (p - e))%Qc (tval t a) (tval q a).
Proof.
  intros HN Hd ts D Hts HD Hs e p [Hm HR] Hp He k coin. pose proof (qn_pos (co_rows D) Hm) as Hm1. pose proof (qn_ne (co_rows D) Hm) as Hm0.
  destruct (learn_succeeds N HN Hd D HD Hs k coin) as [ts2 L].
  { intros x a Hx Ha E. destruct (HR x a Hx Ha) as [[_ H] _]. specialize (Hp x a Hx Ha). unfold fraction in H. rewrite E in H. change (qn 0) with 0%Qc in H. unfold Qcdiv in H. rewrite Qcmult_0_l in H. to_q. lra. }
  exists ts2. split; [done|]. split; [by apply (learned_maximise N HN Hd D HD Hs k coin ts2 L)|]. intros x q t a Hq Ht Ha.
  destruct (learned_cpts N HN Hd D HD Hs k coin ts2 L) as [Hl Hall]. destruct (lookup_lt_is_Some_2 (nt_nodes N) x) as [nd Hx]; [apply lookup_lt_Some in Ht; unfold net_size in *; lia|].
  destruct (Hall x nd Hx) as (t' & Ht' & (_ & _ & HC) & Ho). assert (t' = t) as -> by congruence. rewrite <-(parents_lookup N x nd Hx) in *. assert (x < net_size N) as Hxn by (unfold net_size; by eapply lookup_lt_Some).
  destruct (HR x a Hxn Ha) as [R1 R2]. rewrite (chance_family' N HN Hd ts Hts x q a Hq Ha) in R2. destruct (entry_bounds N HN Hd ts Hts x q a Hq Ha) as [Q0 Q1].
  assert (1 <= qn (net_dom N x))%Qc as Hdx. { pose proof (dpos N HN Hd x) as H. destruct (net_dom N x) as [|d]; [lia|]. rewrite qn_S. pose proof (qn_nn d). to_q. lra. }
  assert (0 <= qn k / qn (co_rows D))%Qc as Hk by (apply Qc_div_nonneg; [apply qn_nn|by apply Qclt_le_weak]).
  pose proof (ratio_close _ _ _ _ _ _ _ _ Q0 Q1 Hdx Hk R1 R2 (Hp x a Hxn Ha) He) as HB.
  rewrite (HC a Ha). unfold smoothed. unfold fraction in HB. set (c := qn (occurrences (co_cols D) (co_rows D) (parents_of N x) a)) in *. set (m := qn (co_rows D)) in *. set (d := qn (net_dom N x)) in *.
  assert (c + LearnModel.qz (Z.of_nat k) * d <> 0)%Qc as Hcd. { unfold c, d. change (LearnModel.qz (Z.of_nat k)) with (qn k). specialize (Ho a Ha). rewrite <-qn_mul, <-qn_add. apply qn_ne. lia. }
  change (LearnModel.qz (Z.of_nat k)) with (qn k) in *. set (f := qn (occurrences (co_cols D) (co_rows D) (x :: parents_of N x) a)) in *. set (s := qn k) in *.
  assert ((f / m + s / m) / (c / m + s / m * d) = (f + s) / (c + s * d))%Qc as <-; [|done]. field. done.
Qed.

(** ** Products and sums of close numbers *)
Lemma product_close (a b P R e k : Q) : (0 <= a -> a <= 1 -> 0 <= R -> R <= 1 -> 0 <= e -> 0 <= k -> a <= b + e -> P <= R + k -> a * P <= b * R + (e + k))%Q.
Proof. intros. assert (0 <= a * (R + k - P))%Q by (apply Qmult_le_0_compat; lra). assert (0 <= (b + e - a) * R)%Q by (apply Qmult_le_0_compat; lra). assert (0 <= (1 - a) * k)%Q by (apply Qmult_le_0_compat; lra). assert (0 <= (1 - R) * e)%Q by (apply Qmult_le_0_compat; lra). lra. Qed.
Lemma qprod_close {A} (l : list A) (f g : A -> Qc) e : (forall x, x ∈ l -> (0 <= f x /\ f x <= 1 /\ 0 <= g x /\ g x <= 1)%Qc /\ differ_by e (f x) (g x)) -> l <> [] ->
  (0 <= qprod l f /\ qprod l f <= 1 /\ 0 <= qprod l g /\ qprod l g <= 1)%Qc /\ differ_by (qn (length l) * e)%Qc (qprod l f) (qprod l g).
Proof.
  intros H Hne. assert (0 <= e)%Qc as He. { destruct l as [|x l]; [done|]. destruct (H x) as [_ [H1 H2]]; [left|]. to_q. lra. } clear Hne.
  induction l as [|x l IH].
  - change (qprod [] f) with 1%Qc. change (qprod [] g) with 1%Qc. cbn [length]. change (qn 0) with 0%Qc. unfold differ_by. split_and!; to_q; lra.
  - destruct (H x) as [(F0 & F1 & G0 & G1) [E1 E2]]; [left|]. destruct IH as [(P0 & P1 & R0 & R1) [E3 E4]]; [intros y Hy; apply H; by right|]. rewrite !qprod_cons. cbn [length]. rewrite qn_S.
    set (a := f x) in *. set (b := g x) in *. set (P := qprod l f) in *. set (R := qprod l g) in *. set (k := qn (length l)) in *. unfold differ_by. pose proof (qn_nn (length l)) as Hk. fold k in Hk. to_q. assert (0 <= this k * this e)%Q as Hke by (by apply Qmult_le_0_compat).
    pose proof (product_close (this a) (this b) (this P) (this R) (this e) (this k * this e)). pose proof (product_close (this b) (this a) (this R) (this P) (this e) (this k * this e)). split_and!; nra.
Qed.
Lemma qsum_close {A} (l : list A) (f g : A -> Qc) e : (forall x, x ∈ l -> differ_by e (f x) (g x)) -> differ_by (qn (length l) * e)%Qc (qsum l f) (qsum l g).
Proof.
  induction l as [|x l IH]; intros H; [rewrite !qsum_nil; cbn [length]; change (qn 0) with 0%Qc; unfold differ_by; split; to_q; lra|].
  destruct (H x) as [E1 E2]; [left|]. destruct IH as [E3 E4]; [intros y Hy; apply H; by right|]. rewrite !qsum_cons. cbn [length]. rewrite qn_S. unfold differ_by. to_q. split; nra.
Qed.
Lemma sumv_close dom vs (F G : asg -> Qc) e a : valid dom a -> (forall b, valid dom b -> differ_by e (F b) (G b)) -> differ_by (qn (prod_list (dom <$> vs)) * e)%Qc (sumv dom vs F a) (sumv dom vs G a).
Proof.
  intros Ha H. rewrite !sumv_configs. rewrite <-configs_length. apply qsum_close. intros cfg Hc. apply H. apply valid_upds; [done|]. by apply elem_of_configs.
Qed.

(** ** Answers *)
Lemma quotient_close (A B A' B' h : Qc) : (0 < B -> 0 < B' -> 0 <= A' / B' -> A' / B' <= 1 -> differ_by h A' A -> differ_by h B' B -> differ_by ((1 + 1) * h / B) (A' / B') (A / B))%Qc.
Proof.
  intros HB HB' R0 R1 [A1 A2] [B1 B2]. set (r' := (A' / B')%Qc) in *. set (r := (A / B)%Qc). set (z := ((1 + 1) * h / B)%Qc).
  assert (r' * B' = A')%Qc as E1 by (unfold r'; field; intros E; rewrite E in HB'; by apply Qclt_not_eq in HB').
  assert (r * B = A)%Qc as E2 by (unfold r; field; intros E; rewrite E in HB; by apply Qclt_not_eq in HB).
  assert (z * B = (1 + 1) * h)%Qc as E3 by (unfold z; field; intros E; rewrite E in HB; by apply Qclt_not_eq in HB).
  clearbody r r' z. subst A A'. apply (f_equal this) in E3. assert (this (z * B)%Qc == this ((1 + 1) * h)%Qc)%Q as E3' by (by rewrite E3). clear E3.
  unfold differ_by. to_q. set (b := this B) in *. set (b' := this B') in *. set (R := this r) in *. set (R' := this r') in *. set (Z := this z) in *. set (H := this h) in *. clearbody b b' R R' Z H.
  assert (0 <= R' * (b + H - b'))%Q as C1 by (apply Qmult_le_0_compat; lra). assert (0 <= R' * (b' + H - b))%Q as C2 by (apply Qmult_le_0_compat; lra). assert (0 <= (1 - R') * H)%Q as C3 by (apply Qmult_le_0_compat; lra).
  split.
  - destruct (Qlt_le_dec (R + Z) R') as [Hlt|]; [exfalso|done]. assert (0 < (R' - R - Z) * b)%Q by (apply Qmult_lt_0_compat; lra). nra.
  - destruct (Qlt_le_dec (R' + Z) R) as [Hlt|]; [exfalso|done]. assert (0 < (R - R' - Z) * b)%Q by (apply Qmult_lt_0_compat; lra). nra.
Qed.
Lemma prod_filter (dom : nat -> nat) (P : nat -> Prop) `{forall v, Decision (P v)} (l : list nat) : (forall v, 0 < dom v) -> prod_list (dom <$> filter P l) <= prod_list (dom <$> l).
Proof.
  intros Hd. induction l as [|v l IH]; [done|]. destruct (decide (P v)) as [HP|HP]; [rewrite filter_cons_True by done|rewrite filter_cons_False by done]; cbn [fmap list_fmap prod_list foldr]; fold (prod_list (dom <$> l)); [fold (prod_list (dom <$> filter P l)); nia|]. specialize (Hd v). nia.
Qed.
Lemma doms_seq N : net_dom N <$> seq 0 (net_size N) = domain_sizes N.
Proof.
  apply list_eq. intros v. rewrite list_lookup_fmap. destruct (decide (v < net_size N)) as [Hv|Hv].
  - rewrite lookup_seq_lt by done. cbn. unfold net_dom, dom_of. destruct (lookup_lt_is_Some_2 (domain_sizes N) v) as [d Hd']; [unfold domain_sizes; by rewrite fmap_length|]. by rewrite Hd'.
  - rewrite (lookup_ge_None_2 (seq 0 _)) by (rewrite seq_length; lia). rewrite lookup_ge_None_2; [done|]. unfold domain_sizes. rewrite fmap_length. unfold net_size in Hv. lia.
Qed.
Section close.
Context (N : network) (HN : netinv N) (Hd : doms_positive N) (Hn : 0 < net_size N) (ts ts2 : list ptable) (H1 : distributions N ts) (H2 : distributions N ts2) (e : Qc)
  (HC : forall x q t a, ts !! x = Some q -> ts2 !! x = Some t -> valid (net_dom N) a -> differ_by e (tval t a) (tval q a)).
Notation dom := (net_dom N).
Notation n := (net_size N).
Notation K := (prod_list (domain_sizes N)).
Set Default Proof Using "All".
Lemma tables_at x : x < n -> exists q t, ts !! x = Some q /\ ts2 !! x = Some t.
Proof. intros Hx. destruct (lookup_lt_is_Some_2 ts x) as [q Hq]; [rewrite (proj1 H1); done|]. destruct (lookup_lt_is_Some_2 ts2 x) as [t Ht]; [rewrite (proj1 H2); done|]. by exists q, t. Qed.
Lemma zero_valid : valid dom (fun _ => 0).
Proof. intros v. apply (dpos N HN Hd). Qed.
Lemma gap_nn : (0 <= e)%Qc.
Proof. destruct (tables_at 0 Hn) as (q & t & Hq & Ht). destruct (HC 0 q t _ Hq Ht zero_valid) as [C1 C2]. to_q. lra. Qed.
Lemma joint_close a : valid dom a -> differ_by (qn n * e)%Qc (joint ts2 a) (joint ts a).
Proof.
  intros Ha. destruct (topo_exists N HN) as [o O]. rewrite (joint_tab N HN Hd ts H1 o O), (joint_tab N HN Hd ts2 H2 o O).
  assert (length (seq 0 n) = n) as El by apply seq_length. rewrite <-El at 1. apply qprod_close; [|by destruct n as [|m]; [lia|]].
  intros x Hx. apply elem_of_seq in Hx. destruct (tables_at x ltac:(lia)) as (q & t & Hq & Ht). rewrite Hq, Ht. cbn [default].
  destruct (entry_bounds N HN Hd ts H1 x q a Hq Ha), (entry_bounds N HN Hd ts2 H2 x t a Ht Ha). split; [done|]. by eapply HC.
Qed.
Lemma joint_close_evidence E a : evidence_in_range N E -> valid dom a -> differ_by (qn n * e)%Qc (joint ts2 (set_evidence E a)) (joint ts (set_evidence E a)).
Proof.
  intros HE Ha. destruct (topo_exists N HN) as [o O]. set (b := fun v => if decide (v < n) then set_evidence E a v else 0).
  rewrite (SampleProofs.joint_dep N HN Hd ts H1 o O _ b), (SampleProofs.joint_dep N HN Hd ts2 H2 o O _ b) by (intros v Hv; unfold b; by rewrite decide_True).
  apply joint_close. intros v. unfold b. destruct (decide (v < n)); [by apply evidence_within|]. apply (dpos N HN Hd).
Qed.
Lemma sums_close E (P : nat -> Prop) `{forall v, Decision (P v)} a : evidence_in_range N E -> valid dom a ->
  differ_by (qn (n * K) * e)%Qc (sumv dom (filter P (seq 0 n)) (fun a => joint ts2 (set_evidence E a)) a) (sumv dom (filter P (seq 0 n)) (fun a => joint ts (set_evidence E a)) a).
Proof.
  intros HE Ha. destruct (sumv_close dom (filter P (seq 0 n)) _ _ _ a Ha (fun b Hb => joint_close_evidence E b HE Hb)) as [C1 C2].
  pose proof (prod_filter dom P (seq 0 n) (dpos N HN Hd)) as Hle. rewrite doms_seq in Hle. set (k := prod_list (dom <$> filter P (seq 0 n))) in *.
  assert (qn k * (qn n * e) <= qn (n * K) * e)%Qc as Hb.
  { replace K with (k + (K - k)) by lia. rewrite qn_mul, qn_add. pose proof gap_nn as He. pose proof (qn_nn n) as Hnn. pose proof (qn_nn (K - k)) as Hkk. assert (0 <= qn n * (qn (K - k) * e))%Qc as H0 by (apply Qc_le_mul_nonneg; [done|]; by apply Qc_le_mul_nonneg).
    replace (qn n * (qn k + qn (K - k)) * e)%Qc with (qn k * (qn n * e) + qn n * (qn (K - k) * e))%Qc by ring. set (u := (qn k * (qn n * e))%Qc). set (w := (qn n * (qn (K - k) * e))%Qc) in *. clearbody u w. to_q. lra. }
  set (u := (qn k * (qn n * e))%Qc) in *. set (w := (qn (n * K) * e)%Qc) in *. clearbody u w. unfold differ_by. to_q. split; lra.
Qed.
Lemma set_evidence_ext E (a b : asg) : (forall v, a v = b v) -> forall v, set_evidence E a v = set_evidence E b v.
Proof. clear. intros H. unfold set_evidence. induction E as [|c E IH]; cbn [foldr]; [done|]. intros v. unfold upd. by case_bool_decide. Qed.
Lemma weights_sum E q : q < n -> q ∉ fst <$> E -> qsum (seq 0 (dom q)) (JTSpec.weight N ts2 E q) = evidence_weight N ts2 E.
Proof.
  intros Hq HqE. unfold evidence_weight. rewrite (sumv_perm dom _ ([q] ++ filter (fun v => v ∉ q :: (fst <$> E)) (seq 0 n))).
  - rewrite sumv_app, sumv_one_var. done.
  - intros a b Hab. apply qprod_ext. intros t _. apply tval_proper. by apply set_evidence_ext.
  - apply NoDup_filter, NoDup_seq.
  - apply NoDup_Permutation; [apply NoDup_filter, NoDup_seq|cbn; apply NoDup_cons; split; [rewrite elem_of_list_filter; intros [H _]; apply H; left|apply NoDup_filter, NoDup_seq]|].
    intros v. cbn. rewrite elem_of_cons, !elem_of_list_filter, not_elem_of_cons. split; [intros [? ?]; destruct (decide (v = q)); tauto|]. intros [->|[[_ ?] ?]]; [|done]. split; [done|]. apply elem_of_seq. lia.
Qed.
Lemma answers_close E : evidence_in_range N E -> (qn (n * K) * e < evidence_weight N ts E)%Qc ->
  evidence_weight N ts2 E <> 0%Qc /\ forall q x, q < n -> q ∉ fst <$> E -> x < dom q ->
  differ_by ((1 + 1) * (qn (n * K) * e) / evidence_weight N ts E)%Qc (posterior N ts2 E q x) (posterior N ts E q x).
Proof.
  intros HE Hw. pose proof (sums_close E (fun v => v ∉ fst <$> E) (fun _ => 0) HE zero_valid) as HB. fold (evidence_weight N ts2 E) in HB. fold (evidence_weight N ts E) in HB.
  assert (0 <= qn (n * K) * e)%Qc as Hh by (apply Qc_le_mul_nonneg; [apply qn_nn|apply gap_nn]).
  set (h := (qn (n * K) * e)%Qc) in *. set (w := evidence_weight N ts E) in *. set (w2 := evidence_weight N ts2 E) in *.
  assert (0 < w2)%Qc as Hw2 by (destruct HB as [B1 B2]; clearbody h w w2; to_q; lra). assert (0 < w)%Qc as Hw1 by (clearbody h w w2; to_q; lra).
  assert (w2 <> 0%Qc) as Hne by (intros E0; rewrite E0 in Hw2; by apply Qclt_not_eq in Hw2). split; [done|]. intros q x Hq HqE Hx.
  destruct (learned_family N ts2 HN Hd H2) as [F2 G2]. assert (net_ok N) as OK by (by apply netinv_ok).
  pose proof (sums_close E (fun v => v ∉ q :: (fst <$> E)) (upd (fun _ => 0) q x) HE (valid_upd dom _ q x zero_valid Hx)) as HA. fold (JTSpec.weight N ts2 E q x) in HA. fold (JTSpec.weight N ts E q x) in HA.
  assert (forall y, y < dom q -> (0 <= posterior N ts2 E q y)%Qc) as Hnn.
  { intros y Hy. unfold posterior. apply Qc_div_nonneg; [|by apply Qclt_le_weak]. unfold JTSpec.weight. apply sumv_nonneg; [by apply valid_upd; [apply zero_valid|]|]. intros b Hb. 
    destruct (topo_exists N HN) as [o O]. rewrite (SampleProofs.joint_dep N HN Hd ts2 H2 o O _ (fun v => if decide (v < n) then set_evidence E b v else 0)) by (intros v Hv; by rewrite decide_True).
    apply (joint_nn N HN Hd ts2 H2). intros v. destruct (decide (v < n)); [by apply evidence_within|]. apply (dpos N HN Hd). }
  unfold posterior. apply quotient_close; [done|done|by apply Hnn| |done|done].
  fold (posterior N ts2 E q x). assert (qsum (seq 0 (dom q)) (posterior N ts2 E q) = 1%Qc) as <-.
  { unfold posterior, Qcdiv. rewrite qsum_scal_r, weights_sum by done. fold w2. by apply Qcmult_inv_r. }
  apply (qsum_term (seq 0 (dom q)) (posterior N ts2 E q) x); [|apply elem_of_seq; lia]. intros y Hy. apply elem_of_seq in Hy. apply Hnn. lia.
Qed.
End close.

Lemma differ_mono e e' x y : (e <= e')%Qc -> differ_by e x y -> differ_by e' x y.
Proof. intros H [H1 H2]. unfold differ_by. to_q. split; lra. Qed.
Theorem close_learning N : netinv N -> doms_positive N -> 0 < net_size N -> weakly_connected N -> forall ts D, distributions N ts -> complete N D -> co_vars D = net_size N ->
  forall e p, nearly_representative e N ts D -> (forall x a, x < net_size N -> valid (net_dom N) a -> (p <= chance N ts (parents_of N x) a)%Qc) -> (e < p)%Qc ->
  forall k d, (forall v, net_dom N v <= d) -> forall coin o, valid_order o ->
  let h := (qn (net_size N * prod_list (domain_sizes N)) * (((1 + 1) * e + qn k / qn (co_rows D) * qn d) / (p - e)))%Qc in
  exists ts2 T, learn_params N D (Z.of_nat k) coin [] = Ok ts2 /\ jt_build o N ts2 = Ok T /\
  forall sch E, valid_scheduler sch -> evidence_in_range N E -> (h < evidence_weight N ts E)%Qc ->
    query_probs sch T E (jt_backup T) = Ok (jt_backup T, answer_all N ts2 E) /\
    forall q x, q < net_size N -> q ∉ fst <$> E -> x < net_dom N q -> differ_by ((1 + 1) * h / evidence_weight N ts E)%Qc (posterior N ts2 E q x) (posterior N ts E q x).
Proof.
  intros HN Hd Hn Hc ts D Hts HD Hs e p HR Hp He k d Hdd coin o Ho h. destruct (close_tables N HN Hd ts D Hts HD Hs e p HR Hp He k coin) as (ts2 & L & H2 & HC).
  destruct (learned_family N ts2 HN Hd H2) as [F2 G2]. assert (net_ok N) as OK by (by apply netinv_ok). destruct (build_iff N o ts2 OK Hn Ho F2 G2) as [B2 _]. destruct (proj2 B2 Hc) as [T HT].
  exists ts2, T. split; [done|]. split; [done|]. intros sch E S HEv HW. set (e' := (((1 + 1) * e + qn k / qn (co_rows D) * qn d) / (p - e))%Qc) in *.
  assert (forall x q t a, ts !! x = Some q -> ts2 !! x = Some t -> valid (net_dom N) a -> differ_by e' (tval t a) (tval q a)) as HC'.
  { intros x q t a Hq Ht Ha. eapply differ_mono; [|by eapply HC]. unfold e', Qcdiv. apply Qcmult_le_compat_r; [|apply RoundProofs.Qc_inv_nn; to_q; lra].
    assert (qn k / qn (co_rows D) * qn (net_dom N x) <= qn k / qn (co_rows D) * qn d)%Qc as Hle.
    { rewrite !(Qcmult_comm (qn k / qn (co_rows D))). apply Qcmult_le_compat_r; [|apply Qc_div_nonneg; apply qn_nn]. replace d with (net_dom N x + (d - net_dom N x)) by (specialize (Hdd x); lia). rewrite qn_add. pose proof (qn_nn (d - net_dom N x)). to_q. lra. }
    fold (qn k / qn (co_rows D))%Qc. set (u := (qn k / qn (co_rows D) * qn (net_dom N x))%Qc) in *. set (w := (qn k / qn (co_rows D) * qn d)%Qc) in *. clearbody u w. to_q. lra. }
  destruct (answers_close N HN Hd Hn ts ts2 Hts H2 e' HC' E HEv HW) as [Hw2 Hall]. split; [|exact Hall]. by apply (exact_probs N OK Hn o Ho ts2 F2 G2 T HT sch E S).
Qed.
