From Coq Require Import Field QArith.
From Verif Require Import UtilProofs BIFTables BIFProofs2 BIFSpec.
Local Open Scope Qc_scope.

Lemma scaled_bounds q : 0 <= q -> qz (scaled q) <= q * qz 10000 /\ q * qz 10000 < qz (scaled q) + 1.
Proof.
  intros H0. assert (0 <= q * qz 10000)%Qc as Hq. { apply (Qcmult_le_compat_r 0 q (qz 10000)) in H0; [by rewrite Qcmult_0_l in H0|done]. }
  destruct (qtrunc_spec _ Hq) as (Ha & Hb & _). done.
Qed.
Lemma qn_S n : qn (S n) = qn n + 1.
Proof. unfold qn. rewrite Nat2Z.inj_succ. unfold Z.succ. exact (UtilProofs.qz_add (Z.of_nat n) 1). Qed.
Lemma sum_scaled_bounds qs : Forall (fun q => 0 <= q) qs -> qz (sumz qs scaled) <= qsum qs (fun q => q) * qz 10000 /\ qsum qs (fun q => q) * qz 10000 <= qz (sumz qs scaled) + qn (length qs) /\ (0 <= sumz qs scaled)%Z.
Proof.
  induction 1 as [|q qs Hq Hqs IH].
  - unfold sumz, qsum. cbn. split_and!; [| |done]; apply (bool_decide_unpack _); vm_compute; exact I.
  - destruct IH as (IH1 & IH2 & IH3). destruct (scaled_bounds q Hq) as [H1 H2]. change (sumz (q :: qs) scaled) with (scaled q + sumz qs scaled)%Z. change (qsum (q :: qs) (fun q => q)) with (q + qsum qs (fun q => q)).
    cbn [length]. rewrite qn_S, UtilProofs.qz_add, Qcmult_plus_distr_l. split_and!.
    + by apply Qcplus_le_compat.
    + match goal with |- _ <= ?a + ?b + (?c + 1) => replace (a + b + (c + 1)) with ((a + 1) + (b + c)) by ring end. apply Qcplus_le_compat; [by apply Qclt_le_weak|done].
    + assert (0 <= q * qz 10000)%Qc as Hq'. { apply (Qcmult_le_compat_r 0 q (qz 10000)) in Hq; [by rewrite Qcmult_0_l in Hq|done]. } destruct (qtrunc_spec _ Hq') as (_ & _ & Hz). change (0 <= scaled q)%Z in Hz. lia.
Qed.
Lemma qle_div (a b c : Qc) : 0 < c -> (a <= b / c <-> a * c <= b).
Proof.
  intros Hc. assert (c <> 0) as Hn by (intros ->; by apply Qclt_not_eq in Hc). split; intros H.
  - apply (Qcmult_le_compat_r _ _ c) in H; [|by apply Qclt_le_weak]. by replace (b / c * c) with b in H by (field; done).
  - destruct (Qclt_le_dec (b / c) a) as [Hl|Hl]; [|done]. exfalso. apply (Qcmult_lt_compat_r _ _ c) in Hl; [|done]. replace (b / c * c) with b in Hl by (field; done). by apply Qcle_not_lt in H.
Qed.
Lemma qdiv_le (a b c : Qc) : 0 < c -> (b / c <= a <-> b <= a * c).
Proof.
  intros Hc. assert (c <> 0) as Hn by (intros ->; by apply Qclt_not_eq in Hc). split; intros H.
  - apply (Qcmult_le_compat_r _ _ c) in H; [|by apply Qclt_le_weak]. by replace (b / c * c) with b in H by (field; done).
  - destruct (Qclt_le_dec a (b / c)) as [Hl|Hl]; [|done]. exfalso. apply (Qcmult_lt_compat_r _ _ c) in Hl; [|done]. replace (b / c * c) with b in Hl by (field; done). by apply Qcle_not_lt in H.
Qed.
Lemma elem_le_sum qs q : Forall (fun q => 0 <= q) qs -> q ∈ qs -> q <= qsum qs (fun q => q).
Proof.
  intros H. assert (forall qs, Forall (fun q => 0 <= q) qs -> 0 <= qsum qs (fun q => q)) as Hpos.
  { clear. induction 1 as [|q qs Hq _ IH]; [done|]. change (qsum (q :: qs) (fun q => q)) with (q + qsum qs (fun q => q)). by apply (Qcplus_le_compat 0 q 0). }
  induction H as [|q' qs Hq Hqs IH]; [by intros ?%elem_of_nil|]. change (qsum (q' :: qs) (fun q => q)) with (q' + qsum qs (fun q => q)). intros [->|Hin]%elem_of_cons.
  - rewrite <-(Qcplus_0_r q') at 1. apply Qcplus_le_compat; [apply Qcle_refl|by apply Hpos].
  - rewrite <-(Qcplus_0_l q). apply Qcplus_le_compat; [done|by apply IH].
Qed.
(** The error of a row that sums to one. *)
Theorem entry_bound qs y q : Forall (fun q => 0 <= q) qs -> qsum qs (fun q => q) = 1 -> qs !! y = Some q ->
  q - qn (length qs) / qz 10000 <= smoothed_entry qs y /\ smoothed_entry qs y <= q + 1 / qz 10000.
Proof.
  intros Hq Hs Hy. assert (q ∈ qs) as Hin by (by eapply elem_of_list_lookup_2). assert (0 <= q) as H0 by (rewrite Forall_forall in Hq; by apply Hq).
  assert (q <= 1) as H1 by (rewrite <-Hs; by apply elem_le_sum). unfold smoothed_entry. rewrite Hy. cbn [default].
  destruct (scaled_bounds q H0) as [Ha Hb]. destruct (sum_scaled_bounds qs Hq) as (Hc & Hd & He). rewrite Hs, Qcmult_1_l in Hc, Hd.
  set (k := qz (scaled q)) in *. set (S := qz (sumz qs scaled)) in *. set (d := qn (length qs)) in *. set (M := qz 10000) in *.
  assert (0 < M) as HM by done. assert (0 <= d) as Hd0 by (unfold d, qn; apply (UtilProofs.qz_le 0); lia). assert (0 < S + d) as Hpos by (by eapply Qclt_le_trans).
  assert (M <> 0) as HMn by (by intros ?). split.
  - apply qle_div; [done|]. destruct (Qclt_le_dec (q - d / M) 0) as [Hneg|Hnn].
    + apply Qcle_trans with 0; [|].
      * apply Qclt_le_weak in Hneg. apply (Qcmult_le_compat_r _ _ (S + d)) in Hneg; [|by apply Qclt_le_weak]. by rewrite Qcmult_0_l in Hneg.
      * apply Qcle_trans with (q * M); [|by apply Qclt_le_weak]. apply (Qcmult_le_compat_r 0 q M) in H0; [by rewrite Qcmult_0_l in H0|done].
    + apply Qcle_trans with (q * M); [|by apply Qclt_le_weak]. apply Qcle_trans with ((q - d / M) * (M + d)).
      * rewrite !(Qcmult_comm (q - d / M)). apply Qcmult_le_compat_r; [|done]. apply Qcplus_le_compat; [done|apply Qcle_refl].
      * replace ((q - d / M) * (M + d)) with (q * M + (- ((1 - q) * d + d * d / M))) by (field; done). rewrite <-(Qcplus_0_r (q * M)) at 2. apply Qcplus_le_compat; [apply Qcle_refl|].
        rewrite Qcle_minus_iff. replace (0 + - - ((1 - q) * d + d * d / M)) with ((1 - q) * d + d * d / M) by ring. apply (Qcplus_le_compat 0 _ 0).
        { rewrite <-(Qcmult_0_l d). apply Qcmult_le_compat_r; [by rewrite Qcle_minus_iff in H1|done]. }
        { apply qle_div; [done|]. rewrite Qcmult_0_l. rewrite <-(Qcmult_0_l d). by apply Qcmult_le_compat_r. }
  - apply qdiv_le; [done|]. apply Qcle_trans with ((q + 1 / M) * M).
    + replace ((q + 1 / M) * M) with (q * M + 1) by (field; done). apply Qcplus_le_compat; [done|apply Qcle_refl].
    + rewrite !(Qcmult_comm (q + 1 / M)). apply Qcmult_le_compat_r; [done|]. apply (Qcplus_le_compat 0 q 0); [done|]. apply qle_div; [done|]. by rewrite Qcmult_0_l.
Qed.
(** Probabilities of at most four decimals: nothing is lost by rounding down. *)
Lemma scaled_exact z : scaled (qz z / qz 10000) = z.
Proof.
  unfold scaled. replace (qz z / qz 10000 * qz 10000) with (qz z) by (field; by intros ?). unfold UtilModel.qtrunc.
  change (this (qz z)) with (Qred (inject_Z z)). assert (Qred (inject_Z z) = inject_Z z) as ->; [|cbn; by rewrite Z.quot_1_r].
  unfold Qred, inject_Z. pose proof (Z.ggcd_gcd z 1) as H1. pose proof (Z.ggcd_correct_divisors z 1) as H2. destruct (Z.ggcd z 1) as [g [a b]]. cbn in H1. rewrite Z.gcd_1_r in H1. subst g. destruct H2 as [-> H2].
  rewrite Z.mul_1_l in *. rewrite <-H2. done.
Qed.
Theorem entry_exact (zs : list Z) y z : sumz zs (fun z => z) = 10000%Z -> zs !! y = Some z ->
  smoothed_entry ((fun z => qz z / qz 10000) <$> zs) y = (qz z + 1) / (qz 10000 + qn (length zs)) /\
  (smoothed_entry ((fun z => qz z / qz 10000) <$> zs) y = qz z / qz 10000 <-> qz z / qz 10000 = 1 / qn (length zs)).
Proof.
  intros Hs Hy. unfold smoothed_entry. rewrite list_lookup_fmap, Hy. change (default 0 ((fun z => qz z / qz 10000) <$> Some z)) with (qz z / qz 10000). rewrite scaled_exact, fmap_length.
  assert (sumz ((fun z => qz z / qz 10000) <$> zs) scaled = 10000%Z) as ->.
  { transitivity (sumz zs (fun z => z)); [|done]. clear. induction zs as [|z zs IH]; [done|]. transitivity (Z.add (scaled (qz z / qz 10000)) (sumz ((fun z => qz z / qz 10000) <$> zs) scaled)); [reflexivity|].
    rewrite scaled_exact, IH. reflexivity. }
  split; [done|]. assert (0 < qn (length zs)) as Hd.
  { unfold qn. apply (UtilProofs.qz_lt 0). apply lookup_lt_Some in Hy. lia. }
  assert (qn (length zs) <> 0) as Hd0 by (intros E; rewrite E in Hd; by apply Qclt_not_eq in Hd).
  assert (0 < qz 10000 + qn (length zs)) as Hp by (eapply Qclt_le_trans; [exact Hd|]; rewrite <-(Qcplus_0_l (qn (length zs))) at 1; apply Qcplus_le_compat; [done|apply Qcle_refl]).
  assert (qz 10000 + qn (length zs) <> 0) as Hp0 by (intros E; rewrite E in Hp; by apply Qclt_not_eq in Hp).
  assert (qz 10000 <> 0) as HM by (by intros ?). set (d := qn (length zs)) in *. set (M := qz 10000) in *. set (w := qz z) in *. split; intros E.
  - assert (w * d = M) as Hw.
    { assert ((w + 1) / (M + d) * ((M + d) * M) = w / M * ((M + d) * M)) as E2 by (by rewrite E). replace ((w + 1) / (M + d) * ((M + d) * M)) with (w * M + M) in E2 by (field; done).
      replace (w / M * ((M + d) * M)) with (w * M + w * d) in E2 by (field; done). apply (f_equal (fun x => x + - (w * M))) in E2. ring_simplify in E2. by rewrite E2. }
    rewrite <-Hw. field. split; [done|]. intros ->. rewrite Qcmult_0_l in Hw. by rewrite <-Hw in HM.
  - assert (w * d = M) as Hw by (transitivity (w / M * (M * d)); [field; done|rewrite E; field; done]). rewrite <-Hw. field.
    assert (w <> 0) as Hw0 by (intros ->; rewrite Qcmult_0_l in Hw; by rewrite <-Hw in HM). split; [done|]. split; [done|]. by rewrite Hw.
Qed.
