(** Products of numbers with a bounded sum: the inequality of arithmetic and geometric means and, from
    it, that relative frequencies maximise a product of powers. *)
From Coq Require Import Field QArith.
From Verif Require Import LearnModel LearnSpec BeliefSpec Sums CountProofs RoundProofs BeliefProofs.
Local Open Scope Qc_scope.

Notation total l := (qsum l (fun x : Qc => x)).
Notation prodl l := (qprod l (fun x : Qc => x)).

Lemma qn_S n : qn (S n) = 1 + qn n.
Proof. unfold qn. rewrite Nat2Z.inj_succ, <-Z.add_1_l, qz_add. done. Qed.
Lemma Qc_pos_nn (x : Qc) : 0 < x -> 0 <= x.
Proof. apply Qclt_le_weak. Qed.
Lemma Qc_sub_le (x y : Qc) : x <= y <-> 0 <= y - x.
Proof.
  split; intros H.
  - replace 0 with (x + - x) by ring. replace (y - x) with (y + - x) by ring. apply Qcplus_le_compat; [done|apply Qcle_refl].
  - replace x with (0 + x) by ring. replace y with (y - x + x) by ring. apply Qcplus_le_compat; [done|apply Qcle_refl].
Qed.
Lemma Qc_sub_lt (x y : Qc) : x < y <-> 0 < y - x.
Proof.
  split; intros H.
  - apply Qc_nn_pos; [by apply (proj1 (Qc_sub_le _ _)), Qclt_le_weak|]. intros E. assert (x = y) as -> by (replace y with (y - x + x) by ring; rewrite E; ring). by apply Qclt_not_eq in H.
  - destruct (Qcle_lt_or_eq x y) as [| ->]; [by apply (proj2 (Qc_sub_le _ _)), Qclt_le_weak|done|]. replace (y - y) with 0 in H by ring. by apply Qclt_not_eq in H.
Qed.
Lemma Qcmul_pos (x y : Qc) : 0 < x -> 0 < y -> 0 < x * y.
Proof. intros Hx Hy. apply Qc_nn_pos; [apply Qcmul_nn; by apply Qclt_le_weak|]. intros E. apply Qcmult_integral in E as [-> | ->]; [by apply Qclt_not_eq in Hx|by apply Qclt_not_eq in Hy]. Qed.

(** All at most one. *)
Lemma small_product (l : list Qc) : Forall (fun x => 0 <= x /\ x <= 1) l -> 0 <= prodl l /\ prodl l <= 1 /\ (prodl l = 1 -> Forall (fun x => x = 1) l).
Proof.
  induction 1 as [|x l [H0 H1] _ (I0 & I1 & I2)]; [by split_and!|]. rewrite qprod_cons. split_and!; [by apply Qcmul_nn| |].
  - replace 1 with (1 * 1) by ring. apply Qcmul_le; done.
  - intros E. assert (x = 1) as ->.
    { apply Qcle_antisym; [done|]. rewrite <-E. replace x with (x * 1) at 2 by ring. by apply Qcmul_le_l. }
    constructor; [done|]. apply I2. by rewrite Qcmult_1_l in E.
Qed.
(** Some number is below one when the sum is. *)
Lemma some_below (l : list Qc) : total l < qn (length l) -> exists x, x ∈ l /\ x < 1.
Proof.
  induction l as [|x l IH]; [intros H; by apply Qclt_not_eq in H|]. rewrite qsum_cons. cbn [length]. rewrite qn_S. intros H.
  destruct (Qclt_le_dec x 1) as [|Hx]; [exists x; split; [left|done]|]. destruct IH as (y & Hy & ?); [|exists y; split; [by right|done]].
  apply Qc_sub_lt. apply Qc_sub_lt in H. eapply Qclt_le_trans; [exact H|]. apply Qc_sub_le in Hx. apply Qc_sub_le. by replace (qn (length l) - total l - (1 + qn (length l) - (x + total l))) with (x - 1) by ring.
Qed.
Lemma some_above (l : list Qc) : (forall x, x ∈ l -> x <= 1) \/ exists x, x ∈ l /\ 1 < x.
Proof.
  induction l as [|x l [IH|(y & Hy & H)]]; [left; intros x Hx; by apply elem_of_nil in Hx| |right; exists y; split; [by right|done]].
  destruct (Qclt_le_dec 1 x) as [Hx|Hx]; [right; exists x; split; [left|done]|left]. intros y Hy. apply elem_of_cons in Hy as [->|Hy]; [done|by apply IH].
Qed.
(** Non-negative numbers with mean at most one have a product at most one, and less unless all are one. *)
Lemma mean_product n (l : list Qc) : length l = n -> Forall (fun x => 0 <= x) l -> total l <= qn n -> prodl l <= 1 /\ (prodl l = 1 -> Forall (fun x => x = 1) l).
Proof.
  revert l. induction n as [n IH] using lt_wf_ind. intros l Hl H0 Hs. destruct (some_above l) as [Hle|(y & Hy & Hy1)].
  { destruct (small_product l) as (_ & H1 & H2); [|done]. rewrite Forall_forall in H0 |- *. intros x Hx. split; [by apply H0|by apply Hle]. }
  apply elem_of_Permutation in Hy as [l1 Hp1]. rewrite (qsum_perm _ _ _ Hp1), qsum_cons in Hs. assert (length l = S (length l1)) as Hl1 by (by rewrite Hp1).
  rewrite <-Hl, Hl1, qn_S in Hs.
  destruct (some_below l1) as (x & Hx & Hx1).
  { apply Qc_sub_lt. apply Qc_sub_le in Hs. apply Qc_sub_lt in Hy1. eapply Qclt_le_trans; [exact Hy1|]. apply Qc_sub_le. by replace (qn (length l1) - total l1 - (y - 1)) with (1 + qn (length l1) - (y + total l1)) by ring. }
  apply elem_of_Permutation in Hx as [l2 Hp2]. rewrite (qsum_perm _ _ _ Hp2), qsum_cons in Hs. assert (length l1 = S (length l2)) as Hl2 by (by rewrite Hp2). rewrite Hl2, qn_S in Hs.
  rewrite Hp1, Hp2 in H0. inversion H0 as [|? ? Hy0 H0']; subst. inversion H0' as [|? ? Hx0 H0'']; subst.
  assert (0 < (1 - x) * (y - 1)) as Hgap by (apply Qcmul_pos; by apply (proj1 (Qc_sub_lt _ _))).
  assert (prodl l = prodl (x * y :: l2)) as -> by (rewrite (qprod_perm _ _ _ Hp1), qprod_cons, (qprod_perm _ _ _ Hp2), !qprod_cons; ring).
  assert (qn (length (x * y :: l2)) - total (x * y :: l2) = (1 + (1 + qn (length l2)) - (y + (x + total l2))) + (1 - x) * (y - 1)) as Ht by (rewrite qsum_cons; cbn [length]; rewrite qn_S; ring).
  apply Qc_sub_le in Hs.
  destruct (IH (length (x * y :: l2))) with (l := x * y :: l2) as [I1 I2]; [cbn; lia|done|constructor; [by apply Qcmul_nn|done]| |].
  { apply (proj2 (Qc_sub_le _ _)). rewrite Ht. replace 0 with (0 + 0) by ring. apply Qcplus_le_compat; [done|by apply Qclt_le_weak]. }
  split; [done|]. intros E. specialize (I2 E). exfalso.
  assert (forall m : list Qc, Forall (fun x => x = 1) m -> qn (length m) = total m) as Hall by (induction 1 as [|z m -> _ IHm]; [done|]; rewrite qsum_cons, <-IHm; cbn [length]; apply qn_S).
  rewrite (Hall _ I2) in Ht. replace (total (x * y :: l2) - total (x * y :: l2)) with 0 in Ht by ring.
  assert (0 < (1 + (1 + qn (length l2)) - (y + (x + total l2))) + (1 - x) * (y - 1)) as Hpos.
  { by apply Qc_add_pos_r. }
  rewrite <-Ht in Hpos. by apply Qclt_not_eq in Hpos.
Qed.

(** ** Products compared factor by factor *)
Lemma qprod_compare {A} (l : list A) (f g : A -> Qc) : (forall x, x ∈ l -> 0 <= f x /\ f x <= g x /\ 0 < g x) ->
  qprod l f <= qprod l g /\ (qprod l f = qprod l g -> forall x, x ∈ l -> f x = g x).
Proof.
  induction l as [|x l IH]; intros H; [split; [done|]; intros _ x Hx; by apply elem_of_nil in Hx|]. rewrite !qprod_cons.
  destruct (H x) as (H0 & H1 & H2); [left|]. destruct IH as [I1 I2]; [intros; apply H; by right|].
  assert (0 <= qprod l f) as Hf by (apply qprod_nonneg; intros y Hy; apply H; by right). assert (0 < qprod l g) as Hg by (apply qprod_pos; intros y Hy; apply H; by right).
  split; [apply Qcmul_le; try done; by apply Qclt_le_weak|]. intros E.
  assert (f x = g x) as Ex.
  { apply Qcle_antisym; [done|]. apply (Qcmult_lt_0_le_reg_r _ _ (qprod l g)); [done|]. rewrite <-E. by apply Qcmul_le_l. }
  intros y Hy. apply elem_of_cons in Hy as [->|Hy]; [done|]. apply I2; [|done]. rewrite Ex in E.
  assert (g x <> 0) as Hz by (intros E0; rewrite E0 in H2; by apply Qclt_not_eq in H2).
  transitivity (g x * qprod l f / g x); [by field|]. rewrite E. by field.
Qed.
Lemma qpow_replicate (x : Qc) n : prodl (replicate n x) = x ^ n.
Proof. induction n as [|n IH]; [done|]. cbn [replicate Qcpower]. by rewrite qprod_cons, IH. Qed.
Lemma qpow_pos (x : Qc) n : 0 < x -> 0 < x ^ n.
Proof. intros H. induction n as [|n IH]; [done|]. cbn [Qcpower]. by apply Qcmul_pos. Qed.
Lemma qpow_nn (x : Qc) n : 0 <= x -> 0 <= x ^ n.
Proof. intros H. induction n as [|n IH]; [done|]. cbn [Qcpower]. by apply Qcmul_nn. Qed.
Lemma qpow_mul (x y : Qc) n : (x * y) ^ n = x ^ n * y ^ n.
Proof. induction n as [|n IH]; [done|]. cbn [Qcpower]. rewrite IH. ring. Qed.
Lemma qn_pos n : (0 < n)%nat -> 0 < qn n.
Proof. intros H. unfold qn. rewrite <-qz_0. apply (proj1 (qz_lt 0 _)). lia. Qed.
Lemma qn_ne n : (0 < n)%nat -> qn n <> 0.
Proof. intros H E. apply qn_pos in H. rewrite E in H. by apply Qclt_not_eq in H. Qed.
Lemma qprod_one {A} (l : list A) : qprod l (fun _ => 1) = 1.
Proof. induction l as [|x l IH]; [done|]. rewrite qprod_cons, IH. done. Qed.
Lemma qprod_concat {A} (l : list A) (h : A -> list Qc) : prodl (concat (h <$> l)) = qprod l (fun y => prodl (h y)).
Proof. induction l as [|x l IH]; [done|]. rewrite fmap_cons, qprod_cons. cbn [concat]. by rewrite qprod_app, IH. Qed.
Lemma qsum_concat {A} (l : list A) (h : A -> list Qc) : total (concat (h <$> l)) = qsum l (fun y => total (h y)).
Proof. induction l as [|x l IH]; [done|]. rewrite fmap_cons, qsum_cons. cbn [concat]. by rewrite qsum_app, IH. Qed.
Lemma qsum_opp {A} (l : list A) (f : A -> Qc) : qsum l (fun y => - f y) = - qsum l f.
Proof. induction l as [|x l IH]; [done|]. rewrite !qsum_cons, IH. ring. Qed.
Lemma qsum_repeat (x : Qc) n : total (replicate n x) = qn n * x.
Proof. induction n as [|n IH]; [cbn; change (qn 0) with 0; ring|]. cbn [replicate]. rewrite qsum_cons, IH, qn_S. ring. Qed.

(** ** Relative frequencies maximise the product of powers *)
Section gibbs.
Context {A : Type} (l : list A) (w : A -> nat) (q : A -> Qc).
Notation W := (sum_list_with w l).
Context (HW : (0 < W)%nat) (Hq : forall y, y ∈ l -> 0 <= q y) (Hs : qsum l q = 1).
Lemma freq_pos : 0 < qprod l (fun y => (qn (w y) / qn W) ^ w y).
Proof using HW.
  clear q Hq Hs. apply qprod_pos. intros y _. destruct (w y) as [|k] eqn:E; [done|]. apply qpow_pos. apply Qc_div_pos; apply qn_pos; lia.
Qed.
Lemma gibbs : qprod l (fun y => q y ^ w y) <= qprod l (fun y => (qn (w y) / qn W) ^ w y) /\
  (qprod l (fun y => q y ^ w y) = qprod l (fun y => (qn (w y) / qn W) ^ w y) -> forall y, y ∈ l -> q y = qn (w y) / qn W).
Proof using All.
  pose proof (qn_ne _ HW) as HWz. pose proof (qn_pos _ HW) as HWp. set (h := fun y => replicate (w y) (q y * qn W / qn (w y))).
  assert (length (concat (h <$> l)) = W) as Hlen. { unfold h. generalize (qn W). intros V. clear. induction l as [|y m IH]; [done|]. rewrite fmap_cons. cbn [concat sum_list_with]. by rewrite app_length, IH, replicate_length. }
  assert (prodl (concat (h <$> l)) * qprod l (fun y => (qn (w y) / qn W) ^ w y) = qprod l (fun y => q y ^ w y)) as Hprod.
  { rewrite qprod_concat, <-qprod_mul. apply qprod_ext. intros y _. unfold h. rewrite qpow_replicate, <-qpow_mul. destruct (w y) as [|k] eqn:E; [done|]. f_equal. field. split; [done|]. apply qn_ne. lia. }
  pose proof freq_pos as Hfp. set (P := qprod l (fun y => (qn (w y) / qn W) ^ w y)) in *.
  destruct (mean_product W (concat (h <$> l)) Hlen) as [M1 M2].
  - apply Forall_concat, Forall_forall. intros r Hr. apply elem_of_list_fmap in Hr as (y & -> & Hy). apply Forall_replicate. unfold Qcdiv. apply Qcmul_nn; [|apply Qc_inv_nn, qn_nonneg]. apply Qcmul_nn; [by apply Hq|apply qn_nonneg].
  - rewrite qsum_concat. replace (qn W) with (qsum l (fun y => q y * qn W)) by (rewrite qsum_scal_r, Hs; ring). apply (proj2 (Qc_sub_le _ _)).
    replace (qsum l (fun y => q y * qn W) - qsum l (fun y => total (h y))) with (qsum l (fun y => q y * qn W + - total (h y))).
    2:{ rewrite qsum_add, qsum_opp. ring. }
    apply qsum_nonneg. intros y Hy. unfold h. rewrite qsum_repeat. destruct (decide (w y = 0)%nat) as [->|Hw].
    + change (qn 0) with 0. replace (q y * qn W + - (0 * (q y * qn W / 0))) with (q y * qn W) by ring. apply Qcmul_nn; [by apply Hq|apply qn_nonneg].
    + replace (q y * qn W + - (qn (w y) * (q y * qn W / qn (w y)))) with 0; [done|]. field. apply qn_ne. lia.
  - split.
    + rewrite <-Hprod. replace P with (1 * P) at 2 by ring. apply Qcmult_le_compat_r; [done|by apply Qclt_le_weak].
    + intros E. rewrite <-Hprod in E. assert (prodl (concat (h <$> l)) = 1) as E1.
      { assert (P <> 0) as HP by (intros E0; rewrite E0 in Hfp; by apply Qclt_not_eq in Hfp). transitivity (prodl (concat (h <$> l)) * P / P); [by field|]. rewrite E. by field. }
      specialize (M2 E1). rewrite Forall_forall in M2.
      assert (forall y, y ∈ l -> (0 < w y)%nat -> q y = qn (w y) / qn W) as Hpos.
      { intros y Hy Hwy. assert (q y * qn W / qn (w y) = 1) as E2. { apply M2. apply elem_of_list_In, in_concat. exists (h y). split; [apply elem_of_list_In, elem_of_list_fmap; by exists y|]. apply elem_of_list_In. unfold h. apply elem_of_replicate. split; [done|lia]. }
        transitivity (q y * qn W / qn (w y) * (qn (w y) / qn W)); [field; split; [done|by apply qn_ne]|]. rewrite E2. ring. }
      intros y Hy. enough (q y + - (qn (w y) / qn W) = 0) as E3 by (transitivity (q y + - (qn (w y) / qn W) + qn (w y) / qn W); [ring|]; rewrite E3; ring).
      apply (qsum_nonneg_zero l (fun y => q y + - (qn (w y) / qn W))); [| |done].
      * intros z Hz. destruct (decide (w z = 0)%nat) as [E0|Hw]; [|rewrite (Hpos z Hz) by lia; by replace (qn (w z) / qn W + - (qn (w z) / qn W)) with 0 by ring].
        rewrite E0. change (qn 0) with 0. replace (q z + - (0 / qn W)) with (q z) by (by field). by apply Hq.
      * rewrite qsum_add, Hs, qsum_opp.
        rewrite qsum_div, qsum_qn. by field.
Qed.
End gibbs.
