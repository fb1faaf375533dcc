(** Rounding errors of the statistic. *)
From Coq Require Import Reals Psatz.
From Verif Require Import GRoundModel GRoundSpec ParProofs CellProofs CellProofs2 CellProofs4 CellTheorems GSquareProofs GSquareProofs2 GSquareTheorems TableProofs.
From Coq Require Import Lra.
Local Open Scope R_scope.

Lemma ln_le' x y : 0 < x -> x <= y -> ln x <= ln y.
Proof. intros Hx [H| ->]; [apply Rlt_le, ln_increasing; done|lra]. Qed.

Section rounding.
Context (u : R) (rnd flog : R -> R) (Hrnd : rounds_within u rnd) (Hlog : log_within u flog).
Set Default Proof Using "All".
Notation A := (1 + u).
Notation c := (/ (1 - u)).
Lemma u_range : 0 <= u < 1. Proof. apply Hrnd. Qed.
Lemma c_pos : 0 < c. Proof. apply Rinv_0_lt_compat. pose proof u_range. lra. Qed.
Lemma c_one : 1 <= c.
Proof. pose proof u_range. rewrite <-Rinv_1 at 1. apply Rinv_le_contravar; lra. Qed.
Lemma A_below : A <= c.
Proof. pose proof u_range. pose proof c_pos. apply (Rmult_le_reg_r (1 - u)); [lra|]. rewrite Rinv_l by lra. nra. Qed.
(** *** Positive numbers up to a factor *)
Definition apart (k : nat) (x y : R) : Prop := 0 < x /\ 0 < y /\ Rabs (ln y - ln x) <= INR k * ln c.
Lemma ln_c : 0 <= ln c.
Proof. pose proof c_one. rewrite <-ln_1. destruct (Req_dec 1 c) as [<-|]; [lra|apply Rlt_le, ln_increasing; lra]. Qed.
Lemma apart_refl x : 0 < x -> apart 0 x x.
Proof. intros H. split_and!; [done|done|]. rewrite Rminus_eq_0, Rabs_R0. cbn [INR]. lra. Qed.
Lemma apart_rnd k x y : apart k x y -> apart (S k) x (rnd y).
Proof.
  intros (Hx & Hy & H). pose proof u_range. pose proof c_pos. destruct Hrnd as [_ Hr]. specialize (Hr y). rewrite (Rabs_right y) in Hr by lra.
  assert (rnd y - y <= u * y) by (eapply Rle_trans; [apply Rle_abs|exact Hr]). assert (y - rnd y <= u * y) by (eapply Rle_trans; [apply Rle_abs|rewrite Rabs_minus_sym; exact Hr]).
  assert (0 < (1 - u) * y) by (apply Rmult_lt_0_compat; lra). assert (0 < rnd y) as Hp by lra. split_and!; [done|done|].
  assert (Rabs (ln (rnd y) - ln y) <= ln c) as H'.
  { apply Rabs_le. split.
    - rewrite ln_Rinv by lra. apply Ropp_le_cancel. rewrite Ropp_involutive. assert (ln ((1 - u) * y) <= ln (rnd y)) as L by (apply ln_le'; lra). rewrite ln_mult in L by lra. lra.
    - assert (ln (rnd y) <= ln (c * y)) as L. { apply ln_le'; [done|]. apply Rle_trans with (A * y); [lra|]. apply Rmult_le_compat_r; [lra|]. apply A_below. } rewrite ln_mult in L by lra. lra. }
  rewrite S_INR. replace (ln (rnd y) - ln x) with ((ln (rnd y) - ln y) + (ln y - ln x)) by ring. eapply Rle_trans; [apply Rabs_triang|]. lra.
Qed.
Lemma apart_mul k l x y x' y' : apart k x y -> apart l x' y' -> apart (k + l) (x * x') (y * y').
Proof.
  intros (Hx & Hy & H) (Hx' & Hy' & H'). split_and!; [by apply Rmult_lt_0_compat|by apply Rmult_lt_0_compat|]. rewrite !ln_mult by done. rewrite plus_INR.
  replace (ln y + ln y' - (ln x + ln x')) with ((ln y - ln x) + (ln y' - ln x')) by ring. eapply Rle_trans; [apply Rabs_triang|]. lra.
Qed.
Lemma apart_div k l x y x' y' : apart k x y -> apart l x' y' -> apart (k + l) (x / x') (y / y').
Proof.
  intros H (Hx' & Hy' & H'). apply apart_mul; [done|]. split_and!; [by apply Rinv_0_lt_compat|by apply Rinv_0_lt_compat|]. rewrite !ln_Rinv by done.
  replace (- ln y' - - ln x') with (- (ln y' - ln x')) by ring. by rewrite Rabs_Ropp.
Qed.
(** *** The term *)
Notation e := (7 * ln c).
Lemma argument obs row col total : (0 < obs)%nat -> (0 < row)%nat -> (0 < col)%nat -> (0 < total)%nat ->
  apart 7 (INR obs / (INR col * INR row / INR total)) (rnd (rnd (INR obs) / rnd (rnd (rnd (INR col) * rnd (INR row)) / rnd (INR total)))).
Proof.
  intros H1 H2 H3 H4. apply lt_0_INR in H1, H2, H3, H4. apply apart_rnd. apply (apart_div 1 5). { apply apart_rnd, apart_refl; done. }
  apply apart_rnd. apply (apart_div 3 1); [|by apply apart_rnd, apart_refl]. apply apart_rnd, (apart_mul 1 1); by apply apart_rnd, apart_refl.
Qed.
(** [y] approximates [x], where |x| <= M and [E] is an error that grows along. *)
Definition approx (k : nat) (M E x y : R) : Prop := Rabs x <= M /\ Rabs (y - x) <= A ^ k * (M + E) - M.
Lemma A_one k : 1 <= A ^ k. Proof. apply pow_R1_Rle. pose proof u_range. lra. Qed.
Lemma approx_rnd k M E x y : approx k M E x y -> approx (S k) M E x (rnd y).
Proof.
  intros [H1 H2]. split; [done|]. pose proof u_range as Hu. destruct Hrnd as [_ Hr]. specialize (Hr y). assert (Rabs y <= Rabs x + Rabs (y - x)) as Hy. { replace y with (x + (y - x)) at 1 by ring. apply Rabs_triang. }
  replace (rnd y - x) with ((rnd y - y) + (y - x)) by ring. eapply Rle_trans; [apply Rabs_triang|]. cbn [Rpow_def.pow]. pose proof (Rabs_pos x). pose proof (Rabs_pos (y - x)).
  assert (u * Rabs y <= u * (M + Rabs (y - x))) by (apply Rmult_le_compat_l; lra). assert (A * Rabs (y - x) <= A * (A ^ k * (M + E) - M)) by (apply Rmult_le_compat_l; lra). lra.
Qed.
Lemma approx_log x y : apart 7 x y -> approx 1 (Rabs (ln x)) e (ln x) (flog y).
Proof.
  intros (Hx & Hy & H). split; [lra|]. pose proof u_range as Hu. pose proof (Hlog y Hy) as Hr. replace (INR 7) with 7 in H by (cbn [INR]; ring).
  assert (Rabs (ln y) <= Rabs (ln x) + Rabs (ln y - ln x)) as Hl. { replace (ln y) with (ln x + (ln y - ln x)) at 1 by ring. apply Rabs_triang. }
  replace (flog y - ln x) with ((flog y - ln y) + (ln y - ln x)) by ring. eapply Rle_trans; [apply Rabs_triang|]. pose proof (Rabs_pos (ln x)). pose proof (Rabs_pos (ln y - ln x)).
  assert (u * Rabs (ln y) <= u * (Rabs (ln x) + e)) by (apply Rmult_le_compat_l; lra). rewrite pow_1. lra.
Qed.
Lemma factor n : Rabs (rnd (2 * rnd (INR n)) - 2 * INR n) <= (A ^ 2 - 1) * (2 * INR n).
Proof.
  pose proof (pos_INR n) as Hn. assert (approx 0 (2 * INR n) 0 (2 * INR n) (2 * INR n)) as H0. { split; [rewrite Rabs_right; lra|]. rewrite Rminus_eq_0, Rabs_R0. cbn [Rpow_def.pow]. lra. }
  assert (approx 1 (2 * INR n) 0 (2 * INR n) (2 * rnd (INR n))) as H1.
  { split; [apply H0|]. destruct Hrnd as [Hu Hr]. specialize (Hr (INR n)). rewrite (Rabs_right (INR n)) in Hr by lra. replace (2 * rnd (INR n) - 2 * INR n) with (2 * (rnd (INR n) - INR n)) by ring. rewrite Rabs_mult, (Rabs_right 2) by lra. rewrite pow_1. lra. }
  apply approx_rnd in H1 as [_ H]. eapply Rle_trans; [exact H|]. lra.
Qed.
Lemma approx_mul k M E w w' x y : 0 <= w -> Rabs (w' - w) <= (A ^ 2 - 1) * w -> 0 <= E -> approx k M E x y -> approx (k + 2) (w * M) (w * E) (w * x) (w' * y).
Proof.
  intros Hw Hw' HE [H1 H2]. pose proof (Rabs_pos x) as Hx. split; [rewrite Rabs_mult, (Rabs_right w) by lra; apply Rmult_le_compat_l; lra|].
  replace (w' * y - w * x) with (w' * (y - x) + (w' - w) * x) by ring. eapply Rle_trans; [apply Rabs_triang|]. rewrite !Rabs_mult.
  assert (Rabs w' <= A ^ 2 * w) as Hb. { replace w' with (w + (w' - w)) at 1 by ring. eapply Rle_trans; [apply Rabs_triang|]. rewrite (Rabs_right w) by lra. lra. }
  pose proof (Rabs_pos w'). pose proof (Rabs_pos (y - x)). pose proof (Rabs_pos (w' - w)). pose proof (A_one 2) as H2A.
  assert (Rabs w' * Rabs (y - x) <= A ^ 2 * w * (A ^ k * (M + E) - M)) by (apply Rmult_le_compat; lra). assert (Rabs (w' - w) * Rabs x <= (A ^ 2 - 1) * w * M) by (apply Rmult_le_compat; lra). rewrite pow_add. lra.
Qed.
Definition size_of (t : gterm) : R := let '(obs, row, col, total) := t in 2 * INR obs * Rabs (ln (INR obs / (INR col * INR row / INR total))).
Definition weight (t : gterm) : R := let '(obs, row, col, total) := t in 2 * INR obs.
Definition good_term (t : gterm) : Prop := let '(obs, row, col, total) := t in (0 < obs /\ obs <= row /\ obs <= col /\ row <= total /\ col <= total)%nat.
Lemma term_error t : good_term t -> approx 4 (size_of t) (weight t * e) (g2_term t) (g2_term_r rnd flog t).
Proof.
  destruct t as [[[obs row] col] total]. intros (H1 & H2 & H3 & H4 & H5). unfold size_of, weight, g2_term, g2_term_r. apply approx_rnd. apply (approx_mul 1).
  - pose proof (pos_INR obs). lra.
  - apply factor.
  - pose proof ln_c. lra.
  - apply approx_log. apply argument; lia.
Qed.
(** *** The sum *)
Lemma approx_more k l M E x y : (k <= l)%nat -> 0 <= E -> approx k M E x y -> approx l M E x y.
Proof.
  intros Hk HE [H1 H2]. split; [done|]. pose proof (Rabs_pos x). pose proof u_range. eapply Rle_trans; [exact H2|]. assert (A ^ k * (M + E) <= A ^ l * (M + E)); [|lra]. apply Rmult_le_compat_r; [lra|]. apply Rle_pow; [lra|done].
Qed.
Lemma approx_add k M E x y M' E' x' y' : approx k M E x y -> approx k M' E' x' y' -> approx k (M + M') (E + E') (x + x') (y + y').
Proof.
  intros [H1 H2] [H3 H4]. split; [eapply Rle_trans; [apply Rabs_triang|]; lra|]. replace (y + y' - (x + x')) with ((y - x) + (y' - x')) by ring. eapply Rle_trans; [apply Rabs_triang|]. lra.
Qed.
Lemma weight_nonneg t : 0 <= weight t * e.
Proof. destruct t as [[[obs row] col] total]. pose proof (pos_INR obs). pose proof ln_c. unfold weight. apply Rmult_le_pos; lra. Qed.
Lemma sum_error ts : forall k M E x y, Forall good_term ts -> 0 <= E -> approx (k + 4) M E x y ->
  approx (k + length ts + 4) (M + Rsum ts size_of) (E + Rsum ts weight * e) (fold_left (fun g2 t => g2 + g2_term t) ts x) (fold_left (fun g2 t => rnd (g2 + g2_term_r rnd flog t)) ts y).
Proof.
  induction ts as [|t ts IH]; intros k M E x y Hts HE H.
  - cbn [length fold_left Rsum foldr]. rewrite Nat.add_0_r, Rmult_0_l, !Rplus_0_r. exact H.
  - apply Forall_cons in Hts as [Ht Hts]. cbn [length fold_left]. replace (k + S (length ts) + 4)%nat with (S k + length ts + 4)%nat by lia.
    replace (M + Rsum (t :: ts) size_of) with (M + size_of t + Rsum ts size_of) by (unfold Rsum; cbn; ring). replace (E + Rsum (t :: ts) weight * e) with (E + weight t * e + Rsum ts weight * e) by (unfold Rsum; cbn [foldr]; ring).
    apply IH; [done| |]. { pose proof (weight_nonneg t). lra. } cbn [Nat.add]. apply approx_rnd. apply approx_add; [done|]. eapply approx_more; [| |by apply term_error]; [lia|apply weight_nonneg].
Qed.
Lemma sum_bound ts N m : Forall good_term ts -> (length ts <= m)%nat -> Rsum ts size_of <= 2 * INR N * ln (INR N) -> Rsum ts weight = 2 * INR N -> Rabs (g2_sum_r rnd flog ts - g2_sum ts) <= g2_error u N m.
Proof.
  intros Hts Hm HM HW. pose proof (sum_error ts 0 0 0 0 0 Hts) as H. destruct H as [_ H]; [lra| |]. { split; [rewrite Rabs_R0; lra|]. rewrite Rminus_eq_0, Rabs_R0, !Rplus_0_r, Rmult_0_r. lra. }
  unfold g2_sum_r, g2_sum. eapply Rle_trans; [exact H|]. rewrite HW, !Rplus_0_l. cbn [Nat.add]. pose proof u_range as Hu. unfold g2_error. set (T := Rsum ts size_of) in *. pose proof (A_one (length ts + 4)) as H1.
  assert (A ^ (length ts + 4) <= A ^ (m + 4)) as H2 by (apply Rle_pow; [lra|lia]). set (a := A ^ (length ts + 4)) in *. set (b := A ^ (m + 4)) in *. pose proof (pos_INR N) as HN.
  assert (0 <= T) as HT. { apply Rsum_nonneg. intros [[[o r] q] t] _. unfold size_of. apply Rmult_le_pos; [|apply Rabs_pos]. pose proof (pos_INR o). lra. }
  assert (ln c <= u / (1 - u)) as Hc. { pose proof c_pos as Hcp. apply ln_at_most in Hcp. replace (u / (1 - u)) with (c - 1); [done|]. field. lra. } pose proof ln_c as Hc0.
  assert ((a - 1) * T <= (b - 1) * (2 * INR N * ln (INR N))) as H3 by (apply Rmult_le_compat; lra).
  assert (a * (2 * INR N * (7 * ln c)) <= b * (2 * INR N * (7 * u / (1 - u)))) as H4. { apply Rmult_le_compat; [lra| |lra|]; [apply Rmult_le_pos; lra|]. apply Rmult_le_compat_l; [lra|]. unfold Rdiv in *. lra. }
  lra.
Qed.
End rounding.
