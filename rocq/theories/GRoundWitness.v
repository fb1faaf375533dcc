(** Double precision, and an example for the independence test with rounding. *)
From Coq Require Import Reals Psatz.
From Flocq Require Import Core Relative.
From Verif Require Import GRoundModel GRoundSpec PCSpec OrientModel PCWitness DSepWitness SaveWitness GSquareProofs GSquareProofs2 GSquareTheorems GSquareWitness GRoundProofs GRoundTheorems TableProofs.
From Coq Require Import Lra.
Local Open Scope R_scope.

Lemma double_unit : / 2 ^ 53 = / 2 * bpow radix2 (-53 + 1).
Proof. change (-53 + 1)%Z with (- (52))%Z. rewrite bpow_opp. change (bpow radix2 52) with (IZR (2 ^ 52)). rewrite <-Rinv_mult. f_equal. rewrite <-(mult_IZR 2), (pow_IZR 2 53). f_equal. Qed.
Lemma double_small : 0 <= / 2 ^ 53 <= 1 / 1000000.
Proof. split; [apply Rlt_le, Rinv_0_lt_compat, pow_lt; lra|]. unfold Rdiv. rewrite Rmult_1_l. apply Rinv_le_contravar; [lra|]. rewrite (pow_IZR 2 53). apply IZR_le. vm_compute. discriminate. Qed.
Lemma double_rounds : rounds_within (/ 2 ^ 53) double.
Proof. split; [pose proof double_small; lra|]. intros r. rewrite double_unit. apply relative_error_N_FLX. reflexivity. Qed.
Lemma double_log : log_within (/ 2 ^ 53) (fun r => double (ln r)).
Proof. intros r _. apply double_rounds. Qed.
Lemma double_integers b : (Z.of_nat b < 2 ^ 53)%Z -> exact_up_to b double.
Proof.
  intros Hb n Hn. apply round_generic; [apply valid_rnd_N|]. apply generic_format_FLX. exists (Float radix2 (Z.of_nat n) 0).
  - unfold F2R. cbn [Fnum Fexp bpow]. rewrite Rmult_1_r. apply INR_IZR_INZ.
  - cbn [Fnum]. rewrite Z.abs_eq by lia. change (radix_val radix2) with 2%Z. lia.
Qed.

(** ** The lamp, ten times *)
(** A distribution function that is zero for negative numbers. *)
Definition chi_pos (q : R) (df : nat) : R := 1 - exp (- (Rmax q 0 / 2)).
Lemma chi_pos_range q df : 0 <= chi_pos q df <= 1.
Proof.
  unfold chi_pos. pose proof (Rmax_r q 0). pose proof (exp_pos (- (Rmax q 0 / 2))). split; [|lra]. assert (exp (- (Rmax q 0 / 2)) <= 1); [|lra]. rewrite <-exp_0. destruct (Req_dec (Rmax q 0) 0) as [-> |Hn].
  - apply Req_le. f_equal. lra.
  - apply Rlt_le, exp_increasing. lra.
Qed.
Lemma chi_pos_nondecreasing : nondecreasing chi_pos.
Proof.
  intros df q q' Hq. unfold chi_pos. assert (Rmax q 0 <= Rmax q' 0) as H by (apply Rle_max_compat_r; done). assert (exp (- (Rmax q' 0 / 2)) <= exp (- (Rmax q 0 / 2))); [|lra]. destruct H as [H| ->]; [apply Rlt_le, exp_increasing; lra|lra].
Qed.
Definition double_chi (q : R) (df : nat) : R := double (chi_pos q df).
Lemma double_near r b : Rabs r <= b -> Rabs (double r - r) <= 1 / 1000000 * b.
Proof. intros H. destruct double_rounds as [_ Hr]. eapply Rle_trans; [apply Hr|]. pose proof double_small. pose proof (Rabs_pos r). apply Rmult_le_compat; lra. Qed.
Lemma double_pvalue q df : Rabs (double (1 - double_chi q df) - (1 - chi_pos q df)) <= 1 / 100.
Proof.
  pose proof (chi_pos_range q df) as Hr. pose proof (double_near (chi_pos q df) 1) as H1. rewrite Rabs_right in H1 by lra. specialize (H1 ltac:(lra)). fold (double_chi q df) in H1.
  assert (Rabs (1 - double_chi q df) <= 2) as H2. { replace (1 - double_chi q df) with ((1 - chi_pos q df) - (double_chi q df - chi_pos q df)) by ring. eapply Rle_trans; [apply Rabs_triang|]. rewrite Rabs_Ropp, (Rabs_right (1 - chi_pos q df)) by lra. lra. }
  apply double_near in H2. replace (double (1 - double_chi q df) - (1 - chi_pos q df)) with ((double (1 - double_chi q df) - (1 - double_chi q df)) - (double_chi q df - chi_pos q df)) by ring. eapply Rle_trans; [apply Rabs_triang|]. rewrite Rabs_Ropp. lra.
Qed.
Definition lamps : columns := pick_rows (concat (replicate 10 (seq 0 4))) lamp_columns.
Lemma lamps_each : each_row 10 (co_rows lamp_columns) (concat (replicate 10 (seq 0 4))).
Proof. unfold each_row. reflexivity. Qed.
Lemma lamps_tabulated : tabulated lamps [2;2;2]%nat.
Proof. exact (pick_tabulated 10 _ _ _ lamp_tabulated lamps_each). Qed.
Ltac value := unfold g_square; cbn [sizes_of fmap list_fmap configs Rsum foldr lookup list_lookup default from_option Datatypes.id seq app mbind list_bind]; cbv zeta; cbn [foldr Rsum];
  repeat match goal with |- context [matching lamp_columns ?a ?b] => let v := eval vm_compute in (matching lamp_columns a b) in change (matching lamp_columns a b) with v end;
  cbn [INR]; rewrite ?Rmult_0_r, ?Rmult_0_l.
Lemma lamp_value02 : g_square lamp_columns [2;2;2]%nat 0 2 [] = 2 * ln (64 / 27).
Proof.
  rewrite lamp_value. replace (64 / 27) with (4 / 2 * (4 / 6 * (8 / 6 * (8 / 6)))) by field. rewrite (ln_mult (4 / 2)), (ln_mult (4 / 6)), (ln_mult (8 / 6)) by (repeat apply Rmult_lt_0_compat; lra). lra.
Qed.
Lemma lamp_value12 : g_square lamp_columns [2;2;2]%nat 1 2 [] = 2 * ln (64 / 27).
Proof.
  rewrite <-lamp_value02, lamp_value. value. replace (1 * (1 + 1 + 1 + 1) / ((1 + 1) * 1)) with (4 / 2) by field. replace (1 * (1 + 1 + 1 + 1) / ((1 + 1) * (1 + 1 + 1))) with (4 / 6) by field. replace ((1 + 1) * (1 + 1 + 1 + 1) / ((1 + 1) * (1 + 1 + 1))) with (8 / 6) by field. ring.
Qed.
Lemma lamp_given : g_square lamp_columns [2;2;2]%nat 0 2 [1]%nat = 2 * ln (2 * 2) /\ g_square lamp_columns [2;2;2]%nat 1 2 [0]%nat = 2 * ln (2 * 2).
Proof.
  rewrite (ln_mult 2 2) by lra. split; value; replace (1 * (1 + 1) / (1 * 1)) with 2 by field; replace (1 * (1 + 1) / (1 * (1 + 1))) with 1 by field; rewrite ln_1; ring.
Qed.
Lemma lamp_switches : g_square lamp_columns [2;2;2]%nat 0 1 [2]%nat = 2 * ln (27 / 16).
Proof.
  replace (27 / 16) with (3 / 2 * (3 / 2 * (3 / 4))) by field. rewrite (ln_mult (3 / 2)), (ln_mult (3 / 2) (3 / 4)) by lra. value.
  replace (1 * 1 / (1 * 1)) with 1 by field. replace (1 * (1 + 1 + 1) / (1 * (1 + 1))) with (3 / 2) by field. replace (1 * (1 + 1 + 1) / ((1 + 1) * 1)) with (3 / 2) by field. replace (1 * (1 + 1 + 1) / ((1 + 1) * (1 + 1))) with (3 / 4) by field. rewrite ln_1. ring.
Qed.
Lemma pow_below u k : 0 <= u -> (1 + u) ^ k * (1 - INR k * u) <= 1.
Proof.
  intros Hu. induction k as [|k IH]; [cbn [Rpow_def.pow INR]; lra|]. eapply Rle_trans; [|exact IH]. rewrite S_INR. cbn [Rpow_def.pow]. pose proof (pos_INR k) as Hk. assert (0 <= (1 + u) ^ k) as Hp by (apply pow_le; lra).
  replace ((1 + u) * (1 + u) ^ k * (1 - (INR k + 1) * u)) with ((1 + u) ^ k * ((1 + u) * (1 - (INR k + 1) * u))) by ring. apply Rmult_le_compat_l; [done|]. assert (0 <= u * u) by (by apply Rmult_le_pos). assert (0 <= INR k * (u * u)) by (by apply Rmult_le_pos). lra.
Qed.
Lemma lamps_error x y zs : 0 <= test_error (/ 2 ^ 53) lamps [2;2;2]%nat x y zs <= 1.
Proof.
  unfold test_error. change (co_rows lamps) with 40%nat. set (m := Nat.min 40 _). assert (m <= 40)%nat as Hm by apply Nat.le_min_l. clearbody m. unfold g2_error. pose proof double_small as Hu. set (u := / 2 ^ 53) in *. clearbody u.
  assert (1 <= (1 + u) ^ (m + 4)) as H1 by (apply pow_R1_Rle; lra). assert ((1 + u) ^ (m + 4) <= (1 + u) ^ 44) as H2 by (apply Rle_pow; [lra|lia]). pose proof (pow_below u 44 ltac:(lra)) as H3. replace (INR 44) with 44 in H3 by (cbn [INR]; lra).
  assert ((1 + u) ^ 44 <= 1 + 1 / 10000) as H4. { apply (Rmult_le_reg_r (1 - 44 * u)); [lra|]. lra. }
  set (p := (1 + u) ^ (m + 4)) in *. assert (1 <= p <= 1 + 1 / 10000) as Hp by lra. clearbody p. clear H1 H2 H3 H4.
  replace (INR 40) with 40 by (cbn [INR]; lra). assert (0 <= ln 40 <= 39) as Hl. { split; [rewrite <-ln_1; apply Rlt_le, ln_increasing; lra|]. pose proof (ln_at_most 40 ltac:(lra)). lra. } set (l := ln 40) in *. clearbody l.
  assert (0 <= 7 * u / (1 - u) <= 1 / 1000) as Hr. { split; [apply Rmult_le_pos; [lra|apply Rlt_le, Rinv_0_lt_compat; lra]|]. apply (Rmult_le_reg_r (1 - u)); [lra|]. unfold Rdiv at 1. rewrite Rmult_assoc, Rinv_l by lra. lra. } set (r := 7 * u / (1 - u)) in *. clearbody r.
  assert (0 <= (p - 1) * l <= 1 / 10000 * 39). { split; [apply Rmult_le_pos; lra|apply Rmult_le_compat; lra]. } assert (0 <= p * r <= 2 * (1 / 1000)). { split; [apply Rmult_le_pos; lra|apply Rmult_le_compat; lra]. } lra.
Qed.
Lemma dependent_small g b : 2 * ln (27 / 16) <= g -> 0 <= b <= 1 -> 1 - chi_pos (10 * g - b) 1 + 1 / 100 <= 1 / 20.
Proof.
  intros Hg Hb. unfold chi_pos. assert (exp (- (Rmax (10 * g - b) 0 / 2)) <= exp (1 + 10 * ln (16 / 27))) as H1.
  { assert (ln (27 / 16) = - ln (16 / 27)) as E. { rewrite <-ln_Rinv by lra. f_equal. field. } pose proof (Rmax_l (10 * g - b) 0). assert (- (Rmax (10 * g - b) 0 / 2) < 1 + 10 * ln (16 / 27)) by lra. apply Rlt_le, exp_increasing. done. }
  rewrite exp_plus in H1. assert (exp (10 * ln (16 / 27)) = (16 / 27) ^ 10) as E. { rewrite <-(Rpower_pow 10) by lra. unfold Rpower. f_equal. f_equal. cbn [INR]. lra. } rewrite E in H1. pose proof exp_le_3 as H3.
  assert ((16 / 27) ^ 10 <= 1 / 150) as H2 by (cbn [Rpow_def.pow]; lra). assert (exp 1 * (16 / 27) ^ 10 <= 3 * (1 / 150)) by (apply Rmult_le_compat; [apply Rlt_le, exp_pos|apply pow_le; lra|done|done]). lra.
Qed.
Lemma lamps_copy x y zs : g_square lamps [2;2;2]%nat x y zs = 10 * g_square lamp_columns [2;2;2]%nat x y zs /\ degrees lamps [2;2;2]%nat x y zs = degrees lamp_columns [2;2;2]%nat x y zs.
Proof.
  split; [|apply (copies_degrees 10 _ _ _ x y zs lamp_tabulated lamps_each); lia]. unfold lamps. rewrite (copies_g_square 10 _ _ _ x y zs lamp_tabulated lamps_each). f_equal. cbn [INR]. lra.
Qed.
(** The switches without the alarm are independent; all other tests find a dependence. *)
Lemma lamps_cases x y zs : (x < 3)%nat -> (y < 3)%nat -> Forall (fun v => (v < 3)%nat) zs -> NoDup (x :: y :: zs) ->
  g_square lamp_columns [2;2;2]%nat x y zs = 0 /\ zs = [] /\ (x < 2)%nat /\ (y < 2)%nat \/ 2 * ln (27 / 16) <= g_square lamp_columns [2;2;2]%nat x y zs /\ degrees lamp_columns [2;2;2]%nat x y zs = 1%nat.
Proof.
  intros Hx Hy Hz Hn. assert (2 * ln (27 / 16) <= 2 * ln (64 / 27)) as L1 by (apply Rmult_le_compat_l; [lra|apply ln_le'; lra]). assert (2 * ln (27 / 16) <= 2 * ln (2 * 2)) as L2 by (apply Rmult_le_compat_l; [lra|apply ln_le'; lra]).
  assert (forall x y zs, (x < y)%nat -> (y < 3)%nat -> Forall (fun v => (v < 3)%nat) zs -> NoDup (x :: y :: zs) -> g_square lamp_columns [2;2;2]%nat x y zs = 0 /\ zs = [] /\ (x < 2)%nat /\ (y < 2)%nat \/ 2 * ln (27 / 16) <= g_square lamp_columns [2;2;2]%nat x y zs /\ degrees lamp_columns [2;2;2]%nat x y zs = 1%nat) as H.
  { clear x y zs Hx Hy Hz Hn. intros x y zs Hxy Hy Hz Hn. apply NoDup_cons in Hn as [H1 Hn]. apply NoDup_cons in Hn as [H2 Hn]. apply not_elem_of_cons in H1 as [_ H1].
    assert (StronglySorted lt zs) as Hs. { destruct zs as [|a [|b zs]]; [constructor|repeat constructor|]. exfalso. apply NoDup_cons in Hn as [Hab _]. apply not_elem_of_cons in Hab as [Hab _]. apply Forall_cons in Hz as [Ha Hz]. apply Forall_cons in Hz as [Hb _].
      apply not_elem_of_cons in H1 as [G1 H1], H2 as [G2 H2]. apply not_elem_of_cons in H1 as [G3 _], H2 as [G4 _]. lia. }
    destruct (lamp_sets x y zs Hxy Hy H1 H2 Hs Hz) as [(-> & -> & [-> | ->])|[(-> & -> & [-> | ->])|(-> & -> & [-> | ->])]].
    - left. split_and!; [|done|lia|lia]. apply (g_square_zero _ _ lamp_tabulated 0 1); [cbn; lia|cbn; lia|apply lamp_counts].
    - right. split; [rewrite lamp_switches; lra|vm_compute; reflexivity].
    - right. split; [rewrite lamp_value02; lra|vm_compute; reflexivity].
    - right. split; [rewrite (proj1 lamp_given); lra|vm_compute; reflexivity].
    - right. split; [rewrite lamp_value12; lra|vm_compute; reflexivity].
    - right. split; [rewrite (proj2 lamp_given); lra|vm_compute; reflexivity]. }
  destruct (decide (x < y)%nat) as [Hxy|Hxy]; [by apply H|]. rewrite <-g_square_symmetric, <-degrees_symmetric. assert (x <> y) as Hne by (intros ->; apply NoDup_cons in Hn as [Hn _]; apply Hn; left).
  destruct (H y x zs) as [?|?]; [lia|done|done| |left; tauto|right; done]. apply NoDup_cons in Hn as [H1 Hn]. apply NoDup_cons in Hn as [H2 Hn]. repeat (apply NoDup_cons; split); set_solver.
Qed.
Lemma lamps_clear x y zs : (x < 3)%nat -> (y < 3)%nat -> Forall (fun v => (v < 3)%nat) zs -> NoDup (x :: y :: zs) ->
  clear_of_level chi_pos (1 / 20) (1 / 100) (test_error (/ 2 ^ 53) lamps [2;2;2]%nat x y zs) (g_square lamps [2;2;2]%nat x y zs) (degrees lamps [2;2;2]%nat x y zs).
Proof.
  intros Hx Hy Hz Hn. pose proof (lamps_error x y zs) as Hb. destruct (lamps_copy x y zs) as [-> ->]. destruct (lamps_cases x y zs Hx Hy Hz Hn) as [(-> & _)|[Hg ->]].
  - left. unfold chi_pos. rewrite Rmult_0_r, Rplus_0_l. set (b := test_error _ _ _ _ _ _) in *. rewrite Rmax_left by lra. pose proof (exp_ineq1_le (- (b / 2))). lra.
  - right. apply dependent_small; [done|lra].
Qed.
Lemma lamps_oracle x y s : (x < y)%nat -> (y < 3)%nat -> x ∉ s -> y ∉ s -> StronglySorted lt s -> Forall (fun v => (v < 3)%nat) s ->
  (degrees lamps [2;2;2]%nat x y s = 0%nat \/ 1 / 20 < 1 - chi_pos (g_square lamps [2;2;2]%nat x y s) (degrees lamps [2;2;2]%nat x y s)) <-> ~ d_connected lamp_graph x y s.
Proof.
  intros Hxy Hy Hxs Hys Hs Hb. rewrite <-(lamp_faithful x y s Hxy Hy Hxs Hys Hs Hb). rewrite <-(g_square_zero lamp_columns [2;2;2]%nat lamp_tabulated x y) by (cbn; lia).
  destruct (lamps_copy x y s) as [-> ->]. destruct (lamps_cases x y s) as [(-> & _)|[Hg ->]]; [lia|lia|done|by apply sorted_nodup| |].
  - split; [done|]. intros _. right. unfold chi_pos. rewrite Rmult_0_r, Rmax_left by lra. replace (- (0 / 2)) with 0 by lra. rewrite exp_0. lra.
  - pose proof (dependent_small _ 0 Hg ltac:(lra)) as H. rewrite Rminus_0_r in H. split; [intros [?|?]; [done|lra]|]. intros E. rewrite E in Hg. assert (0 < ln (27 / 16)) by (rewrite <-ln_1; apply ln_increasing; lra). lra.
Qed.
Lemma lamps_learning : rounds_within (/ 2 ^ 53) double /\ log_within (/ 2 ^ 53) (fun r => double (ln r)) /\ nondecreasing chi_pos /\ tabulated lamps [2;2;2]%nat /\ 0 <= 1 / 20 <= 1 /\
  (forall q df, (0 < df)%nat -> Rabs (double (1 - double_chi q df) - (1 - chi_pos q df)) <= 1 / 100) /\
  (forall x y zs, (x < 3)%nat -> (y < 3)%nat -> Forall (fun v => (v < 3)%nat) zs -> NoDup (x :: y :: zs) -> (0 < degrees lamps [2;2;2]%nat x y zs)%nat ->
    clear_of_level chi_pos (1 / 20) (1 / 100) (test_error (/ 2 ^ 53) lamps [2;2;2]%nat x y zs) (g_square lamps [2;2;2]%nat x y zs) (degrees lamps [2;2;2]%nat x y zs)) /\
  dag 3 lamp_graph /\
  (forall x y s, (x < y)%nat -> (y < 3)%nat -> x ∉ s -> y ∉ s -> StronglySorted lt s -> Forall (fun v => (v < 3)%nat) s ->
    (degrees lamps [2;2;2]%nat x y s = 0%nat \/ 1 / 20 < 1 - chi_pos (g_square lamps [2;2;2]%nat x y s) (degrees lamps [2;2;2]%nat x y s)) <-> ~ d_connected lamp_graph x y s) /\
  valid_sched forwards /\ (forall v, (length (dag_parents 3 lamp_graph v) < 3)%nat).
Proof.
  split_and!; [exact double_rounds|exact double_log|exact chi_pos_nondecreasing|exact lamps_tabulated|lra|lra|intros q df _; apply double_pvalue|intros x y zs Hx Hy Hz Hn _; by apply lamps_clear|exact (graph_dag 3 _ lamp_bounds)|exact lamps_oracle|exact forwards_valid|intros [|[|[|v]]]; vm_compute; repeat constructor].
Qed.
