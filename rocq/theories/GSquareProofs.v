(** Sums of real numbers, the inequality of Gibbs, and the statistic. *)
From Coq Require Import Reals Psatz.
From Verif Require Import GSquareModel GSquareSpec ParProofs CellProofs CellProofs2 CellProofs3 CellProofs4 CellTheorems TableProofs.
From Coq Require Import Lra.
Local Open Scope R_scope.

(** ** Sums *)
Lemma Rsum_ext {A} (l : list A) f g : (forall x, x ∈ l -> f x = g x) -> Rsum l f = Rsum l g.
Proof. intros H. induction l as [|x l IH]; [done|]. cbn. rewrite (H x) by left. f_equal. apply IH. intros; apply H. by right. Qed.
Lemma Rsum_app {A} (l k : list A) f : Rsum (l ++ k) f = Rsum l f + Rsum k f.
Proof. unfold Rsum. induction l as [|x l IH]; cbn [app foldr]; [symmetry; apply Rplus_0_l|]. rewrite IH. symmetry. apply Rplus_assoc. Qed.
Lemma Rsum_add {A} (l : list A) f g : Rsum l (fun x => f x + g x) = Rsum l f + Rsum l g.
Proof. unfold Rsum. induction l as [|x l IH]; cbn; [lra|]. rewrite IH. lra. Qed.
Lemma Rsum_scale {A} (l : list A) f c : Rsum l (fun x => c * f x) = c * Rsum l f.
Proof. unfold Rsum. induction l as [|x l IH]; cbn; [lra|]. rewrite IH. lra. Qed.
Lemma Rsum_zero {A} (l : list A) f : (forall x, x ∈ l -> f x = 0) -> Rsum l f = 0.
Proof. intros H. induction l as [|x l IH]; [done|]. cbn. rewrite (H x) by left. unfold Rsum in IH. rewrite IH; [lra|]. intros; apply H. by right. Qed.
Lemma Rsum_nonneg {A} (l : list A) f : (forall x, x ∈ l -> 0 <= f x) -> 0 <= Rsum l f.
Proof. intros H. induction l as [|x l IH]; [apply Rle_refl|]. cbn. apply Rplus_le_le_0_compat; [apply H; left|]. apply IH. intros; apply H; by right. Qed.
Lemma Rsum_le {A} (l : list A) f g : (forall x, x ∈ l -> f x <= g x) -> Rsum l f <= Rsum l g.
Proof. intros H. induction l as [|x l IH]; [apply Rle_refl|]. cbn. apply Rplus_le_compat; [apply H; left|]. apply IH. intros; apply H; by right. Qed.
Lemma Rsum_zero_inv {A} (l : list A) f : (forall x, x ∈ l -> 0 <= f x) -> Rsum l f = 0 -> forall x, x ∈ l -> f x = 0.
Proof.
  intros H E. induction l as [|y l IH]; intros x Hx; [by apply elem_of_nil in Hx|]. cbn in E.
  pose proof (H y ltac:(left)) as Hy. pose proof (Rsum_nonneg l f (fun z Hz => H z (elem_of_list_further _ _ _ Hz))) as Hl. unfold Rsum in Hl.
  apply elem_of_cons in Hx as [-> |Hx]; [lra|]. apply IH; [intros; apply H; by right|unfold Rsum; lra|done].
Qed.
Lemma Rsum_bind {A B} (l : list A) (h : A -> list B) f : Rsum (l ≫= h) f = Rsum l (fun x => Rsum (h x) f).
Proof. induction l as [|x l IH]; [done|]. cbn [mbind list_bind]. rewrite Rsum_app. cbn. f_equal. exact IH. Qed.
Lemma Rsum_fmap {A B} (h : A -> B) (l : list A) f : Rsum (h <$> l) f = Rsum l (fun x => f (h x)).
Proof. induction l as [|x l IH]; [done|]. cbn. f_equal. exact IH. Qed.
Lemma Rsum_swap {A B} (l : list A) (k : list B) f : Rsum l (fun x => Rsum k (fun y => f x y)) = Rsum k (fun y => Rsum l (fun x => f x y)).
Proof.
  induction l as [|x l IH]; cbn; [by rewrite (Rsum_zero k)|]. unfold Rsum at 2 in IH. unfold Rsum at 2. rewrite Rsum_add. f_equal. exact IH.
Qed.
Lemma INR_nsum {A} (l : list A) f : INR (nsum l f) = Rsum l (fun x => INR (f x)).
Proof. induction l as [|x l IH]; [done|]. cbn [nsum foldr]. rewrite plus_INR. cbn. f_equal. exact IH. Qed.
Lemma Rsum_const_mul {A} (l : list A) f c : Rsum l (fun x => f x * c) = Rsum l f * c.
Proof. rewrite (Rsum_ext _ _ (fun x => c * f x)) by (intros; lra). rewrite Rsum_scale. lra. Qed.

(** ** The statistic of the code *)
Lemma g2_fold ts a : fold_left (fun g2 t => g2 + g2_term t) ts a = a + Rsum ts g2_term.
Proof. revert a. induction ts as [|t ts IH]; intros a; cbn; [lra|]. rewrite IH. unfold Rsum. lra. Qed.
Lemma g2_terms ts : g2_sum ts = Rsum ts g2_term.
Proof. unfold g2_sum. rewrite g2_fold. lra. Qed.
Lemma statistic_value D ds x y zs : g2_sum (statistic D ds x y zs) = g_square D ds x y zs.
Proof.
  rewrite g2_terms. unfold statistic, g_square. rewrite Rsum_bind. apply Rsum_ext. intros z _. rewrite Rsum_bind. apply Rsum_ext. intros a _. rewrite Rsum_bind. apply Rsum_ext. intros b _.
  unfold cell_terms. cbv zeta. case_decide as H.
  - cbn [Rsum foldr g2_term]. rewrite Rplus_0_r. f_equal. f_equal. unfold Rdiv. rewrite !Rinv_mult, Rinv_inv. ring.
  - cbn [Rsum foldr]. assert (matching D (zs ++ [x; y]) (z ++ [a; b]) = 0%nat) as -> by lia. cbn [INR]. ring.
Qed.
Lemma ln_zero : ln 0 = 0.
Proof. unfold ln. destruct (Rlt_dec 0 0) as [F|F]; [destruct (Rlt_irrefl 0 F)|reflexivity]. Qed.
Lemma balanced_zero ts : Forall balanced ts -> g2_sum ts = 0.
Proof.
  intros H. rewrite g2_terms. apply Rsum_zero. intros [[[o r] c] t] Ht. rewrite Forall_forall in H. specialize (H _ Ht). unfold balanced in H. unfold g2_term.
  assert (INR c * INR r = INR o * INR t) as ->. { rewrite <-!mult_INR. f_equal. lia. }
  destruct (decide (o = 0%nat)) as [-> |Ho]; [cbn [INR]; ring|]. apply not_0_INR in Ho. destruct (decide (t = 0%nat)) as [-> |Ht0].
  - change (INR 0) with 0. unfold Rdiv. rewrite Rmult_0_r, Rmult_0_l, Rinv_0, Rmult_0_r. rewrite ln_zero. ring.
  - apply not_0_INR in Ht0. replace (INR o / (INR o * INR t / INR t)) with 1 by (field; tauto). rewrite ln_1. ring.
Qed.

(** ** Gibbs *)
Lemma ln_below t : 0 < t -> t <> 1 -> ln t < t - 1.
Proof. intros Ht Hne. assert (ln t <> 0) as Hl. { intros E. apply Hne. rewrite <-(exp_ln t), E by done. apply exp_0. } pose proof (exp_ineq1 _ Hl) as H. rewrite exp_ln in H by done. lra. Qed.
Lemma ln_at_most t : 0 < t -> ln t <= t - 1.
Proof. intros Ht. destruct (Req_dec t 1) as [-> |Hne]; [rewrite ln_1; lra|]. apply Rlt_le. by apply ln_below. Qed.
(** [n ln (n / e) - (n - e)] is not negative, and zero for [n = e] only. *)
Lemma gibbs n e : 0 <= n -> 0 <= e -> (e = 0 -> n = 0) -> 0 <= n * ln (n / e) - (n - e).
Proof.
  intros Hn He H0. destruct (Req_dec n 0) as [-> |Hn0]; [lra|]. assert (0 < n) as Hp by lra. assert (0 < e) as Hep by (destruct (Req_dec e 0); [tauto|lra]).
  assert (n * ln (n / e) = - (n * ln (e / n))) as ->. { unfold Rdiv. rewrite !ln_mult, !ln_Rinv by (try apply Rinv_0_lt_compat; done). lra. }
  pose proof (ln_at_most (e / n) (Rdiv_lt_0_compat _ _ Hep Hp)) as H. apply (Rmult_le_compat_l n) in H; [|lra]. replace (n * (e / n - 1)) with (e - n) in H by (field; lra). lra.
Qed.
Lemma gibbs_zero n e : 0 <= n -> 0 <= e -> (e = 0 -> n = 0) -> n * ln (n / e) - (n - e) = 0 -> n = e.
Proof.
  intros Hn He H0 E. destruct (Req_dec n 0) as [-> |Hn0]; [lra|]. assert (0 < n) as Hp by lra. assert (0 < e) as Hep by (destruct (Req_dec e 0); [tauto|lra]).
  destruct (Req_dec n e) as [|Hne]; [done|]. exfalso.
  assert (n * ln (n / e) = - (n * ln (e / n))) as Hi. { unfold Rdiv. rewrite !ln_mult, !ln_Rinv by (try apply Rinv_0_lt_compat; done). lra. }
  pose proof (ln_below (e / n) (Rdiv_lt_0_compat _ _ Hep Hp)) as H. assert (e / n <> 1) as Hd. { intros F. apply Hne. apply (Rmult_eq_compat_r n) in F. unfold Rdiv in F. rewrite Rmult_assoc, Rinv_l in F by done. lra. }
  specialize (H Hd). apply (Rmult_lt_compat_l n) in H; [|lra]. replace (n * (e / n - 1)) with (e - n) in H by (field; lra). lra.
Qed.
Lemma gibbs_equal n : n * ln (n / n) = 0.
Proof. destruct (Req_dec n 0) as [-> |Hn]; [ring|]. unfold Rdiv. rewrite Rinv_r by done. rewrite ln_1. ring. Qed.

(** ** The counts *)
Lemma matching_pos D vs cfg : (0 < matching D vs cfg)%nat -> exists j, (j < co_rows D)%nat /\ Forall2 (fun v c => LearnSpec.entry (co_cols D) j v = Some c) vs cfg.
Proof.
  unfold matching. intros H. destruct (filter _ _) as [|j l] eqn:E; [cbn in H; lia|]. assert (j ∈ filter (fun j => row_values (co_cols D) vs j = Some cfg) (seq 0 (co_rows D))) as Hj by (rewrite E; left).
  apply elem_of_list_filter in Hj as [Hj Hs]. apply elem_of_seq in Hs. exists j. split; [lia|]. by apply row_values_Some.
Qed.
Lemma matching_in_range D ds vs cfg : tabulated D ds -> (0 < matching D vs cfg)%nat -> in_range (sizes_of ds vs) cfg.
Proof.
  intros [HL HD] H. apply matching_pos in H as (j & _ & H). unfold in_range, sizes_of. rewrite Forall2_fmap_r. apply Forall2_flip. eapply Forall2_impl; [exact H|]. intros v c Hc. cbn beta. unfold LearnSpec.entry in Hc.
  destruct (co_cols D !! v) as [col|] eqn:Hv; [|done]. cbn in Hc. destruct (lookup_lt_is_Some_2 ds v) as [d Hd]. { rewrite <-HL. by eapply lookup_lt_Some. } rewrite Hd. cbn [default from_option id].
  destruct (HD v col d Hv Hd) as [_ Hf]. rewrite Forall_forall in Hf. apply Hf. by eapply elem_of_list_lookup_2.
Qed.
Lemma matching_shorter D vs ws cfg cfg' : length vs = length cfg -> (matching D (vs ++ ws) (cfg ++ cfg') <= matching D vs cfg)%nat.
Proof. intros Hl. apply matching_mono. intros j. rewrite !row_values_Some. intros H. by apply Forall2_app_inv in H as [H _]. Qed.
Lemma matching_drop D zs (x y a b : nat) z : length zs = length z -> (matching D (zs ++ [x; y]) (z ++ [a; b]) <= matching D (zs ++ [y]) (z ++ [b]))%nat.
Proof.
  intros Hl. apply matching_mono. intros j. rewrite !row_values_Some. intros H. apply Forall2_app_inv in H as [H1 H2]; [|done]. inversion_clear H2. by apply Forall2_app.
Qed.
Lemma configs_same_length ds zs z : z ∈ configs (sizes_of ds zs) -> length z = length zs.
Proof. intros H. apply elem_of_configs in H. apply Forall2_length in H. unfold sizes_of in H. by rewrite fmap_length in H. Qed.

Section stat.
Context (D : columns) (ds : list nat) (HD : tabulated D ds) (x y : nat) (Hx : (x < length ds)%nat) (Hy : (y < length ds)%nat) (zs : list nat).
Notation dx := (default 0%nat (ds !! x)).
Notation dy := (default 0%nat (ds !! y)).
Notation nz z := (matching D zs z).
Notation nx z a := (matching D (zs ++ [x]) (z ++ [a])).
Notation ny z b := (matching D (zs ++ [y]) (z ++ [b])).
Notation nn z a b := (matching D (zs ++ [x; y]) (z ++ [a; b])).
Set Default Proof Using "All".
Definition expect (z : list nat) (a b : nat) : R := INR (nx z a) * INR (ny z b) / INR (nz z).
Definition gap (z : list nat) (a b : nat) : R := INR (nn z a b) * ln (INR (nn z a b) / expect z a b) - (INR (nn z a b) - expect z a b).
Lemma sum_x z : length z = length zs -> INR (nz z) = Rsum (seq 0 dx) (fun a => INR (nx z a)).
Proof. intros Hl. pose proof (matching_sum D ds zs [] z [] x HD Hx (eq_sym Hl)) as S. rewrite !app_nil_r in S. rewrite S. apply INR_nsum. Qed.
Lemma sum_y z : length z = length zs -> INR (nz z) = Rsum (seq 0 dy) (fun b => INR (ny z b)).
Proof. intros Hl. pose proof (matching_sum D ds zs [] z [] y HD Hy (eq_sym Hl)) as S. rewrite !app_nil_r in S. rewrite S. apply INR_nsum. Qed.
Lemma sum_xy z : length z = length zs -> INR (nz z) = Rsum (seq 0 dx) (fun a => Rsum (seq 0 dy) (fun b => INR (nn z a b))).
Proof.
  intros Hl. destruct (lookup_lt_is_Some_2 ds x Hx) as [dx' Hdx], (lookup_lt_is_Some_2 ds y Hy) as [dy' Hdy]. rewrite (margin_z D ds HD x y dx' dy' Hdx Hdy zs z Hl), Hdx, Hdy. cbn [default from_option id].
  rewrite INR_nsum. apply Rsum_ext. intros a _. apply INR_nsum.
Qed.
Lemma expect_sum z : length z = length zs -> Rsum (seq 0 dx) (fun a => Rsum (seq 0 dy) (fun b => expect z a b)) = INR (nz z).
Proof.
  intros Hl. unfold expect. rewrite (Rsum_ext _ _ (fun a => INR (nx z a) * (INR (nz z) * / INR (nz z)))).
  - rewrite Rsum_const_mul, <-sum_x by done. destruct (Req_dec (INR (nz z)) 0) as [-> |H]; [ring|]. rewrite Rinv_r by done. ring.
  - intros a _. rewrite (Rsum_ext _ _ (fun b => INR (nx z a) * (/ INR (nz z)) * INR (ny z b))) by (intros; unfold Rdiv; ring). rewrite Rsum_scale, <-sum_y by done. ring.
Qed.
Lemma expect_nonneg z a b : 0 <= expect z a b.
Proof. unfold expect, Rdiv. apply Rmult_le_pos; [apply Rmult_le_pos; apply pos_INR|]. destruct (Req_dec (INR (nz z)) 0) as [-> |H]; [rewrite Rinv_0; lra|]. apply Rlt_le, Rinv_0_lt_compat. pose proof (pos_INR (nz z)). lra. Qed.
Lemma counts_order z a b : length z = length zs -> (nn z a b <= nx z a)%nat /\ (nn z a b <= ny z b)%nat /\ (nx z a <= nz z)%nat /\ (ny z b <= nz z)%nat.
Proof.
  intros Hl. split_and!; [|by apply matching_drop|apply matching_shorter; done|apply matching_shorter; done].
  pose proof (matching_shorter D (zs ++ [x]) [y] (z ++ [a]) [b]) as H. rewrite <-!app_assoc in H. apply H. rewrite !app_length. cbn. lia.
Qed.
Lemma expect_zero z a b : length z = length zs -> expect z a b = 0 -> INR (nn z a b) = 0.
Proof.
  intros Hl E. destruct (counts_order z a b Hl) as (H1 & H2 & H3 & H4). destruct (decide (nn z a b = 0%nat)) as [-> |Hn]; [done|]. exfalso. unfold expect in E.
  assert (0 < INR (nx z a) * INR (ny z b) / INR (nz z)); [|lra]. apply Rdiv_lt_0_compat; [apply Rmult_lt_0_compat|]; apply lt_0_INR; lia.
Qed.
Lemma gap_nonneg z a b : length z = length zs -> 0 <= gap z a b.
Proof. intros Hl. apply gibbs; [apply pos_INR|apply expect_nonneg|by apply expect_zero]. Qed.
Lemma stratum z : length z = length zs ->
  Rsum (seq 0 dx) (fun a => Rsum (seq 0 dy) (fun b => 2 * INR (nn z a b) * ln (INR (nn z a b) * INR (nz z) / (INR (nx z a) * INR (ny z b))))) = 2 * Rsum (seq 0 dx) (fun a => Rsum (seq 0 dy) (fun b => gap z a b)).
Proof.
  intros Hl. rewrite (Rsum_ext _ _ (fun a => 2 * (Rsum (seq 0 dy) (fun b => gap z a b) + (Rsum (seq 0 dy) (fun b => INR (nn z a b)) + -1 * Rsum (seq 0 dy) (fun b => expect z a b))))).
  - rewrite Rsum_scale, !Rsum_add, Rsum_scale, expect_sum, <-sum_xy by done. ring.
  - intros a _. rewrite <-Rsum_scale, <-!Rsum_add, <-Rsum_scale. apply Rsum_ext. intros b _. unfold gap, expect.
    replace (INR (nn z a b) / (INR (nx z a) * INR (ny z b) / INR (nz z))) with (INR (nn z a b) * INR (nz z) / (INR (nx z a) * INR (ny z b))); [ring|]. unfold Rdiv. rewrite !Rinv_mult, Rinv_inv. ring.
Qed.
Lemma g_square_gap : g_square D ds x y zs = 2 * Rsum (configs (sizes_of ds zs)) (fun z => Rsum (seq 0 dx) (fun a => Rsum (seq 0 dy) (fun b => gap z a b))).
Proof. unfold g_square. cbv zeta. rewrite <-Rsum_scale. apply Rsum_ext. intros z Hz. apply stratum. by eapply configs_same_length. Qed.
Lemma gap_sum_nonneg z : z ∈ configs (sizes_of ds zs) -> 0 <= Rsum (seq 0 dx) (fun a => Rsum (seq 0 dy) (fun b => gap z a b)).
Proof. intros Hz. apply Rsum_nonneg. intros a _. apply Rsum_nonneg. intros b _. apply gap_nonneg. by eapply configs_same_length. Qed.
Lemma g_square_nonneg : 0 <= g_square D ds x y zs.
Proof. rewrite g_square_gap. apply Rmult_le_pos; [lra|]. apply Rsum_nonneg. intros z Hz. by apply gap_sum_nonneg. Qed.
Lemma gap_zero z a b : length z = length zs -> gap z a b = 0 <-> (nn z a b * nz z = nx z a * ny z b)%nat.
Proof.
  intros Hl. destruct (counts_order z a b Hl) as (H1 & H2 & H3 & H4). split.
  - intros E. apply gibbs_zero in E; [|apply pos_INR|apply expect_nonneg|by apply expect_zero]. destruct (decide (nz z = 0%nat)) as [E0|H0]; [rewrite E0 in *; lia|].
    apply not_0_INR in H0. apply INR_eq. rewrite !mult_INR, E. unfold expect. field. done.
  - intros E. assert (expect z a b = INR (nn z a b)) as Ee.
    { unfold expect. rewrite <-mult_INR, <-E, mult_INR. destruct (decide (nz z = 0%nat)) as [E0|H0]; [assert (nn z a b = 0%nat) as -> by lia; cbn [INR]; unfold Rdiv; ring|]. apply not_0_INR in H0. field. done. }
    unfold gap. rewrite Ee, gibbs_equal. ring.
Qed.
Lemma g_square_zero : g_square D ds x y zs = 0 <-> cond_indep D x y zs.
Proof.
  rewrite g_square_gap. split.
  - intros E z a b Hl. assert (Rsum (configs (sizes_of ds zs)) (fun z => Rsum (seq 0 dx) (fun a => Rsum (seq 0 dy) (fun b => gap z a b))) = 0) as E' by lra. clear E.
    destruct (counts_order z a b Hl) as (H1 & H2 & H3 & H4).
    destruct (decide (nx z a = 0%nat)) as [Ex|Ex]; [rewrite Ex in *; lia|]. destruct (decide (ny z b = 0%nat)) as [Ey|Ey]; [rewrite Ey in *; lia|].
    pose proof (matching_in_range D ds (zs ++ [x]) (z ++ [a]) HD ltac:(lia)) as Rx. pose proof (matching_in_range D ds (zs ++ [y]) (z ++ [b]) HD ltac:(lia)) as Ry. unfold in_range, sizes_of in Rx, Ry. rewrite fmap_app in Rx, Ry.
    apply Forall2_app_inv in Rx as [Rz Rx]; [|by rewrite fmap_length]. apply Forall2_app_inv in Ry as [_ Ry]; [|by rewrite fmap_length]. cbn in Rx, Ry. inversion_clear Rx as [|? ? ? ? Ha _]. inversion_clear Ry as [|? ? ? ? Hb _].
    assert (z ∈ configs (sizes_of ds zs)) as Hz by (by apply elem_of_configs).
    apply gap_zero; [done|]. pose proof (Rsum_zero_inv _ _ gap_sum_nonneg E' z Hz) as E1. cbn beta in E1.
    pose proof (fun H => Rsum_zero_inv _ _ H E1 a) as E2. cbn beta in E2. assert (forall a, a ∈ seq 0 dx -> 0 <= Rsum (seq 0 dy) (fun b => gap z a b)) as Hn by (intros a' _; apply Rsum_nonneg; intros b' _; by apply gap_nonneg).
    specialize (E2 Hn ltac:(apply elem_of_seq; lia)). apply (Rsum_zero_inv _ _ (fun b _ => gap_nonneg z a b Hl) E2 b). apply elem_of_seq. lia.
  - intros H. rewrite Rsum_zero; [ring|]. intros z Hz. apply Rsum_zero. intros a _. apply Rsum_zero. intros b _. apply gap_zero; [by eapply configs_same_length|]. apply H. by eapply configs_same_length.
Qed.
(** Without degrees of freedom the data are independent. *)
Lemma no_freedom : degrees D ds x y zs = 0%nat -> cond_indep D x y zs.
Proof. intros H. apply g_square_zero. rewrite <-statistic_value. apply balanced_zero. by apply balanced_terms. Qed.
End stat.
