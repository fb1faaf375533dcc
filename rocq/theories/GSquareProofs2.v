(** Orders of variables and rows, repeated rows, decisions and learning. *)
From Coq Require Import Reals Psatz.
From Verif Require Import GSquareModel GSquareSpec ParProofs CellProofs CellProofs2 CellProofs3 CellProofs4 CellTheorems PCTheorems OrientModel DSepTheorems TourProofs SaveWitness GSquareProofs TableProofs.
From Coq Require Import Lra.
Local Open Scope R_scope.

(** ** The order of the variables *)
Lemma matching_pairs D (l : list (nat * nat)) j : row_values (co_cols D) (l.*1) j = Some (l.*2) <-> Forall (fun e => LearnSpec.entry (co_cols D) j e.1 = Some e.2) l.
Proof. rewrite row_values_Some, Forall2_fmap_l, Forall2_fmap_r. induction l as [|e l IH]; [split; constructor|]. rewrite Forall_cons. split; [inversion_clear 1|intros [? ?]; constructor]; tauto. Qed.
Lemma matching_permuted D (l l' : list (nat * nat)) : l ≡ₚ l' -> matching D (l.*1) (l.*2) = matching D (l'.*1) (l'.*2).
Proof. intros H. unfold matching. apply count_ext. intros j _. rewrite !matching_pairs. by rewrite H. Qed.
Lemma matching_tail D zs z (ws cs : list nat) : length z = length zs -> length ws = length cs -> matching D (zs ++ ws) (z ++ cs) = matching D ((zip zs z ++ zip ws cs).*1) ((zip zs z ++ zip ws cs).*2).
Proof. intros Hl Hk. rewrite !fmap_app, !fst_zip, !snd_zip by lia. done. Qed.
Lemma matching_swap D zs z (x y a b : nat) : length z = length zs -> matching D (zs ++ [y; x]) (z ++ [b; a]) = matching D (zs ++ [x; y]) (z ++ [a; b]).
Proof. intros Hl. rewrite !(matching_tail D zs z) by done. apply matching_permuted. cbn [zip zip_with]. apply Permutation_app_head. constructor. Qed.
Lemma g_square_symmetric D ds x y zs : g_square D ds y x zs = g_square D ds x y zs.
Proof.
  unfold g_square. cbv zeta. apply Rsum_ext. intros z Hz. apply configs_same_length in Hz. rewrite Rsum_swap. apply Rsum_ext. intros a _. apply Rsum_ext. intros b _.
  rewrite (matching_swap D zs z x y a b) by done. rewrite (Rmult_comm (INR (matching D (zs ++ [y]) _))). done.
Qed.
Lemma degrees_symmetric D ds x y zs : degrees D ds y x zs = degrees D ds x y zs.
Proof. unfold degrees. apply nsum_ext. intros z _. apply Nat.mul_comm. Qed.
Lemma cond_indep_symmetric D x y zs : cond_indep D y x zs <-> cond_indep D x y zs.
Proof. split; intros H z a b Hl; specialize (H z b a Hl); rewrite matching_swap in H by done; lia. Qed.

Lemma configs_permuted ds zs zs' : zs ≡ₚ zs' -> forall F : list (nat * nat) -> R, (forall l l', l ≡ₚ l' -> F l = F l') ->
  Rsum (configs (sizes_of ds zs)) (fun z => F (zip zs z)) = Rsum (configs (sizes_of ds zs')) (fun z => F (zip zs' z)).
Proof.
  unfold sizes_of. induction 1 as [|v zs zs' _ IH|u v zs|zs zs' zs'' _ IH1 _ IH2]; intros F HF.
  - done.
  - cbn [fmap list_fmap configs]. rewrite !Rsum_bind. apply Rsum_ext. intros a _. change (list_fmap nat nat ?f ?l) with (f <$> l). rewrite !Rsum_fmap. cbn [zip zip_with]. apply (IH (fun l => F ((v, a) :: l))). intros l l' H. apply HF. by rewrite H.
  - cbn [fmap list_fmap configs]. rewrite !Rsum_bind. change (list_fmap nat nat ?f ?l) with (f <$> l).
    rewrite (Rsum_ext _ _ (fun a => Rsum (seq 0 (default 0%nat (ds !! u))) (fun b => Rsum (configs ((fun v => default 0%nat (ds !! v)) <$> zs)) (fun z => F ((v, a) :: (u, b) :: zip zs z))))).
    2:{ intros a _. rewrite Rsum_fmap, Rsum_bind. apply Rsum_ext. intros b _. rewrite Rsum_fmap. done. }
    rewrite Rsum_swap. apply Rsum_ext. intros b _. rewrite Rsum_fmap, Rsum_bind. apply Rsum_ext. intros a _. rewrite Rsum_fmap. apply Rsum_ext. intros z _. cbn [zip zip_with]. apply HF. constructor.
  - rewrite IH1 by done. by apply IH2.
Qed.
Lemma zip_permuted D (l l' : list (nat * nat)) (ws cs : list nat) : l ≡ₚ l' -> length ws = length cs -> matching D (l.*1 ++ ws) (l.*2 ++ cs) = matching D (l'.*1 ++ ws) (l'.*2 ++ cs).
Proof.
  intros H Hk. assert (forall k : list (nat * nat), matching D (k.*1 ++ ws) (k.*2 ++ cs) = matching D ((k ++ zip ws cs).*1) ((k ++ zip ws cs).*2)) as E. { intros k. rewrite !fmap_app, fst_zip, snd_zip by lia. done. }
  rewrite !E. apply matching_permuted. by rewrite H.
Qed.
Lemma g_square_permuted D ds x y zs zs' : zs ≡ₚ zs' -> g_square D ds x y zs = g_square D ds x y zs'.
Proof.
  intros H. set (F := fun l : list (nat * nat) => Rsum (seq 0 (default 0%nat (ds !! x))) (fun a => Rsum (seq 0 (default 0%nat (ds !! y))) (fun b =>
    let n := INR (matching D (l.*1 ++ [x; y]) (l.*2 ++ [a; b])) in 2 * n * ln (n * INR (matching D (l.*1) (l.*2)) / (INR (matching D (l.*1 ++ [x]) (l.*2 ++ [a])) * INR (matching D (l.*1 ++ [y]) (l.*2 ++ [b]))))))).
  assert (forall l l', l ≡ₚ l' -> F l = F l') as HF.
  { intros l l' Hl. unfold F. apply Rsum_ext. intros a _. apply Rsum_ext. intros b _. cbv zeta. rewrite (zip_permuted D l l' [x; y] [a; b]), (zip_permuted D l l' [x] [a]), (zip_permuted D l l' [y] [b]), (matching_permuted D l l') by done. done. }
  assert (forall us, g_square D ds x y us = Rsum (configs (sizes_of ds us)) (fun z => F (zip us z))) as E.
  { intros us. unfold g_square, F. apply Rsum_ext. intros z Hz. apply configs_same_length in Hz. rewrite fst_zip, snd_zip by lia. done. }
  rewrite !E. by apply configs_permuted.
Qed.
Lemma degrees_permuted D ds x y zs zs' : zs ≡ₚ zs' -> degrees D ds x y zs = degrees D ds x y zs'.
Proof.
  intros H. apply INR_eq. unfold degrees. rewrite !INR_nsum.
  set (F := fun l : list (nat * nat) => INR ((levels_seen D ds x (l.*1) (l.*2) - 1) * (levels_seen D ds y (l.*1) (l.*2) - 1))).
  assert (forall v l l', l ≡ₚ l' -> levels_seen D ds v (l.*1) (l.*2) = levels_seen D ds v (l'.*1) (l'.*2)) as HL.
  { intros v l l' Hl. unfold levels_seen. apply count_ext. intros i _. by rewrite (zip_permuted D l l' [v] [i]). }
  assert (forall us, Rsum (configs (sizes_of ds us)) (fun z => INR ((levels_seen D ds x us z - 1) * (levels_seen D ds y us z - 1))) = Rsum (configs (sizes_of ds us)) (fun z => F (zip us z))) as E.
  { intros us. apply Rsum_ext. intros z Hz. apply configs_same_length in Hz. unfold F. rewrite fst_zip, snd_zip by lia. done. }
  rewrite !E. apply configs_permuted; [done|]. intros l l' Hl. unfold F. by rewrite (HL x l l' Hl), (HL y l l' Hl).
Qed.

(** ** Choosing rows *)
Lemma each_row_range k n p j : each_row k n p -> j ∈ p -> (j < n)%nat.
Proof. intros H Hj. rewrite H in Hj. apply elem_of_list_In, in_concat in Hj as (l & Hl & Hj). apply elem_of_list_In in Hl, Hj. apply elem_of_replicate in Hl as [-> _]. apply elem_of_seq in Hj. lia. Qed.
Lemma pick_entry p D ds v j r : tabulated D ds -> p !! j = Some r -> (r < co_rows D)%nat -> LearnSpec.entry (co_cols (pick_rows p D)) j v = LearnSpec.entry (co_cols D) r v.
Proof.
  intros [HL HD] Hj Hr. unfold LearnSpec.entry. cbn [pick_rows co_cols]. rewrite list_lookup_fmap. destruct (co_cols D !! v) as [col|] eqn:Hv; [|done]. cbn. rewrite list_lookup_fmap, Hj. cbn.
  destruct (lookup_lt_is_Some_2 ds v) as [d Hd]. { rewrite <-HL. by eapply lookup_lt_Some. } destruct (HD v col d Hv Hd) as [Hc _]. destruct (lookup_lt_is_Some_2 col r ltac:(lia)) as [c ->]. done.
Qed.
Lemma pick_matching p D ds vs cfg : tabulated D ds -> (forall r, r ∈ p -> (r < co_rows D)%nat) -> matching (pick_rows p D) vs cfg = length (filter (fun r => row_values (co_cols D) vs r = Some cfg) p).
Proof.
  intros HD Hp. unfold matching. cbn [pick_rows co_rows].
  assert (forall q l, (forall i r, q !! i = Some r -> exists j, l !! i = Some j /\ p !! j = Some r) -> length l = length q ->
    length (filter (fun j => row_values (co_cols (pick_rows p D)) vs j = Some cfg) l) = length (filter (fun r => row_values (co_cols D) vs r = Some cfg) q)) as H.
  { induction q as [|r q IH]; intros [|j l] Hq Hl; try discriminate Hl; [done|]. rewrite !count_cons. f_equal.
    - destruct (Hq 0%nat r eq_refl) as (j' & [= ->] & Hj). assert (row_values (co_cols (pick_rows p D)) vs j' = Some cfg <-> row_values (co_cols D) vs r = Some cfg) as Hi.
      { rewrite !row_values_Some. assert (r < co_rows D)%nat as Hr by (apply Hp; by eapply elem_of_list_lookup_2). split; intros H; (eapply Forall2_impl; [exact H|]); intros v c Hc; cbn beta in *; rewrite (pick_entry p D ds v j' r HD Hj Hr) in *; done. }
      repeat case_decide; tauto.
    - apply IH; [|by injection Hl]. intros i r' Hi. apply (Hq (S i) r' Hi). }
  apply H; [|by rewrite seq_length]. intros i r Hi. exists i. split; [|done]. apply lookup_seq. split; [done|]. by eapply lookup_lt_Some.
Qed.
Lemma count_copies {A} (P : A -> Prop) `{forall a, Decision (P a)} k (l : list A) : length (filter P (concat (replicate k l))) = (k * length (filter P l))%nat.
Proof. induction k as [|k IH]; [done|]. cbn [replicate concat]. rewrite filter_app, app_length, IH. lia. Qed.
Lemma each_row_matching k p D ds vs cfg : tabulated D ds -> each_row k (co_rows D) p -> matching (pick_rows p D) vs cfg = (k * matching D vs cfg)%nat.
Proof.
  intros HD Hp. rewrite (pick_matching p D ds vs cfg HD) by (intros r Hr; by apply (each_row_range k (co_rows D) p)). rewrite (Permutation_length (filter_Permutation _ _ _ Hp)). apply count_copies.
Qed.
Lemma pick_tabulated k p D ds : tabulated D ds -> each_row k (co_rows D) p -> tabulated (pick_rows p D) ds.
Proof.
  intros [HL HD] Hp. split; [cbn [pick_rows co_cols]; by rewrite fmap_length|]. intros v col d Hv Hd. cbn [pick_rows co_cols co_rows] in *. rewrite list_lookup_fmap in Hv. destruct (co_cols D !! v) as [c|] eqn:Hc; [|done]. injection Hv as <-.
  destruct (HD v c d Hc Hd) as [Hr Hf]. rewrite fmap_length. split; [done|]. apply Forall_fmap, Forall_forall. intros r Hrp. apply (each_row_range k (co_rows D)) in Hrp; [|done]. cbn. destruct (lookup_lt_is_Some_2 c r ltac:(lia)) as [a Ha]. rewrite Ha. cbn. rewrite Forall_forall in Hf. apply Hf. by eapply elem_of_list_lookup_2.
Qed.
Lemma copies_g_square k p D ds x y zs : tabulated D ds -> each_row k (co_rows D) p -> g_square (pick_rows p D) ds x y zs = INR k * g_square D ds x y zs.
Proof.
  intros HD Hp. unfold g_square. cbv zeta. rewrite <-Rsum_scale. apply Rsum_ext. intros z _. rewrite <-Rsum_scale. apply Rsum_ext. intros a _. rewrite <-Rsum_scale. apply Rsum_ext. intros b _.
  rewrite !(each_row_matching k p D ds) by done. rewrite !mult_INR. destruct (decide (k = 0%nat)) as [-> |Hk]; [change (INR 0) with 0; ring|]. apply not_0_INR in Hk.
  match goal with |- 2 * (INR k * ?n) * ln (INR k * ?n * (INR k * ?t) / (INR k * ?u * (INR k * ?v))) = _ => replace (INR k * n * (INR k * t) / (INR k * u * (INR k * v))) with (n * t / (u * v)) end; [ring|].
  unfold Rdiv. rewrite !Rinv_mult. match goal with |- ?n * ?t * (?u * ?v) = _ => generalize u v end. intros u v. field. done.
Qed.
Lemma copies_degrees k p D ds x y zs : tabulated D ds -> each_row k (co_rows D) p -> (0 < k)%nat -> degrees (pick_rows p D) ds x y zs = degrees D ds x y zs.
Proof.
  intros HD Hp Hk. unfold degrees. apply nsum_ext. intros z _. assert (forall v, levels_seen (pick_rows p D) ds v zs z = levels_seen D ds v zs z) as E; [|by rewrite !E].
  intros v. unfold levels_seen. apply count_ext. intros i _. rewrite (each_row_matching k p D ds) by done. split; intros H; [|apply Nat.mul_pos_pos; lia]. destruct (matching D _ _); lia.
Qed.
Lemma copies_cond_indep k p D ds x y zs : tabulated D ds -> each_row k (co_rows D) p -> (0 < k)%nat -> cond_indep (pick_rows p D) x y zs <-> cond_indep D x y zs.
Proof.
  intros HD Hp Hk. split; intros H z a b Hl; specialize (H z a b Hl); rewrite !(each_row_matching k p D ds) in * by done; [|nia].
  assert (k * k <> 0)%nat as Hkk by nia. apply (Nat.mul_cancel_l _ _ (k * k) Hkk). nia.
Qed.

(** ** Decisions *)
Lemma decision_value F alpha D ds x y zs : decision (pvalue_test F alpha) D ds x y zs = true <-> degrees D ds x y zs = 0%nat \/ alpha < 1 - F (g_square D ds x y zs) (degrees D ds x y zs).
Proof. unfold decision. case_decide as E; [tauto|]. unfold pvalue_test. rewrite statistic_value. destruct (Rlt_dec _ _); naive_solver. Qed.
Lemma level_ok alpha : 0 <= alpha <= 1 -> significance_level alpha = Ok alpha.
Proof. intros H. unfold significance_level. destruct (Rlt_dec alpha 0); [lra|]. destruct (Rlt_dec 1 alpha); [lra|done]. Qed.
Lemma level_bad alpha F D ds x y zs g : alpha < 0 \/ 1 < alpha -> gsquare_test F alpha D ds x y zs g = Err Exit1.
Proof. intros H. unfold gsquare_test, significance_level. destruct (Rlt_dec alpha 0); [done|]. destruct (Rlt_dec 1 alpha); [done|lra]. Qed.
Lemma test_value F alpha D ds x y zs g : tabulated D ds -> (x < length ds)%nat -> (y < length ds)%nat -> Forall (fun v => (v < length ds)%nat) zs -> (g <= 1)%nat -> 0 <= alpha <= 1 ->
  exists r, gsquare_test F alpha D ds x y zs g = Ok r /\ (ci_indep r = true <-> degrees D ds x y zs = 0%nat \/ alpha < 1 - F (g_square D ds x y zs) (degrees D ds x y zs)).
Proof.
  intros HD Hx Hy Hz Hg Ha. destruct (lookup_lt_is_Some_2 ds x Hx) as [dx Hdx], (lookup_lt_is_Some_2 ds y Hy) as [dy Hdy].
  destruct (single_decision D ds HD x y dx dy Hdx Hdy (pvalue_test F alpha) zs g Hz Hg) as (f & Hf & _). unfold gsquare_test. rewrite level_ok by done. cbn [mbind outcome_bind]. eexists. split; [exact Hf|]. cbn [ci_indep]. apply decision_value.
Qed.
Lemma independent_data F alpha D ds x y zs : tabulated D ds -> (x < length ds)%nat -> (y < length ds)%nat -> chi_square_like F -> alpha < 1 -> cond_indep D x y zs -> decision (pvalue_test F alpha) D ds x y zs = true.
Proof.
  intros HD Hx Hy HF Ha H. apply decision_value. destruct (decide (degrees D ds x y zs = 0%nat)) as [|Hd]; [by left|right]. apply (g_square_zero D ds HD x y Hx Hy) in H. rewrite H. destruct (HF (degrees D ds x y zs) ltac:(lia)) as [-> _]. lra.
Qed.
Lemma above (c b : R) : 0 < c -> exists K, forall k, (K <= k)%nat -> b <= INR k * c.
Proof.
  intros Hc. destruct (archimed (b / c)) as [H _]. exists (Z.to_nat (up (b / c))). intros k Hk. assert (b / c <= INR k) as Hb.
  { apply Rle_trans with (IZR (up (b / c))); [lra|]. rewrite INR_IZR_INZ. apply IZR_le. lia. }
  apply (Rmult_le_compat_r c) in Hb; [|lra]. unfold Rdiv in Hb. rewrite Rmult_assoc, Rinv_l in Hb by lra. lra.
Qed.
Lemma dependent_data F alpha D ds x y zs : tabulated D ds -> (x < length ds)%nat -> (y < length ds)%nat -> chi_square_like F -> 0 < alpha -> ~ cond_indep D x y zs ->
  exists K, forall k p, (K <= k)%nat -> each_row k (co_rows D) p -> decision (pvalue_test F alpha) (pick_rows p D) ds x y zs = false.
Proof.
  intros HD Hx Hy HF Ha Hn. assert (degrees D ds x y zs <> 0)%nat as Hd by (intros E; by apply Hn, (no_freedom D ds HD x y Hx Hy)).
  assert (0 < g_square D ds x y zs) as Hg. { pose proof (g_square_nonneg D ds HD x y Hx Hy zs). destruct (Req_dec (g_square D ds x y zs) 0) as [E|]; [by apply (g_square_zero D ds HD x y Hx Hy) in E|lra]. }
  destruct (HF (degrees D ds x y zs) ltac:(lia)) as [_ Hl]. destruct (Hl alpha Ha) as [b Hb]. destruct (above _ b Hg) as [K HK]. exists (S K). intros k p Hk Hp.
  destruct (decision _ _ _ _ _ _) eqn:E; [|done]. exfalso. apply decision_value in E. rewrite (copies_degrees k p D ds), (copies_g_square k p D ds) in E by (done || lia). destruct E as [E|E]; [done|]. specialize (Hb _ (HK k ltac:(lia))). lra.
Qed.
