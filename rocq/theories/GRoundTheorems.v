(** The independence test with rounding. *)
From Coq Require Import Reals Psatz.
From Verif Require Import GRoundModel GRoundSpec PCModel PCSpec OrientModel OrientSpec DSepTheorems DSepWitness SaveWitness PCTheorems ParProofs CellProofs CellProofs2 CellProofs4 CellTheorems GSquareProofs GSquareProofs2 GSquareTheorems GRoundProofs TableProofs.
From Coq Require Import Lra.
Local Open Scope R_scope.

(** ** The summands *)
Lemma statistic_elem D ds x y zs t : t ∈ statistic D ds x y zs -> exists z a b, length z = length zs /\ (0 < matching D (zs ++ [x; y]) (z ++ [a; b]))%nat /\
  t = (matching D (zs ++ [x; y]) (z ++ [a; b]), matching D (zs ++ [x]) (z ++ [a]), matching D (zs ++ [y]) (z ++ [b]), matching D zs z).
Proof.
  unfold statistic. intros H. apply elem_of_list_bind in H as (z & H & Hz). apply elem_of_list_bind in H as (a & H & _). apply elem_of_list_bind in H as (b & H & _). unfold cell_terms in H. case_decide as Hp; [|by apply elem_of_nil in H].
  apply elem_of_list_singleton in H as ->. exists z, a, b. split_and!; [by eapply configs_same_length|done|done].
Qed.
Lemma matching_rows D vs cfg : (matching D vs cfg <= co_rows D)%nat.
Proof. unfold matching. etrans; [apply filter_length|]. by rewrite seq_length. Qed.
Section summands.
Context (D : columns) (ds : list nat) (HD : tabulated D ds) (x y : nat) (Hx : (x < length ds)%nat) (Hy : (y < length ds)%nat) (zs : list nat).
Set Default Proof Using "All".
Lemma statistic_good : Forall good_term (statistic D ds x y zs).
Proof.
  apply Forall_forall. intros t Ht. apply statistic_elem in Ht as (z & a & b & Hl & Hp & ->). destruct (counts_order D ds HD x y Hx Hy zs z a b Hl) as (H1 & H2 & H3 & H4). unfold good_term. lia.
Qed.
Lemma statistic_size : Rsum (statistic D ds x y zs) size_of <= Rsum (statistic D ds x y zs) weight * ln (INR (co_rows D)).
Proof.
  rewrite <-Rsum_const_mul. apply Rsum_le. intros t Ht. apply statistic_elem in Ht as (z & a & b & Hl & Hp & ->). destruct (counts_order D ds HD x y Hx Hy zs z a b Hl) as (H1 & H2 & H3 & H4). pose proof (matching_rows D zs z) as H5.
  unfold size_of, weight. generalize dependent (matching D zs z). generalize dependent (matching D (zs ++ [x]) (z ++ [a])). generalize dependent (matching D (zs ++ [y]) (z ++ [b])). generalize dependent (matching D (zs ++ [x; y]) (z ++ [a; b])).
  intros n Hp q Hq r Hr t Ht1 Ht2 Ht. set (N := co_rows D) in *. assert (0 < INR n) by (apply lt_0_INR; lia). assert (0 < INR q) by (apply lt_0_INR; lia). assert (0 < INR r) by (apply lt_0_INR; lia). assert (0 < INR t) by (apply lt_0_INR; lia). assert (0 < INR N) by (apply lt_0_INR; lia).
  apply Rmult_le_compat_l; [lra|]. replace (INR n / (INR q * INR r / INR t)) with (INR n * INR t / (INR q * INR r)) by (field; lra).
  assert (1 <= INR n /\ INR n <= INR q /\ INR n <= INR r /\ INR q <= INR t /\ INR r <= INR t /\ INR t <= INR N) as (G1 & G2 & G3 & G4 & G5 & G6). { change 1 with (INR 1). split_and!; apply le_INR; lia. }
  assert (0 < INR q * INR r) as Gqr by (by apply Rmult_lt_0_compat). assert (0 < INR n * INR t) as Gnt by (by apply Rmult_lt_0_compat). apply Rabs_le. split.
  - rewrite <-ln_Rinv by done. apply (ln_le' (/ INR N)); [by apply Rinv_0_lt_compat|]. apply (Rmult_le_reg_r (INR N)); [done|]. rewrite Rinv_l by lra. apply (Rmult_le_reg_r (INR q * INR r)); [done|]. replace (INR n * INR t / (INR q * INR r) * INR N * (INR q * INR r)) with (INR n * INR t * INR N) by (field; lra).
    rewrite Rmult_1_l. apply Rle_trans with (INR t * INR t); [apply Rmult_le_compat; lra|]. apply Rmult_le_compat; [lra|lra| |lra]. apply Rle_trans with (1 * INR t); [lra|]. apply Rmult_le_compat_r; lra.
  - apply ln_le'; [by apply Rdiv_lt_0_compat|]. apply (Rmult_le_reg_r (INR q * INR r)); [done|]. replace (INR n * INR t / (INR q * INR r) * (INR q * INR r)) with (INR n * INR t) by (field; lra).
    apply Rle_trans with (INR r * INR N); [apply Rmult_le_compat; lra|]. replace (INR N * (INR q * INR r)) with (INR r * INR N * INR q) by ring. assert (0 < INR r * INR N) by (by apply Rmult_lt_0_compat). apply Rle_trans with (INR r * INR N * 1); [lra|]. apply Rmult_le_compat_l; lra.
Qed.
Context (Hz : Forall (fun v => (v < length ds)%nat) zs).
Lemma statistic_weight : Rsum (statistic D ds x y zs) weight = 2 * INR (co_rows D).
Proof.
  unfold statistic. rewrite Rsum_bind. transitivity (Rsum (configs (sizes_of ds zs)) (fun z => 2 * INR (matching D zs z))).
  - apply Rsum_ext. intros z Hzc. rewrite (sum_xy D ds HD x y Hx Hy zs z) by (by eapply configs_same_length). rewrite <-Rsum_scale, Rsum_bind. apply Rsum_ext. intros a _. rewrite <-Rsum_scale, Rsum_bind. apply Rsum_ext. intros b _.
    unfold cell_terms. case_decide as Hp; [cbn [Rsum foldr weight]; ring|]. assert (matching D (zs ++ [x; y]) (z ++ [a; b]) = 0%nat) as -> by lia. cbn [Rsum foldr INR]. ring.
  - rewrite Rsum_scale, <-INR_nsum. f_equal. f_equal. pose proof (matching_total D ds HD zs [] [] Hz eq_refl) as H. cbn [app] in H. exact (eq_trans H (matching_nil D)).
Qed.
Lemma statistic_length : (length (statistic D ds x y zs) <= Nat.min (co_rows D) (table_cells ds x y zs))%nat.
Proof.
  assert (forall (l : list gterm), INR (length l) = Rsum l (fun _ => 1)) as HL by (intros l; rewrite Rsum_const; ring). apply Nat.min_glb; apply INR_le; rewrite HL.
  - apply (Rmult_le_reg_l 2); [lra|]. rewrite <-statistic_weight, <-Rsum_scale. apply Rsum_le. intros t Ht. apply statistic_elem in Ht as (z & a & b & _ & Hp & ->). unfold weight. apply Rmult_le_compat_l; [lra|]. change 1 with (INR 1). apply le_INR. lia.
  - unfold table_cells, sizes_of. rewrite fmap_app. change (foldr Nat.mul 1%nat) with prod_list. rewrite prod_list_app. cbn [fmap list_fmap]. change (prod_list [?a; ?b]) with (a * (b * 1))%nat. rewrite <-configs_length, Nat.mul_1_r, !mult_INR. fold (sizes_of ds zs).
    unfold statistic. rewrite Rsum_bind, <-Rsum_const. apply Rsum_le. intros z _. rewrite Rsum_bind. rewrite <-(seq_length (default 0%nat (ds !! x)) 0) at 2. rewrite <-Rsum_const. apply Rsum_le. intros a _. rewrite Rsum_bind. rewrite <-(Rmult_1_r (INR (default 0%nat (ds !! y)))). rewrite <-(seq_length (default 0%nat (ds !! y)) 0) at 2. rewrite <-Rsum_const. apply Rsum_le. intros b _.
    unfold cell_terms. case_decide; cbn [Rsum foldr]; lra.
Qed.
Lemma statistic_error u rnd flog : rounds_within u rnd -> log_within u flog -> Rabs (g2_sum_r rnd flog (statistic D ds x y zs) - g_square D ds x y zs) <= test_error u D ds x y zs.
Proof.
  intros Hr Hl. rewrite <-statistic_value. apply sum_bound; [done|done|exact statistic_good|exact statistic_length| |exact statistic_weight]. rewrite <-statistic_weight. exact statistic_size.
Qed.
Lemma single_answer accept g : (g <= 1)%nat -> exists r, independence_result accept D ds x y zs g = Ok r /\ ci_indep r = decision accept D ds x y zs.
Proof.
  intros Hg. destruct (lookup_lt_is_Some_2 ds x Hx) as [dx Hdx], (lookup_lt_is_Some_2 ds y Hy) as [dy Hdy]. destruct (single_decision D ds HD x y dx dy Hdx Hdy accept zs g Hz Hg) as (f & Hf & _). eexists. split; [exact Hf|done].
Qed.
End summands.

(** ** One test *)
Lemma decision_value_r rnd flog F alpha D ds x y zs : decision (pvalue_test_r rnd flog F alpha) D ds x y zs = true <-> degrees D ds x y zs = 0%nat \/ alpha < rnd (1 - F (g2_sum_r rnd flog (statistic D ds x y zs)) (degrees D ds x y zs)).
Proof. unfold decision. case_decide as E; [tauto|]. unfold pvalue_test_r. destruct (Rlt_dec _ _); naive_solver. Qed.
Lemma gsquare_test_r_level rnd flog F alpha D ds x y zs g : 0 <= alpha <= 1 -> gsquare_test_r rnd flog F alpha D ds x y zs g = independence_result (pvalue_test_r rnd flog F alpha) D ds x y zs g.
Proof. intros H. unfold gsquare_test_r. by rewrite level_ok. Qed.
Lemma no_rounding F alpha D ds x y zs g : gsquare_test_r (fun r => r) ln F alpha D ds x y zs g = gsquare_test F alpha D ds x y zs g.
Proof. reflexivity. Qed.
Lemma rounded_test u rnd flog D ds x y zs : rounds_within u rnd -> log_within u flog -> tabulated D ds -> (x < length ds)%nat -> (y < length ds)%nat -> Forall (fun v => (v < length ds)%nat) zs ->
  exists q, Rabs (q - g_square D ds x y zs) <= test_error u D ds x y zs /\
    forall F alpha g, 0 <= alpha <= 1 -> (g <= 1)%nat -> exists r, gsquare_test_r rnd flog F alpha D ds x y zs g = Ok r /\ (ci_indep r = true <-> degrees D ds x y zs = 0%nat \/ alpha < rnd (1 - F q (degrees D ds x y zs))).
Proof.
  intros Hr Hl HD Hx Hy Hz. exists (g2_sum_r rnd flog (statistic D ds x y zs)). split; [by apply statistic_error|]. intros F alpha g Ha Hg. rewrite gsquare_test_r_level by done.
  destruct (single_answer D ds HD x y Hx Hy zs Hz (pvalue_test_r rnd flog F alpha) g Hg) as (r & Hok & Hd). exists r. split; [done|]. rewrite Hd. apply decision_value_r.
Qed.
(** ** Away from the level *)
Lemma clear_decision u rnd flog F Fr e alpha D ds x y zs : rounds_within u rnd -> log_within u flog -> nondecreasing F -> tabulated D ds -> (x < length ds)%nat -> (y < length ds)%nat -> Forall (fun v => (v < length ds)%nat) zs ->
  (forall q df, (0 < df)%nat -> Rabs (rnd (1 - Fr q df) - (1 - F q df)) <= e) -> ((0 < degrees D ds x y zs)%nat -> clear_of_level F alpha e (test_error u D ds x y zs) (g_square D ds x y zs) (degrees D ds x y zs)) ->
  decision (pvalue_test_r rnd flog Fr alpha) D ds x y zs = decision (pvalue_test F alpha) D ds x y zs.
Proof.
  intros Hr Hl HF HD Hx Hy Hz He Hc. apply eq_true_iff_eq. rewrite decision_value_r, decision_value. destruct (decide (degrees D ds x y zs = 0%nat)) as [E|E]; [tauto|]. set (df := degrees D ds x y zs) in *. specialize (Hc ltac:(lia)).
  pose proof (statistic_error D ds HD x y Hx Hy zs Hz u rnd flog Hr Hl) as Hb. set (q := g2_sum_r rnd flog (statistic D ds x y zs)) in *. set (G := g_square D ds x y zs) in *. set (b := test_error u D ds x y zs) in *.
  specialize (He q df ltac:(lia)). assert (G - b <= q <= G + b) as [Hq1 Hq2] by (unfold Rabs in Hb; destruct (Rcase_abs _) in Hb; lra). assert (0 <= b) as Hb0 by lra.
  pose proof (HF df _ _ Hq1). pose proof (HF df _ _ Hq2). pose proof (HF df (G - b) G ltac:(lra)). pose proof (HF df G (G + b) ltac:(lra)). assert (0 <= e) as He0 by (eapply Rle_trans; [apply Rabs_pos|exact He]).
  assert (1 - F q df - e <= rnd (1 - Fr q df) <= 1 - F q df + e) as [Hp1 Hp2] by (unfold Rabs in He; destruct (Rcase_abs _) in He; lra). destruct Hc as [Hc|Hc]; split; intros [?|?]; try tauto; right; lra.
Qed.
Lemma clear_test u rnd flog F Fr e alpha D ds x y zs g : rounds_within u rnd -> log_within u flog -> nondecreasing F -> tabulated D ds -> (x < length ds)%nat -> (y < length ds)%nat -> Forall (fun v => (v < length ds)%nat) zs -> (g <= 1)%nat -> 0 <= alpha <= 1 ->
  (forall q df, (0 < df)%nat -> Rabs (rnd (1 - Fr q df) - (1 - F q df)) <= e) -> clear_of_level F alpha e (test_error u D ds x y zs) (g_square D ds x y zs) (degrees D ds x y zs) ->
  exists r r', gsquare_test_r rnd flog Fr alpha D ds x y zs g = Ok r' /\ gsquare_test F alpha D ds x y zs g = Ok r /\ ci_indep r' = ci_indep r.
Proof.
  intros Hr Hl HF HD Hx Hy Hz Hg Ha He Hc. rewrite gsquare_test_r_level by done. unfold gsquare_test. rewrite level_ok by done. cbn [mbind outcome_bind].
  destruct (single_answer D ds HD x y Hx Hy zs Hz (pvalue_test_r rnd flog Fr alpha) g Hg) as (r' & Hr' & Hd'). destruct (single_answer D ds HD x y Hx Hy zs Hz (pvalue_test F alpha) g Hg) as (r & Hok & Hd).
  exists r, r'. split_and!; [done|done|]. rewrite Hd, Hd'. by eapply clear_decision.
Qed.
(** ** Rows in another order *)
Lemma rows_decision accept D ds x y zs p : tabulated D ds -> p ≡ₚ seq 0 (co_rows D) -> decision accept (pick_rows p D) ds x y zs = decision accept D ds x y zs.
Proof.
  intros HD Hp. assert (each_row 1 (co_rows D) p) as He by (unfold each_row; cbn [replicate concat]; by rewrite app_nil_r). assert (forall vs cfg, matching (pick_rows p D) vs cfg = matching D vs cfg) as Hm by (intros; rewrite (each_row_matching 1 p D ds) by done; lia).
  assert (statistic (pick_rows p D) ds x y zs = statistic D ds x y zs) as Hs.
  { unfold statistic. apply list_bind_ext; [|done]. intros z. apply list_bind_ext; [|done]. intros a. apply list_bind_ext; [|done]. intros b. unfold cell_terms. by rewrite !Hm. }
  unfold decision. rewrite Hs, (copies_degrees 1 p D ds) by (done || lia). done.
Qed.
Lemma rows_test rnd flog F alpha D ds x y zs g p : tabulated D ds -> (x < length ds)%nat -> (y < length ds)%nat -> Forall (fun v => (v < length ds)%nat) zs -> (g <= 1)%nat -> 0 <= alpha <= 1 -> p ≡ₚ seq 0 (co_rows D) ->
  exists r r', gsquare_test_r rnd flog F alpha D ds x y zs g = Ok r /\ gsquare_test_r rnd flog F alpha (pick_rows p D) ds x y zs g = Ok r' /\ ci_indep r' = ci_indep r.
Proof.
  intros HD Hx Hy Hz Hg Ha Hp. assert (each_row 1 (co_rows D) p) as He by (unfold each_row; cbn [replicate concat]; by rewrite app_nil_r). pose proof (pick_tabulated 1 p D ds HD He) as HD'. rewrite !gsquare_test_r_level by done.
  destruct (single_answer D ds HD x y Hx Hy zs Hz (pvalue_test_r rnd flog F alpha) g Hg) as (r & Hr & Hd). destruct (single_answer (pick_rows p D) ds HD' x y Hx Hy zs Hz (pvalue_test_r rnd flog F alpha) g Hg) as (r' & Hr' & Hd').
  exists r, r'. split_and!; [done|done|]. rewrite Hd, Hd'. by apply rows_decision.
Qed.
(** ** Independent data *)
Lemma balanced_exact rnd flog N t : exact_up_to (N * N) rnd -> flog 1 = 0 -> good_term t -> balanced t -> (let '(obs, row, col, total) := t in total <= N)%nat -> g2_term_r rnd flog t = 0.
Proof.
  destruct t as [[[obs row] col] total]. intros Hx Hl (H1 & H2 & H3 & H4 & H5) Hb HN. unfold balanced in Hb. unfold g2_term_r.
  assert (obs <= N * N /\ row <= N * N /\ col <= N * N /\ total <= N * N)%nat as (G1 & G2 & G3 & G4) by nia. rewrite !(Hx _ G1), (Hx _ G2), (Hx _ G3), (Hx _ G4).
  assert (0 < INR obs) as P1 by (apply lt_0_INR; lia). assert (0 < INR total) as P2 by (apply lt_0_INR; lia). assert (col * row <= N * N)%nat as G5 by nia.
  rewrite <-mult_INR, (Hx _ G5). replace (col * row)%nat with (obs * total)%nat by lia. rewrite mult_INR. replace (INR obs * INR total / INR total) with (INR obs) by (field; lra). rewrite (Hx _ G1).
  replace (INR obs / INR obs) with (INR 1) by (cbn [INR]; field; lra). rewrite (Hx 1%nat) by nia. cbn [INR]. rewrite Hl, Rmult_0_r. change 0 with (INR 0). apply Hx. lia.
Qed.
Lemma independent_exact rnd flog D ds x y zs : exact_up_to (co_rows D * co_rows D) rnd -> flog 1 = 0 -> tabulated D ds -> (x < length ds)%nat -> (y < length ds)%nat -> cond_indep D x y zs -> g2_sum_r rnd flog (statistic D ds x y zs) = 0.
Proof.
  intros He Hl HD Hx Hy Hc. assert (rnd 0 = 0) as H0 by (change 0 with (INR 0); apply He; lia). unfold g2_sum_r.
  assert (Forall (fun t => g2_term_r rnd flog t = 0) (statistic D ds x y zs)) as H.
  { apply Forall_forall. intros t Ht. pose proof (statistic_good D ds HD x y Hx Hy zs) as Hg. rewrite Forall_forall in Hg. specialize (Hg t Ht). apply statistic_elem in Ht as (z & a & b & Hlz & Hp & ->). eapply balanced_exact; [exact He|done|done| |].
    - unfold balanced. by rewrite (Hc z a b Hlz).
    - cbn. apply matching_rows. }
  induction H as [|t ts Ht _ IH]; [done|]. cbn [fold_left]. by rewrite Ht, Rplus_0_r, H0.
Qed.
Lemma independent_test rnd flog F alpha D ds x y zs g : exact_up_to (co_rows D * co_rows D) rnd -> flog 1 = 0 -> tabulated D ds -> (x < length ds)%nat -> (y < length ds)%nat -> Forall (fun v => (v < length ds)%nat) zs -> (g <= 1)%nat -> 0 <= alpha <= 1 -> cond_indep D x y zs ->
  exists r, gsquare_test_r rnd flog F alpha D ds x y zs g = Ok r /\ (ci_indep r = true <-> degrees D ds x y zs = 0%nat \/ alpha < rnd (1 - F 0 (degrees D ds x y zs))).
Proof.
  intros He Hl HD Hx Hy Hz Hg Ha Hc. rewrite gsquare_test_r_level by done. destruct (single_answer D ds HD x y Hx Hy zs Hz (pvalue_test_r rnd flog F alpha) g Hg) as (r & Hr & Hd). exists r. split; [done|].
  rewrite Hd, decision_value_r, (independent_exact rnd flog) by done. done.
Qed.

(** ** Learning *)
Lemma apart_ext tst ind ind' n gmax : decides_apart tst ind n gmax -> (forall x y s, (x < n)%nat -> (y < n)%nat -> Forall (fun v => (v < n)%nat) s -> NoDup (x :: y :: s) -> ind' x y s = ind x y s) -> decides_apart tst ind' n gmax.
Proof.
  intros [H1 H2] He. split.
  - intros x y Hx Hy Hne. rewrite He; [by apply H1|done|done|constructor|]. repeat constructor; set_solver.
  - intros x y c zss Hx Hy Hc Hz Hl. specialize (H2 x y c zss Hx Hy Hc Hz Hl). replace (ind' x y <$> zss) with (ind x y <$> zss); [done|]. apply list_fmap_ext. intros k s Hk. symmetry. rewrite Forall_forall in Hz. apply elem_of_list_lookup_2, Hz in Hk as (_ & ? & ?). by apply He.
Qed.
Lemma test_decides_r rnd flog F alpha D ds size : tabulated D ds -> 0 <= alpha <= 1 -> size = 1%nat \/ (size <= 8)%nat /\ (forall q, alpha < rnd (1 - F q 0%nat)) ->
  exists gmax, (size <= gmax)%nat /\ decides (gsquare_test_r rnd flog F alpha D ds) (decision (pvalue_test_r rnd flog F alpha) D ds) (length ds) gmax.
Proof.
  intros HD Ha Hs. assert (forall x y zs g, gsquare_test_r rnd flog F alpha D ds x y zs g = independence_result (pvalue_test_r rnd flog F alpha) D ds x y zs g) as E by (intros; by apply gsquare_test_r_level).
  destruct Hs as [-> |[Hs HF]].
  - exists 1%nat. split; [lia|]. eapply decides_same; [exact E|]. by apply gsquare_decides_alone.
  - exists 8%nat. split; [lia|]. eapply decides_same; [exact E|]. apply gsquare_decides; [done|]. intros ts _. unfold pvalue_test_r. destruct (Rlt_dec _ _) as [|Hn]; [done|]. destruct Hn. apply HF.
Qed.
Section learn.
Context (u : R) (rnd flog : R -> R) (F Fr : R -> nat -> R) (e alpha : R) (D : columns) (ds : list nat).
Context (Hr : rounds_within u rnd) (Hl : log_within u flog) (HF : nondecreasing F) (HD : tabulated D ds) (Ha : 0 <= alpha <= 1).
Context (He : forall q df, (0 < df)%nat -> Rabs (rnd (1 - Fr q df) - (1 - F q df)) <= e).
Context (Hc : forall x y zs, (x < length ds)%nat -> (y < length ds)%nat -> Forall (fun v => (v < length ds)%nat) zs -> NoDup (x :: y :: zs) -> (0 < degrees D ds x y zs)%nat -> clear_of_level F alpha e (test_error u D ds x y zs) (g_square D ds x y zs) (degrees D ds x y zs)).
Set Default Proof Using "All".
Lemma same_decision x y zs : (x < length ds)%nat -> (y < length ds)%nat -> Forall (fun v => (v < length ds)%nat) zs -> NoDup (x :: y :: zs) -> decision (pvalue_test_r rnd flog Fr alpha) D ds x y zs = decision (pvalue_test F alpha) D ds x y zs.
Proof. intros Hx Hy Hz Hn. eapply clear_decision; eauto. Qed.
Lemma rounded_skeleton size size' sch sch' depth : size = 1%nat \/ (1 <= size <= 8)%nat /\ (forall q, alpha < rnd (1 - Fr q 0%nat)) -> size' = 1%nat \/ (1 <= size' <= 8)%nat /\ alpha < 1 - F 0 0%nat -> valid_sched sch -> valid_sched sch' -> (1 <= depth)%nat ->
  exists A S fuel0, forall fuel, (fuel0 <= fuel)%nat -> exists es es', skeleton_search (gsquare_test_r rnd flog Fr alpha D ds) (length ds) depth fuel size sch = Ok (es, A, S) /\
    skeleton_search (gsquare_test F alpha D ds) (length ds) depth fuel size' sch' = Ok (es', A, S) /\ pe_pair <$> es = pe_pair <$> es'.
Proof.
  intros Hs Hs' Hsch Hsch' Hd. destruct (skeleton_result_apart (length ds) depth (decision (pvalue_test F alpha) D ds) Hd) as (E & A & S & H & _).
  destruct (test_decides_r rnd flog Fr alpha D ds size HD Ha) as (gm & Hgm & Hdec); [tauto|]. destruct (test_decides F alpha D ds size' HD Ha) as (gm' & Hgm' & Hdec'); [tauto|].
  destruct (H (gsquare_test_r rnd flog Fr alpha D ds) gm size sch) as (f & es & H1 & H2); [|lia|done|]. { eapply apart_ext; [by apply decides_weaken|]. intros x y s ? ? ? ?. symmetry. by apply same_decision. }
  destruct (H (gsquare_test F alpha D ds) gm' size' sch') as (f' & es' & H1' & H2'); [|lia|done|]. { by apply decides_weaken. }
  exists A, S, (Nat.max f f'). intros fuel Hf. exists es, es'. split_and!; [apply H1; lia|apply H1'; lia|]. by rewrite H2, H2'.
Qed.
End learn.
(** The graph behind the data. *)
Lemma sorted_nodup x y s : (x < y)%nat -> x ∉ s -> y ∉ s -> StronglySorted lt s -> NoDup (x :: y :: s).
Proof.
  intros Hxy Hx Hy Hs. apply NoDup_cons. split; [rewrite elem_of_cons; intros [->|?]; [lia|done]|]. apply NoDup_cons. split; [done|]. induction Hs as [|a s Hs IH Ha]; [constructor|]. apply NoDup_cons. split.
  - intros H. rewrite Forall_forall in Ha. specialize (Ha _ H). lia.
  - apply IH; set_solver.
Qed.
Lemma rounded_essential u rnd flog F Fr e alpha D ds g size sch depth coin : rounds_within u rnd -> log_within u flog -> nondecreasing F -> tabulated D ds -> 0 <= alpha <= 1 ->
  (forall q df, (0 < df)%nat -> Rabs (rnd (1 - Fr q df) - (1 - F q df)) <= e) ->
  (forall x y zs, (x < length ds)%nat -> (y < length ds)%nat -> Forall (fun v => (v < length ds)%nat) zs -> NoDup (x :: y :: zs) -> (0 < degrees D ds x y zs)%nat -> clear_of_level F alpha e (test_error u D ds x y zs) (g_square D ds x y zs) (degrees D ds x y zs)) ->
  dag (length ds) g ->
  (forall x y s, (x < y)%nat -> (y < length ds)%nat -> x ∉ s -> y ∉ s -> StronglySorted lt s -> Forall (fun v => (v < length ds)%nat) s -> (degrees D ds x y s = 0%nat \/ alpha < 1 - F (g_square D ds x y s) (degrees D ds x y s)) <-> ~ d_connected g x y s) ->
  size = 1%nat \/ (1 <= size <= 8)%nat /\ (forall q, alpha < rnd (1 - Fr q 0%nat)) -> valid_sched sch -> (forall v, (length (dag_parents (length ds) g v) < depth)%nat) ->
  exists fuel0, forall fuel, (fuel0 <= fuel)%nat -> exists es A S N, skeleton_search (gsquare_test_r rnd flog Fr alpha D ds) (length ds) depth fuel size sch = Ok (es, A, S) /\ orient_skeleton fuel ds false coin es A S = Ok N /\
  (forall x y, has_directed N x y <-> forall h, dag (length ds) h -> markov_equivalent g h -> h x y = true) /\
  (forall x y, undirected_edge x y ∈ nt_edges N <-> (exists h, dag (length ds) h /\ markov_equivalent g h /\ h x y = true) /\ (exists h, dag (length ds) h /\ markov_equivalent g h /\ h y x = true)).
Proof.
  intros Hr Hl HF HD Ha He Hc Hg Hf Hs Hsch Hdeg. destruct (oracle_exists (length ds) g Hg) as [orc Horc]. destruct (test_decides_r rnd flog Fr alpha D ds size HD Ha) as (gm & Hgm & Hdec); [tauto|].
  apply (pc_essential (length ds) g (fun x y s => if decide (Forall (fun v => (v < length ds)%nat) s) then decision (pvalue_test_r rnd flog Fr alpha) D ds x y s else orc x y s) _ gm size sch depth ds coin Hg); [| |lia|done|done|done].
  - intros x y s Hxy Hyn Hxs Hys Hso. cbn beta. case_decide as Hb; [|by apply Horc]. rewrite <-(Hf x y s Hxy Hyn Hxs Hys Hso Hb). rewrite <-decision_value. rewrite (same_decision u rnd flog F Fr e alpha D ds); [done|done|done|done|done|done|done|done|lia|done|done|by apply sorted_nodup].
  - eapply decides_ext; [exact Hdec|]. intros x y s Hb. by rewrite decide_True.
Qed.
