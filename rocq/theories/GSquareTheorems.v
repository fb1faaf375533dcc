(** The G-square test, as claimed. *)
From Coq Require Import Reals Psatz.
From Verif Require Import GSquareModel GSquareSpec ParProofs CellProofs CellProofs4 CellTheorems PCTheorems OrientModel OrientSpec DSepTheorems DSepWitness TourProofs SaveWitness GSquareProofs GSquareProofs2 TableProofs.
From Coq Require Import Lra.
Local Open Scope R_scope.

(** ** How large the statistic can be *)
Lemma matching_total D ds : tabulated D ds -> forall zs ws w, Forall (fun v => (v < length ds)%nat) zs -> length w = length ws -> nsum (configs (sizes_of ds zs)) (fun z => matching D (ws ++ zs) (w ++ z)) = matching D ws w.
Proof.
  intros HD. induction zs as [|v zs IH]; intros ws w Hz Hl.
  - cbn. rewrite !app_nil_r. lia.
  - apply Forall_cons in Hz as [Hv Hz]. pose proof (matching_sum D ds ws [] w [] v HD Hv (eq_sym Hl)) as S. rewrite !app_nil_r in S. rewrite S. cbn [sizes_of fmap list_fmap configs].
    transitivity (nsum (seq 0 (default 0%nat (ds !! v))) (fun i => nsum (configs (sizes_of ds zs)) (fun z => matching D ((ws ++ [v]) ++ zs) ((w ++ [i]) ++ z)))).
    + unfold sizes_of. change (list_fmap nat nat ?f ?l) with (f <$> l). generalize (seq 0 (default 0%nat (ds !! v))). induction l as [|i l IHl]; [done|]. cbn [mbind list_bind]. rewrite nsum_app, IHl, CellProofs3.nsum_fmap. cbn [nsum foldr]. f_equal. apply nsum_ext. intros z _. by rewrite <-!app_assoc.
    + apply nsum_ext. intros i _. apply IH; [done|]. rewrite !app_length. cbn. lia.
Qed.
Lemma Rsum_const {A} (l : list A) c : Rsum l (fun _ => c) = INR (length l) * c.
Proof. unfold Rsum. induction l as [|a l IH]; [change (INR (length [])) with 0; cbn; lra|]. cbn [foldr length]. rewrite IH, S_INR. lra. Qed.
Lemma entropy_bound (l : list nat) (f : nat -> nat) t : l <> [] -> INR t = Rsum l (fun a => INR (f a)) -> Rsum l (fun a => INR (f a) * ln (INR t / INR (f a))) <= INR t * ln (INR (length l)).
Proof.
  intros Hl Ht. assert (0 < INR (length l)) as Hp by (apply lt_0_INR; destruct l; [done|cbn; lia]).
  apply Rle_trans with (Rsum l (fun a => INR t / INR (length l) + (-1 * INR (f a) + INR (f a) * ln (INR (length l))))).
  - apply Rsum_le. intros a Ha. assert (INR (f a) <= INR t) as Hle. { rewrite Ht. clear -Ha. induction l as [|b l IH]; [by apply elem_of_nil in Ha|]. cbn. pose proof (Rsum_nonneg l (fun a => INR (f a)) (fun x _ => pos_INR _)) as Hn. unfold Rsum in *. pose proof (pos_INR (f b)). apply elem_of_cons in Ha as [-> |Ha]; [lra|]. specialize (IH Ha). lra. }
    destruct (decide (f a = 0%nat)) as [-> |Hf]. { change (INR 0) with 0. rewrite !Rmult_0_l, !Rmult_0_r, !Rplus_0_r. apply Rmult_le_pos; [apply pos_INR|]. by apply Rlt_le, Rinv_0_lt_compat. }
    assert (0 < INR (f a)) as Hfp by (apply lt_0_INR; lia). assert (0 < INR t) as Htp by lra.
    pose proof (ln_at_most (INR t / (INR (f a) * INR (length l))) (Rdiv_lt_0_compat _ _ Htp (Rmult_lt_0_compat _ _ Hfp Hp))) as H.
    unfold Rdiv in *. rewrite Rinv_mult in H. rewrite !ln_mult, !ln_Rinv in * by (try apply Rmult_lt_0_compat; try apply Rinv_0_lt_compat; done).
    apply (Rmult_le_compat_l (INR (f a))) in H; [|lra]. replace (INR (f a) * (INR t * (/ INR (f a) * / INR (length l)) - 1)) with (INR t * / INR (length l) - INR (f a)) in H by (field; lra). lra.
  - rewrite !Rsum_add, Rsum_const, Rsum_scale, Rsum_const_mul, <-Ht. replace (INR (length l) * (INR t / INR (length l))) with (INR t) by (field; lra). lra.
Qed.
Lemma g_square_bound D ds x y zs d : tabulated D ds -> ds !! x = Some d -> (y < length ds)%nat -> Forall (fun v => (v < length ds)%nat) zs -> g_square D ds x y zs <= 2 * INR (co_rows D) * ln (INR d).
Proof.
  intros HD Hdx Hy Hz. assert (x < length ds)%nat as Hx by (by eapply lookup_lt_Some).
  apply Rle_trans with (Rsum (configs (sizes_of ds zs)) (fun z => 2 * (INR (matching D zs z) * ln (INR d)))).
  - unfold g_square. cbv zeta. rewrite Hdx. cbn [default from_option id]. apply Rsum_le. intros z Hzc. pose proof (configs_same_length _ _ _ Hzc) as Hl.
    assert (INR (matching D zs z) = Rsum (seq 0 d) (fun a => INR (matching D (zs ++ [x]) (z ++ [a])))) as Hs. { rewrite (sum_x D ds HD x y Hx Hy zs z Hl), Hdx. done. }
    destruct (decide (d = 0%nat)) as [-> |Hd]. { cbn [seq] in *. cbn [Rsum foldr] in *. rewrite Hs. rewrite Rmult_0_l, Rmult_0_r. apply Rle_refl. }
    apply Rle_trans with (Rsum (seq 0 d) (fun a => 2 * (INR (matching D (zs ++ [x]) (z ++ [a])) * ln (INR (matching D zs z) / INR (matching D (zs ++ [x]) (z ++ [a])))))).
    + apply Rsum_le. intros a _. destruct (lookup_lt_is_Some_2 ds y Hy) as [dy Hdy]. rewrite Hdy. cbn [default from_option id].
      pose proof (margin_x D ds HD x y d dy Hdx Hdy zs z a Hl) as Hm. apply (f_equal INR) in Hm. rewrite INR_nsum in Hm. set (q := ln (INR (matching D zs z) / INR (matching D (zs ++ [x]) (z ++ [a])))).
      apply Rle_trans with (2 * (Rsum (seq 0 dy) (fun b => INR (matching D (zs ++ [x; y]) (z ++ [a; b]))) * q)); [|apply Req_le; unfold q; by rewrite <-Hm]. rewrite <-Rsum_const_mul, <-Rsum_scale.
      apply Rsum_le. intros b _. destruct (counts_order D ds HD x y Hx Hy zs z a b Hl) as (H1 & H2 & H3 & H4). destruct (decide (matching D (zs ++ [x; y]) (z ++ [a; b]) = 0%nat)) as [-> |Hn]; [change (INR 0) with 0; lra|].
      assert (forall m, (matching D (zs ++ [x; y]) (z ++ [a; b]) <= m)%nat -> 0 < INR m) as Hpos by (intros m ?; apply lt_0_INR; lia).
      rewrite Rmult_assoc. apply Rmult_le_compat_l; [lra|]. apply Rmult_le_compat_l; [apply pos_INR|]. unfold q, Rdiv. rewrite Rinv_mult.
      rewrite !ln_mult, !ln_Rinv by (repeat first [apply Rmult_lt_0_compat|apply Rinv_0_lt_compat|apply Hpos; lia]).
      assert (ln (INR (matching D (zs ++ [x; y]) (z ++ [a; b]))) <= ln (INR (matching D (zs ++ [y]) (z ++ [b])))); [|lra]. apply le_INR in H2. destruct (Rle_lt_or_eq_dec _ _ H2) as [Hlt| ->]; [|apply Rle_refl]. apply Rlt_le, ln_increasing; [apply Hpos; lia|done].
    + rewrite Rsum_scale. apply Rmult_le_compat_l; [lra|]. pose proof (entropy_bound (seq 0 d) (fun a => matching D (zs ++ [x]) (z ++ [a])) (matching D zs z)) as H. rewrite seq_length in H. apply H; [|done]. by destruct d.
  - rewrite Rsum_scale, Rsum_const_mul. assert (Rsum (configs (sizes_of ds zs)) (fun z => INR (matching D zs z)) = INR (co_rows D)) as ->; [|lra]. rewrite <-matching_nil, <-(matching_total D ds HD zs [] [] Hz eq_refl), INR_nsum. done.
Qed.

(** ** All sets at once *)
Fixpoint subsequences (l : list nat) : list (list nat) := match l with [] => [[]] | a :: l => subsequences l ++ (cons a <$> subsequences l) end.
Lemma sorted_subsequence m : forall a s, StronglySorted lt s -> Forall (fun v => (a <= v < a + m)%nat) s -> s ∈ subsequences (seq a m).
Proof.
  induction m as [|m IH]; intros a s Hs Hr.
  - destruct s as [|v s]; [left|]. apply Forall_cons in Hr as [Hr _]. lia.
  - cbn [seq subsequences]. apply elem_of_app. destruct s as [|v s]. { left. apply IH; [constructor|constructor]. }
    apply Forall_cons in Hr as [Hv Hr]. apply StronglySorted_inv in Hs as [Hs Hf]. destruct (decide (v = a)) as [-> |Hne].
    + right. apply elem_of_list_fmap. exists s. split; [done|]. apply IH; [done|]. rewrite Forall_forall in *. intros u Hu. specialize (Hr u Hu). specialize (Hf u Hu). lia.
    + left. apply IH; [by constructor|]. constructor; [lia|]. rewrite Forall_forall in *. intros u Hu. specialize (Hr u Hu). specialize (Hf u Hu). lia.
Qed.
Lemma eventually_all {A} (l : list A) (P : A -> nat -> Prop) : (forall a, a ∈ l -> exists K, forall k, (K <= k)%nat -> P a k) -> exists K, forall k, (K <= k)%nat -> forall a, a ∈ l -> P a k.
Proof.
  induction l as [|a l IH]; intros H; [exists 0%nat; intros k _ a Ha; by apply elem_of_nil in Ha|]. destruct (H a ltac:(left)) as [K1 H1]. destruct IH as [K2 H2]; [intros; apply H; by right|].
  exists (Nat.max K1 K2). intros k Hk b Hb. apply elem_of_cons in Hb as [-> |Hb]; [apply H1; lia|apply H2; [lia|done]].
Qed.
Lemma decides_same tst tst' ind n gmax : (forall x y zs g, tst x y zs g = tst' x y zs g) -> decides tst' ind n gmax -> decides tst ind n gmax.
Proof.
  intros E [H1 H2]. split.
  - intros x y Hx Hy. destruct (H1 x y Hx Hy) as [f Hf]. exists f. by rewrite E.
  - intros x y c zss Hx Hy Hc Hz Hl. specialize (H2 x y c zss Hx Hy Hc Hz Hl). destruct (first_true _); rewrite E; done.
Qed.
Lemma test_decides F alpha D ds size : tabulated D ds -> 0 <= alpha <= 1 -> size = 1%nat \/ (size <= 8)%nat /\ alpha < 1 - F 0 0%nat ->
  exists gmax, (size <= gmax)%nat /\ decides (gsquare_test F alpha D ds) (decision (pvalue_test F alpha) D ds) (length ds) gmax.
Proof.
  intros HD Ha Hs. assert (forall x y zs g, gsquare_test F alpha D ds x y zs g = independence_result (pvalue_test F alpha) D ds x y zs g) as E by (intros; unfold gsquare_test; by rewrite level_ok).
  destruct Hs as [-> |[Hs HF]].
  - exists 1%nat. split; [lia|]. eapply decides_same; [exact E|]. by apply gsquare_decides_alone.
  - exists 8%nat. split; [lia|]. eapply decides_same; [exact E|]. apply gsquare_decides; [done|]. intros ts Hts. unfold pvalue_test. rewrite balanced_zero by done. destruct (Rlt_dec _ _); [done|lra].
Qed.
Lemma eventually_oracle F alpha D ds g : tabulated D ds -> dag (length ds) g -> data_faithful D (length ds) g -> chi_square_like F -> 0 < alpha < 1 ->
  exists K, forall k p, (K <= k)%nat -> each_row k (co_rows D) p -> exists ind, dsep_oracle ind (length ds) g /\
    forall x y s, Forall (fun v => (v < length ds)%nat) s -> ind x y s = decision (pvalue_test F alpha) (pick_rows p D) ds x y s.
Proof.
  intros HD Hg Hf HF Ha. set (n := length ds) in *. destruct (oracle_exists n g Hg) as [orc Horc].
  set (P := fun (e : nat * nat * list nat) k => forall p, each_row k (co_rows D) p -> let '(x, y, s) := e in (x < n)%nat -> (y < n)%nat -> ~ cond_indep D x y s -> decision (pvalue_test F alpha) (pick_rows p D) ds x y s = false).
  destruct (eventually_all (x ← seq 0 n; y ← seq 0 n; (fun s => (x, y, s)) <$> subsequences (seq 0 n)) P) as [K HK].
  { intros [[x y] s] _. unfold P. destruct (decide (x < n)%nat) as [Hx|]; [|exists 0%nat; lia]. destruct (decide (y < n)%nat) as [Hy|]; [|exists 0%nat; lia].
    destruct (Req_dec (g_square D ds x y s) 0) as [E|E]. { exists 0%nat. intros k _ p _ _ _ Hn. by apply (g_square_zero D ds HD x y Hx Hy) in E. }
    destruct (dependent_data F alpha D ds x y s HD Hx Hy HF ltac:(lra)) as [K HK]. { intros H. by apply (g_square_zero D ds HD x y Hx Hy) in H. } exists K. intros k Hk p Hp _ _ _. by apply (HK k). }
  exists (S K). intros k p Hk Hp. pose proof (pick_tabulated k p D ds HD Hp) as HD'.
  exists (fun x y s => if decide (Forall (fun v => (v < n)%nat) s) then decision (pvalue_test F alpha) (pick_rows p D) ds x y s else orc x y s). split.
  - intros x y s Hxy Hyn Hxs Hys Hs. cbn beta. case_decide as Hb; [|by apply Horc]. rewrite <-(Hf x y s Hxy Hyn Hxs Hys Hs Hb). split.
    + intros H. destruct (Req_dec (g_square D ds x y s) 0) as [E|E]; [by apply (g_square_zero D ds HD x y ltac:(lia) Hyn) in E|]. exfalso.
      assert (~ cond_indep D x y s) as Hn by (intros Hc; by apply (g_square_zero D ds HD x y ltac:(lia) Hyn) in Hc).
      pose proof (HK k ltac:(lia) (x, y, s)) as HP. unfold P in HP. rewrite HP in H; [done| |done|lia|done|done].
      apply elem_of_list_bind. exists x. split; [|apply elem_of_seq; lia]. apply elem_of_list_bind. exists y. split; [|apply elem_of_seq; lia]. apply elem_of_list_fmap. exists s. split; [done|]. apply sorted_subsequence; [done|]. eapply Forall_impl; [exact Hb|]. cbn. lia.
    + intros H. apply independent_data; [done|lia|done|done|lra|]. apply (copies_cond_indep k p D ds); [done|done|lia|done].
  - intros x y s Hs. by rewrite decide_True.
Qed.
Lemma learns_from_rows : forall F alpha D ds g size sch depth coin, tabulated D ds -> dag (length ds) g -> data_faithful D (length ds) g -> chi_square_like F -> 0 < alpha < 1 ->
  size = 1%nat \/ (1 <= size <= 8)%nat /\ alpha < 1 - F 0 0%nat -> valid_sched sch -> (forall v, (length (dag_parents (length ds) g v) < depth)%nat) ->
  exists K, forall k p, (K <= k)%nat -> each_row k (co_rows D) p ->
  exists fuel0, forall fuel, (fuel0 <= fuel)%nat -> exists es A S N, skeleton_search (gsquare_test F alpha (pick_rows p D) ds) (length ds) depth fuel size sch = Ok (es, A, S) /\ orient_skeleton fuel ds false coin es A S = Ok N /\
  (forall x y, has_directed N x y <-> forall h, dag (length ds) h -> markov_equivalent g h -> h x y = true) /\
  (forall x y, undirected_edge x y ∈ nt_edges N <-> (exists h, dag (length ds) h /\ markov_equivalent g h /\ h x y = true) /\ (exists h, dag (length ds) h /\ markov_equivalent g h /\ h y x = true)).
Proof.
  intros F alpha D ds g size sch depth coin HD Hg Hf HF Ha Hsz Hsch Hdeg. destruct (eventually_oracle F alpha D ds g HD Hg Hf HF Ha) as [K HK]. exists K. intros k p Hk Hp. destruct (HK k p Hk Hp) as (ind & Hind & He).
  pose proof (pick_tabulated k p D ds HD Hp) as HD'. destruct (test_decides F alpha (pick_rows p D) ds size HD' ltac:(lra)) as (gmax & Hgm & Hdec); [tauto|].
  apply (pc_essential (length ds) g ind _ gmax size sch depth ds coin Hg Hind); [|lia|done|done|done]. eapply decides_ext; [exact Hdec|]. exact He.
Qed.
(** ** Groups *)
Lemma groups_as_single F alpha : 0 <= alpha <= 1 ->
  (forall D ds x y c zss, tabulated D ds -> (x < length ds)%nat -> (y < length ds)%nat -> (0 < c)%nat -> Forall (fun zs => length zs = c) zss -> (1 < length zss <= 8)%nat -> Forall (Forall (fun v => (v < length ds)%nat)) zss ->
    exists r, gsquare_test F alpha D ds x y (concat zss) (length zss) = Ok r /\ (ci_indep r = true <-> exists zs s, zs ∈ zss /\ gsquare_test F alpha D ds x y zs 1 = Ok s /\ ci_indep s = true)) <-> alpha < 1 - F 0 0%nat.
Proof.
  intros Ha. split.
  - intros H. destruct (Rlt_dec alpha (1 - F 0 0%nat)) as [|Hn]; [done|]. exfalso.
    set (D := mkCols [[0];[0];[0];[0]]%nat 1%nat 4%nat). assert (tabulated D [1;1;1;1]%nat) as HD. { split; [done|]. intros [|[|[|[|v]]]] col d Hc Hd; cbn in Hc, Hd; try done; injection Hc as <-; injection Hd as <-; (split; [done|]); repeat constructor. }
    destruct (H D [1;1;1;1]%nat 0%nat 1%nat 1%nat [[2];[3]]%nat HD) as (r & Hr & Hi); [cbn; lia|cbn; lia|lia|repeat constructor|cbn; lia|repeat constructor|].
    assert (gsquare_test F alpha D [1;1;1;1]%nat 0 1 [2]%nat 1 = Ok (mkCI true 0)) as Hs.
    { unfold gsquare_test. rewrite level_ok by done. cbn [mbind outcome_bind]. vm_compute. reflexivity. }
    assert (gsquare_test F alpha D [1;1;1;1]%nat 0 1 [2;3]%nat 2 = Ok (mkCI false (-1))) as Hg.
    { unfold gsquare_test. rewrite level_ok by done. cbn [mbind outcome_bind]. pose proof (group_decision D [1;1;1;1]%nat HD 0%nat 1%nat 1%nat 1%nat eq_refl eq_refl (pvalue_test F alpha) 1%nat [[2];[3]]%nat ltac:(lia) ltac:(repeat constructor) ltac:(cbn; lia) ltac:(repeat constructor)) as Hgd.
      cbn [concat app length] in Hgd. rewrite Hgd. rewrite decide_True by lia.
      assert (forall zs, degrees D [1;1;1;1]%nat 0 1 zs = 0%nat -> pvalue_test F alpha (statistic D [1;1;1;1]%nat 0 1 zs) (degrees D [1;1;1;1]%nat 0 1 zs) = false) as E.
      { intros zs Hz. rewrite Hz. unfold pvalue_test. rewrite (balanced_zero (statistic _ _ _ _ _)) by (apply balanced_terms; [exact HD|cbn; lia|cbn; lia|exact Hz]). by destruct (Rlt_dec _ _). }
      cbn [fmap list_fmap]. rewrite !E by (vm_compute; reflexivity). reflexivity. }
    cbn [concat app length] in Hr. rewrite Hg in Hr. injection Hr as <-. cbn [ci_indep] in Hi. assert (false = true) as F1; [|done]. apply Hi. exists [2%nat], (mkCI true 0). split; [left|done].
  - intros HF D ds x y c zss HD Hx Hy Hc Hu Hl Hk. assert (forall zs g, gsquare_test F alpha D ds x y zs g = independence_result (pvalue_test F alpha) D ds x y zs g) as E by (intros; unfold gsquare_test; by rewrite level_ok).
    rewrite E. rewrite (group_as_single D ds x y (pvalue_test F alpha) c zss) by (try done; intros ts Hts; unfold pvalue_test; rewrite balanced_zero by done; destruct (Rlt_dec _ _); done).
    eexists. split; [done|]. destruct (lookup_lt_is_Some_2 ds x Hx) as [dx Hdx], (lookup_lt_is_Some_2 ds y Hy) as [dy Hdy].
    assert (forall zs, zs ∈ zss -> exists f, gsquare_test F alpha D ds x y zs 1 = Ok (mkCI (decision (pvalue_test F alpha) D ds x y zs) f)) as Hs.
    { intros zs Hzs. rewrite E. rewrite Forall_forall in Hk. destruct (single_decision D ds HD x y dx dy Hdx Hdy (pvalue_test F alpha) zs 1 (Hk zs Hzs) ltac:(lia)) as (f & Hf & _). eauto. }
    assert (forall l : list bool, ci_indep (group_result l) = true <-> true ∈ l) as Hgr.
    { intros l. unfold group_result. assert (is_Some (first_true l) <-> true ∈ l) as <-; [|destruct (first_true l); cbn [ci_indep]; split; intros [? ?] || intros ?; try done; eauto].
      induction l as [|[] l IH]; cbn [first_true]. - split; [intros [? ?]; done|]. intros H. by apply elem_of_nil in H. - split; [left|eauto]. - rewrite elem_of_cons, <-IH, fmap_is_Some. naive_solver. }
    rewrite Hgr, elem_of_list_fmap. split.
    + intros (zs & Ht & Hzs). destruct (Hs zs Hzs) as [f Hf]. eexists zs, _. split_and!; [done|exact Hf|]. cbn [ci_indep]. done.
    + intros (zs & s & Hzs & Ht & Hi). destruct (Hs zs Hzs) as [f Hf]. rewrite Hf in Ht. injection Ht as <-. exists zs. done.
Qed.

(** ** Answers of the test *)
Lemma order_free F alpha D ds x y zs zs' p : tabulated D ds -> (x < length ds)%nat -> (y < length ds)%nat -> Forall (fun v => (v < length ds)%nat) zs -> 0 <= alpha <= 1 -> zs' ≡ₚ zs -> p ≡ₚ seq 0 (co_rows D) ->
  exists r r', gsquare_test F alpha D ds x y zs 1 = Ok r /\ gsquare_test F alpha (pick_rows p D) ds y x zs' 1 = Ok r' /\ ci_indep r' = ci_indep r.
Proof.
  intros HD Hx Hy Hz Ha Hzs Hp. assert (each_row 1 (co_rows D) p) as He by (unfold each_row; cbn [replicate concat]; by rewrite app_nil_r).
  pose proof (pick_tabulated 1 p D ds HD He) as HD'. assert (Forall (fun v => (v < length ds)%nat) zs') as Hz' by (by rewrite Hzs).
  destruct (test_value F alpha D ds x y zs 1 HD Hx Hy Hz ltac:(lia) Ha) as (r & Hr & Hi). destruct (test_value F alpha (pick_rows p D) ds y x zs' 1 HD' Hy Hx Hz' ltac:(lia) Ha) as (r' & Hr' & Hi'). exists r, r'. split_and!; [done|done|].
  rewrite (copies_degrees 1 p D ds), (copies_g_square 1 p D ds), degrees_symmetric, g_square_symmetric, (g_square_permuted D ds x y zs' zs), (degrees_permuted D ds x y zs' zs) in Hi' by (done || lia).
  change (INR 1) with 1 in Hi'. rewrite Rmult_1_l in Hi'. rewrite <-Hi in Hi'. destruct (ci_indep r), (ci_indep r'); naive_solver.
Qed.
Lemma level_monotone F alpha alpha' D ds x y zs r r' : tabulated D ds -> (x < length ds)%nat -> (y < length ds)%nat -> Forall (fun v => (v < length ds)%nat) zs -> 0 <= alpha -> alpha <= alpha' -> alpha' <= 1 ->
  gsquare_test F alpha D ds x y zs 1 = Ok r -> gsquare_test F alpha' D ds x y zs 1 = Ok r' -> ci_indep r' = true -> ci_indep r = true.
Proof.
  intros HD Hx Hy Hz H0 H1 H2 Hr Hr' Hi. destruct (test_value F alpha D ds x y zs 1 HD Hx Hy Hz ltac:(lia) ltac:(lra)) as (q & Hq & Hv). destruct (test_value F alpha' D ds x y zs 1 HD Hx Hy Hz ltac:(lia) ltac:(lra)) as (q' & Hq' & Hv').
  rewrite Hq in Hr. rewrite Hq' in Hr'. injection Hr as <-. injection Hr' as <-. apply Hv. apply Hv' in Hi as [Hi|Hi]; [by left|right; lra].
Qed.
Lemma accepts_independent F alpha D ds x y zs : tabulated D ds -> (x < length ds)%nat -> (y < length ds)%nat -> Forall (fun v => (v < length ds)%nat) zs -> chi_square_like F -> 0 <= alpha < 1 -> cond_indep D x y zs ->
  exists r, gsquare_test F alpha D ds x y zs 1 = Ok r /\ ci_indep r = true.
Proof.
  intros HD Hx Hy Hz HF Ha Hc. destruct (test_value F alpha D ds x y zs 1 HD Hx Hy Hz ltac:(lia) ltac:(lra)) as (r & Hr & Hv). exists r. split; [done|]. apply Hv, decision_value. apply independent_data; [done|done|done|done|lra|done].
Qed.
Lemma rejects_dependent F alpha D ds x y zs : tabulated D ds -> (x < length ds)%nat -> (y < length ds)%nat -> Forall (fun v => (v < length ds)%nat) zs -> chi_square_like F -> 0 < alpha <= 1 -> ~ cond_indep D x y zs ->
  exists K, forall k p, (K <= k)%nat -> each_row k (co_rows D) p -> exists r, gsquare_test F alpha (pick_rows p D) ds x y zs 1 = Ok r /\ ci_indep r = false.
Proof.
  intros HD Hx Hy Hz HF Ha Hc. destruct (dependent_data F alpha D ds x y zs HD Hx Hy HF ltac:(lra) Hc) as [K HK]. exists K. intros k p Hk Hp. pose proof (pick_tabulated k p D ds HD Hp) as HD'.
  destruct (test_value F alpha (pick_rows p D) ds x y zs 1 HD' Hx Hy Hz ltac:(lia) ltac:(lra)) as (r & Hr & Hv). exists r. split; [done|]. rewrite <-decision_value, (HK k p Hk Hp) in Hv. destruct (ci_indep r); [symmetry; by apply Hv|done].
Qed.
