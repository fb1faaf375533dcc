(** Every checked test gives the unlimited result or overflows; the search as well. *)
From Verif Require Import LimitModel IntSpec IntRefine PCModel.
Local Open Scope nat_scope.

Lemma unless_when {A} (o o' oi : outcome A) : o = o' -> unless_overflow o' oi -> unless_overflow o oi.
Proof. by intros ->. Qed.
Lemma check_mul_end M a b : unless_overflow (Ok (a * b)) (imul M a b).
Proof. unfold imul. case_bool_decide; [by left|by right]. Qed.
#[global] Hint Resolve check_mul_end check_add_end : unl.
Lemma check_front {A B} (v : A) c (o : outcome B) fi : unless_overflow (Ok v) c -> unless_overflow o (fi v) -> unless_overflow o (c ≫= fi).
Proof. intros [->| ->] H; [exact H|by right]. Qed.
Section limited.
Context (M : nat).
Lemma mul3_unless a b c : unless_overflow (Ok (a * b * c)) (imul3 M a b c).
Proof. unfold imul3. apply check_mul, check_mul_end. Qed.
Lemma pos3_unless z dx dy x y off : unless_overflow (Ok (z * dx * dy + x * dy + y + off)) (position3_i M z dx dy x y off).
Proof. unfold position3_i. eapply check_front; [apply mul3_unless|]. apply check_mul, check_add, check_add, check_add_end. Qed.
Lemma pos2_unless k d i off : unless_overflow (Ok (k * d + i + off)) (position2_i M k d i off).
Proof. unfold position2_i. apply check_mul, check_add, check_add_end. Qed.
Lemma add_at_unless l i v : unless_overflow (add_at l i v) (add_at_i M l i v).
Proof. unfold add_at, add_at_i. unl. Qed.
Lemma bump_add_at l i : bump l i = add_at l i 1.
Proof. unfold bump, add_at. destruct (vget l i) as [x|]; [|done]. cbn [mbind outcome_bind]. by rewrite Nat.add_1_r. Qed.
Lemma bump_unless l i : unless_overflow (bump l i) (add_at_i M l i 1).
Proof. rewrite bump_add_at. apply add_at_unless. Qed.
Hint Resolve add_at_unless bump_unless : unl.
Ltac lim := repeat (cbv zeta beta; lazymatch goal with
  | |- unless_overflow _ (mbind _ (imul3 _ _ _ _)) => eapply check_front; [apply mul3_unless|]
  | |- unless_overflow _ (mbind _ (position3_i _ _ _ _ _ _ _)) => eapply check_front; [apply pos3_unless|]
  | |- unless_overflow _ (mbind _ (position2_i _ _ _ _ _)) => eapply check_front; [apply pos2_unless|]
  | _ => unl_step end).
Lemma levels_single_unless cd : unless_overflow (levels_single cd) (levels_single_i M cd).
Proof. unfold levels_single, levels_single_i. lim. Qed.
Hint Resolve levels_single_unless : unl.
Lemma shape_single_unless cd : unless_overflow (shape_single cd) (shape_single_i M cd).
Proof. unfold shape_single, shape_single_i. lim. Qed.
Hint Resolve shape_single_unless : unl.
Lemma zindex_single_unless D zs cum k : unless_overflow (zindex_single D zs cum k) (zindex_single_i M D zs cum k).
Proof. unfold zindex_single, zindex_single_i. lim. Qed.
Hint Resolve zindex_single_unless : unl.
Lemma margins_unless dz dx dy oxy ox oy oz n st : unless_overflow (margins dz dx dy oxy ox oy oz n st) (margins_i M dz dx dy oxy ox oy oz n st).
Proof. unfold margins, margins_i. lim. Qed.
Hint Resolve margins_unless : unl.
Lemma counts3d_unless D dx dy ix iy cd zs : unless_overflow (counts3d D dx dy ix iy cd zs) (counts3d_i M D dx dy ix iy cd zs).
Proof. unfold counts3d, counts3d_i. lim. eapply unless_when; [|apply bump_unless]. by rewrite Nat.add_0_r. Qed.
Hint Resolve counts3d_unless : unl.
Lemma counts2d_unless D dx dy ix iy : unless_overflow (counts2d D dx dy ix iy) (counts2d_i M D dx dy ix iy).
Proof. unfold counts2d, counts2d_i. lim; rewrite Nat.add_0_r; lim. Qed.
Hint Resolve counts2d_unless : unl.
Lemma levels_group_unless cd c j : unless_overflow (levels_group cd c j) (levels_group_i M cd c j).
Proof. unfold levels_group, levels_group_i. lim. Qed.
Hint Resolve levels_group_unless : unl.
Lemma shape_group_unless cd c g : unless_overflow (shape_group cd c g) (shape_group_i M cd c g).
Proof. unfold shape_group, shape_group_i. lim. Qed.
Hint Resolve shape_group_unless : unl.
Lemma cum_dims_unless dz g : unless_overflow (cum_dims dz g) (cum_dims_i M dz g).
Proof. unfold cum_dims, cum_dims_i. lim. Qed.
Hint Resolve cum_dims_unless : unl.
Lemma zindex_group_unless D zs cums c i k : unless_overflow (zindex_group D zs cums c i k) (zindex_group_i M D zs cums c i k).
Proof. unfold zindex_group, zindex_group_i. lim. Qed.
Hint Resolve zindex_group_unless : unl.
Lemma counts3d_group_unless D dx dy ix iy cd zs g : unless_overflow (counts3d_group D dx dy ix iy cd zs g) (counts3d_group_i M D dx dy ix iy cd zs g).
Proof. unfold counts3d_group, counts3d_group_i. lim. Qed.
Hint Resolve counts3d_group_unless : unl.
Lemma count_positive_unless n r ri : (forall i, unless_overflow (r i) (ri i)) -> unless_overflow (count_positive n r) (count_positive_i M n ri).
Proof. intros H. unfold count_positive, count_positive_i. lim. Qed.
Lemma row_terms_unless dy row total rj rn rji rni ts : (forall j, unless_overflow (rj j) (rji j)) -> (forall j, unless_overflow (rn j) (rni j)) ->
  unless_overflow (row_terms dy row total rj rn ts) (row_terms dy row total rji rni ts).
Proof. intros H1 H2. unfold row_terms. lim. Qed.
Lemma gtest_unless dz dx dy oxy ox oy oz n ni nj nk rn ri rj rk : (forall i, rn i = vget n (i + oxy)) -> (forall i, ri i = vget ni (i + ox)) -> (forall i, rj i = vget nj (i + oy)) -> (forall i, rk i = vget nk (i + oz)) ->
  unless_overflow (gtest dz dx dy rn ri rj rk) (gtest_i M dz dx dy oxy ox oy oz n ni nj nk).
Proof.
  intros Hn Hi Hj Hk. unfold gtest, gtest_i. apply unless_mfor. intros k [ts df].
  apply unless_bind; [apply count_positive_unless; intros; rewrite Hi; lim|]. intros alx. apply unless_bind; [apply count_positive_unless; intros; rewrite Hj; lim|]. intros aly.
  lim. rewrite Hk. lim.
  - rewrite Hi. lim.
  - apply row_terms_unless; intros; [rewrite Hj|rewrite Hn]; lim.
Qed.
Lemma independence_unless accept D ds x y zs g : unless_overflow (independence_result accept D ds x y zs g) (independence_result_i M accept D ds x y zs g).
Proof.
  unfold independence_result, independence_result_i. case_bool_decide; [|case_bool_decide].
  - unfold gsquare_xy, gsquare_xy_i. lim; try (apply count_positive_unless; intros; apply unless_refl). apply row_terms_unless; intros; lim. rewrite Nat.add_0_r. lim.
  - unfold gsquare_group, gsquare_group_i. lim. by apply gtest_unless.
  - unfold gsquare_xyz, gsquare_xyz_i. lim. apply gtest_unless; intros; by rewrite Nat.add_0_r.
Qed.
End limited.
(** Searches with related tests. *)
Section search.
Context (tst tsti : nat -> nat -> list nat -> nat -> outcome ci_result) (H : forall x y zs g, unless_overflow (tst x y zs g) (tsti x y zs g)).
Lemma testing_unless c g e : unless_overflow (testing tst c g e) (testing tsti c g e).
Proof using H. unfold testing. unl. Qed.
Lemma check_tests_unless c g e : unless_overflow (check_tests tst c g e) (check_tests tsti c g e).
Proof using H. unfold check_tests. unl. apply testing_unless. Qed.
Lemma check_edge_unless adj c g e : unless_overflow (check_edge tst adj c g e) (check_edge tsti adj c g e).
Proof using H. unfold check_edge. unl; apply check_tests_unless. Qed.
Lemma run_batch_unless adj c g order batch edges sep : unless_overflow (run_batch tst adj c g order batch edges sep) (run_batch tsti adj c g order batch edges sep).
Proof using H. unfold run_batch. unl. apply check_edge_unless. Qed.
Lemma batches_unless fuel : forall adj c g sch t stack edges sep, unless_overflow (batches tst fuel adj c g sch t stack edges sep) (batches tsti fuel adj c g sch t stack edges sep).
Proof using H. induction fuel as [|f IH]; intros; destruct stack; try apply unless_refl; cbn [batches]. unl. apply run_batch_unless. Qed.
Lemma search_at_depth_unless fuel c g sch edges adj sep : unless_overflow (search_at_depth tst fuel c g sch edges adj sep) (search_at_depth tsti fuel c g sch edges adj sep).
Proof using H. unfold search_at_depth. unl. apply batches_unless. Qed.
Lemma level_zero_unless order edges sep : unless_overflow (level_zero tst order edges sep) (level_zero tsti order edges sep).
Proof using H. unfold level_zero. unl. Qed.
Lemma levels_unless ds : forall fuel g sch edges adj sep, unless_overflow (levels tst ds fuel g sch edges adj sep) (levels tsti ds fuel g sch edges adj sep).
Proof using H. induction ds as [|d ds IH]; intros; cbn [levels]; unl. apply search_at_depth_unless. Qed.
Lemma skeleton_search_unless n depth fuel g sch : unless_overflow (skeleton_search tst n depth fuel g sch) (skeleton_search tsti n depth fuel g sch).
Proof using H. unfold skeleton_search. unl; [apply level_zero_unless|apply levels_unless]. Qed.
End search.
