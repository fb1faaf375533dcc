(** A checked computation whose unlimited result is small does not overflow: all intermediate numbers are
    bounded by the result or by the length of a table. *)
From Verif Require Import LimitModel LimitRefine.
Local Open Scope nat_scope.

Lemma mfor_within {I S} (R : S -> S -> Prop) (good : S -> Prop) (l : list I) (f fi : I -> S -> outcome S) :
  (forall s, R s s) -> (forall a b c, R a b -> R b c -> R a c) -> (forall a b, R a b -> good b -> good a) ->
  (forall i s s', i ∈ l -> f i s = Ok s' -> R s s') -> (forall i s s', i ∈ l -> f i s = Ok s' -> good s' -> fi i s = Ok s') ->
  forall s r, mfor l f s = Ok r -> good r -> mfor l fi s = Ok r /\ R s r.
Proof.
  intros Hr Ht Hd. induction l as [|i l IH]; intros Hs Hc s r; cbn [mfor]; [intros [= ->] _; done|].
  intros (s' & E & E')%bind_ok Hg. destruct (IH ltac:(intros; eapply Hs; [by right|done]) ltac:(intros; eapply Hc; [by right|done|done]) _ _ E' Hg) as [E2 HR].
  rewrite (Hc i s s' ltac:(left) E) by eauto. split; [exact E2|]. eapply Ht; [|exact HR]. eapply Hs; [by left|done].
Qed.
Lemma mfor_plain {I S} (l : list I) (f fi : I -> S -> outcome S) : (forall i s s', i ∈ l -> f i s = Ok s' -> fi i s = Ok s') -> forall s r, mfor l f s = Ok r -> mfor l fi s = Ok r.
Proof. intros H s r E. apply (mfor_within (fun _ _ => True) (fun _ => True) l f fi); eauto. Qed.
Lemma mfor_bound {I S} (m : S -> nat) B (l : list I) (f : I -> S -> outcome S) : (forall i s s', f i s = Ok s' -> m s' <= m s + B) -> forall s r, mfor l f s = Ok r -> m r <= m s + length l * B.
Proof.
  intros H. induction l as [|i l IH]; intros s r; cbn [mfor]; [intros [= ->]; lia|]. intros (s' & E & E')%bind_ok. specialize (IH _ _ E'). specialize (H _ _ _ E). cbn. lia.
Qed.
Lemma mcollect_plain {I A} (l : list I) (f fi : I -> outcome A) r : (forall k i a, l !! k = Some i -> r !! k = Some a -> f i = Ok a -> fi i = Ok a) -> mcollect l f = Ok r -> mcollect l fi = Ok r.
Proof.
  revert r. induction l as [|i l IH]; intros r H; cbn [mcollect]; [done|]. intros (a & E & E')%bind_ok. apply bind_ok in E' as (as' & E' & [= <-]).
  rewrite (H 0 i a eq_refl eq_refl E). cbn [mbind outcome_bind]. rewrite (IH as'); [done| |done]. intros k. apply (H (S k)).
Qed.
(** Tables that only grow. *)
Definition grows (a b : list nat) : Prop := Forall2 le a b.
Lemma grows_refl a : grows a a.
Proof. by apply Forall2_same_length_lookup_2; [|intros i ? ? -> [= ->]]. Qed.
Lemma grows_trans a b c : grows a b -> grows b c -> grows a c.
Proof. intros H1 H2. eapply Forall2_transitive; [|exact H1|exact H2]. intros; lia. Qed.
Lemma cells_down a b c m : 0 < b -> 0 < c -> a * b * c <= m -> a <= m /\ a * b <= m /\ a * c <= m.
Proof.
  intros Hb Hc H. assert (a * b * 1 <= a * b * c) by (apply Nat.mul_le_mono_l; lia). assert (a * 1 <= a * b) by (apply Nat.mul_le_mono_l; lia).
  assert (a * c * 1 <= a * c * b) by (apply Nat.mul_le_mono_l; lia). assert (a * c * b = a * b * c) by lia. lia.
Qed.
Section limited.
Context (M : nat).
Definition fits (l : list nat) : Prop := length l <= M /\ Forall (fun v => v <= M) l.
Lemma fits_down a b : grows a b -> fits b -> fits a.
Proof.
  intros H [Hl Hf]. split; [by rewrite (Forall2_length _ _ _ H)|]. rewrite Forall_lookup in *. intros i v Hv. destruct (Forall2_lookup_l _ _ _ _ _ H Hv) as (w & Hw & ?). specialize (Hf _ _ Hw). cbn in *. lia.
Qed.
Lemma imul_fits a b : a * b <= M -> imul M a b = Ok (a * b).
Proof. intros H. unfold imul. by rewrite bool_decide_true. Qed.
Lemma iadd_fits a b : a + b <= M -> iadd M a b = Ok (a + b).
Proof. intros H. unfold iadd. by rewrite bool_decide_true. Qed.
Lemma imul3_fits a b c : 0 < c -> a * b * c <= M -> imul3 M a b c = Ok (a * b * c).
Proof. intros Hc H. unfold imul3. rewrite imul_fits by nia. cbn [mbind outcome_bind]. by apply imul_fits. Qed.
Lemma pos3_fits z dx dy x y off : 0 < dy -> z * dx * dy + x * dy + y + off <= M -> position3_i M z dx dy x y off = Ok (z * dx * dy + x * dy + y + off).
Proof.
  intros Hd H. unfold position3_i. rewrite imul3_fits by lia. cbn [mbind outcome_bind]. rewrite imul_fits by lia. cbn [mbind outcome_bind]. rewrite !iadd_fits by lia. cbn [mbind outcome_bind]. rewrite iadd_fits by lia. cbn [mbind outcome_bind]. apply iadd_fits. lia.
Qed.
Lemma pos2_fits k d i off : k * d + i + off <= M -> position2_i M k d i off = Ok (k * d + i + off).
Proof. intros H. unfold position2_i. rewrite imul_fits by lia. cbn [mbind outcome_bind]. rewrite iadd_fits by lia. cbn [mbind outcome_bind]. apply iadd_fits. lia. Qed.
Lemma vget_within (l : list nat) p v : length l <= M -> vget l p = Ok v -> p <= M.
Proof. intros Hl H%vget_inv%lookup_lt_Some. lia. Qed.
Lemma add_at_grows l i v l' : add_at l i v = Ok l' -> grows l l' /\ i < length l.
Proof.
  unfold add_at. intros (x & Hx%vget_inv & [Hi ->]%vset_inv)%bind_ok. split; [|done]. apply Forall2_same_length_lookup_2; [by rewrite insert_length|]. intros j a b Ha Hb.
  destruct (decide (i = j)) as [->|Hne]; [rewrite list_lookup_insert in Hb by done; simplify_eq; lia|]. rewrite list_lookup_insert_ne in Hb by done. simplify_eq. lia.
Qed.
Lemma add_at_fits l i v l' : add_at l i v = Ok l' -> fits l' -> add_at_i M l i v = Ok l'.
Proof.
  unfold add_at, add_at_i. intros (x & Hx & E)%bind_ok [_ Hf]. rewrite Hx. cbn [mbind outcome_bind]. pose proof E as [Hi ->]%vset_inv. rewrite iadd_fits; [exact E|].
  rewrite Forall_lookup in Hf. apply (Hf i). by apply list_lookup_insert.
Qed.
(** ** The shape *)
Definition top (l : list nat) : nat := default 0 (l !! 0).
Lemma levels_loop_within l cd s r : Forall (fun d => 0 < d) cd -> mfor l (fun i cum => c ← vget cum 0; d ← vget cd (i + 1); Ok (c * d :: cum)) s = Ok r -> top r <= M ->
  mfor l (fun i cum => c ← vget cum 0; d ← vget cd (i + 1); p ← imul M c d; Ok (p :: cum)) s = Ok r.
Proof.
  intros Hp E Hr. eapply (mfor_within (fun a b => top a <= top b) (fun a => top a <= M)); [| | | | |exact E|exact Hr]; [done|lia|lia| |].
  - intros i s0 s' _ (c & Hc%vget_inv & E1)%bind_ok. apply bind_ok in E1 as (d & Hd%vget_inv & [= <-]). unfold top. rewrite Hc. cbn. rewrite Forall_lookup in Hp. specialize (Hp _ _ Hd). cbn in Hp. unfold id. nia.
  - intros i s0 s' _ (c & Hc & E1)%bind_ok Hg. apply bind_ok in E1 as (d & Hd & [= <-]). rewrite Hc. cbn [mbind outcome_bind]. rewrite Hd. cbn [mbind outcome_bind]. unfold top in Hg. cbn in Hg. by rewrite imul_fits.
Qed.
Lemma shape_single_fits cd cum dz : Forall (fun d => 0 < d) cd -> shape_single cd = Ok (cum, dz) -> dz <= M -> shape_single_i M cd = Ok (cum, dz).
Proof.
  intros Hp. unfold shape_single, shape_single_i. case_bool_decide; [|done]. intros (cum' & E & E1)%bind_ok. apply bind_ok in E1 as (c & Hc & E1). apply bind_ok in E1 as (d & Hd & [= -> <-]). intros Hm.
  assert (0 < d) as Hd0 by (rewrite Forall_lookup in Hp; apply vget_inv in Hd; by apply (Hp _ _ Hd)).
  assert (levels_single_i M cd = Ok cum) as ->.
  { unfold levels_single, levels_single_i in *. destruct (vget cd _); [|done]. cbn [mbind outcome_bind] in *. apply levels_loop_within; [done|done|]. unfold top. apply vget_inv in Hc. rewrite Hc. cbn. unfold id. nia. }
  cbn [mbind outcome_bind]. rewrite Hc. cbn [mbind outcome_bind]. rewrite Hd. cbn [mbind outcome_bind]. by rewrite imul_fits.
Qed.
Lemma zindex_single_fits D zs cum k z : zindex_single D zs cum k = Ok z -> z <= M -> zindex_single_i M D zs cum k = Ok z.
Proof.
  unfold zindex_single, zindex_single_i. case_bool_decide; [done|]. intros (v & Hv & E)%bind_ok Hz. apply bind_ok in E as (z0 & Hz0 & E). rewrite Hv. cbn [mbind outcome_bind]. rewrite Hz0. cbn [mbind outcome_bind].
  eapply (mfor_within le (fun a => a <= M)); [| | | | |exact E|exact Hz]; [done|lia|lia| |].
  - intros j s s' _ (w & _ & E1)%bind_ok. apply bind_ok in E1 as (a & _ & E1). apply bind_ok in E1 as (c & _ & [= <-]). lia.
  - intros j s s' _ (w & Hw & E1)%bind_ok Hg. apply bind_ok in E1 as (a & Ha & E1). apply bind_ok in E1 as (c & Hc & [= <-]). rewrite Hw. cbn [mbind outcome_bind]. rewrite Ha. cbn [mbind outcome_bind]. rewrite Hc. cbn [mbind outcome_bind].
    rewrite imul_fits by lia. cbn [mbind outcome_bind]. by apply iadd_fits.
Qed.
(** ** The tables *)
Definition grows3 (a b : list nat * list nat * list nat) : Prop := grows (fst (fst a)) (fst (fst b)) /\ grows (snd (fst a)) (snd (fst b)) /\ grows (snd a) (snd b).
Definition fits3 (a : list nat * list nat * list nat) : Prop := fits (fst (fst a)) /\ fits (snd (fst a)) /\ fits (snd a).
Lemma grows3_refl a : grows3 a a.
Proof. split_and!; apply grows_refl. Qed.
Lemma grows3_trans a b c : grows3 a b -> grows3 b c -> grows3 a c.
Proof. intros (? & ? & ?) (? & ? & ?). split_and!; by eapply grows_trans. Qed.
Lemma fits3_down a b : grows3 a b -> fits3 b -> fits3 a.
Proof. intros (? & ? & ?) (? & ? & ?). split_and!; by eapply fits_down. Qed.
Lemma margins_fits dz dx dy oxy ox oy oz n st st' : 0 < dy -> length n <= M -> margins dz dx dy oxy ox oy oz n st = Ok st' -> fits3 st' -> margins_i M dz dx dy oxy ox oy oz n st = Ok st' /\ grows3 st st'.
Proof.
  intros Hdy Hn E Hf. unfold margins, margins_i in *. eapply (mfor_within grows3 fits3); [apply grows3_refl|apply grows3_trans|apply fits3_down| | |exact E|exact Hf].
  - intros [[k i] j] [[ni nj] nk] s' _ E1. cbv zeta beta in E1. apply bind_ok in E1 as (v & Hv & E1). apply bind_ok in E1 as (ni' & Hni & E1). apply bind_ok in E1 as (nj' & Hnj & E1). apply bind_ok in E1 as (nk' & Hnk & [= <-]).
    apply add_at_grows in Hni, Hnj, Hnk. split_and!; cbn [fst snd]; naive_solver.
  - intros [[k i] j] [[ni nj] nk] s' _ E1 Hg. cbv zeta beta in E1. apply bind_ok in E1 as (v & Hv & E1). apply bind_ok in E1 as (ni' & Hni & E1). apply bind_ok in E1 as (nj' & Hnj & E1). apply bind_ok in E1 as (nk' & Hnk & [= <-]).
    destruct Hg as (Gi & Gj & Gk). cbn [fst snd] in Gi, Gj, Gk. destruct (add_at_grows _ _ _ _ Hni) as [Wi Li], (add_at_grows _ _ _ _ Hnj) as [Wj Lj], (add_at_grows _ _ _ _ Hnk) as [Wk Lk].
    pose proof (fits_down _ _ Wi Gi) as [? _]. pose proof (fits_down _ _ Wj Gj) as [? _]. pose proof (fits_down _ _ Wk Gk) as [? _].
    rewrite pos3_fits by (done || exact (vget_within _ _ _ Hn Hv)). cbn [mbind outcome_bind]. rewrite Hv. cbn [mbind outcome_bind].
    rewrite (pos2_fits k dx i ox) by lia. cbn [mbind outcome_bind]. rewrite (add_at_fits _ _ _ _ Hni Gi). cbn [mbind outcome_bind].
    rewrite (pos2_fits k dy j oy) by lia. cbn [mbind outcome_bind]. rewrite (add_at_fits _ _ _ _ Hnj Gj). cbn [mbind outcome_bind].
    rewrite iadd_fits by lia. cbn [mbind outcome_bind]. by rewrite (add_at_fits _ _ _ _ Hnk Gk).
Qed.
Lemma counts3d_fits D dx dy ix iy cd zs t : 0 < dx -> 0 < dy -> Forall (fun d => 0 < d) cd -> counts3d D dx dy ix iy cd zs = Ok t ->
  c3_dimz t * dx * dy <= M -> fits (c3_n t) -> fits (c3_ni t) -> fits (c3_nj t) -> fits (c3_nk t) -> counts3d_i M D dx dy ix iy cd zs = Ok t.
Proof.
  intros Hdx Hdy Hp. unfold counts3d, counts3d_i. intros ([cum dz] & Hs & E)%bind_ok. cbv iota beta in E. apply bind_ok in E as (n & En & E). apply bind_ok in E as ([[ni nj] nk] & Em & [= <-]). cbn [c3_dimz c3_n c3_ni c3_nj c3_nk].
  intros Hm Fn Fi Fj Fk. pose proof (cells_down _ _ _ _ Hdx Hdy Hm) as (M1 & M2 & M3). rewrite (shape_single_fits _ _ _ Hp Hs) by lia. cbn [mbind outcome_bind]. rewrite imul3_fits by lia. cbn [mbind outcome_bind]. rewrite (imul_fits dz dx) by lia. cbn [mbind outcome_bind]. rewrite imul_fits by lia. cbn [mbind outcome_bind].
  match goal with |- context [mfor (seq 0 (co_rows D)) ?f _] => assert (mfor (seq 0 (co_rows D)) f (replicate (dz * dx * dy) 0) = Ok n) as -> end.
  { eapply (mfor_within grows fits); [apply grows_refl|apply grows_trans|apply fits_down| | |exact En|exact Fn].
    - intros k s s' _ (x & _ & E1)%bind_ok. apply bind_ok in E1 as (y & _ & E1). apply bind_ok in E1 as (z & _ & E1). rewrite bump_add_at in E1. by apply add_at_grows in E1 as [? _].
    - intros k s s' _ (x & Hx & E1)%bind_ok Hg. apply bind_ok in E1 as (y & Hy & E1). apply bind_ok in E1 as (z & Hz & E1). rewrite bump_add_at in E1. destruct (add_at_grows _ _ _ _ E1) as [Gs Ls]. destruct (fits_down _ _ Gs Hg) as [Ll _].
      rewrite Hx. cbn [mbind outcome_bind]. rewrite Hy. cbn [mbind outcome_bind]. rewrite (zindex_single_fits _ _ _ _ _ Hz) by (eapply (cells_down z dx dy); lia). cbn [mbind outcome_bind]. rewrite pos3_fits by lia. cbn [mbind outcome_bind]. rewrite Nat.add_0_r. by apply add_at_fits. }
  cbn [mbind outcome_bind]. destruct (margins_fits dz dx dy 0 0 0 0 n _ _ Hdy (proj1 Fn) Em) as [-> _]; done.
Qed.
Lemma counts2d_fits D dx dy ix iy t : dx * dy <= M -> counts2d D dx dy ix iy = Ok t -> fits3 t -> counts2d_i M D dx dy ix iy = Ok t.
Proof.
  intros Hm. unfold counts2d, counts2d_i. intros (n & En & E)%bind_ok. apply bind_ok in E as ([ni nj] & Em & [= <-]). intros (Fn & Fi & Fj). cbn [fst snd] in *. rewrite imul_fits by done. cbn [mbind outcome_bind].
  match goal with |- context [mfor (seq 0 (co_rows D)) ?f _] => assert (mfor (seq 0 (co_rows D)) f (replicate (dx * dy) 0) = Ok n) as -> end.
  { eapply (mfor_within grows fits); [apply grows_refl|apply grows_trans|apply fits_down| | |exact En|exact Fn].
    - intros k s s' _ (x & _ & E1)%bind_ok. apply bind_ok in E1 as (y & _ & E1). rewrite bump_add_at in E1. by apply add_at_grows in E1 as [? _].
    - intros k s s' _ (x & Hx & E1)%bind_ok Hg. apply bind_ok in E1 as (y & Hy & E1). rewrite bump_add_at in E1. destruct (add_at_grows _ _ _ _ E1) as [Gs Ls]. destruct (fits_down _ _ Gs Hg) as [Ll _].
      rewrite Hx. cbn [mbind outcome_bind]. rewrite Hy. cbn [mbind outcome_bind]. rewrite pos2_fits by lia. cbn [mbind outcome_bind]. rewrite Nat.add_0_r. by apply add_at_fits. }
  cbn [mbind outcome_bind].
  match goal with |- context [mfor (pairs dx dy) ?f _] => assert (mfor (pairs dx dy) f (replicate dx 0, replicate dy 0) = Ok (ni, nj)) as -> end; [|done].
  eapply (mfor_within (fun a b => grows (fst a) (fst b) /\ grows (snd a) (snd b)) (fun a => fits (fst a) /\ fits (snd a))); [| | | | |exact Em|done].
  - intros a. split; apply grows_refl.
  - intros a b c [? ?] [? ?]. split; by eapply grows_trans.
  - intros a b [? ?] [? ?]. split; by eapply fits_down.
  - intros [i j] [a b] s' _ (v & _ & E1)%bind_ok. apply bind_ok in E1 as (a' & Ha & E1). apply bind_ok in E1 as (b' & Hb & [= <-]). apply add_at_grows in Ha, Hb. cbn [fst snd]. naive_solver.
  - intros [i j] [a b] s' _ (v & Hv & E1)%bind_ok [Ga Gb]. apply bind_ok in E1 as (a' & Ha & E1). apply bind_ok in E1 as (b' & Hb & [= <-]). cbn [fst snd] in *.
    apply vget_inv in Hv as Hv'. apply lookup_lt_Some in Hv'. destruct Fn as [Fn _]. rewrite pos2_fits by lia. cbn [mbind outcome_bind]. rewrite Nat.add_0_r, Hv. cbn [mbind outcome_bind]. rewrite (add_at_fits _ _ _ _ Ha Ga). cbn [mbind outcome_bind]. by rewrite (add_at_fits _ _ _ _ Hb Gb).
Qed.
(** ** A group *)
Lemma levels_group_fits cd c j cum : Forall (fun d => 0 < d) cd -> levels_group cd c j = Ok cum -> top cum <= M -> levels_group_i M cd c j = Ok cum.
Proof. unfold levels_group, levels_group_i. case_bool_decide; [done|]. intros. by apply levels_loop_within. Qed.
Lemma shape_group_fits cd c g cums dz : Forall (fun d => 0 < d) cd -> shape_group cd c g = Ok (cums, dz) -> Forall (fun d => d <= M) dz -> shape_group_i M cd c g = Ok (cums, dz).
Proof.
  intros Hp. unfold shape_group, shape_group_i. case_bool_decide; [done|]. intros (cums' & Ec & E)%bind_ok. apply bind_ok in E as (dz' & Ed & [= -> ->]). intros Hm. rewrite Forall_lookup in Hm. pose proof (mcollect_inv _ _ _ Ed) as [Hld Hd]. pose proof (mcollect_inv _ _ _ Ec) as [Hlc _].
  rewrite (mcollect_plain _ (fun j => levels_group cd c j) _ cums); [| |exact Ec].
  - cbn [mbind outcome_bind]. rewrite (mcollect_plain _ (fun j => cum ← vget cums j; x ← vget cum 0; d ← vget cd (j * c); Ok (x * d)) _ dz); [done| |exact Ed].
    intros k j a Hj Ha (cum & Hc & E)%bind_ok. apply bind_ok in E as (x & Hx & E). apply bind_ok in E as (d & Hd' & [= <-]). rewrite Hc. cbn [mbind outcome_bind]. rewrite Hx. cbn [mbind outcome_bind]. rewrite Hd'. cbn [mbind outcome_bind]. apply imul_fits. by apply (Hm k).
  - intros k j cum Hj Hc E. apply levels_group_fits; [done|done|]. apply lookup_seq in Hj as [Hj Hk]. cbn in Hj. subst k.
    destruct (lookup_lt_is_Some_2 dz j) as [d Hdz]; [rewrite Hld, seq_length; done|]. specialize (Hd j j d ltac:(by apply lookup_seq) Hdz). apply bind_ok in Hd as (cum' & Hc' & E'). apply vget_inv in Hc'. simplify_eq. apply bind_ok in E' as (x & Hx%vget_inv & E'). apply bind_ok in E' as (e & He%vget_inv & [= <-]).
    specialize (Hm _ _ Hdz). cbn in Hm. rewrite Forall_lookup in Hp. specialize (Hp _ _ He). cbn in Hp. unfold top. rewrite Hx. cbn. unfold id. nia.
Qed.
Lemma cum_dims_fits dz g cd : cum_dims dz g = Ok cd -> Forall (fun v => v <= M) cd -> cum_dims_i M dz g = Ok cd.
Proof.
  unfold cum_dims, cum_dims_i. intros E Hf. eapply (mfor_within (fun a b => exists t, b = a ++ t) (Forall (fun v => v <= M))); [| | | | |exact E|exact Hf].
  - intros a. exists []. by rewrite app_nil_r.
  - intros a b c [t ->] [u ->]. exists (t ++ u). by rewrite app_assoc.
  - intros a b [t ->] H%Forall_app. apply H.
  - intros m s s' _ (x & _ & E1)%bind_ok. apply bind_ok in E1 as (d & _ & [= <-]). eauto.
  - intros m s s' _ (x & Hx & E1)%bind_ok Hg. apply bind_ok in E1 as (d & Hd & [= <-]). rewrite Hx. cbn [mbind outcome_bind]. rewrite Hd. cbn [mbind outcome_bind]. apply Forall_app in Hg as [_ Hg]. inversion_clear Hg. by rewrite iadd_fits.
Qed.
Lemma zindex_group_fits D zs cums c i k z : zindex_group D zs cums c i k = Ok z -> z <= M -> zindex_group_i M D zs cums c i k = Ok z.
Proof.
  unfold zindex_group, zindex_group_i. case_bool_decide; [done|]. intros E Hz.
  eapply (mfor_within le (fun a => a <= M)); [| | | | |exact E|exact Hz]; [done|lia|lia| |].
  - intros j s s' _ (w & _ & E1)%bind_ok. apply bind_ok in E1 as (a & _ & E1). apply bind_ok in E1 as (cu & _ & E1). apply bind_ok in E1 as (l & _ & [= <-]). lia.
  - intros j s s' _ (w & Hw & E1)%bind_ok Hg. apply bind_ok in E1 as (a & Ha & E1). apply bind_ok in E1 as (cu & Hc & E1). apply bind_ok in E1 as (l & Hl & [= <-]). rewrite Hw. cbn [mbind outcome_bind]. rewrite Ha. cbn [mbind outcome_bind]. rewrite Hc. cbn [mbind outcome_bind]. rewrite Hl. cbn [mbind outcome_bind].
    rewrite imul_fits by lia. cbn [mbind outcome_bind]. by apply iadd_fits.
Qed.
Lemma counts3d_group_fits D dx dy ix iy cd zs g t : 0 < dx -> 0 < dy -> Forall (fun d => 0 < d) cd -> counts3d_group D dx dy ix iy cd zs g = Ok t ->
  (forall o d, o ∈ cg_cum t -> d ∈ cg_dimz t -> o * dx * dy <= M /\ d * dx * dy <= M) -> length (cg_nk t) * dx * dy <= M -> fits (cg_n t) -> fits (cg_ni t) -> fits (cg_nj t) -> fits (cg_nk t) -> counts3d_group_i M D dx dy ix iy cd zs g = Ok t.
Proof.
  intros Hdx Hdy Hp. unfold counts3d_group, counts3d_group_i. intros (c & Hc & E)%bind_ok. rewrite Hc. cbn [mbind outcome_bind]. apply bind_ok in E as ([cums dz] & Hs & E). cbv iota beta in E. apply bind_ok in E as (cd0 & Hcd & E).
  apply bind_ok in E as (o & Ho & E). apply bind_ok in E as (d & Hd & E). cbv zeta in E. apply bind_ok in E as (n & En & E). apply bind_ok in E as ([[ni nj] nk] & Em & [= <-]). cbn [cg_dimz cg_cum cg_n cg_ni cg_nj cg_nk].
  intros Hb Ht Fn Fi Fj Fk. pose proof Ho as Ho'%vget_inv%elem_of_list_lookup_2. pose proof Hd as Hd'%vget_inv%elem_of_list_lookup_2.
  rewrite (shape_group_fits _ _ _ _ _ Hp Hs) by (apply Forall_forall; intros e He; destruct (Hb o e); [done..|]; by eapply (cells_down e dx dy)). cbn [mbind outcome_bind].
  rewrite (cum_dims_fits _ _ _ Hcd) by (apply Forall_forall; intros e He; destruct (Hb e d); [done..|]; by eapply (cells_down e dx dy)). cbn [mbind outcome_bind]. rewrite Ho. cbn [mbind outcome_bind]. rewrite Hd. cbn [mbind outcome_bind].
  assert (exists st', mfor (seq 0 g) (fun m st => o0 ← vget cd0 m; d0 ← vget dz m; oxy ← imul3 M o0 dx dy; ox ← imul M o0 dx; oy ← imul M o0 dy; margins_i M d0 dx dy oxy ox oy o0 n st) (replicate ((o + d) * dx) 0, replicate ((o + d) * dy) 0, replicate (o + d) 0) = Ok st'
    /\ st' = (ni, nj, nk) /\ grows3 (replicate ((o + d) * dx) 0, replicate ((o + d) * dy) 0, replicate (o + d) 0) (ni, nj, nk)) as (st' & Em' & -> & Gm).
  { assert (fits3 (ni, nj, nk)) as F3 by done. destruct (mfor_within grows3 fits3 (seq 0 g) (fun m st => o0 ← vget cd0 m; d0 ← vget dz m; margins d0 dx dy (o0 * dx * dy) (o0 * dx) (o0 * dy) o0 n st)
      (fun m st => o0 ← vget cd0 m; d0 ← vget dz m; oxy ← imul3 M o0 dx dy; ox ← imul M o0 dx; oy ← imul M o0 dy; margins_i M d0 dx dy oxy ox oy o0 n st)
      grows3_refl grows3_trans fits3_down) with (s := (replicate ((o + d) * dx) 0, replicate ((o + d) * dy) 0, replicate (o + d) 0)) (r := (ni, nj, nk)) as [E1 E2]; [| |exact Em|exact F3|by eauto].
    - intros m s s' _ (o0 & _ & E1)%bind_ok. apply bind_ok in E1 as (d0 & _ & E1). clear -E1. unfold margins in E1. revert s s' E1. induction (triples d0 dx dy) as [|[[k i] j] l IH]; intros s s'; cbn [mfor]; [intros [= ->]; apply grows3_refl|]. destruct s as [[a b] e].
      intros (s1 & E1 & E2)%bind_ok. eapply grows3_trans; [|by eapply IH]. clear IH E2. cbv zeta beta in E1. apply bind_ok in E1 as (v & Hv & E1). apply bind_ok in E1 as (ni' & Hni & E1). apply bind_ok in E1 as (nj' & Hnj & E1). apply bind_ok in E1 as (nk' & Hnk & [= <-]).
      apply add_at_grows in Hni, Hnj, Hnk. split_and!; cbn [fst snd]; naive_solver.
    - intros m s s' _ (o0 & Ho0 & E1)%bind_ok Hg. apply bind_ok in E1 as (d0 & Hd0 & E1). rewrite Ho0. cbn [mbind outcome_bind]. rewrite Hd0. cbn [mbind outcome_bind]. apply vget_inv, elem_of_list_lookup_2 in Ho0, Hd0. destruct (Hb _ _ Ho0 Hd0) as [B1 B2].
      pose proof (cells_down _ _ _ _ Hdx Hdy B1) as (M1 & M2 & M3). rewrite imul3_fits by done. cbn [mbind outcome_bind]. rewrite (imul_fits o0 dx) by lia. cbn [mbind outcome_bind]. rewrite imul_fits by lia. cbn [mbind outcome_bind]. by apply margins_fits; [done|apply Fn|..]. }
  assert (length nk = o + d) as Hlk by (destruct Gm as (_ & _ & Gm); cbn in Gm; apply Forall2_length in Gm; by rewrite replicate_length in Gm).
  rewrite Hlk in Ht. pose proof (cells_down _ _ _ _ Hdx Hdy Ht) as (M1 & M2 & M3). rewrite iadd_fits by lia. cbn [mbind outcome_bind]. rewrite imul3_fits by done. cbn [mbind outcome_bind]. rewrite (imul_fits _ dx) by lia. cbn [mbind outcome_bind]. rewrite imul_fits by lia. cbn [mbind outcome_bind].
  match goal with |- context [mfor (seq 0 (co_rows D)) ?f _] => assert (mfor (seq 0 (co_rows D)) f (replicate ((o + d) * dx * dy) 0) = Ok n) as -> end; [|cbn [mbind outcome_bind]; rewrite Em'; done].
  assert (forall x y k i s s', (z ← zindex_group D zs cums c i k; o ← vget cd0 i; bump s (z * dx * dy + x * dy + y + o * dx * dy)) = Ok s' -> grows s s') as Hgr.
  { intros x y k i s s' (z & _ & E1)%bind_ok. apply bind_ok in E1 as (o0 & _ & E1). rewrite bump_add_at in E1. by apply add_at_grows in E1 as [? _]. }
  eapply (mfor_within grows fits); [apply grows_refl|apply grows_trans|apply fits_down| | |exact En|exact Fn].
  - intros k s s' _ (x & _ & E1)%bind_ok. apply bind_ok in E1 as (y & _ & E1). clear -E1 Hgr. revert s s' E1. induction (seq 0 g) as [|i l IH]; intros s s'; cbn [mfor]; [intros [= ->]; apply grows_refl|]. intros (s1 & E1 & E2)%bind_ok. eapply grows_trans; [by eapply Hgr|by apply IH].
  - intros k s s' _ (x & Hx & E1)%bind_ok Hg. apply bind_ok in E1 as (y & Hy & E1). rewrite Hx. cbn [mbind outcome_bind]. rewrite Hy. cbn [mbind outcome_bind].
    eapply (mfor_within grows fits); [apply grows_refl|apply grows_trans|apply fits_down| | |exact E1|exact Hg]; [intros i s1 s2 _; apply Hgr|]. intros i s1 s2 _ (z & Hz & E2)%bind_ok Hg2. apply bind_ok in E2 as (o0 & Ho0 & E2).
    rewrite bump_add_at in E2. destruct (add_at_grows _ _ _ _ E2) as [Gs Ls]. destruct (fits_down _ _ Gs Hg2) as [Ll _].
    rewrite (zindex_group_fits _ _ _ _ _ _ _ Hz) by (eapply (cells_down z dx dy); lia). cbn [mbind outcome_bind]. rewrite Ho0. cbn [mbind outcome_bind]. rewrite imul3_fits by lia. cbn [mbind outcome_bind]. rewrite pos3_fits by lia. cbn [mbind outcome_bind]. by apply add_at_fits.
Qed.
(** ** The statistic *)
Lemma count_positive_le n r s : count_positive n r = Ok s -> s <= n.
Proof.
  unfold count_positive. intros E. apply (mfor_bound id 1) in E; [rewrite seq_length in E; unfold id in E; lia|]. intros i s0 s' (v & _ & [= <-])%bind_ok. unfold id. case_bool_decide; lia.
Qed.
Lemma count_positive_fits n r ri s : n <= M -> (forall i v, r i = Ok v -> ri i = Ok v) -> count_positive n r = Ok s -> count_positive_i M n ri = Ok s.
Proof.
  intros Hn Hr E. pose proof (count_positive_le _ _ _ E) as Hs. unfold count_positive, count_positive_i in *.
  eapply (mfor_within le (fun a => a <= M)); [| | | | |exact E|]; [done|lia|lia| | |lia].
  - intros i s0 s' _ (v & _ & [= <-])%bind_ok. lia.
  - intros i s0 s' _ (v & Hv & [= <-])%bind_ok Hg. rewrite (Hr _ _ Hv). cbn [mbind outcome_bind]. by apply iadd_fits.
Qed.
Lemma row_terms_fits dy row total rj rn rji rni ts r : (forall i v, rj i = Ok v -> rji i = Ok v) -> (forall i v, rn i = Ok v -> rni i = Ok v) -> row_terms dy row total rj rn ts = Ok r -> row_terms dy row total rji rni ts = Ok r.
Proof.
  intros Hj Hn. unfold row_terms. apply mfor_plain. intros i s s' _ (a & Ha & E)%bind_ok. apply bind_ok in E as (b & Hb & E). rewrite (Hj _ _ Ha). cbn [mbind outcome_bind]. by rewrite (Hn _ _ Hb).
Qed.
Lemma gtest_df dz dx dy rn ri rj rk ts df : gtest dz dx dy rn ri rj rk = Ok (ts, df) -> df <= dz * (dx * dy).
Proof.
  unfold gtest. intros E. apply (mfor_bound snd (dx * dy)) in E; [rewrite seq_length in E; exact E|]. clear E ts df. intros k [ts df] s' E. apply bind_ok in E as (alx & Hx%count_positive_le & E). apply bind_ok in E as (aly & Hy%count_positive_le & E). cbv zeta in E. apply bind_ok in E as (total & _ & E). cbn [snd].
  assert (snd s' = df + (Nat.max alx 1 - 1) * (Nat.max aly 1 - 1)) as -> by (case_bool_decide; [by simplify_eq|]; apply bind_ok in E as (ts' & _ & [= <-]); done). assert (Nat.max alx 1 - 1 <= dx) by lia. assert (Nat.max aly 1 - 1 <= dy) by lia. nia.
Qed.
Lemma gtest_fits dz dx dy oxy ox oy oz n ni nj nk rn ri rj rk r : (forall i, rn i = vget n (i + oxy)) -> (forall i, ri i = vget ni (i + ox)) -> (forall i, rj i = vget nj (i + oy)) -> (forall i, rk i = vget nk (i + oz)) ->
  0 < dy -> dx <= M -> dy <= M -> dz * dx * dy <= M -> length n <= M -> length ni <= M -> length nj <= M -> length nk <= M -> gtest dz dx dy rn ri rj rk = Ok r -> gtest_i M dz dx dy oxy ox oy oz n ni nj nk = Ok r.
Proof.
  intros Rn Ri Rj Rk Hdy Lx Ly Hm Ln Li Lj Lk E. destruct r as [ts df]. pose proof (gtest_df _ _ _ _ _ _ _ _ _ E) as Hdf. rewrite Nat.mul_assoc in Hdf. unfold gtest, gtest_i in *.
  assert (forall k i v, ri (k * dx + i) = Ok v -> (p ← position2_i M k dx i ox; vget ni p) = Ok v) as Hi.
  { intros k i v H. rewrite Ri in H. rewrite pos2_fits by exact (vget_within _ _ _ Li H). done. }
  assert (forall k j v, rj (k * dy + j) = Ok v -> (p ← position2_i M k dy j oy; vget nj p) = Ok v) as Hj.
  { intros k i v H. rewrite Rj in H. rewrite pos2_fits by exact (vget_within _ _ _ Lj H). done. }
  eapply (mfor_within (fun a b => snd a <= snd b) (fun a => snd a <= M)); [| | | | |exact E|cbn [snd]; lia]; [done|lia|lia| |].
  - intros k [ts0 df0] s' _ E1. apply bind_ok in E1 as (alx & _ & E1). apply bind_ok in E1 as (aly & _ & E1). cbv zeta in E1. apply bind_ok in E1 as (total & _ & E1). cbn [snd].
    case_bool_decide; [simplify_eq; apply Nat.le_add_r|]. apply bind_ok in E1 as (ts' & _ & [= <-]). apply Nat.le_add_r.
  - intros k [ts0 df0] s' _ E1 Hg. apply bind_ok in E1 as (alx & Hx & E1). apply bind_ok in E1 as (aly & Hy & E1). cbv zeta in E1. apply bind_ok in E1 as (total & Ht & E1).
    assert (snd s' = df0 + (Nat.max alx 1 - 1) * (Nat.max aly 1 - 1)) as Es by (case_bool_decide; [by simplify_eq|]; apply bind_ok in E1 as (ts' & _ & [= <-]); done). rewrite Es in Hg.
    rewrite (count_positive_fits _ _ _ _ Lx (Hi k) Hx). cbn [mbind outcome_bind]. rewrite (count_positive_fits _ _ _ _ Ly (Hj k) Hy). cbn [mbind outcome_bind]. rewrite imul_fits by (etransitivity; [apply Nat.le_add_l|exact Hg]). cbn [mbind outcome_bind]. rewrite (iadd_fits df0) by exact Hg. cbn [mbind outcome_bind].
    rewrite Rk in Ht. rewrite (iadd_fits k oz) by exact (vget_within _ _ _ Lk Ht). cbn [mbind outcome_bind]. rewrite Ht. cbn [mbind outcome_bind]. case_bool_decide; [done|]. apply bind_ok in E1 as (ts' & E2 & E1).
    match goal with |- mbind _ (mfor (seq 0 dx) ?f ts0) = _ => assert (mfor (seq 0 dx) f ts0 = Ok ts') as -> end; [|exact E1].
    eapply mfor_plain; [|exact E2]. intros i s1 s2 _ (row & Hrow & E3)%bind_ok. apply Hi in Hrow. apply bind_ok in Hrow as (p & Hp & Hrow). rewrite Hp. cbn [mbind outcome_bind]. rewrite Hrow. cbn [mbind outcome_bind]. case_bool_decide; [done|].
    apply (row_terms_fits dy row total (fun j => rj (k * dy + j)) (fun j => rn (k * dx * dy + i * dy + j))); [apply Hj| |exact E3]. intros j v Hv. rewrite Rn in Hv. rewrite pos3_fits by (done || exact (vget_within _ _ _ Ln Hv)). done.
Qed.
End limited.
