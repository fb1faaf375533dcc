(** Arithmetic up to a factor, and two runs of a program side by side. *)
From Coq Require Import Field QArith.
From Verif Require Import RoundModel RoundSpec ParProofs.
Local Open Scope Qc_scope.

(** ** Numbers *)
Lemma Qcmul_le_l (a x y : Qc) : 0 <= a -> x <= y -> a * x <= a * y.
Proof. intros Ha H. rewrite (Qcmult_comm a x), (Qcmult_comm a y). by apply Qcmult_le_compat_r. Qed.
Lemma Qcmul_le (a b x y : Qc) : 0 <= a -> 0 <= y -> a <= b -> x <= y -> a * x <= b * y.
Proof. intros Ha Hy H1 H2. eapply Qcle_trans; [by apply Qcmul_le_l|]. by apply Qcmult_le_compat_r. Qed.
Lemma Qcmul_nn (x y : Qc) : 0 <= x -> 0 <= y -> 0 <= x * y.
Proof. intros Hx Hy. replace 0 with (x * 0) by ring. by apply Qcmul_le_l. Qed.
Lemma Qc_inv_nn (x : Qc) : 0 <= x -> 0 <= / x.
Proof.
  intros H. destruct (decide (x = 0)) as [->|Hz]; [discriminate|]. destruct (Qclt_le_dec (/ x) 0) as [Hl|]; [|done]. exfalso.
  assert (/ x * x <= 0 * x) as Hm by (apply Qcmult_le_compat_r; [by apply Qclt_le_weak|done]).
  replace (/ x * x) with 1 in Hm by (by field). replace (0 * x) with 0 in Hm by ring. by apply Hm.
Qed.
Lemma Qc_nn_pos (x : Qc) : 0 <= x -> x <> 0 -> 0 < x.
Proof. intros H Hz. destruct (Qcle_lt_or_eq _ _ H) as [|<-]; done. Qed.
Lemma one_nn (f : Qc) : 1 <= f -> 0 <= f.
Proof. intros H. eapply Qcle_trans; [|exact H]. discriminate. Qed.
Lemma one_mul (f g : Qc) : 1 <= f -> 1 <= g -> 1 <= f * g.
Proof. intros Hf Hg. replace 1 with (1 * 1) by ring. apply Qcmul_le; [discriminate|by apply one_nn|done|done]. Qed.

Lemma within_refl f x : 1 <= f -> 0 <= x -> within_factor f x x.
Proof. intros Hf Hx. assert (x <= f * x); [|by split_and!]. replace x with (1 * x) at 1 by ring. by apply Qcmult_le_compat_r. Qed.
Lemma within_weaken f g x y : f <= g -> within_factor f x y -> within_factor g x y.
Proof. intros H (Hx & Hy & H1 & H2). split_and!; [done|done| |]; (eapply Qcle_trans; [eassumption|by apply Qcmult_le_compat_r]). Qed.
Lemma within_trans f g x y z : 1 <= f -> 1 <= g -> within_factor f x y -> within_factor g y z -> within_factor (f * g) x z.
Proof.
  intros Hf%one_nn Hg%one_nn (Hx & Hy & H1 & H2) (_ & Hz & H3 & H4). split_and!; [done|done| |].
  - eapply Qcle_trans; [exact H3|]. replace (f * g * x) with (g * (f * x)) by ring. by apply Qcmul_le_l.
  - eapply Qcle_trans; [exact H2|]. replace (f * g * z) with (f * (g * z)) by ring. by apply Qcmul_le_l.
Qed.
Lemma within_sym f x y : within_factor f x y -> within_factor f y x.
Proof. intros (? & ? & ? & ?). by split_and!. Qed.
Lemma within_rnd c rnd y : rounds c rnd -> 0 <= y -> within_factor c y (rnd y).
Proof.
  intros [Hc Hr] Hy. destruct (Hr y Hy) as [H1 H2]. split_and!; try done. destruct (Qclt_le_dec (rnd y) 0) as [Hl|]; [|done]. exfalso.
  assert (c * rnd y < 0) as Hlt.
  { replace 0 with (c * 0) by ring. rewrite (Qcmult_comm c (rnd y)), (Qcmult_comm c 0). apply Qcmult_lt_compat_r; [|done]. eapply Qclt_le_trans; [|exact Hc]. reflexivity. }
  apply (Qclt_not_le _ _ Hlt). by eapply Qcle_trans.
Qed.
Lemma within_mul f g x y x' y' : 1 <= f -> 1 <= g -> within_factor f x y -> within_factor g x' y' -> within_factor (f * g) (x * x') (y * y').
Proof.
  intros Hf%one_nn Hg%one_nn (Hx & Hy & H1 & H2) (Hx' & Hy' & H3 & H4). split_and!; [by apply Qcmul_nn|by apply Qcmul_nn| |].
  - replace (f * g * (x * x')) with ((f * x) * (g * x')) by ring. apply Qcmul_le; [done|by apply Qcmul_nn|done|done].
  - replace (f * g * (y * y')) with ((f * y) * (g * y')) by ring. apply Qcmul_le; [done|by apply Qcmul_nn|done|done].
Qed.
Lemma within_add f x y x' y' : within_factor f x y -> within_factor f x' y' -> within_factor f (x + x') (y + y').
Proof.
  intros (Hx & Hy & H1 & H2) (Hx' & Hy' & H3 & H4).
  assert (forall a b : Qc, 0 <= a -> 0 <= b -> 0 <= a + b) as Hp by (intros a b Ha Hb; replace 0 with (0 + 0) by ring; by apply Qcplus_le_compat).
  split_and!; [by apply Hp|by apply Hp| |]; rewrite Qcmult_plus_distr_r; by apply Qcplus_le_compat.
Qed.
Lemma within_zero f x y : within_factor f x y -> x = 0 <-> y = 0.
Proof.
  intros (Hx & Hy & H1 & H2). split; intros ->; [replace (f * 0) with 0 in H1 by ring|replace (f * 0) with 0 in H2 by ring]; by apply Qcle_antisym.
Qed.
Lemma within_inv f z w : z <> 0 -> within_factor f z w -> within_factor f (/ z) (/ w).
Proof.
  intros Hz H. assert (w <> 0) as Hw by (intros ?; by apply Hz, (within_zero f z w)). destruct H as (H1 & H2 & H3 & H4).
  pose proof (Qc_inv_nn z H1) as Iz. pose proof (Qc_inv_nn w H2) as Iw. split_and!; [done|done| |].
  - replace (/ w) with (z * (/ z * / w)) by (by field). replace (f * / z) with ((f * w) * (/ z * / w)) by (by field). apply Qcmult_le_compat_r; [done|by apply Qcmul_nn].
  - replace (/ z) with (w * (/ z * / w)) by (by field). replace (f * / w) with ((f * z) * (/ z * / w)) by (by field). apply Qcmult_le_compat_r; [done|by apply Qcmul_nn].
Qed.
Lemma within_div f g x y z w : 1 <= f -> 1 <= g -> z <> 0 -> within_factor f x y -> within_factor g z w -> within_factor (f * g) (x / z) (y / w).
Proof. intros Hf Hg Hz H1 H2. unfold Qcdiv. apply within_mul; [done|done|done|by apply within_inv]. Qed.
Lemma within_scale f s x y : 0 <= s -> within_factor f x y -> within_factor f (s * x) (s * y).
Proof.
  intros Hs (Hx & Hy & H1 & H2). split_and!; [by apply Qcmul_nn|by apply Qcmul_nn| |].
  - replace (f * (s * x)) with (s * (f * x)) by ring. by apply Qcmul_le_l.
  - replace (f * (s * y)) with (s * (f * y)) by ring. by apply Qcmul_le_l.
Qed.

Lemma pow_one c k : 1 <= c -> 1 <= c ^ k.
Proof. intros Hc. induction k as [|k IH]; [apply Qcle_refl|]. cbn [Qcpower]. by apply one_mul. Qed.
Lemma pow_add c j k : c ^ (j + k) = c ^ j * c ^ k.
Proof. induction j as [|j IH]; cbn [Nat.add Qcpower]; [ring|]. rewrite IH. ring. Qed.
Lemma pow_mono c j k : 1 <= c -> (j <= k)%nat -> c ^ j <= c ^ k.
Proof.
  intros Hc H. replace k with (j + (k - j))%nat by lia. rewrite pow_add. replace (c ^ j) with (c ^ j * 1) at 1 by ring.
  apply Qcmul_le_l; [by apply one_nn, pow_one|by apply pow_one].
Qed.

Section near.
Context (c : Qc) (rnd : Qc -> Qc) (Hr : rounds c rnd).
(** [k] roundings apart. *)
Definition apart (k : nat) (x y : Qc) : Prop := within_factor (c ^ k) x y.
Lemma c_one : 1 <= c.
Proof using Hr. apply Hr. Qed.
Lemma p_one k : 1 <= c ^ k.
Proof using Hr. apply pow_one, c_one. Qed.
Lemma apart_weaken j k x y : (j <= k)%nat -> apart j x y -> apart k x y.
Proof using Hr. intros H. apply within_weaken, pow_mono; [apply c_one|done]. Qed.
Lemma apart_refl k x : 0 <= x -> apart k x x.
Proof using Hr. intros H. apply within_refl; [apply p_one|done]. Qed.
Lemma apart_rnd k x y : apart k x y -> apart (S k) x (rnd y).
Proof using Hr.
  intros H. unfold apart. replace (c ^ S k) with (c ^ k * c) by (cbn [Qcpower]; ring). eapply within_trans; [apply p_one|apply c_one|exact H|].
  apply within_rnd; [done|]. apply H.
Qed.
Lemma apart_mul j k x y x' y' : apart j x y -> apart k x' y' -> apart (S (j + k)) (x * x') (rnd (y * y')).
Proof using Hr. intros H1 H2. apply apart_rnd. unfold apart. rewrite pow_add. apply within_mul; [apply p_one|apply p_one|done|done]. Qed.
Lemma apart_div j k x y z w : z <> 0 -> apart j x y -> apart k z w -> apart (S (j + k)) (x / z) (rnd (y / w)).
Proof using Hr. intros Hz H1 H2. apply apart_rnd. unfold apart. rewrite pow_add. apply within_div; [apply p_one|apply p_one|done|done|done]. Qed.
Lemma apart_add k x y x' y' : apart k x y -> apart k x' y' -> apart (S k) (x + x') (rnd (y + y')).
Proof using Hr. intros H1 H2. apply apart_rnd. by apply within_add. Qed.
Lemma apart_zero k x y : apart k x y -> x = 0 <-> y = 0.
Proof using. apply within_zero. Qed.
End near.

(** ** Two runs side by side *)
Definition orel {A B} (R : A -> B -> Prop) (o : outcome A) (o' : outcome B) : Prop :=
  match o, o' with Ok a, Ok b => R a b | Err e, Err e' => e = e' | _, _ => False end.
Lemma orel_mono {A B} (R Q : A -> B -> Prop) o o' : (forall a b, R a b -> Q a b) -> orel R o o' -> orel Q o o'.
Proof. destruct o, o'; cbn; auto. Qed.
Lemma orel_refl {A} (o : outcome A) : orel eq o o.
Proof. by destruct o. Qed.
Lemma orel_eq {A} (o o' : outcome A) : orel eq o o' -> o = o'.
Proof. destruct o, o'; cbn; intros H; try done; by subst. Qed.
Lemma orel_bind {A B A' B'} (R : A -> A' -> Prop) (Q : B -> B' -> Prop) o o' (f : A -> outcome B) (f' : A' -> outcome B') :
  orel R o o' -> (forall a a', R a a' -> orel Q (f a) (f' a')) -> orel Q (o ≫= f) (o' ≫= f').
Proof. destruct o, o'; cbn; intros H1 H2; try done. by apply H2. Qed.
Lemma orel_same {A B B'} (Q : B -> B' -> Prop) (o : outcome A) (f : A -> outcome B) (f' : A -> outcome B') :
  (forall a, o = Ok a -> orel Q (f a) (f' a)) -> orel Q (o ≫= f) (o ≫= f').
Proof. destruct o; cbn; intros H; [by apply H|done]. Qed.
Lemma orel_both {A B} (R Q : A -> B -> Prop) o o' : orel R o o' -> orel Q o o' -> orel (fun a b => R a b /\ Q a b) o o'.
Proof. destruct o, o'; cbn; auto. Qed.
(** Related success, and the same error otherwise. *)
Lemma orel_ok {A B} (R Q : A -> B -> Prop) o o' : orel R o o' -> (forall a b, o = Ok a -> o' = Ok b -> R a b -> Q a b) -> orel Q o o'.
Proof. destruct o, o'; cbn; intros H1 H2; try done. by apply H2. Qed.
Lemma orel_mfor {I S S'} (P : list I -> S -> S' -> Prop) (l : list I) f f' s s' :
  P [] s s' -> (forall dn i rest s s', l = dn ++ i :: rest -> P dn s s' -> orel (P (dn ++ [i])) (f i s) (f' i s')) -> orel (P l) (mfor l f s) (mfor l f' s').
Proof.
  intros H0 Hs. assert (forall rest dn s s', l = dn ++ rest -> P dn s s' -> orel (P l) (mfor rest f s) (mfor rest f' s')) as H; [|by apply (H l [])].
  induction rest as [|i rest IH]; intros dn x x' E Hx; cbn [mfor]; [rewrite app_nil_r in E; by subst dn|].
  eapply orel_bind; [by eapply Hs|]. intros y y' Hy. apply (IH (dn ++ [i])); [by rewrite <-app_assoc|done].
Qed.
Lemma orel_mfor_plain {I S S'} (P : S -> S' -> Prop) (l : list I) f f' s s' :
  P s s' -> (forall i s s', i ∈ l -> P s s' -> orel P (f i s) (f' i s')) -> orel P (mfor l f s) (mfor l f' s').
Proof.
  intros H0 Hs. apply (orel_mfor (fun _ => P)); [done|]. intros dn i rest x x' E Hx. apply Hs; [|done]. rewrite E. apply elem_of_app. right. left.
Qed.
Lemma orel_mcollect {I I' A A'} (Q : I -> I' -> Prop) (R : A -> A' -> Prop) l l' f f' :
  Forall2 Q l l' -> (forall i i', Q i i' -> orel R (f i) (f' i')) -> orel (Forall2 R) (mcollect l f) (mcollect l' f').
Proof.
  intros H Hf. induction H as [|i i' l l' Hi _ IH]; [constructor|]. cbn [mcollect]. eapply orel_bind; [by apply Hf|].
  intros a a' Ha. eapply orel_bind; [exact IH|]. intros b b' Hb. by constructor.
Qed.
Lemma orel_mcollect_same {I A A'} (R : I -> A -> A' -> Prop) (l : list I) f f' :
  (forall i, i ∈ l -> orel (R i) (f i) (f' i)) ->
  orel (fun x x' => length x = length l /\ length x' = length l /\ forall k i a a', l !! k = Some i -> x !! k = Some a -> x' !! k = Some a' -> R i a a') (mcollect l f) (mcollect l f').
Proof.
  induction l as [|i l IH]; intros Hf; cbn [mcollect]; [done|]. eapply orel_bind; [apply Hf; left|].
  intros a a' Ha. eapply orel_bind; [apply IH; intros j Hj; apply Hf; by right|]. intros b b' (H1 & H2 & H3). cbn. split_and!; [by f_equal|by f_equal|].
  intros [|k] j x x' Hj Hx Hx'; cbn in *; [by simplify_eq|by eapply H3].
Qed.
Lemma orel_mcollect_eq {I A} (l : list I) (f f' : I -> outcome A) : (forall i, i ∈ l -> f i = f' i) -> mcollect l f = mcollect l f'.
Proof. apply mcollect_ext. Qed.
Lemma orel_vget {A A'} (R : A -> A' -> Prop) l l' i : Forall2 R l l' -> orel R (vget l i) (vget l' i).
Proof.
  intros H. unfold vget. destruct (l !! i) as [x|] eqn:E.
  - destruct (Forall2_lookup_l _ _ _ _ _ H E) as (y & -> & ?). done.
  - apply lookup_ge_None in E. rewrite (Forall2_length _ _ _ H) in E. apply lookup_ge_None in E. by rewrite E.
Qed.
Lemma orel_vget_at {A A'} (l : list A) (l' : list A') i : length l = length l' -> orel (fun a a' => l !! i = Some a /\ l' !! i = Some a') (vget l i) (vget l' i).
Proof.
  intros H. unfold vget. destruct (l !! i) as [x|] eqn:E.
  - destruct (lookup_lt_is_Some_2 l' i) as [y Hy]; [rewrite <-H; by eapply lookup_lt_Some|]. by rewrite Hy.
  - apply lookup_ge_None in E. rewrite H in E. apply lookup_ge_None in E. by rewrite E.
Qed.
Lemma orel_vset {A A'} (R : A -> A' -> Prop) l l' i x x' : Forall2 R l l' -> R x x' -> orel (Forall2 R) (vset l i x) (vset l' i x').
Proof. intros H Hx. unfold vset. rewrite <-(Forall2_length _ _ _ H). case_bool_decide; [|done]. by apply Forall2_insert. Qed.
Lemma orel_vset_at {A A'} (l : list A) (l' : list A') i x x' : length l = length l' ->
  orel (fun m m' => i < length l /\ m = <[i:=x]> l /\ m' = <[i:=x']> l')%nat (vset l i x) (vset l' i x').
Proof. intros H. unfold vset. rewrite <-H. by case_bool_decide. Qed.

(** ** Parallel loops *)
Lemma orel_par_for {M M' X X'} (P : M -> M' -> Prop) (Q : nat -> X -> X' -> Prop) es rd rd' wr wr' m m' :
  P m m' -> (forall s m m', P m m' -> orel (Q s) (rd s m) (rd' s m')) ->
  (forall s x x' m m', Q s x x' -> P m m' -> orel P (wr s x m) (wr' s x' m')) ->
  orel P (par_for es rd wr m) (par_for es rd' wr' m').
Proof.
  intros H0 Hr Hw. unfold par_for.
  eapply orel_bind with (R := fun (st : M * list (nat * X)) (st' : M' * list (nat * X')) => P st.1 st'.1 /\ Forall2 (fun p p' => p.1 = p'.1 /\ Q p.1 p.2 p'.2) st.2 st'.2).
  - apply orel_mfor_plain; [by split; [|constructor]|]. intros e [y l] [y' l'] _ [Hm Hl]. cbn [fst snd] in *. destruct e as [s|s].
    + eapply orel_bind; [by apply Hr|]. intros x x' Hx. cbn. split; [done|]. by constructor.
    + assert (match list_find (fun p => fst p = s) l, list_find (fun p => fst p = s) l' with Some (_, p), Some (_, p') => p.1 = s /\ Q s p.2 p'.2 | None, None => True | _, _ => False end) as Hf.
      { clear -Hl. induction Hl as [|[i x] [i' x'] l l' [Hi Hx] _ IH]; [done|]. cbn in Hi, Hx. subst i'. cbn. destruct (decide (i = s)) as [->|]; [done|].
        destruct (list_find _ l) as [[? ?]|], (list_find _ l') as [[? ?]|]; done. }
      destruct (list_find _ l) as [[? p]|], (list_find _ l') as [[? p']|]; try done. destruct Hf as [Hp HQ].
      eapply orel_bind; [by apply Hw|]. intros z z' Hz. done.
  - intros [y l] [y' l'] [Hm _]. done.
Qed.
Lemma par_for_ext {M X} es (rd rd' : nat -> M -> outcome X) wr m : (forall s m, rd s m = rd' s m) -> par_for es rd wr m = par_for es rd' wr m.
Proof.
  intros H. apply orel_eq. apply (orel_par_for eq (fun _ => eq)); [done| |].
  - intros s y ? <-. rewrite H. apply orel_refl.
  - intros s x ? y ? <- <-. apply orel_refl.
Qed.
Lemma par2_ext {X} es sizes (f g : nat -> nat -> X -> outcome X) m : (forall j k x, f j k x = g j k x) -> par2 es sizes f m = par2 es sizes g m.
Proof.
  intros H. unfold par2. apply par_for_ext. intros s y. destruct (compute_2d_index _ _ _); [|done]. cbn [mbind outcome_bind]. destruct (vget y _); [|done]. cbn [mbind outcome_bind].
  destruct (vget _ _); [|done]. cbn [mbind outcome_bind]. apply H.
Qed.
Lemma par2_fill_ext {X} es sizes (f g : nat -> nat -> outcome X) : (forall j k, f j k = g j k) -> par2_fill es sizes f = par2_fill es sizes g.
Proof. intros H. unfold par2_fill. f_equal. apply par2_ext. intros j k _. by rewrite H. Qed.
Lemma par1_fill_ext {X} es n (f g : nat -> outcome X) : (forall j, f j = g j) -> par1_fill es n f = par1_fill es n g.
Proof. intros H. unfold par1_fill. f_equal. unfold par1. apply par_for_ext. intros s y. destruct (vget y s); [|done]. cbn. by rewrite H. Qed.
Lemma orel_par1 {X X'} es (R : nat -> X -> X' -> Prop) f f' m m' : length m = length m' ->
  (forall k x x', m !! k = Some x -> m' !! k = Some x' -> R k x x') ->
  (forall k x x', R k x x' -> orel (R k) (f k x) (f' k x')) ->
  orel (fun r r' => length r = length m /\ length r' = length m /\ forall k x x', r !! k = Some x -> r' !! k = Some x' -> R k x x') (par1 es f m) (par1 es f' m').
Proof.
  intros Hl H0 Hb. unfold par1.
  apply (orel_par_for (fun r r' => length r = length m /\ length r' = length m /\ forall k x x', r !! k = Some x -> r' !! k = Some x' -> R k x x') R).
  - by rewrite Hl.
  - intros s y y' (L1 & L2 & H). eapply orel_bind; [apply orel_vget_at; congruence|]. intros a a' [Ha Ha']. apply Hb. by eapply H.
  - intros s x x' y y' Hx (L1 & L2 & H). eapply orel_mono; [|apply orel_vset_at; congruence]. cbn. intros z z' (Hs & -> & ->). rewrite !insert_length. split_and!; [done|done|].
    intros k a a' Ha Ha'. apply list_lookup_insert_Some in Ha as [(<- & <- & _)|(Hk & Ha)].
    + rewrite list_lookup_insert in Ha' by congruence. by simplify_eq.
    + rewrite list_lookup_insert_ne in Ha' by done. by eapply H.
Qed.
(** The error of a flattened loop depends on the shape of the arrays only. *)
Lemma orel_par2_errors {X X'} es sizes f f' (m : list (list X)) (m' : list (list X')) : length <$> m = length <$> m' ->
  (forall j k x x', orel (fun _ _ => True) (f j k x) (f' j k x')) -> orel (fun r r' => length <$> r = length <$> r') (par2 es sizes f m) (par2 es sizes f' m').
Proof.
  intros Hl Hb. unfold par2. apply (orel_par_for (fun r r' => length <$> r = length <$> r') (fun _ _ _ => True)); [done| |].
  - intros s y y' Hy. apply orel_same. intros [j k] _. cbn [fst snd].
    assert (length y = length y') as Hyl by (apply (f_equal length) in Hy; by rewrite !fmap_length in Hy).
    eapply orel_bind; [by apply orel_vget_at|]. intros r r' [H1 H2].
    assert (length r = length r') as Hrl. { apply (f_equal (fun z => z !! j)) in Hy. rewrite !list_lookup_fmap, H1, H2 in Hy. by injection Hy. }
    eapply orel_bind; [by apply orel_vget_at|]. intros a a' _. apply Hb.
  - intros s x x' y y' _ Hy. apply orel_same. intros [j k] _. cbn [fst snd].
    assert (length y = length y') as Hyl by (apply (f_equal length) in Hy; by rewrite !fmap_length in Hy).
    eapply orel_bind; [by apply orel_vget_at|]. intros r r' [H1 H2].
    assert (length r = length r') as Hrl. { apply (f_equal (fun z => z !! j)) in Hy. rewrite !list_lookup_fmap, H1, H2 in Hy. by injection Hy. }
    eapply orel_bind; [by apply orel_vset_at|]. intros z z' (_ & -> & ->). eapply orel_mono; [|by apply orel_vset_at]. cbn. intros u u' (_ & -> & ->).
    rewrite !list_fmap_insert, !insert_length, Hy. by rewrite Hrl.
Qed.
Lemma orel_par2 {X X'} es sizes (Q : nat -> nat -> X -> X' -> Prop) f f' (m : list (list X)) (m' : list (list X')) :
  valid_schedule (snd (cum_sums sizes)) es -> shape2 sizes m -> shape2 sizes m' ->
  (forall j k x x', orel (fun _ _ => True) (f j k x) (f' j k x')) ->
  (forall j k row row' x x' y y', m !! j = Some row -> m' !! j = Some row' -> row !! k = Some x -> row' !! k = Some x' -> f j k x = Ok y -> f' j k x' = Ok y' -> Q j k y y') ->
  orel (fun r r' => shape2 sizes r /\ shape2 sizes r' /\
    forall j k row row' y y', r !! j = Some row -> r' !! j = Some row' -> row !! k = Some y -> row' !! k = Some y' -> Q j k y y') (par2 es sizes f m) (par2 es sizes f' m').
Proof.
  intros Hes Hm Hm' He Hq. eapply orel_ok; [apply (orel_par2_errors es sizes f f' m m'); [|exact He]; unfold shape2 in *; congruence|].
  assert (forall Y (n : list (list Y)) (g : nat -> nat -> Y -> outcome Y) r, shape2 sizes n -> par2 es sizes g n = Ok r -> shape2 sizes r /\ forall j k row y, r !! j = Some row -> row !! k = Some y ->
    exists row0 x, n !! j = Some row0 /\ row0 !! k = Some x /\ g j k x = Ok y) as H.
  { intros Y n g r Hn Hrun. apply (par2_spec sizes es g n Hes Hn) in Hrun. apply mcollect_lookup in Hrun as [Hl Hrun]. rewrite seq_length in Hl.
    assert (forall j, j < length sizes -> exists row0 row, n !! j = Some row0 /\ r !! j = Some row /\ length row = length row0 /\ forall k x, row0 !! k = Some x -> exists y, row !! k = Some y /\ g j k x = Ok y)%nat as Hrow.
    { intros j Hj. destruct (Hrun j j) as (row & Hrw & Hb); [by apply lookup_seq|]. apply bind_ok in Hb as (row0 & H0%vget_inv & Hb). apply mcollect_lookup in Hb as [Hl2 Hb]. rewrite seq_length in Hl2.
      exists row0, row. split_and!; [done|done|done|]. intros k x Hx. destruct (Hb k k) as (y & Hy & Hg); [apply lookup_seq; split; [done|by eapply lookup_lt_Some]|].
      apply bind_ok in Hg as (x' & Hx'%vget_inv & Hg). exists y. split; [done|]. congruence. }
    assert (length n = length sizes) as Hln by (rewrite <-Hn; by rewrite fmap_length). split.
    - unfold shape2. rewrite <-Hn. apply list_eq. intros j. rewrite !list_lookup_fmap. destruct (decide (j < length sizes)%nat) as [Hj|Hj].
      + destruct (Hrow j Hj) as (row0 & row & -> & -> & Hlr & _). cbn. by rewrite Hlr.
      + rewrite !lookup_ge_None_2 by lia. done.
    - intros j k row y Hj Hk. assert (j < length sizes)%nat as Hjl by (rewrite <-Hl; by eapply lookup_lt_Some).
      destruct (Hrow j Hjl) as (row0 & row1 & H1 & H2 & Hlr & H3). assert (row1 = row) as -> by congruence.
      destruct (lookup_lt_is_Some_2 row0 k) as [x Hx]; [rewrite <-Hlr; by eapply lookup_lt_Some|]. destruct (H3 k x Hx) as (y' & Hy' & Hg). exists row0, x. split_and!; [done|done|congruence]. }
  intros r r' E E' _. destruct (H _ _ _ _ Hm E) as [S1 C1]. destruct (H _ _ _ _ Hm' E') as [S2 C2]. split_and!; [done|done|].
  intros j k row row' y y' Hj Hj' Hk Hk'. destruct (C1 j k row y Hj Hk) as (r0 & x & ? & ? & ?). destruct (C2 j k row' y' Hj' Hk') as (r0' & x' & ? & ? & ?). by eapply Hq.
Qed.
