(** Exactness of two-pass message passing on a rooted clique tree, from the local equations
    that the two passes establish. *)
From Coq Require Import Field.
From Verif Require Export BeliefSpec.
Local Open Scope Qc_scope.

Lemma qprod_nil {A} (f : A -> Qc) : qprod [] f = 1.
Proof. done. Qed.
Lemma qprod_cons {A} x (l : list A) f : qprod (x :: l) f = f x * qprod l f.
Proof. done. Qed.
Lemma qprod_app {A} (l1 l2 : list A) f : qprod (l1 ++ l2) f = qprod l1 f * qprod l2 f.
Proof. induction l1 as [|x l1 IH]; cbn [app]; rewrite ?qprod_nil, ?qprod_cons; [ring|]. rewrite IH. ring. Qed.
Lemma qprod_ext {A} (l : list A) f g : (forall x, x ∈ l -> f x = g x) -> qprod l f = qprod l g.
Proof.
  induction l as [|x l IH]; intros H; [done|]. rewrite !qprod_cons, H by left.
  f_equal. apply IH. intros y Hy. apply H. by right.
Qed.
Lemma qprod_perm {A} (l1 l2 : list A) f : l1 ≡ₚ l2 -> qprod l1 f = qprod l2 f.
Proof.
  induction 1 as [|x l1 l2 _ IH|x y l|l1 l2 l3 _ IH1 _ IH2]; rewrite ?qprod_cons; [done|by rewrite IH|ring|congruence].
Qed.
Lemma qprod_map {A B} (h : A -> B) (l : list A) (f : B -> Qc) : qprod (h <$> l) f = qprod l (fun x => f (h x)).
Proof. induction l as [|x l IH]; [done|]. cbn [fmap list_fmap]. by rewrite !qprod_cons, <-IH. Qed.
Lemma qprod_mul {A} (l : list A) f g : qprod l (fun x => f x * g x) = qprod l f * qprod l g.
Proof. induction l as [|x l IH]; rewrite ?qprod_nil, ?qprod_cons; [ring|]. rewrite IH. ring. Qed.
Lemma Qc_mul_pos (x y : Qc) : 0 < x -> 0 < y -> 0 < x * y.
Proof. intros Hx Hy. replace 0 with (0 * y) by ring. by apply Qcmult_lt_compat_r. Qed.
Lemma qprod_pos {A} (l : list A) f : (forall x, x ∈ l -> 0 < f x) -> 0 < qprod l f.
Proof.
  induction l as [|x l IH]; intros H; [done|]. rewrite qprod_cons. apply Qc_mul_pos.
  - apply H. left.
  - apply IH. intros y Hy. apply H. by right.
Qed.
Lemma qprod_nonneg {A} (l : list A) f : (forall x, x ∈ l -> 0 <= f x) -> 0 <= qprod l f.
Proof.
  induction l as [|x l IH]; intros H; [done|]. rewrite qprod_cons. apply Qc_le_mul_nonneg.
  - apply H. left.
  - apply IH. intros y Hy. apply H. by right.
Qed.
Lemma qprod_zero {A} (l : list A) f x : x ∈ l -> f x = 0 -> qprod l f = 0.
Proof. induction 1 as [|x y l Hx IH]; intros H; rewrite qprod_cons; [rewrite H; ring|rewrite IH by done; ring]. Qed.
Lemma qprod_dep {A} (l : list A) (F : A -> asg -> Qc) vs :
  (forall x, x ∈ l -> dep_on vs (F x)) -> dep_on vs (fun a => qprod l (fun x => F x a)).
Proof. intros H a b Hab. apply qprod_ext. intros x Hx. by apply H. Qed.

Lemma propto_refl dom f : propto dom f f.
Proof. exists 1. split; [discriminate|]. intros a _. ring. Qed.
Lemma propto_sym dom f g : propto dom f g -> propto dom g f.
Proof.
  intros (k & Hk & H). exists (/ k). split.
  - intros H0. apply Hk. rewrite <-(Qcmult_1_r k), <-(Qcmult_inv_r k Hk) at 1. rewrite H0. ring.
  - intros a Ha. rewrite (H a Ha). field. done.
Qed.
Lemma propto_trans dom f g h : propto dom f g -> propto dom g h -> propto dom f h.
Proof.
  intros (k & Hk & H) (k' & Hk' & H'). exists (k * k'). split.
  - intros H0. apply Qcmult_integral in H0 as [?|?]; done.
  - intros a Ha. rewrite (H a Ha), (H' a Ha). ring.
Qed.
Lemma propto_eq dom f g : (forall a, valid dom a -> f a = g a) -> propto dom f g.
Proof. intros H. exists 1. split; [discriminate|]. intros a Ha. rewrite (H a Ha). ring. Qed.
Lemma propto_mul dom f g f' g' : propto dom f g -> propto dom f' g' -> propto dom (fun a => f a * f' a) (fun a => g a * g' a).
Proof.
  intros (k & Hk & H) (k' & Hk' & H'). exists (k * k'). split.
  - intros H0. apply Qcmult_integral in H0 as [?|?]; done.
  - intros a Ha. rewrite (H a Ha), (H' a Ha). ring.
Qed.
Lemma propto_sumv dom vs f g : propto dom f g -> propto dom (sumv dom vs f) (sumv dom vs g).
Proof.
  intros (k & Hk & H). exists k. split; [done|]. intros a Ha. rewrite <-sumv_scal. apply sumv_ext; [done|].
  intros b Hb _. by apply H.
Qed.

Section belief.
Context (dom : nat -> nat) (U : list nat) (HU : NoDup U).
Set Default Proof Using "All".

Lemma sumv_drop (vs : list nat) F G a (D : list nat) :
  dep_on D G -> (forall v, v ∈ vs -> v ∉ D) -> sumv dom vs (fun b => G b * F b) a = G a * sumv dom vs F a.
Proof. intros HG Hv. apply sumv_mul_l. intros b b' Hb. apply HG. intros v HvD. apply Hb. intros Hin. by apply (Hv v). Qed.

(** Marginalising in two steps. *)
Lemma marg_marg (W W' : list nat) J a :
  proper J -> (forall v, v ∈ W' -> v ∈ W) ->
  sumv dom (filter (fun v => v ∈ W /\ v ∉ W') U) (marg dom U W J) a = marg dom U W' J a.
Proof.
  intros HJ Hsub. unfold marg. rewrite <-sumv_app. apply sumv_perm; [done| |].
  - apply NoDup_app. split_and!; [by apply NoDup_filter| |by apply NoDup_filter].
    intros v [[??] _]%elem_of_list_filter [? _]%elem_of_list_filter. done.
  - apply NoDup_Permutation.
    + apply NoDup_app. split_and!; [by apply NoDup_filter| |by apply NoDup_filter].
      intros v [[??] _]%elem_of_list_filter [? _]%elem_of_list_filter. done.
    + by apply NoDup_filter.
    + intros v. rewrite elem_of_app, !elem_of_list_filter. destruct (decide (v ∈ W)); naive_solver.
Qed.
Lemma marg_dep W J : dep_on U J -> dep_on W (marg dom U W J).
Proof.
  intros HJ. eapply dep_on_mono; [|by apply (sumv_dep dom (filter (fun v => v ∉ W) U) U)].
  intros v [Hv Hu]%elem_of_list_filter. destruct (decide (v ∈ W)); [done|]. exfalso. apply Hv. by apply elem_of_list_filter.
Qed.
Lemma sumv_filter_perm (C : list nat) (P Q : nat -> Prop) `{forall x, Decision (P x)} `{forall x, Decision (Q x)} F a :
  proper F -> NoDup C -> (forall v, v ∈ C /\ P v <-> v ∈ U /\ Q v) ->
  sumv dom (filter P C) F a = sumv dom (filter Q U) F a.
Proof.
  intros HF HC Heq. apply sumv_perm; [done|by apply NoDup_filter|].
  apply NoDup_Permutation; [by apply NoDup_filter..|]. intros v. rewrite !elem_of_list_filter. naive_solver.
Qed.

Context (sc ss : nat -> list nat) (r : nat) (L : list link) (f0 f1 f2 m rho : nat -> asg -> Qc).
Context (Hsc : forall i, i ∈ seen r L -> NoDup (sc i)).
Context (Hroot : rooted sc ss r [r] L).
Context (Hcov : forall v, v ∈ U <-> v ∈ scope_of sc (seen r L)).
Context (Hf0 : forall i, dep_on (sc i) (f0 i)).
Context (Hf1 : forall i, dep_on (sc i) (f1 i)).
Context (Hf2 : forall i, dep_on (sc i) (f2 i)).
Context (Hm : forall s, dep_on (ss s) (m s)).
Context (E1 : forall i, i ∈ seen r L ->
  propto dom (f1 i) (fun a => f0 i a * qprod (filter (fun l => l_up l = i) L) (fun l => m (l_sep l) a))).
Context (E2 : forall l, l ∈ L -> forall a, valid dom a ->
  m (l_sep l) a = sumv dom (filter (fun v => v ∉ ss (l_sep l)) (sc (l_dn l))) (f1 (l_dn l)) a).

Definition joint0 (a : asg) : Qc := qprod (seen r L) (fun i => f0 i a).
(** Product of the cliques seen and of the messages arriving from outside. *)
Definition front (ls rest : list link) (a : asg) : Qc :=
  qprod (seen r ls) (fun i => f0 i a) * qprod (filter (fun l => l_up l ∈ seen r ls) rest) (fun l => m (l_sep l) a).
Lemma seen_snoc ls l : seen r (ls ++ [l]) = seen r ls ++ [l_dn l].
Proof. unfold seen. by rewrite fmap_app. Qed.
Lemma rooted_split ls rest : L = ls ++ rest -> rooted sc ss r (seen r ls) rest.
Proof.
  revert rest. induction ls as [|l ls IH] using rev_ind; intros rest HL.
  - cbn in HL. subst rest. exact Hroot.
  - rewrite <-app_assoc in HL. apply IH in HL. cbn [app rooted] in HL. destruct HL as (_ & _ & _ & _ & HL). by rewrite seen_snoc.
Qed.
Lemma seen_nodup_gen seen_ rest : NoDup seen_ -> rooted sc ss r seen_ rest -> NoDup (seen_ ++ (l_dn <$> rest)).
Proof.
  revert seen_. induction rest as [|l rest IH]; intros seen_ Hn Hr; cbn [fmap list_fmap]; [by rewrite app_nil_r|].
  destruct Hr as (_ & Hd & _ & _ & Hr). rewrite cons_middle, app_assoc. apply IH; [|done].
  apply NoDup_app. split_and!; [done| |apply NoDup_singleton]. intros x Hx ->%elem_of_list_singleton. done.
Qed.
Lemma seen_nodup : NoDup (seen r L).
Proof. unfold seen. apply (seen_nodup_gen [r]); [apply NoDup_singleton|exact Hroot]. Qed.
Lemma up_seen ls l rest : L = ls ++ l :: rest -> l_up l ∈ seen r ls.
Proof. intros HL. apply rooted_split in HL. by destruct HL. Qed.
Lemma scope_snoc ls l v : v ∈ scope_of sc (seen r (ls ++ [l])) <-> v ∈ scope_of sc (seen r ls) \/ v ∈ sc (l_dn l).
Proof. unfold scope_of. rewrite seen_snoc, bind_app, elem_of_app. cbn. by rewrite app_nil_r. Qed.
Lemma scope_elem ls i v : i ∈ seen r ls -> v ∈ sc i -> v ∈ scope_of sc (seen r ls).
Proof. intros Hi Hv. apply elem_of_list_bind. eauto. Qed.
Lemma scope_U ls rest v : L = ls ++ rest -> v ∈ scope_of sc (seen r ls) -> v ∈ U.
Proof.
  intros HL Hv. apply Hcov. apply elem_of_list_bind in Hv as (i & Hi & Hv). apply elem_of_list_bind. exists i. split; [done|].
  rewrite HL. unfold seen in *. rewrite fmap_app. apply elem_of_cons in Hv as [->|Hv]; [left|right; apply elem_of_app; by left].
Qed.
Lemma joint0_dep : dep_on U joint0.
Proof.
  apply qprod_dep. intros i Hi. eapply dep_on_mono; [|apply Hf0]. intros v Hv. apply Hcov. by apply scope_elem with i.
Qed.

(** Links out of the clique reached by [l] come after [l]. *)
Lemma links_from ls l rest : L = ls ++ l :: rest ->
  filter (fun l' => l_up l' = l_dn l) L = filter (fun l' => l_up l' = l_dn l) rest.
Proof.
  intros HL. rewrite HL at 1. rewrite filter_app, filter_cons.
  pose proof (rooted_split _ _ HL) as (Hup & Hdn & _).
  assert (filter (fun l' => l_up l' = l_dn l) ls = []) as ->.
  { destruct (filter (fun l' => l_up l' = l_dn l) ls) as [|x xs] eqn:E; [done|exfalso].
    assert (x ∈ filter (fun l' => l_up l' = l_dn l) ls) as [Hx Hin]%elem_of_list_filter by (rewrite E; left).
    apply elem_of_list_split in Hin as (l1 & l2 & ->). rewrite <-app_assoc in HL. cbn in HL.
    pose proof (up_seen _ _ _ HL) as Hs. rewrite Hx in Hs. apply Hdn. unfold seen in *. rewrite fmap_app.
    apply elem_of_cons in Hs as [->|Hs]; [left|right; apply elem_of_app; by left]. }
  destruct (decide (l_up l = l_dn l)) as [E|]; [|done]. exfalso. apply Hdn. by rewrite <-E.
Qed.

Lemma front_step ls l rest : L = ls ++ l :: rest ->
  propto dom (front (ls ++ [l]) rest) (fun a => front ls rest a * f1 (l_dn l) a).
Proof.
  intros HL. pose proof (rooted_split _ _ HL) as (Hup & Hdn & _).
  assert (l_dn l ∈ seen r L) as Hin. { rewrite HL. unfold seen. rewrite fmap_app. right. apply elem_of_app. right. left. }
  apply propto_sym. eapply propto_trans; [apply propto_mul; [apply propto_refl|apply (E1 _ Hin)]|]. apply propto_eq. intros a _.
  rewrite (links_from _ _ _ HL). unfold front. rewrite seen_snoc, qprod_app, qprod_cons, qprod_nil.
  assert (qprod (filter (fun l0 => l_up l0 ∈ seen r ls ++ [l_dn l]) rest) (fun l0 => m (l_sep l0) a)
    = qprod (filter (fun l0 => l_up l0 ∈ seen r ls) rest) (fun l0 => m (l_sep l0) a)
      * qprod (filter (fun l' => l_up l' = l_dn l) rest) (fun l0 => m (l_sep l0) a)) as ->; [|ring].
  clear HL. induction rest as [|x rest IH]; [cbn; ring|]. rewrite !filter_cons.
  destruct (decide (l_up x ∈ seen r ls ++ [l_dn l])) as [Hx|Hx], (decide (l_up x ∈ seen r ls)) as [H1|H1], (decide (l_up x = l_dn l)) as [H2|H2];
    rewrite ?qprod_cons, ?IH; try ring; exfalso; rewrite elem_of_app, elem_of_list_singleton in Hx; try tauto.
  apply Hdn. by rewrite <-H2.
Qed.
Lemma front_cons ls l rest a : L = ls ++ l :: rest -> front ls (l :: rest) a = front ls rest a * m (l_sep l) a.
Proof.
  intros HL. unfold front. rewrite filter_cons. destruct (decide (l_up l ∈ seen r ls)) as [|n]; [|destruct n; by eapply up_seen].
  rewrite qprod_cons. ring.
Qed.
Lemma front_dep ls l rest : L = ls ++ l :: rest -> dep_on (scope_of sc (seen r ls)) (front ls rest).
Proof.
  intros HL. unfold front. apply dep_on_mul; apply qprod_dep.
  - intros i Hi. eapply dep_on_mono; [|apply Hf0]. intros v Hv. by apply scope_elem with i.
  - intros l' [Hl' Hin]%elem_of_list_filter. eapply dep_on_mono; [|apply Hm]. intros v Hv.
    apply scope_elem with (l_up l'); [done|]. apply elem_of_list_split in Hin as (r1 & r2 & ->).
    assert (L = (ls ++ l :: r1) ++ l' :: r2) as HL' by (rewrite HL, <-app_assoc; done).
    apply rooted_split in HL' as (_ & _ & _ & Hs & _). by apply Hs.
Qed.

(** Scope facts at a link. *)
Lemma scopes_new ls l rest v : L = ls ++ l :: rest ->
  (v ∈ sc (l_dn l) /\ v ∉ ss (l_sep l)) <-> (v ∈ U /\ (v ∈ scope_of sc (seen r (ls ++ [l])) /\ v ∉ scope_of sc (seen r ls))).
Proof.
  intros HL. pose proof (rooted_split _ _ HL) as (_ & _ & Hs & _). rewrite scope_snoc, Hs.
  assert (v ∈ sc (l_dn l) -> v ∈ U).
  { intros Hv. eapply (scope_U (ls ++ [l]) rest); [by rewrite <-app_assoc|]. rewrite scope_snoc. by right. }
  destruct (decide (v ∈ scope_of sc (seen r ls))); tauto.
Qed.

(** Upward pass: the fronts are the marginals. *)
Lemma collect_exact rest ls : L = ls ++ rest ->
  propto dom (marg dom U (scope_of sc (seen r ls)) joint0) (front ls rest).
Proof.
  revert ls. induction rest as [|l rest IH]; intros ls HL.
  - rewrite app_nil_r in HL. apply propto_eq. intros a _. unfold front, marg. cbn [filter list_filter]. rewrite <-HL.
    assert (filter (fun v => v ∉ scope_of sc (seen r L)) U = []) as ->.
    { destruct (filter _ U) as [|x xs] eqn:E; [done|exfalso].
      assert (x ∈ filter (fun v => v ∉ scope_of sc (seen r L)) U) as [Hx Hin]%elem_of_list_filter by (rewrite E; left). apply Hx. by apply Hcov. }
    cbn [sumv]. unfold joint0. rewrite qprod_nil. ring.
  - assert (L = (ls ++ [l]) ++ rest) as HL' by (rewrite <-app_assoc; done).
    specialize (IH _ HL'). pose proof (rooted_split _ _ HL) as (Hup & Hdn & Hs & Hsu & _).
    assert (l ∈ L) as HlL by (rewrite HL; apply elem_of_app; right; left).
    assert (l_dn l ∈ seen r L) as Hin. { rewrite HL. unfold seen. rewrite fmap_app. right. apply elem_of_app. right. left. }
    eapply propto_trans.
    { apply propto_eq. intros a Ha. symmetry. apply (marg_marg (scope_of sc (seen r (ls ++ [l])))).
      - eapply dep_on_proper, joint0_dep.
      - intros v Hv. apply scope_snoc. by left. }
    eapply propto_trans; [apply propto_sumv, IH|].
    eapply propto_trans; [apply propto_sumv, (front_step _ _ _ HL)|].
    apply propto_eq. intros a Ha. rewrite (front_cons _ _ _ _ HL), (E2 _ HlL a Ha).
    rewrite (sumv_drop _ (f1 (l_dn l)) (front ls rest) a (scope_of sc (seen r ls))).
    + f_equal. symmetry. apply sumv_filter_perm.
      * eapply dep_on_proper, Hf1.
      * by apply Hsc.
      * intros v. by apply (scopes_new _ _ _ _ HL).
    + by eapply front_dep.
    + intros v [[_ ?] _]%elem_of_list_filter. done.
Qed.

Context (Hpos : forall i a, i ∈ seen r L -> valid dom a -> 0 <= f1 i a).
Context (E3 : propto dom (f2 r) (f1 r)).
Context (E4 : forall l, l ∈ L -> forall a, valid dom a ->
  rho (l_sep l) a = if bool_decide (m (l_sep l) a = 0) then 0
                    else sumv dom (filter (fun v => v ∉ ss (l_sep l)) (sc (l_up l))) (f2 (l_up l)) a / m (l_sep l) a).
Context (E5 : forall l, l ∈ L -> propto dom (f2 (l_dn l)) (fun a => f1 (l_dn l) a * rho (l_sep l) a)).

Lemma msg_zero l a : l ∈ L -> valid dom a -> m (l_sep l) a = 0 -> f1 (l_dn l) a = 0.
Proof.
  intros Hl Ha Hz. rewrite (E2 _ Hl a Ha) in Hz.
  assert (l_dn l ∈ seen r L) as Hin by (right; by apply elem_of_list_fmap_1).
  eapply (sumv_nonneg_zero dom _ (f1 (l_dn l)) a Ha); try done.
  - intros b Hb. by apply Hpos.
  - eapply dep_on_proper, Hf1.
  - apply NoDup_filter. by apply Hsc.
Qed.

Lemma root_exact : propto dom (f2 r) (marg dom U (sc r) joint0).
Proof.
  eapply propto_trans; [exact E3|]. apply propto_sym.
  eapply propto_trans; [|eapply propto_trans; [apply (collect_exact L []); done|]].
  - apply propto_eq. intros a _. unfold marg. f_equal. apply list_filter_iff. intros v. unfold scope_of, seen. cbn. by rewrite app_nil_r.
  - apply propto_sym. assert (r ∈ seen r L) as Hr by left. eapply propto_trans; [apply (E1 _ Hr)|]. apply propto_eq. intros a _.
    unfold front, seen. cbn [fmap list_fmap]. rewrite qprod_cons, qprod_nil, Qcmult_1_r. f_equal. f_equal.
    apply list_filter_iff. intros l. by rewrite elem_of_list_singleton.
Qed.
Lemma link_exact ls l rest : L = ls ++ l :: rest ->
  propto dom (f2 (l_up l)) (marg dom U (sc (l_up l)) joint0) -> propto dom (f2 (l_dn l)) (marg dom U (sc (l_dn l)) joint0).
Proof.
  intros HL IH. assert (L = (ls ++ [l]) ++ rest) as HL' by (rewrite <-app_assoc; done).
  pose proof (rooted_split _ _ HL) as (Hup & Hdn & Hs & Hsu & _).
  assert (l ∈ L) as HlL by (rewrite HL; apply elem_of_app; right; left).
  assert (l_dn l ∈ seen r L) as Hin by (right; by apply elem_of_list_fmap_1).
  assert (l_up l ∈ seen r L) as Hin'.
  { rewrite HL. unfold seen in *. rewrite fmap_app. apply elem_of_cons in Hup as [->|Hup]; [left|right; apply elem_of_app; by left]. }
  assert (proper joint0) as HJ by (eapply dep_on_proper, joint0_dep).
  (* the marginal on the separator, two ways *)
  assert (propto dom (sumv dom (filter (fun v => v ∉ ss (l_sep l)) (sc (l_up l))) (f2 (l_up l))) (marg dom U (ss (l_sep l)) joint0)) as HS1.
  { eapply propto_trans; [apply propto_sumv, IH|]. apply propto_eq. intros a Ha.
    rewrite <-(marg_marg (sc (l_up l)) (ss (l_sep l)) joint0 a HJ Hsu). apply sumv_filter_perm.
    - apply sumv_proper. done.
    - by apply Hsc.
    - intros v. assert (v ∈ sc (l_up l) -> v ∈ U); [|tauto]. intros Hv. apply Hcov. by apply scope_elem with (l_up l). }
  set (B := sumv dom (filter (fun v => v ∈ scope_of sc (seen r ls) /\ v ∉ ss (l_sep l)) U) (front ls rest)).
  assert (propto dom (marg dom U (ss (l_sep l)) joint0) (fun a => m (l_sep l) a * B a)) as HS2.
  { eapply propto_trans.
    { apply propto_eq. intros a Ha. symmetry. apply (marg_marg (scope_of sc (seen r ls))); [done|]. intros v Hv. by apply Hs. }
    eapply propto_trans; [apply propto_sumv, (collect_exact _ _ HL)|]. apply propto_eq. intros a Ha.
    unfold B. rewrite <-(sumv_drop _ (front ls rest) (m (l_sep l)) a (ss (l_sep l))).
    - apply sumv_ext; [done|]. intros b _ _. rewrite (front_cons _ _ _ _ HL). ring.
    - apply Hm.
    - intros v [[_ ?] _]%elem_of_list_filter. done. }
  assert (propto dom (marg dom U (sc (l_dn l)) joint0) (fun a => f1 (l_dn l) a * B a)) as HC.
  { eapply propto_trans.
    { apply propto_eq. intros a Ha. symmetry. apply (marg_marg (scope_of sc (seen r (ls ++ [l])))); [done|]. intros v Hv. apply scope_snoc. by right. }
    eapply propto_trans; [apply propto_sumv, (collect_exact _ _ HL')|].
    eapply propto_trans; [apply propto_sumv, (front_step _ _ _ HL)|]. apply propto_eq. intros a Ha.
    unfold B. rewrite <-(sumv_drop _ (front ls rest) (f1 (l_dn l)) a (sc (l_dn l))).
    - transitivity (sumv dom (filter (fun v => v ∈ scope_of sc (seen r (ls ++ [l])) /\ v ∉ sc (l_dn l)) U) (fun b => f1 (l_dn l) b * front ls rest b) a).
      + apply sumv_ext; [done|]. intros b _ _. ring.
      + f_equal. apply list_filter_iff. intros v. rewrite scope_snoc, Hs. destruct (decide (v ∈ sc (l_dn l))); tauto.
    - apply Hf1.
    - intros v [[Hv Hn] _]%elem_of_list_filter Hin2. apply Hn. by apply Hs. }
  eapply propto_trans; [apply (E5 _ HlL)|]. eapply propto_trans; [|apply propto_sym, HC].
  destruct (propto_trans _ _ _ _ HS1 HS2) as (k & Hk & HK). exists k. split; [done|]. intros a Ha.
  rewrite (E4 _ HlL a Ha). case_bool_decide as Hz.
  - rewrite (msg_zero l a HlL Ha Hz). ring.
  - rewrite (HK a Ha). field. done.
Qed.

(** Every clique ends up proportional to the marginal of the joint potential. *)
Theorem propagation_exact i : i ∈ seen r L -> propto dom (f2 i) (marg dom U (sc i) joint0).
Proof.
  assert (forall rest ls, L = ls ++ rest -> (forall i, i ∈ seen r ls -> propto dom (f2 i) (marg dom U (sc i) joint0)) ->
    forall i, i ∈ seen r L -> propto dom (f2 i) (marg dom U (sc i) joint0)) as H.
  { induction rest as [|l rest IH]; intros ls HL Hls.
    - rewrite app_nil_r in HL. by subst ls.
    - apply (IH (ls ++ [l])); [by rewrite <-app_assoc|]. intros j Hj. rewrite seen_snoc in Hj.
      apply elem_of_app in Hj as [Hj| ->%elem_of_list_singleton]; [by apply Hls|]. eapply link_exact; [done|]. apply Hls. by eapply up_seen. }
  apply (H L []); [done|]. intros j Hj. apply elem_of_list_singleton in Hj as ->. apply root_exact.
Qed.
End belief.
