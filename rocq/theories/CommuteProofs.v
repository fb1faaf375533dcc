(** Two orders of the same steps lead to the same state if they agree on the steps that do not
    commute. *)
From Verif Require Import JTModel.

Lemma sub2_cons {A} (x y z : A) l : [x; y] `sublist_of` z :: l -> x <> z -> [x; y] `sublist_of` l.
Proof. intros H Hx. apply sublist_cons_r in H as [H|(l' & E & H)]; [done|]. congruence. Qed.
Lemma sub2_split {A} (x y : A) l : [x; y] `sublist_of` l -> exists p q, l = p ++ q /\ x ∈ p /\ y ∈ q.
Proof.
  induction l as [|z l IH]; intros H; [by apply sublist_nil_r in H|].
  apply sublist_cons_r in H as [H|(l' & E & H)].
  - destruct (IH H) as (p & q & -> & Hx & Hy). exists (z :: p), q. split_and!; [done|by right|done].
  - injection E as -> <-. exists [z], l. split_and!; [done|by left|]. apply (elem_of_submseteq [y]); [left|]. by apply sublist_submseteq.
Qed.
Lemma sub2_both {A} (x y : A) l : NoDup l -> [x; y] `sublist_of` l -> [y; x] `sublist_of` l -> False.
Proof.
  revert x y. induction l as [|z l IH]; intros x y Hnd H1 H2; [by apply sublist_nil_r in H1|]. apply NoDup_cons in Hnd as [Hz Hnd].
  apply sublist_cons_r in H1 as [H1|(l1 & E1 & H1)]; apply sublist_cons_r in H2 as [H2|H2].
  - by apply (IH x y).
  - destruct H2 as (l2 & E2 & H2). injection E2 as -> <-. apply Hz. apply (elem_of_submseteq [x; z]); [right; left|by apply sublist_submseteq].
  - injection E1 as -> <-. apply Hz. apply (elem_of_submseteq [y; z]); [right; left|by apply sublist_submseteq].
  - destruct H2 as (l2 & E2 & H2). injection E1 as -> <-. injection E2 as -> <-. apply Hz. apply (elem_of_submseteq [z]); [left|by apply sublist_submseteq].
Qed.
Lemma sub1 {A} (x : A) l : x ∈ l -> [x] `sublist_of` l.
Proof. intros (p & q & ->)%elem_of_list_split. apply sublist_inserts_l, sublist_skip, sublist_nil_l. Qed.
Lemma sub2_app {A} (x y : A) p q : x ∈ p -> y ∈ q -> [x; y] `sublist_of` p ++ q.
Proof. intros Hx Hy. change [x; y] with ([x] ++ [y]). apply sublist_app; by apply sub1. Qed.
Lemma sub2_mid {A} (x y z : A) p q : x <> z -> y <> z -> [x; y] `sublist_of` p ++ z :: q -> [x; y] `sublist_of` p ++ q.
Proof.
  intros Hx Hy H. apply sublist_app_r in H as (k1 & k2 & E & H1 & H2). assert (k2 `sublist_of` q) as H3.
  { apply sublist_cons_r in H2 as [H2|(l' & -> & H2)]; [done|]. assert (z ∈ [x; y]) as Hz by (rewrite E; apply elem_of_app; right; left). apply elem_of_cons in Hz as [?|Hz%elem_of_list_singleton]; congruence. }
  rewrite E. by apply sublist_app.
Qed.

Section reorder.
Context {I S : Type} (body : I -> S -> outcome S) (Inv : S -> Prop) (R : I -> I -> Prop).
Definition commute (x y : I) : Prop := forall s, Inv s ->
  mbind (M := outcome) (body y) (body x s) = mbind (M := outcome) (body x) (body y s).
Definition keeps (x : I) : Prop := forall s s', Inv s -> body x s = Ok s' -> Inv s'.
Definition obeys (l : list I) : Prop := forall x y, R x y -> x ∈ l -> y ∈ l -> [x; y] `sublist_of` l.

Lemma move_front p y q : (forall x, x ∈ p -> commute x y /\ keeps x) -> forall s, Inv s -> mfor (p ++ y :: q) body s = mfor (y :: p ++ q) body s.
Proof.
  induction p as [|x p IH]; intros H s Hs; [done|]. cbn [app]. destruct (H x) as [Hc Hk]; [left|].
  transitivity (mbind (M := outcome) (fun s' => mfor (y :: p ++ q) body s') (body x s)).
  { cbn [mfor]. destruct (body x s) as [s'|] eqn:E; cbn [mbind outcome_bind]; [|done]. apply IH; [|by apply (Hk s)]. intros z Hz. apply H. by right. }
  transitivity (mbind (M := outcome) (fun s' => mfor (p ++ q) body s') (mbind (M := outcome) (body y) (body x s))).
  { cbn [mfor]. by destruct (body x s). }
  rewrite (Hc s Hs). cbn [mfor]. by destruct (body y s).
Qed.
Lemma reorder l1 : forall l2 s, l1 ≡ₚ l2 -> NoDup l1 -> (forall x, x ∈ l1 -> keeps x) ->
  (forall x y, x ∈ l1 -> y ∈ l1 -> x <> y -> R x y \/ R y x \/ commute x y) ->
  obeys l1 -> obeys l2 -> Inv s -> mfor l1 body s = mfor l2 body s.
Proof.
  induction l1 as [|y l1 IH]; intros l2 s Hp Hnd Hk Hc H1 H2 Hs; [by apply Permutation_nil_l in Hp as ->|].
  assert (y ∈ l2) as Hy by (rewrite <-Hp; left). apply elem_of_list_split in Hy as (p & q & ->).
  assert (NoDup (p ++ y :: q)) as Hnd2 by (by rewrite <-Hp). assert (l1 ≡ₚ p ++ q) as Hp'. { apply (Permutation_cons_inv (a := y)). rewrite Hp. by rewrite Permutation_middle. }
  pose proof Hnd as [Hy Hnd1]%NoDup_cons.
  assert (forall x, x ∈ p ++ q -> x ∈ l1) as Hin by (intros x; by rewrite Hp').
  rewrite move_front; [|intros x Hx|done].
  - cbn [mfor]. destruct (body y s) as [s'|] eqn:E; cbn [mbind outcome_bind]; [|done]. apply IH; [done|done| | | | |].
    + intros x Hx. apply Hk. by right.
    + intros x z Hx Hz. apply Hc; by right.
    + intros x z Hr Hx Hz. eapply sub2_cons; [apply H1; [done|by right|by right]|]. intros ->. done.
    + intros x z Hr Hx Hz. assert (x <> y) by (intros ->; apply Hy; by apply Hin). assert (z <> y) by (intros ->; apply Hy; by apply Hin).
      apply (sub2_mid _ _ y); [done|done|]. apply H2; [done| |]; apply elem_of_app; [apply elem_of_app in Hx as [?|?]|apply elem_of_app in Hz as [?|?]]; [by left|right; by right|by left|right; by right].
    + apply (Hk y ltac:(left) s); done.
  - assert (x ∈ l1) as Hx1 by (apply Hin; apply elem_of_app; by left). assert (x <> y) as Hne by (intros ->; done).
    split; [|apply Hk; by right]. destruct (Hc x y) as [Hr|[Hr|?]]; [by right|left|done| | |done].
    + exfalso. apply Hy. pose proof (H1 x y Hr ltac:(by right) ltac:(left)) as Hs1. apply sub2_cons in Hs1; [|done]. apply (elem_of_submseteq [x; y]); [right; left|by apply sublist_submseteq].
    + exfalso. assert ([y; x] `sublist_of` p ++ y :: q) as Hs2 by (apply H2; [done|apply elem_of_app; right; left|apply elem_of_app; by left]).
      apply (sub2_both x y (p ++ y :: q)); [done| |done]. apply sub2_app; [done|left].
Qed.
End reorder.
