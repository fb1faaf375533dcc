(** From a junction tree to the rooted form used by belief propagation. *)
From Verif Require Export TreeProofs BeliefSpec.

Fixpoint ordered (seen_ : list nat) (ls : list link) : Prop :=
  match ls with
  | [] => True
  | l :: ls' => l_up l ∈ seen_ /\ l_dn l ∉ seen_ /\ ordered (seen_ ++ [l_dn l]) ls'
  end.
Definition edges_of (ls : list link) : list (nat * nat) := (fun l => (l_up l, l_dn l)) <$> ls.

Lemma ordered_app s ls1 ls2 : ordered s (ls1 ++ ls2) <-> ordered s ls1 /\ ordered (s ++ (l_dn <$> ls1)) ls2.
Proof.
  revert s. induction ls1 as [|l ls1 IH]; intros s; cbn; [by rewrite app_nil_r; tauto|].
  rewrite IH. cbn. rewrite <-app_assoc. cbn. tauto.
Qed.
Lemma rooted_snoc sc ss r s ls l :
  rooted sc ss r s (ls ++ [l]) <-> rooted sc ss r s ls /\ rooted sc ss r (s ++ (l_dn <$> ls)) [l].
Proof.
  revert s. induction ls as [|l' ls1 IH]; intros s; cbn; [by rewrite app_nil_r; tauto|].
  rewrite IH. cbn. rewrite <-app_assoc. cbn. tauto.
Qed.
Lemma ordered_within s ls x y : ordered s ls -> (x, y) ∈ edges_of ls -> x ∈ s ++ (l_dn <$> ls) /\ y ∈ s ++ (l_dn <$> ls).
Proof.
  revert s. induction ls as [|l ls IH]; intros s; cbn; [by intros _ ?%elem_of_nil|].
  intros (Hu & Hd & Ho) Hin. apply elem_of_cons in Hin as [[= -> ->]|Hin].
  - rewrite !elem_of_app, !elem_of_cons. tauto.
  - destruct (IH _ Ho Hin) as [H1 H2]. rewrite <-app_assoc in H1, H2. done.
Qed.
Lemma ordered_nodup s ls : ordered s ls -> NoDup s -> NoDup (s ++ (l_dn <$> ls)).
Proof.
  revert s. induction ls as [|l ls IH]; intros s; cbn; [by rewrite app_nil_r|].
  intros (Hu & Hd & Ho) Hs. assert (NoDup (s ++ [l_dn l])) as Hs'. { apply NoDup_app. split_and!; [done| |apply NoDup_singleton]. intros x Hx ->%elem_of_list_singleton. done. }
  specialize (IH _ Ho Hs'). by rewrite <-app_assoc in IH.
Qed.

Section rooted.
Context (sc : nat -> list nat).
Lemma step_snoc ls l a b : step (edges_of (ls ++ [l])) a b <->
  step (edges_of ls) a b \/ (a = l_up l /\ b = l_dn l) \/ (a = l_dn l /\ b = l_up l).
Proof.
  unfold step, edges_of. rewrite fmap_app. cbn. rewrite !elem_of_app, !elem_of_list_singleton. split.
  - intros [[?|[= -> ->]]|[?|[= -> ->]]]; tauto.
  - intros [[?|?]|[[-> ->]|[-> ->]]]; tauto.
Qed.
Lemma prefix_ri s ls l : ordered s (ls ++ [l]) ->
  running_intersection sc (edges_of (ls ++ [l])) (s ++ (l_dn <$> (ls ++ [l]))) ->
  running_intersection sc (edges_of ls) (s ++ (l_dn <$> ls)) /\
  (forall v, v ∈ sc (l_dn l) -> v ∈ scope_of sc (s ++ (l_dn <$> ls)) -> v ∈ sc (l_up l)).
Proof.
  intros Ho HR. rewrite fmap_app in HR. cbn in HR. rewrite app_assoc in HR. apply ordered_app in Ho as (Ho & Hu & Hd & _).
  assert (forall a b, step (edges_of ls) a b -> a ∈ s ++ (l_dn <$> ls) /\ b ∈ s ++ (l_dn <$> ls)) as Hin.
  { intros a b [H|H]; apply (ordered_within _ _ _ _ Ho) in H; tauto. }
  split.
  - intros v x y Hx Hy Hvx Hvy.
    assert (rtc (vstep sc (edges_of (ls ++ [l])) v) x y) as Hxy. { apply HR; [apply elem_of_app; by left|apply elem_of_app; by left|done|done]. }
    set (pi z := if decide (z = l_dn l) then l_up l else z).
    assert (rtc (vstep sc (edges_of ls) v) (pi x) (pi y)) as Hpi.
    { clear Hx Hy. induction Hxy as [|a b c (Hab & Ha & Hb) _ IH]; [done|]. etrans; [|by apply IH].
      apply step_snoc in Hab as [Hab|Hab].
      - destruct (Hin _ _ Hab). unfold pi. destruct (decide (a = l_dn l)) as [->|]; [done|]. destruct (decide (b = l_dn l)) as [->|]; [done|]. by apply rtc_once.
      - unfold pi.
        destruct Hab as [[-> ->]|[-> ->]]; destruct (decide (l_up l = l_dn l)), (decide (l_dn l = l_dn l)); done. }
    unfold pi in Hpi. destruct (decide (x = l_dn l)) as [->|]; [done|]. destruct (decide (y = l_dn l)) as [->|]; [done|]. done.
  - intros v Hv Hsc. apply elem_of_list_bind in Hsc as (q & Hvq & Hq).
    assert (rtc (vstep sc (edges_of (ls ++ [l])) v) (l_dn l) q) as Hp. { apply HR; [apply elem_of_app; right; left|apply elem_of_app; by left|done|done]. }
    inversion Hp as [Heq1 Heq2|a b c (Hab & Ha & Hb) _ Heq]; [congruence|subst]. apply step_snoc in Hab as [Hab|[[Hx ->]|[_ ->]]]; [|by rewrite <-Hx|done].
    apply Hin in Hab as [? _]. done.
Qed.
Lemma rooted_of_jt ss r L :
  ordered [r] L -> running_intersection sc (edges_of L) (seen r L) ->
  (forall l v, l ∈ L -> v ∈ ss (l_sep l) <-> v ∈ sc (l_up l) /\ v ∈ sc (l_dn l)) ->
  rooted sc ss r [r] L.
Proof.
  intros Ho HR Hss. induction L as [|l ls IH] using rev_ind; [done|].
  destruct (prefix_ri [r] ls l Ho HR) as [HR' Hup]. apply ordered_app in Ho as (Ho & Hu & Hd & _).
  apply rooted_snoc. split.
  - apply IH; [done|done|]. intros l' v Hl'. apply Hss. apply elem_of_app. by left.
  - assert (l ∈ ls ++ [l]) as Hl by (apply elem_of_app; right; left). cbn. split_and!; [done|done| | |done].
    + intros v. rewrite (Hss l v Hl). split.
      * intros [H1 H2]. split; [done|]. apply (elem_of_list_bind sc v ([r] ++ (l_dn <$> ls))). eauto.
      * intros [H1 H2]. split; [|done]. by apply Hup.
    + intros v Hv. by apply (Hss l v Hl) in Hv as [? _].
Qed.
End rooted.
