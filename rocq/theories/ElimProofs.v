(** Elimination orders: the maximal elimination cliques of a connected graph have a junction
    tree, and contain every complete set of vertices. *)
From Verif Require Import TreeSpec TreeProofs.
From Coq Require Import Sorting.Sorted.
Local Open Scope nat_scope.

Definition sub (C K : list nat) : Prop := Forall (fun x => x ∈ K) C.
Global Instance sub_dec C K : Decision (sub C K).
Proof. unfold sub. apply _. Defined.
Lemma sub_alt C K : sub C K <-> forall x, x ∈ C -> x ∈ K.
Proof. apply Forall_forall. Qed.
Lemma sub_refl C : sub C C.
Proof. apply sub_alt. done. Qed.
Lemma sub_trans A B C : sub A B -> sub B C -> sub A C.
Proof. rewrite !sub_alt. auto. Qed.

Definition graph_ok (G : nat -> nat -> Prop) (V : list nat) : Prop :=
  forall x y, G x y -> G y x /\ x <> y /\ x ∈ V /\ y ∈ V.
Definition complete (G : nat -> nat -> Prop) (S : list nat) : Prop := forall x y, x ∈ S -> y ∈ S -> x <> y -> G x y.

(** Eliminating the vertices one by one; [M] lists the cliques not contained in another. *)
Inductive elim : (nat -> nat -> Prop) -> list nat -> list (list nat) -> Prop :=
| elim_nil G : elim G [] []
| elim_step G V v K M (G' : nat -> nat -> Prop) V' :
    v ∈ V -> (forall x, x ∈ V' <-> x ∈ V /\ x <> v) ->
    StronglySorted lt K -> (forall x, x ∈ K <-> x = v \/ G v x) ->
    (forall x y, G' x y <-> x <> v /\ y <> v /\ (G x y \/ (x <> y /\ G v x /\ G v y))) ->
    elim G' V' M -> elim G V (K :: filter (fun C => ~ sub C K) M).

Lemma filter_keep {A} (P : A -> Prop) `{forall x, Decision (P x)} (l : list A) : (forall x, x ∈ l -> P x) -> filter P l = l.
Proof.
  induction l as [|x l IH]; intros Hall; [done|]. rewrite filter_cons, decide_True by (apply Hall; left). f_equal. apply IH. intros; apply Hall. by right.
Qed.
Lemma graph_ok_step G V v G' V' : graph_ok G V -> (forall x, x ∈ V' <-> x ∈ V /\ x <> v) ->
  (forall x y, G' x y <-> x <> v /\ y <> v /\ (G x y \/ (x <> y /\ G v x /\ G v y))) -> graph_ok G' V'.
Proof.
  intros Hg HV HG x y Hxy. apply HG in Hxy as (Hx & Hy & Hor). rewrite HG, !HV. destruct Hor as [H|(Hne & H1 & H2)].
  - apply Hg in H as (? & ? & ? & ?). split_and!; auto.
  - apply Hg in H1 as H1'. apply Hg in H2 as H2'. split_and!; try tauto. right. auto.
Qed.

Lemma ssorted_eq (l1 l2 : list nat) : StronglySorted lt l1 -> StronglySorted lt l2 -> (forall x, x ∈ l1 <-> x ∈ l2) -> l1 = l2.
Proof.
  intros H1. revert l2. induction H1 as [|x l1 Hs IH Hx]; intros l2 H2 Heq.
  - destruct l2 as [|y l2]; [done|]. exfalso. assert (y ∈ []) as Hin by (apply Heq; left). by apply elem_of_nil in Hin.
  - destruct H2 as [|y l2 Hs2 Hy]. { exfalso. assert (x ∈ []) as Hin by (apply Heq; left). by apply elem_of_nil in Hin. }
    rewrite Forall_forall in Hx, Hy.
    assert (x = y) as ->.
    { assert (x ∈ y :: l2) as H1 by (apply Heq; left). assert (y ∈ x :: l1) as H2 by (apply Heq; left).
      apply elem_of_cons in H1 as [?|H1], H2 as [?|H2]; auto. apply Hy in H1. apply Hx in H2. lia. }
    f_equal. apply IH; [done|]. intros z. specialize (Heq z). rewrite !elem_of_cons in Heq. split; intros Hz.
    + apply Hx in Hz as Hlt. destruct (proj1 Heq (or_intror Hz)) as [->|?]; [lia|done].
    + apply Hy in Hz as Hlt. destruct (proj2 Heq (or_intror Hz)) as [->|?]; [lia|done].
Qed.

Lemma elim_members G V M : elim G V M -> graph_ok G V ->
  forall C, C ∈ M -> StronglySorted lt C /\ C <> [] /\ forall x, x ∈ C -> x ∈ V.
Proof.
  induction 1 as [G|G V v K M G' V' Hv HV HK HKm HG Hel IH]; intros Hg C HC; [by apply elem_of_nil in HC|].
  apply elem_of_cons in HC as [->|HC].
  - split_and!; [done| |].
    + intros ->. assert (v ∈ []) as Hin by (apply HKm; by left). by apply elem_of_nil in Hin.
    + intros x Hx. apply HKm in Hx as [->|Hx]; [done|]. apply Hg in Hx. tauto.
  - apply elem_of_list_filter in HC as [_ HC]. destruct (IH (graph_ok_step _ _ _ _ _ Hg HV HG) C HC) as (? & ? & H).
    split_and!; auto. intros x Hx. apply H in Hx. by apply HV in Hx as [? _].
Qed.
Lemma elim_antichain G V M : elim G V M -> graph_ok G V ->
  NoDup M /\ forall C D, C ∈ M -> D ∈ M -> sub C D -> C = D.
Proof.
  induction 1 as [G|G V v K M G' V' Hv HV HK HKm HG Hel IH]; intros Hg.
  - split; [constructor|]. intros C D HC. by apply elem_of_nil in HC.
  - pose proof (graph_ok_step _ _ _ _ _ Hg HV HG) as Hg'. destruct (IH Hg') as [Hnd Hac].
    assert (forall C, C ∈ M -> v ∉ C) as Hvn.
    { intros C HC Hin. destruct (elim_members _ _ _ Hel Hg' C HC) as (_ & _ & H). apply H in Hin. apply HV in Hin as [_ ?]. done. }
    split.
    + constructor; [|by apply NoDup_filter]. intros Hin. apply elem_of_list_filter in Hin as [Hn _]. apply Hn, sub_refl.
    + intros C D HC HD Hsub. apply elem_of_cons in HC as [->|HC], HD as [->|HD]; [done| | |].
      * apply elem_of_list_filter in HD as [_ HD]. exfalso. apply (Hvn D HD). rewrite sub_alt in Hsub. apply Hsub, HKm. by left.
      * apply elem_of_list_filter in HC as [HC _]. done.
      * apply elem_of_list_filter in HC as [_ HC]. apply elem_of_list_filter in HD as [_ HD]. by apply Hac.
Qed.
Lemma elim_complete G V M : elim G V M -> graph_ok G V ->
  forall S, S <> [] -> (forall x, x ∈ S -> x ∈ V) -> complete G S -> exists C, C ∈ M /\ sub S C.
Proof.
  induction 1 as [G|G V v K M G' V' Hv HV HK HKm HG Hel IH]; intros Hg S HS HSV Hc.
  - destruct S as [|x S]; [done|]. assert (x ∈ []) as Hin by (apply HSV; left). by apply elem_of_nil in Hin.
  - pose proof (graph_ok_step _ _ _ _ _ Hg HV HG) as Hg'. destruct (decide (v ∈ S)) as [HvS|HvS].
    + exists K. split; [left|]. apply sub_alt. intros x Hx. apply HKm. destruct (decide (x = v)) as [->|Hne]; [by left|right]. apply Hc; auto.
    + destruct (IH Hg' S HS) as (C & HC & Hsub).
      * intros x Hx. apply HV. split; [by apply HSV|]. intros ->. done.
      * intros x y Hx Hy Hne. apply HG. split_and!; [by intros ->|by intros ->|left; by apply Hc].
      * destruct (decide (sub C K)) as [HCK|HCK].
        -- exists K. split; [left|]. by eapply sub_trans.
        -- exists C. split; [right|done]. by apply elem_of_list_filter.
Qed.
Lemma elim_cover G V M : elim G V M -> graph_ok G V -> forall x, x ∈ V -> exists C, C ∈ M /\ x ∈ C.
Proof.
  intros Hel Hg x Hx. destruct (elim_complete G V M Hel Hg [x]) as (C & HC & Hsub); [done| | |].
  - by intros y ->%elem_of_list_singleton.
  - intros a b ->%elem_of_list_singleton ->%elem_of_list_singleton. done.
  - exists C. split; [done|]. rewrite sub_alt in Hsub. apply Hsub. left.
Qed.
Lemma elim_reach G V M : elim G V M -> graph_ok G V -> forall C x y, C ∈ M -> x ∈ C -> y ∈ C -> rtc G x y.
Proof.
  induction 1 as [G|G V v K M G' V' Hv HV HK HKm HG Hel IH]; intros Hg C x y HC Hx Hy; [by apply elem_of_nil in HC|].
  pose proof (graph_ok_step _ _ _ _ _ Hg HV HG) as Hg'. apply elem_of_cons in HC as [->|HC].
  - assert (forall z, z ∈ K -> rtc G v z /\ rtc G z v) as Hz.
    { intros z Hz. apply HKm in Hz as [->|Hz]; [done|]. split; apply rtc_once; [done|]. apply Hg in Hz. tauto. }
    etrans; [by apply Hz|by apply Hz].
  - apply elem_of_list_filter in HC as [_ HC]. specialize (IH Hg' C x y HC Hx Hy). clear -IH HG Hg.
    induction IH as [x|x z y Hxz _ IH]; [done|]. etrans; [|exact IH]. apply HG in Hxz as (_ & _ & [H|(_ & H1 & H2)]); [by apply rtc_once|].
    eapply rtc_l; [by apply Hg in H1 as [H1 _]|]. by apply rtc_once.
Qed.

(** ** Connected graphs *)
Definition gconnected (G : nat -> nat -> Prop) (V : list nat) : Prop := forall x y, x ∈ V -> y ∈ V -> rtc G x y.
Lemma connected_step G V v G' V' : graph_ok G V -> gconnected G V -> (forall x, x ∈ V' <-> x ∈ V /\ x <> v) ->
  (forall x y, G' x y <-> x <> v /\ y <> v /\ (G x y \/ (x <> y /\ G v x /\ G v y))) -> gconnected G' V'.
Proof.
  intros Hg Hc HV HG x y Hx Hy. apply HV in Hx as [Hx Hxv]. apply HV in Hy as [Hy Hyv]. specialize (Hc x y Hx Hy).
  enough ((y <> v -> rtc G' x y) /\ (y = v -> exists a, G v a /\ rtc G' x a)) as [H _] by auto. clear Hyv Hy.
  revert y Hc. apply (rtc_ind_r (fun y => (y <> v -> rtc G' x y) /\ (y = v -> exists a, G v a /\ rtc G' x a)) x); [split; [done|congruence]|].
  intros y z Hxy Hyz [IH1 IH2]. split.
  - intros Hzv. destruct (decide (y = v)) as [->|Hyv].
    + destruct (IH2 eq_refl) as (a & Ha & Hxa). destruct (decide (a = z)) as [->|Haz]; [done|]. eapply rtc_r; [exact Hxa|].
      apply HG. split_and!; [|done|right; auto]. intros ->. apply Hg in Ha. tauto.
    + eapply rtc_r; [by apply IH1|]. apply HG. auto.
  - intros ->. exists y. apply Hg in Hyz as (? & Hne & _). split; [done|]. by apply IH1.
Qed.
Lemma jt_perm {A} `{EqDecision A} (sc : A -> list nat) E Vs Vs' : Vs ≡ₚ Vs' -> junction_tree sc E Vs -> junction_tree sc E Vs'.
Proof.
  intros Hp [(Hw & Hc & Hl) HR]. split; [split_and!|].
  - intros x y Hxy. rewrite <-Hp. by apply Hw.
  - intros x y. rewrite <-Hp. apply Hc.
  - by rewrite <-Hp.
  - intros v x y. rewrite <-Hp. apply HR.
Qed.

Theorem elim_junction_tree G V M : elim G V M -> graph_ok G V -> gconnected G V -> V <> [] ->
  exists E, junction_tree (fun C => C) E M.
Proof.
  induction 1 as [G|G V v K M G' V' Hv HV HK HKm HG Hel IH]; intros Hg Hc HVn; [done|].
  pose proof (graph_ok_step _ _ _ _ _ Hg HV HG) as Hg'. pose proof (connected_step _ _ _ _ _ Hg Hc HV HG) as Hc'.
  destruct V' as [|w V'].
  { assert (M = []) as ->. { inversion Hel; subst; [done|]. match goal with H : _ ∈ [] |- _ => by apply elem_of_nil in H end. }
    exists []. apply jt_single. }
  destruct (IH Hg' Hc' ltac:(done)) as [E HE]. destruct (elim_antichain _ _ _ Hel Hg') as [Hnd Hac].
  assert (forall D u, D ∈ M -> u ∈ D -> u <> v) as HDv.
  { intros D u HD Hu. destruct (elim_members _ _ _ Hel Hg' D HD) as (_ & _ & H). apply H in Hu. by apply HV in Hu as [_ ?]. }
  assert (exists u, G v u) as [u Hu].
  { assert (w ∈ V /\ w <> v) as [Hw Hwv] by (apply HV; left). specialize (Hc v w Hv Hw). inversion Hc; subst; [done|eauto]. }
  destruct (elim_complete _ _ _ Hel Hg' (filter (fun x => x <> v) K)) as (C & HC & Hsub).
  { intros Hnil. assert (u ∈ filter (fun x => x <> v) K) as Hin.
    { apply elem_of_list_filter. split; [|apply HKm; by right]. intros ->. apply Hg in Hu. tauto. }
    rewrite Hnil in Hin. by apply elem_of_nil in Hin. }
  { intros x Hx. apply elem_of_list_filter in Hx as [Hne Hx]. apply HKm in Hx as [->|Hx]; [done|]. apply HV. apply Hg in Hx. tauto. }
  { intros x y Hx Hy Hne. apply elem_of_list_filter in Hx as [Hxv Hx]. apply elem_of_list_filter in Hy as [Hyv Hy].
    apply HKm in Hx as [->|Hx]; [done|]. apply HKm in Hy as [->|Hy]; [done|]. apply HG. split_and!; auto. }
  rewrite sub_alt in Hsub.
  assert (forall x, x ∈ K -> x <> v -> x ∈ C) as HKC by (intros x Hx Hne; apply Hsub, elem_of_list_filter; done).
  assert (forall D, D ∈ M -> sub D K -> D = C) as HDC.
  { intros D HD HDK. apply Hac; [done|done|]. rewrite sub_alt in HDK |- *. intros x Hx. apply HKC; [by apply HDK|by apply (HDv D)]. }
  destruct (decide (sub C K)) as [HCK|HCK].
  - set (h := fun D => if decide (D = C) then K else D).
    assert (K :: filter (fun D => ~ sub D K) M ≡ₚ h <$> M) as Hperm.
    { apply elem_of_list_split in HC as (l1 & l2 & HM).
      assert (forall l : list (list nat), (forall D, D ∈ l -> D ∈ M /\ D <> C) -> filter (fun D => ~ sub D K) l = l /\ h <$> l = l) as Hl.
      { induction l as [|D l IHl]; intros Hall; [done|]. destruct IHl as [I1 I2]; [intros; apply Hall; by right|].
        destruct (Hall D) as [HD HDne]; [left|]. rewrite filter_cons, fmap_cons. unfold h at 1. rewrite I1, I2. rewrite (decide_False (P := D = C)) by done.
        split; [|done]. rewrite decide_True; [done|]. intros Hs. by apply HDne, HDC. }
      rewrite HM in Hnd. apply NoDup_app in Hnd as (_ & Hnd1 & Hnd2). apply NoDup_cons in Hnd2 as [Hnd2 _].
      destruct (Hl l1) as [A1 A2]. { intros D HD. rewrite HM. split; [apply elem_of_app; by left|]. intros ->. apply (Hnd1 C HD). left. }
      destruct (Hl l2) as [B1 B2]. { intros D HD. rewrite HM. split; [apply elem_of_app; right; by right|]. by intros ->. }
      rewrite HM, filter_app, filter_cons, fmap_app, fmap_cons. rewrite A1, A2, B1, B2. unfold h. rewrite (decide_True (P := C = C)) by done.
      destruct (decide (~ sub C K)) as [?|_]; [done|]. by rewrite Permutation_middle. }
    eexists. eapply jt_perm; [symmetry; exact Hperm|]. apply (jt_map (fun C => C) (fun C => C) h E M HE).
    + intros x y _ Hy. unfold h. destruct (decide (x = C)) as [->|]; [|done]. rewrite sub_alt in HCK. auto.
    + intros x y z Hx Hy. unfold h. destruct (decide (x = C)) as [->|Hxc], (decide (y = C)) as [->|Hyc]; intros Hzx Hzy Hne; try done.
      * split; [|done]. apply HKC; [done|by apply (HDv y)].
      * split; [done|]. apply HKC; [done|by apply (HDv x)].
  - assert (filter (fun D => ~ sub D K) M = M) as ->.
    { apply filter_keep. intros D HD HDK. apply HCK. by rewrite <-(HDC D). }
    exists ((C, K) :: E). apply jt_add; [done|done|]. intros x D HxK HD HxD. apply HKC; [done|by apply (HDv D)].
Qed.
