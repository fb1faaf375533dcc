(** Facts about trees and junction trees: counting, bridges, exchange of edges. *)
From Verif Require Export TreeSpec.

Section tree.
Context {A : Type} `{EqDecision A}.
Implicit Types (E F : list (A * A)) (Vs W : list A).

Lemma step_sym E x y : step E x y -> step E y x.
Proof. unfold step. tauto. Qed.
Lemma rtc_sym' (R : relation A) x y : (forall a b, R a b -> R b a) -> rtc R x y -> rtc R y x.
Proof. intros HR. induction 1 as [|x y z H _ IH]; [done|]. eapply rtc_r; [exact IH|]. by apply HR. Qed.
Lemma steps_sym E x y : rtc (step E) x y -> rtc (step E) y x.
Proof. apply rtc_sym'. intros a b. apply step_sym. Qed.
Lemma vstep_sym sc E v x y : vstep sc E v x y -> vstep sc E v y x.
Proof. intros (H & ? & ?). split_and!; [by apply step_sym|done|done]. Qed.
Lemma vsteps_sym sc E v x y : rtc (vstep sc E v) x y -> rtc (vstep sc E v) y x.
Proof. apply rtc_sym'. intros a b. apply vstep_sym. Qed.
Lemma rtc_mono (R R' : relation A) x y : (forall a b, R a b -> R' a b) -> rtc R x y -> rtc R' x y.
Proof. intros HR. induction 1 as [|x y z H _ IH]; [done|]. eapply rtc_l; [by apply HR|done]. Qed.
Lemma vsteps_steps sc E v x y : rtc (vstep sc E v) x y -> rtc (step E) x y.
Proof. apply rtc_mono. by intros a b [? _]. Qed.
(** A path from inside a set to outside crosses its border. *)
Lemma crossing (R : relation A) W x y : rtc R x y -> x ∈ W -> y ∉ W -> exists a b, a ∈ W /\ b ∉ W /\ R a b /\ rtc R x a /\ rtc R b y.
Proof.
  induction 1 as [x|x z y H Hr IH]; intros Hx Hy; [done|].
  destruct (decide (z ∈ W)) as [Hz|Hz].
  - destruct (IH Hz Hy) as (a & b & ? & ? & ? & ? & ?). exists a, b. split_and!; try done. by eapply rtc_l.
  - exists x, z. done.
Qed.

Definition outside W (e : A * A) : Prop := ~ (e.1 ∈ W /\ e.2 ∈ W).
Global Instance outside_dec W e : Decision (outside W e).
Proof. unfold outside. apply _. Defined.

Lemma filter_length_lt {B} (P Q : B -> Prop) `{forall x, Decision (P x)} `{forall x, Decision (Q x)} (l : list B) x :
  (forall y, P y -> Q y) -> x ∈ l -> Q x -> ~ P x -> length (filter P l) < length (filter Q l).
Proof.
  intros HPQ Hx HQ HP. assert (forall l', length (filter P l') <= length (filter Q l')) as Hle.
  { induction l' as [|y l' IH]; [done|]. rewrite !filter_cons. destruct (decide (P y)) as [Hy|], (decide (Q y)) as [|Hnq]; cbn; try lia. destruct Hnq. by apply HPQ. }
  apply elem_of_list_split in Hx as (l1 & l2 & ->). rewrite !filter_app, !filter_cons.
  destruct (decide (P x)); [done|]. destruct (decide (Q x)); [|done]. rewrite !app_length. cbn. pose proof (Hle l1). pose proof (Hle l2). lia.
Qed.

Lemma grow_count E Vs W x0 :
  NoDup Vs -> within E Vs -> connected E Vs -> NoDup W -> x0 ∈ W -> (forall x, x ∈ W -> x ∈ Vs) ->
  length Vs <= length (filter (outside W) E) + length W.
Proof.
  intros HV Hwi Hc. remember (length Vs - length W) as k eqn:Hk. revert W Hk. induction k as [|k IH]; intros W Hk HW Hx0 Hsub; [lia|].
  destruct (decide (Forall (fun y => y ∈ W) Vs)) as [Hall|Hnot].
  { rewrite Forall_forall in Hall. assert (length Vs <= length W); [|lia]. apply submseteq_length, NoDup_submseteq; done. }
  apply not_Forall_Exists in Hnot; [|intros ?; apply _]. apply Exists_exists in Hnot as (y & Hy & Hny). cbn in Hny.
  destruct (crossing (step E) W x0 y) as (a & b & Ha & Hb & Hab & _); [by apply Hc; auto|done|done|].
  assert (b ∈ Vs) as HbV by (destruct Hab as [Hab|Hab]; apply Hwi in Hab; tauto).
  assert (length Vs <= length (filter (outside (b :: W)) E) + length (b :: W)) as IH'.
  { apply IH.
    - cbn. lia.
    - by constructor.
    - by right.
    - intros x Hx. apply elem_of_cons in Hx as [->|Hx]; auto. }
  cbn in IH'. assert (length (filter (outside (b :: W)) E) < length (filter (outside W) E)); [|lia].
  destruct Hab as [Hab|Hab]; (eapply filter_length_lt; [|exact Hab| |]).
  1, 4: intros [p q]; unfold outside; cbn; rewrite !elem_of_cons; tauto.
  all: unfold outside; cbn; rewrite ?elem_of_cons; tauto.
Qed.
Lemma connected_count E Vs : NoDup Vs -> within E Vs -> connected E Vs -> length Vs <= S (length E).
Proof.
  intros HV Hw Hc. destruct Vs as [|x Vs]; [cbn; lia|].
  pose proof (grow_count E (x :: Vs) [x] x HV Hw Hc (NoDup_singleton _)) as H.
  feed pose proof H; [left|intros ? ->%elem_of_list_singleton; left|]. pose proof (filter_length (outside [x]) E). cbn in *. lia.
Qed.

(** Paths in a graph with one more edge. *)
Lemma extra_edge (R R' : relation A) X Y x y :
  (forall a b, R' a b -> R a b \/ (a = X /\ b = Y) \/ (a = Y /\ b = X)) -> rtc R' x y ->
  rtc R x y \/ (rtc R x X /\ rtc R Y y) \/ (rtc R x Y /\ rtc R X y).
Proof.
  intros HR. induction 1 as [x|x z y Hxz _ IH]; [by left|].
  destruct (HR _ _ Hxz) as [Hs|[[-> ->]|[-> ->]]].
  - destruct IH as [?|[[??]|[??]]]; [left|right; left|right; right]; try split; try done; by eapply rtc_l.
  - destruct IH as [?|[[??]|[??]]]; [right; left|right; left|left]; try split; try done.
  - destruct IH as [?|[[??]|[??]]]; [right; right|left|right; right]; try split; try done.
Qed.
Lemma step_middle E1 E2 X Y a b : step (E1 ++ (X, Y) :: E2) a b <-> step (E1 ++ E2) a b \/ (a = X /\ b = Y) \/ (a = Y /\ b = X).
Proof.
  unfold step. rewrite !elem_of_app, !elem_of_cons. split; [|naive_solver].
  intros [[?|[H|?]]|[?|[H|?]]]; try (by left; tauto); injection H as -> ->; tauto.
Qed.
Lemma bridge E1 E2 X Y Vs : NoDup Vs -> tree (E1 ++ (X, Y) :: E2) Vs -> ~ rtc (step (E1 ++ E2)) X Y.
Proof.
  intros HV (Hw & Hc & Hl) HXY.
  assert (connected (E1 ++ E2) Vs) as Hc'.
  { intros x y Hx Hy. specialize (Hc x y Hx Hy). apply (extra_edge (step (E1 ++ E2)) _ X Y) in Hc; [|intros a b; by rewrite step_middle].
    destruct Hc as [?|[[H1 H2]|[H1 H2]]]; [done|by etrans; [exact H1|etrans]|etrans; [exact H1|etrans; [|exact H2]]]. by apply steps_sym. }
  assert (length Vs <= S (length (E1 ++ E2))) as Hle.
  { apply connected_count; [done| |done]. intros x y Hxy. apply Hw. apply elem_of_app. apply elem_of_app in Hxy as [?|?]; [by left|right; by right]. }
  rewrite app_length in *. cbn in Hl. lia.
Qed.

Context (sc : A -> list nat).

(** Two junction trees with the same number of edges, one inside the other. *)
Lemma junction_tree_eq E F Vs :
  NoDup Vs -> junction_tree sc E Vs -> tree F Vs -> (forall x y, step F x y -> step E x y) -> junction_tree sc F Vs.
Proof.
  intros HV [HE HR] HF Hsub. split; [done|]. intros v x y Hx Hy Hvx Hvy. eapply rtc_mono; [|by apply HR].
  intros a b (Hab & Ha & Hb). split_and!; try done.
  assert (forall X Y, (X, Y) ∈ E -> step F X Y) as Hall; [|by destruct Hab as [H|H]; apply Hall in H; [|apply step_sym]].
  intros X Y HXY. destruct (decide ((X, Y) ∈ F)) as [?|Hn1]; [by left|]. destruct (decide ((Y, X) ∈ F)) as [?|Hn2]; [by right|]. exfalso.
  apply elem_of_list_split in HXY as (E1 & E2 & ->). apply (bridge E1 E2 X Y Vs HV HE).
  destruct HE as (Hw & _ & _). destruct (Hw X Y) as [HX HY]; [apply elem_of_app; right; left|].
  destruct HF as (_ & Hc & _). eapply rtc_mono; [|by apply (Hc X Y)]. intros a' b' Hs. pose proof (Hsub _ _ Hs) as Hs'. apply step_middle in Hs'.
  destruct Hs' as [?|[[-> ->]|[-> ->]]]; [done|destruct Hs; done|destruct Hs; done].
Qed.

(** The step of Prim's algorithm: a heaviest edge leaving the part built so far belongs to some
    junction tree that also contains that part. *)
Lemma exchange E F Vs W P Q :
  NoDup Vs -> (forall x, x ∈ Vs -> NoDup (sc x)) -> junction_tree sc E Vs ->
  (forall x, x ∈ W -> x ∈ Vs) -> within F W -> connected F W -> (forall x y, step F x y -> step E x y) ->
  P ∈ W -> Q ∈ Vs -> Q ∉ W -> inter (sc P) (sc Q) <> [] ->
  (forall x y, x ∈ W -> y ∈ Vs -> y ∉ W -> length (inter (sc x) (sc y)) <= length (inter (sc P) (sc Q))) ->
  exists E', junction_tree sc E' Vs /\ step E' P Q /\ (forall x y, step F x y -> step E' x y).
Proof.
  intros HV Hnd [HT HR] HWV HFW HFc HFE HP HQ HQW Hne Hmax.
  pose proof HT as (Hw & Hc & Hl).
  destruct (crossing (step E) W P Q) as (X & Y & HX & HY & HXY & _ & HYQ0); [by apply Hc; auto|done|done|].
  (* choose the last crossing: from Q backwards the first *)
  assert (exists X Y, X ∈ W /\ Y ∉ W /\ step E X Y /\ rtc (fun a b => step E a b /\ a ∉ W /\ b ∉ W) Y Q) as (X' & Y' & HX' & HY' & HXY' & HYQ).
  { assert (forall a, rtc (step E) a Q -> (a ∈ W -> exists X Y, X ∈ W /\ Y ∉ W /\ step E X Y /\ rtc (fun a b => step E a b /\ a ∉ W /\ b ∉ W) Y Q) /\
      (a ∉ W -> (exists X Y, X ∈ W /\ Y ∉ W /\ step E X Y /\ rtc (fun a b => step E a b /\ a ∉ W /\ b ∉ W) Y Q) \/ rtc (fun a b => step E a b /\ a ∉ W /\ b ∉ W) a Q)) as Hlast.
    { intros a Ha. induction Ha as [|a b c Hab _ IH]; [split; [done|by right]|].
      specialize (IH HQW Hne Hmax HYQ0) || specialize (IH) || idtac.
      destruct (decide (b ∈ W)) as [Hb|Hb].
      - split; intros Ha; [|left]; by apply IH.
      - destruct IH as [_ IH]; try done. destruct (IH Hb) as [?|Hbc]; [split; [done|by left]|].
        split; intros Ha; [by exists a, b|right]. by eapply rtc_l. }
    destruct (Hlast P) as [H _]; [by apply Hc; auto|]. by apply H. }
  clear X Y HX HY HXY HYQ0. rename X' into X, Y' into Y, HX' into HX, HY' into HY, HXY' into HXY.
  assert (exists E1 E2 X0 Y0, E = E1 ++ (X0, Y0) :: E2 /\ (X0 = X /\ Y0 = Y \/ X0 = Y /\ Y0 = X)) as (E1 & E2 & X0 & Y0 & HE & Hor).
  { destruct HXY as [H|H]; apply elem_of_list_split in H as (E1 & E2 & ->); exists E1, E2; eauto 10. }
  set (E0 := E1 ++ E2).
  assert (forall a b, step E a b <-> step E0 a b \/ (a = X /\ b = Y) \/ (a = Y /\ b = X)) as HstepE.
  { intros a b. rewrite HE, step_middle. destruct Hor as [[-> ->]|[-> ->]]; tauto. }
  assert (~ rtc (step E0) X Y) as Hbr.
  { rewrite HE in HT. pose proof (bridge _ _ _ _ _ HV HT) as Hb. destruct Hor as [[-> ->]|[-> ->]]; [done|]. intros H. apply Hb. by apply steps_sym. }
  assert (forall a b, step F a b -> step E0 a b) as HF0.
  { intros a b Hab. pose proof (HFE _ _ Hab) as H. apply HstepE in H as [H|H]; [done|].
    assert (a ∈ W /\ b ∈ W) as [??] by (destruct Hab as [Hab|Hab]; apply HFW in Hab; tauto). destruct H as [[-> ->]|[-> ->]]; done. }
  assert (rtc (step E0) X P) as HXP. { eapply rtc_mono; [exact HF0|]. by apply HFc. }
  assert (rtc (step E0) Y Q) as HYQ'.
  { eapply rtc_mono; [|exact HYQ]. intros a b (Hab & Ha & Hb). apply HstepE in Hab as [?|[[-> ->]|[-> ->]]]; done. }
  assert (forall v, v ∈ sc P -> v ∈ sc Q -> v ∈ sc X /\ v ∈ sc Y) as HPQXY.
  { intros v HvP HvQ. destruct (decide (v ∈ sc X /\ v ∈ sc Y)) as [?|Hn]; [done|exfalso]. apply Hbr.
    etrans; [exact HXP|]. etrans; [|apply steps_sym, HYQ'].
    assert (rtc (vstep sc E v) P Q) as Hpq by (apply HR; auto). eapply rtc_mono; [|exact Hpq].
    intros a b (Hab & Ha & Hb). apply HstepE in Hab as [?|[[-> ->]|[-> ->]]]; [done|tauto|tauto]. }
  assert (X ∈ Vs) as HXV by auto.
  assert (Y ∈ Vs) as HYV by (destruct HXY as [H|H]; apply Hw in H; tauto).
  assert (forall v, v ∈ sc X -> v ∈ sc Y -> v ∈ sc P /\ v ∈ sc Q) as HXYPQ.
  { assert (inter (sc P) (sc Q) ⊆+ inter (sc X) (sc Y)) as Hsub.
    { apply NoDup_submseteq; [apply NoDup_filter; auto|]. intros v [? ?]%elem_of_list_filter. apply elem_of_list_filter. destruct (HPQXY v); tauto. }
    pose proof (Hmax X Y HX HYV HY) as Hle. apply (submseteq_Permutation_length_le _ _ Hle) in Hsub.
    intros v H1 H2. assert (v ∈ inter (sc X) (sc Y)) as Hv by (by apply elem_of_list_filter). rewrite <-Hsub in Hv. apply elem_of_list_filter in Hv. tauto. }
  set (E' := (P, Q) :: E0).
  assert (forall a b, step E0 a b -> step E' a b) as H0' by (intros a b [?|?]; [left|right]; by right).
  assert (step E' P Q) as HPQ' by (left; left).
  exists E'. split; [split; [split_and!|]|split; [done|]].
  - intros a b Hab. apply elem_of_cons in Hab as [[= -> ->]|Hab]; [auto|]. apply Hw. rewrite HE. unfold E0 in Hab. apply elem_of_app. apply elem_of_app in Hab as [?|?]; [by left|right; by right].
  - intros x y Hx Hy. specialize (Hc x y Hx Hy). eapply (extra_edge (step E0) _ X Y) in Hc; [|intros a b; apply HstepE].
    assert (rtc (step E') X Y) as HXY'.
    { etrans; [eapply rtc_mono; [exact H0'|exact HXP]|]. eapply rtc_l; [exact HPQ'|]. eapply rtc_mono; [exact H0'|]. by apply steps_sym. }
    destruct Hc as [H|[[H1 H2]|[H1 H2]]].
    + eapply rtc_mono; [exact H0'|exact H].
    + etrans; [eapply rtc_mono; [exact H0'|exact H1]|]. etrans; [exact HXY'|]. eapply rtc_mono; [exact H0'|exact H2].
    + etrans; [eapply rtc_mono; [exact H0'|exact H1]|]. etrans; [apply steps_sym, HXY'|]. eapply rtc_mono; [exact H0'|exact H2].
  - rewrite <-Hl, HE. unfold E', E0. cbn. rewrite !app_length. cbn. lia.
  - intros v x y Hx Hy Hvx Hvy.
    assert (forall a b, vstep sc E0 v a b -> vstep sc E' v a b) as Hv0' by (intros a b (H & ? & ?); split_and!; auto).
    pose proof (HR v x y Hx Hy Hvx Hvy) as Hxy.
    destruct (decide (v ∈ sc X /\ v ∈ sc Y)) as [[HvX HvY]|Hn].
    + destruct (HXYPQ v HvX HvY) as [HvP HvQ].
      assert (forall a b, vstep sc E v a b -> vstep sc E0 v a b \/ (a = X /\ b = Y) \/ (a = Y /\ b = X)) as HvE.
      { intros a b (H & ? & ?). apply HstepE in H as [?|?]; [left; done|by right]. }
      assert (rtc (vstep sc E0 v) X P) as HvXP.
      { pose proof (HR v X P HXV (HWV _ HP) HvX HvP) as H. apply (extra_edge (vstep sc E0 v) (vstep sc E v) X Y) in H; [|exact HvE].
        destruct H as [H|[[_ H]|[H _]]]; [done| |]; exfalso; apply Hbr; apply vsteps_steps in H; [|done].
        etrans; [exact HXP|]. by apply steps_sym. }
      assert (rtc (vstep sc E0 v) Y Q) as HvYQ.
      { pose proof (HR v Y Q HYV HQ HvY HvQ) as H. apply (extra_edge (vstep sc E0 v) (vstep sc E v) X Y) in H; [|exact HvE].
        destruct H as [H|[[H _]|[_ H]]]; [done| |]; exfalso; apply Hbr; apply vsteps_steps in H; [by apply steps_sym|].
        etrans; [exact H|]. by apply steps_sym. }
      assert (rtc (vstep sc E' v) X Y) as HvXY.
      { etrans; [eapply rtc_mono; [exact Hv0'|exact HvXP]|]. eapply rtc_l; [split_and!; [exact HPQ'|done|done]|]. eapply rtc_mono; [exact Hv0'|]. by apply vsteps_sym. }
      apply (extra_edge (vstep sc E0 v) (vstep sc E v) X Y) in Hxy; [|exact HvE]. destruct Hxy as [H|[[H1 H2]|[H1 H2]]].
      * eapply rtc_mono; [exact Hv0'|exact H].
      * etrans; [eapply rtc_mono; [exact Hv0'|exact H1]|]. etrans; [exact HvXY|]. eapply rtc_mono; [exact Hv0'|exact H2].
      * etrans; [eapply rtc_mono; [exact Hv0'|exact H1]|]. etrans; [apply vsteps_sym, HvXY|]. eapply rtc_mono; [exact Hv0'|exact H2].
    + eapply rtc_mono; [|exact Hxy]. intros a b (H & ? & ?). apply HstepE in H as [?|[[-> ->]|[-> ->]]]; [split_and!; auto|tauto|tauto].
  - intros x y Hxy. apply H0'. auto.
Qed.

(** ** Building junction trees *)
Lemma jt_single K : junction_tree sc [] [K].
Proof.
  split; [split_and!; [by intros ?? ?%elem_of_nil| |done]|].
  - intros x y ->%elem_of_list_singleton ->%elem_of_list_singleton. done.
  - intros v x y ->%elem_of_list_singleton ->%elem_of_list_singleton. done.
Qed.
Lemma jt_add E Vs K p :
  junction_tree sc E Vs -> p ∈ Vs -> (forall v C, v ∈ sc K -> C ∈ Vs -> v ∈ sc C -> v ∈ sc p) ->
  junction_tree sc ((p, K) :: E) (K :: Vs).
Proof.
  intros [(Hw & Hc & Hl) HR] Hp Hin.
  assert (forall a b, step E a b -> step ((p, K) :: E) a b) as H0 by (intros a b [?|?]; [left|right]; by right).
  assert (forall v a b, vstep sc E v a b -> vstep sc ((p, K) :: E) v a b) as Hv0 by (intros v a b (? & ? & ?); split_and!; auto).
  assert (step ((p, K) :: E) p K) as HpK by (left; left).
  split; [split_and!|].
  - intros x y Hxy. apply elem_of_cons in Hxy as [[= -> ->]|Hxy]; [split; [by right|left]|]. apply Hw in Hxy as [??]. split; by right.
  - intros x y Hx Hy. apply elem_of_cons in Hx as [->|Hx]; apply elem_of_cons in Hy as [->|Hy]; [done| | |].
    + eapply rtc_l; [apply step_sym, HpK|]. eapply rtc_mono; [exact H0|]. by apply Hc.
    + eapply rtc_r; [|exact HpK]. eapply rtc_mono; [exact H0|]. by apply Hc.
    + eapply rtc_mono; [exact H0|]. by apply Hc.
  - cbn. lia.
  - intros v x y Hx Hy Hvx Hvy. apply elem_of_cons in Hx as [->|Hx]; apply elem_of_cons in Hy as [->|Hy]; [done| | |].
    + assert (v ∈ sc p) as Hvp by (by eapply Hin).
      eapply rtc_l; [apply vstep_sym; split_and!; [exact HpK|done|done]|]. eapply rtc_mono; [apply Hv0|]. by apply HR.
    + assert (v ∈ sc p) as Hvp by (by eapply Hin).
      eapply rtc_r; [|split_and!; [exact HpK|done|done]]. eapply rtc_mono; [apply Hv0|]. by apply HR.
    + eapply rtc_mono; [apply Hv0|]. by apply HR.
Qed.
End tree.

(** Renaming vertices; scopes may grow by variables found in one vertex only. *)
Lemma jt_map {A B} `{EqDecision A} `{EqDecision B} (scA : A -> list nat) (scB : B -> list nat) (h : A -> B) (E : list (A * A)) (Vs : list A) :
  junction_tree scA E Vs ->
  (forall x v, x ∈ Vs -> v ∈ scA x -> v ∈ scB (h x)) ->
  (forall x y v, x ∈ Vs -> y ∈ Vs -> v ∈ scB (h x) -> v ∈ scB (h y) -> h x <> h y -> v ∈ scA x /\ v ∈ scA y) ->
  junction_tree scB ((fun e => (h e.1, h e.2)) <$> E) (h <$> Vs).
Proof.
  intros [(Hw & Hc & Hl) HR] Hsc1 Hsc2.
  assert (forall a b, step E a b -> step ((fun e => (h e.1, h e.2)) <$> E) (h a) (h b)) as H0.
  { intros a b [H|H]; [left|right]; apply elem_of_list_fmap; [by exists (a, b)|by exists (b, a)]. }
  assert (forall (R : relation A) (R' : relation B) a b, (forall x y, R x y -> R' (h x) (h y)) -> rtc R a b -> rtc R' (h a) (h b)) as Hmap.
  { intros R R' a b HRR. induction 1 as [|x y z Hxy _ IH]; [done|]. eapply rtc_l; [by apply HRR|done]. }
  split; [split_and!|].
  - intros x y Hxy. apply elem_of_list_fmap in Hxy as ([a b] & [= -> ->] & Hab). apply Hw in Hab as [??]. split; by apply elem_of_list_fmap_1.
  - intros x y Hx Hy. apply elem_of_list_fmap in Hx as (a & -> & Ha). apply elem_of_list_fmap in Hy as (b & -> & Hb). eapply Hmap; [exact H0|]. by apply Hc.
  - by rewrite !fmap_length.
  - intros v x y Hx Hy. apply elem_of_list_fmap in Hx as (a & -> & Ha). apply elem_of_list_fmap in Hy as (b & -> & Hb).
    intros Hva Hvb. destruct (decide (h a = h b)) as [->|Hne]; [done|]. destruct (Hsc2 a b v Ha Hb Hva Hvb Hne) as [Ha' Hb'].
    eapply Hmap; [|by apply (HR v a b)]. intros p q (Hs & Hp & Hq). 
    assert (p ∈ Vs /\ q ∈ Vs) as [??] by (destruct Hs as [Hs|Hs]; apply Hw in Hs; tauto). split_and!; auto.
Qed.
