(** Active walks: from a node reached in the moral graph of the ancestors to d-connection. *)
From Verif Require Import DSepSpec.
Local Open Scope nat_scope.

Section graph.
Context (g : digraph) (Hac : forall v, ~ descendant g v v) (s : list nat).
Notation arc u v := (g u v = true).
(** In [s], or with a descendant in [s]. *)
Definition above (v : nat) : Prop := exists d, d ∈ s /\ (d = v \/ descendant g v d).
Definition open_at (u v w : nat) : Prop := (meets g u v w -> above v) /\ (~ meets g u v w -> v ∉ s).
Lemma arc_asym u v : arc u v -> arc v u -> False.
Proof using Hac. intros H1 H2. apply (Hac u). eapply tc_l; [exact H1|by apply tc_once]. Qed.
Lemma path_split p v r : is_path g (p ++ v :: r) <-> is_path g (p ++ [v]) /\ is_path g (v :: r).
Proof.
  induction p as [|u p IH]; cbn [app]; [cbn; tauto|]. destruct p as [|u' p]; cbn [app] in *.
  - cbn. tauto.
  - change (is_path g (u :: u' :: p ++ v :: r)) with (adjacent g u u' /\ is_path g (u' :: p ++ v :: r)). change (is_path g (u :: u' :: p ++ [v])) with (adjacent g u u' /\ is_path g (u' :: p ++ [v])). tauto.
Qed.
Lemma open_split p v r : unblocked g s (p ++ v :: r) <-> unblocked g s (p ++ [v]) /\ unblocked g s (v :: r) /\ forall u w, last p = Some u -> head r = Some w -> open_at u v w.
Proof.
  induction p as [|u p IH]; cbn [app].
  - split; [intros H; split_and!; [done|done|]; by intros|tauto].
  - destruct p as [|u' p]; cbn [app] in *.
    + destruct r as [|w r]; cbn [unblocked].
      * split; [intros _; split_and!; [done|done|]; by intros|done].
      * unfold open_at. cbn. split.
        -- intros (H1 & H2 & H3). split_and!; [done|done|]. intros ? ? [= <-] [= <-]. by split.
        -- intros (_ & H3 & H). destruct (H u w eq_refl eq_refl). by split_and!.
    + assert (forall q, unblocked g s (u :: u' :: p ++ v :: q) <-> open_at u u' (match p with [] => v | w :: _ => w end) /\ unblocked g s (u' :: p ++ v :: q)) as HU.
      { intros q. destruct p; cbn; unfold open_at; tauto. }
      rewrite !HU, IH. change (last (u :: u' :: p)) with (last (u' :: p)). tauto.
Qed.
(** Leaving along an arrow: there is a descendant in [s], or arrows lead all the way to the end. *)
Lemma forwards_or p : forall u v, is_path g (u :: v :: p) -> unblocked g s (u :: v :: p) -> arc u v -> (exists d, d ∈ s /\ descendant g u d) \/ exists z, last (u :: v :: p) = Some z /\ descendant g u z.
Proof.
  induction p as [|w p IH]; intros u v HP HU Huv.
  - right. exists v. split; [done|by apply tc_once].
  - destruct HP as [_ HP]. destruct HU as (H1 & H2 & HU). destruct (g w v) eqn:E.
    + destruct (H1 (conj Huv E)) as (d & Hd & Hdv). left. exists d. split; [done|]. destruct Hdv as [->|Hdv]; [by apply tc_once|by eapply tc_l].
    + destruct HP as [[Hvw|Hvw] HP']; [|congruence]. destruct (IH v w (conj (or_introl Hvw) HP') HU Hvw) as [(d & Hd & Hdv)|(z & Hz & Hzv)].
      * left. exists d. split; [done|by eapply tc_l].
      * right. exists z. split; [done|by eapply tc_l].
Qed.
Lemma repeated (p : list nat) : ~ NoDup p -> exists p1 v p2 p3, p = p1 ++ v :: p2 ++ v :: p3.
Proof.
  induction p as [|u p IH]; intros H; [by destruct H; constructor|]. destruct (decide (u ∈ p)) as [Hu|Hu].
  - apply elem_of_list_split in Hu as (p2 & p3 & ->). by exists [], u, p2, p3.
  - destruct IH as (p1 & v & p2 & p3 & ->); [intros Hp; apply H; by constructor|]. by exists (u :: p1), v, p2, p3.
Qed.
Lemma simple_walk x y p : x <> y -> is_path g p -> unblocked g s p -> head p = Some x -> last p = Some y -> d_connected g x y s.
Proof using Hac.
  intros Hxy. remember (length p) as k eqn:Hk. revert p Hk. induction (lt_wf k) as [k _ IH]. intros p -> HP HU Hh Hl. destruct (decide (NoDup p)) as [Hnd|Hnd].
  - destruct p as [|x' p]; [done|]. injection Hh as ->. destruct p as [|z mid _] using rev_ind; [cbn in Hl; congruence|]. rewrite app_comm_cons, last_snoc in Hl. injection Hl as ->. by exists mid.
  - destruct (repeated p Hnd) as (p1 & v & p2 & p3 & E). rewrite E in *. 
    apply path_split in HP as [P1 P2]. apply open_split in HU as (U1 & U2 & C1). rewrite app_comm_cons in P2, U2. apply path_split in P2 as [P2 P3]. apply open_split in U2 as (U2 & U3 & C2).
    eapply (IH (length (p1 ++ v :: p3))); [rewrite !app_length; cbn; rewrite app_length; cbn; lia|reflexivity|by apply path_split| | |].
    + apply open_split. split_and!; [done|done|]. intros u w Hu Hw.
      assert (exists w1, head (p2 ++ v :: p3) = Some w1 /\ head (p2 ++ [v]) = Some w1) as (w1 & Hw1 & Hw1') by (destruct p2; cbn; eauto).
      assert (exists u2, last (v :: p2) = Some u2) as [u2 Hu2]. { destruct (last (v :: p2)) eqn:El; [eauto|]. apply last_None in El. done. }
      specialize (C1 u w1 Hu Hw1). specialize (C2 u2 w Hu2 Hw). split.
      * intros [M1 M2]. destruct (g w1 v) eqn:E1; [apply C1; by split|]. destruct p2 as [|w2 p2]; cbn in Hw1'; injection Hw1' as <-.
        -- exfalso. cbn in P2. destruct P2 as [[H|H] _]; apply (Hac v); by apply tc_once.
        -- destruct P2 as [[Hv|Hv] P2]; [|congruence]. destruct (forwards_or (p2 ++ [v]) v w2 (conj (or_introl Hv) P2) U2 Hv) as [(d & Hd & Hdv)|(z & Hz & Hzv)].
           ++ exists d. split; [done|by right].
           ++ exfalso. assert (last ((v :: w2 :: p2) ++ [v]) = Some v) as Hz' by apply last_snoc. cbn [app] in Hz'. assert (z = v) as -> by congruence. by apply (Hac v).
      * intros M. destruct (g u v) eqn:E1; [|apply C1; intros [? _]; congruence]. destruct (g w v) eqn:E2; [by destruct M|apply C2; intros [_ ?]; congruence].
    + destruct p1; done.
    + rewrite <-Hl. destruct p3 as [|w p3].
      * rewrite last_snoc. change (v :: p2 ++ [v]) with ((v :: p2) ++ [v]). by rewrite app_assoc, last_snoc.
      * rewrite !last_app_cons. cbn [last]. rewrite app_comm_cons, last_app_cons. done.
Qed.
(** ** The ball *)
Context (x : nat) (ys : list nat).
Definition ancestral (v : nat) : Prop := v = x \/ descendant g v x \/ v ∈ ys \/ (exists y, y ∈ ys /\ descendant g v y) \/ above v.
(** Reached from [ys] in the moral graph of the ancestral nodes without passing through [s]; the flag: along an arrow into the node. *)
Inductive reach : nat -> bool -> Prop :=
  | reach_child y c : y ∈ ys -> arc y c -> reach c true
  | reach_parent y p : y ∈ ys -> arc p y -> reach p false
  | reach_down v b c : reach v b -> v ∉ s -> arc v c -> reach c true
  | reach_up v p : reach v false -> v ∉ s -> arc p v -> reach p false
  | reach_meet v p : reach v true -> ancestral v -> arc p v -> reach p false.
Definition active (v : nat) (b : bool) : Prop :=
  exists u r y, is_path g (v :: u :: r) /\ unblocked g s (v :: u :: r) /\ (y ∈ ys /\ last (v :: u :: r) = Some y) /\ if b then arc u v else arc v u.
(** Down the arrows from a node that is not above [s]. *)
Lemma not_above_down v w : ~ above v -> arc v w -> ~ above w /\ w ∉ s.
Proof.
  intros H Hvw. split; [|intros Hw; apply H; exists w; split; [done|right; by apply tc_once]]. intros (d & Hd & Hdw). apply H. exists d. split; [done|]. right. destruct Hdw as [->|Hdw]; [by apply tc_once|by eapply tc_l].
Qed.
Lemma walk_down v z : descendant g v z -> ~ above v -> v ∉ s -> (exists b, active v b) -> active z true.
Proof using Hac.
  intros Hd. induction Hd as [v z Hvz|v w z Hvw _ IH]; intros Ha Hs (b & u & r & y & HP & HU & HL & _).
  - exists v, (u :: r), y. split_and!; [split; [by right|done]| |apply HL|apply HL|done]. cbn [unblocked]. split_and!; [|done|done]. intros [H _]. destruct (arc_asym _ _ Hvz H).
  - destruct (not_above_down v w Ha Hvw) as [Ha' Hs']. apply IH; [done|done|]. exists true, v, (u :: r), y. split_and!; [split; [by right|done]| |apply HL|apply HL|done]. cbn [unblocked]. split_and!; [|done|done]. intros [H _]. destruct (arc_asym _ _ Hvw H).
Qed.
Lemma chain_down v y : descendant g v y -> ~ above v -> exists w r, is_path g (v :: w :: r) /\ unblocked g s (v :: w :: r) /\ last (v :: w :: r) = Some y /\ arc v w.
Proof using Hac.
  intros Hd. induction Hd as [v z Hvz|v w z Hvw _ IH]; intros Ha.
  - exists z, []. split_and!; [split; [by left|done]|done|done|done].
  - destruct (not_above_down v w Ha Hvw) as [Ha' Hs']. destruct (IH Ha') as (w' & r & HP & HU & HL & Hww). exists w, (w' :: r). split_and!; [split; [by left|done]| |done|done]. cbn [unblocked]. split_and!; [|done|done]. intros [_ H]. destruct (arc_asym _ _ Hww H).
Qed.
Lemma reach_active v b : ~ (exists c, active x c) -> reach v b -> ~ ~ active v b.
Proof using Hac.
  intros Hx Hr. induction Hr as [y c Hy Hc|y p Hy Hp|v b c Hr IH Hs Hc|v p Hr IH Hs Hp|v p Hr IH Ha Hp]; intros Hn.
  - apply Hn. exists y, [], y. split_and!; [split; [by right|done]|done|done|done|done].
  - apply Hn. exists y, [], y. split_and!; [split; [by left|done]|done|done|done|done].
  - apply IH. intros (u & r & y & HP & HU & HL & _). apply Hn. exists v, (u :: r), y. split_and!; [split; [by right|done]| |apply HL|apply HL|done]. cbn [unblocked]. split_and!; [|done|done]. intros [H _]. destruct (arc_asym _ _ Hc H).
  - apply IH. intros (u & r & y & HP & HU & HL & Hu). apply Hn. exists v, (u :: r), y. split_and!; [split; [by left|done]| |apply HL|apply HL|done]. cbn [unblocked]. split_and!; [|done|done]. intros [_ H]. destruct (arc_asym _ _ Hu H).
  - apply IH. intros HA. pose proof HA as (u & r & y & HP & HU & HL & Hu).
    assert (~ above v) as Hna. { intros Hab. apply Hn. exists v, (u :: r), y. split_and!; [split; [by left|done]| |apply HL|apply HL|done]. cbn [unblocked]. split_and!; [done| |done]. intros H. by destruct H. }
    assert (v ∉ s) as Hvs by (intros H; apply Hna; exists v; split; [done|by left]).
    destruct Ha as [->|[Hd|[Hy|[(y' & Hy & Hd)|Hab]]]].
    + apply Hx. by exists true.
    + apply Hx. exists true. apply (walk_down v x Hd Hna Hvs). by exists true.
    + apply Hn. exists v, [], v. split_and!; [split; [by left|done]|done|done|done|done].
    + destruct (chain_down v y' Hd Hna) as (w & r' & HP' & HU' & HL' & Hw). apply Hn. exists v, (w :: r'), y'. split_and!; [split; [by left|done]| |done|done|done]. cbn [unblocked]. split_and!; [|done|done]. intros [_ H]. destruct (arc_asym _ _ Hw H).
    + done.
Qed.
(** What is d-separated from all of [ys] is not reached. *)
Lemma separated_unreached b : x ∉ ys -> (forall y, y ∈ ys -> ~ d_connected g x y s) -> ~ reach x b.
Proof using Hac.
  intros Hxy Hd Hr. assert (~ exists c, active x c) as Hx. { intros (c & u & r & y & HP & HU & [Hy HL] & _). apply (Hd y Hy). apply (simple_walk x y (x :: u :: r)); try done. by intros ->. }
  apply (reach_active x b Hx Hr). intros H. apply Hx. by exists b.
Qed.
(** A family with a reached member outside [s] is reached. *)
Definition touched (v : nat) : Prop := v ∈ ys \/ exists b, reach v b.
Lemma family_touched c u v : ancestral c -> u ∉ s -> touched u -> u = c \/ arc u c -> v = c \/ arc v c -> touched v.
Proof.
  intros Hc Hu Ht Huc Hvc. assert (u = c \/ reach c true) as [->|Hr].
  { destruct Huc as [->|Huc]; [by left|]. right. destruct Ht as [Hy|[b Hb]]; [by eapply reach_child|by eapply reach_down]. }
  - destruct Hvc as [->|Hvc]; [done|]. right. exists false. destruct Ht as [Hy|[[] Hb]]; [by eapply reach_parent|by eapply reach_meet|by eapply reach_up].
  - destruct Hvc as [->|Hvc]; [right; by exists true|]. right. exists false. by eapply reach_meet.
Qed.
Lemma ancestral_parent p c : arc p c -> ancestral c -> ancestral p.
Proof.
  intros Hp [->|[H|[H|[(y & Hy & H)|(d & Hd & H)]]]]; unfold ancestral.
  - right; left. by apply tc_once.
  - right; left. by eapply tc_l.
  - do 3 right; left. exists c. split; [done|by apply tc_once].
  - do 3 right; left. exists y. split; [done|by eapply tc_l].
  - do 4 right. exists d. split; [done|]. right. destruct H as [->|H]; [by apply tc_once|by eapply tc_l].
Qed.
End graph.
