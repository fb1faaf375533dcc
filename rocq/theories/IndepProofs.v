(** The joint probability of separated variables is a product. *)
From Coq Require Import Field QArith.
From Verif Require Import RecoverSpec EssentialSpec DSepSpec IndepGraph NetProofs2 BuildProofs CountProofs QueryProofs Sums BeliefProofs LearnProofs LearnTheorems JTTheorems ShdTheorems SampleProofs GibbsProofs LikelihoodProofs CoverProofs EquivTheorems RecoverProofs TableProofs2 TableProofs.
Local Open Scope nat_scope.

(** ** Orders with an ancestral set first *)
Fixpoint in_order (R : nat -> nat -> Prop) (l : list nat) : Prop := match l with [] => True | v :: l => (forall w, w ∈ l -> ~ R w v) /\ in_order R l end.
Lemma in_order_filter R (P : nat -> Prop) `{forall v, Decision (P v)} l : in_order R l -> in_order R (filter P l).
Proof.
  induction l as [|v l IH]; [done|]. intros [H1 H2]. destruct (decide (P v)); [rewrite filter_cons_True by done|rewrite filter_cons_False by done; by apply IH]. split; [|by apply IH].
  intros w [_ Hw]%elem_of_list_filter. by apply H1.
Qed.
Lemma in_order_app R l1 l2 : in_order R l1 -> in_order R l2 -> (forall v w, v ∈ l1 -> w ∈ l2 -> ~ R w v) -> in_order R (l1 ++ l2).
Proof.
  induction l1 as [|v l1 IH]; [done|]. intros [H1 H2] H3 H. cbn. split.
  - intros w [Hw|Hw]%elem_of_app; [by apply H1|]. apply H; [left|done].
  - apply IH; [done|done|]. intros u w Hu. apply H. by right.
Qed.
Lemma topological_order R n l : topological R n l -> in_order R l.
Proof.
  intros [_ H]. assert (forall i j v w, l !! i = Some v -> l !! j = Some w -> R v w -> i < j) as H' by (intros i j v w Hi Hj Hvw; by eapply H). clear H. induction l as [|v l IH]; [done|]. split.
  - intros w [j Hj]%elem_of_list_lookup Hwv. specialize (H' (S j) 0 w v Hj eq_refl Hwv). lia.
  - apply IH. intros i j u w Hi Hj Huw. specialize (H' (S i) (S j) u w Hi Hj Huw). lia.
Qed.
Lemma order_topological R n l : l ≡ₚ seq 0 n -> (forall v, ~ R v v) -> in_order R l -> topological R n l.
Proof.
  intros HP HR H. split; [done|]. clear HP. intros i j v w Hi Hj Hvw. revert i j Hi Hj. induction l as [|u l IH]; intros i j Hi Hj; [done|]. destruct H as [H1 H2]. destruct i as [|i], j as [|j]; cbn in *.
  - exfalso. apply (HR v). congruence.
  - lia.
  - injection Hj as ->. exfalso. apply (H1 v); [|done]. by eapply elem_of_list_lookup_2.
  - specialize (IH H2 i j Hi Hj). lia.
Qed.
Lemma filter_both (P : nat -> Prop) `{forall v, Decision (P v)} l : filter P l ++ filter (fun v => ~ P v) l ≡ₚ l.
Proof.
  induction l as [|v l IH]; [done|]. destruct (decide (P v)).
  - rewrite filter_cons_True, filter_cons_False by tauto. cbn. by rewrite IH.
  - rewrite filter_cons_False, filter_cons_True by tauto. by rewrite <-Permutation_middle, IH.
Qed.

Section indep.
Context (N : network) (HN : netinv N) (Hd : doms_positive N) (ts : list ptable) (Hts : distributions N ts).
Notation dom := (net_dom N).
Notation n := (net_size N).
Notation arc u v := (arcs_of N u v = true).
Let tab (v : nat) : ptable := default pt_default (ts !! v).
Set Default Proof Using "All".
Lemma net_acyclic v : ~ descendant (arcs_of N) v v.
Proof.
  intros H. destruct (fresh_dag_dag N HN) as [Hb [ord [HP HO]]]. assert (forall u w, descendant (arcs_of N) u w -> exists i j, ord !! i = Some u /\ ord !! j = Some w /\ i < j) as Hlt.
  { intros u w Huw. assert (forall a b, arc a b -> exists i j, ord !! i = Some a /\ ord !! j = Some b /\ i < j) as H1.
    { intros a b Hab. destruct (Hb a b Hab) as [Ha Hb']. assert (a ∈ ord) as [i Hi]%elem_of_list_lookup by (rewrite HP; apply elem_of_seq; lia). assert (b ∈ ord) as [j Hj]%elem_of_list_lookup by (rewrite HP; apply elem_of_seq; lia). exists i, j. split_and!; [done|done|]. by eapply HO. }
    induction Huw as [a b Hab|a b c Hab _ IH]; [by apply H1|]. destruct (H1 a b Hab) as (i & j & Hi & Hj & Hij), IH as (j' & k & Hj' & Hk & Hjk). exists i, k. split_and!; [done|done|].
    assert (NoDup ord) as Hnd by (rewrite HP; apply NoDup_seq). pose proof (NoDup_lookup _ _ _ _ Hnd Hj Hj'). lia. }
  destruct (Hlt v v H) as (i & j & Hi & Hj & Hij). assert (NoDup ord) as Hnd by (rewrite HP; apply NoDup_seq). pose proof (NoDup_lookup _ _ _ _ Hnd Hi Hj). lia.
Qed.
(** The nodes outside an ancestral set are summed out. *)
Lemma barren (C : list nat) : NoDup C -> (forall v, v ∈ C -> v < n) -> (forall p c, c ∈ C -> arc p c -> p ∈ C) -> forall l a, (forall v, v ∈ l -> v ∈ C) -> valid dom a ->
  chance N ts l a = sumv dom (filter (fun v => v ∉ l) C) (fun b => qprod C (fun v => tval (tab v) b)) a.
Proof.
  intros HC HCn Hcl l a Hl Ha. destruct (topo_exists N HN) as [topo Htopo]. set (t1 := filter (fun v => v ∈ C) topo). set (t2 := filter (fun v => v ∉ C) topo).
  pose proof Htopo as [HP _].
  assert (topological (has_directed N) n (t1 ++ t2)) as HT.
  { apply order_topological.
    - rewrite <-HP. apply (filter_both (fun v => v ∈ C)).
    - intros v Hv. apply (net_acyclic v). apply tc_once. by apply arcs_of_spec.
    - pose proof (topological_order _ _ _ Htopo) as Ho. apply in_order_app; [by apply in_order_filter|by apply in_order_filter|]. intros v w [Hv _]%elem_of_list_filter [Hw _]%elem_of_list_filter Hwv. apply Hw, (Hcl w v Hv). by apply arcs_of_spec. }
  assert (t1 ≡ₚ C) as H1. { apply NoDup_Permutation; [apply NoDup_filter; rewrite HP; apply NoDup_seq|done|]. intros v. unfold t1. rewrite elem_of_list_filter, HP, elem_of_seq. split; [tauto|]. intros Hv. specialize (HCn v Hv). split; [done|lia]. }
  assert (seq 0 n ≡ₚ t1 ++ t2) as HS by (symmetry; apply HT).
  assert (filter (fun v => v ∉ l) (seq 0 n) ≡ₚ filter (fun v => v ∉ l) C ++ t2) as P1.
  { rewrite HS, filter_app, H1. f_equiv. rewrite TableProofs2.filter_all; [done|]. intros w [Hw _]%elem_of_list_filter Hwl. by apply Hw, Hl. }
  unfold chance. rewrite (sumv_perm dom _ _ _ a (joint_proper N HN Hd ts Hts (t1 ++ t2) HT) (NoDup_filter _ _ (NoDup_seq _ _)) P1), sumv_app. apply sumv_ext; [done|]. intros b Hb _.
  etransitivity; [|apply (qprod_perm t1 C _ H1)]. etransitivity; [|apply (G_suffix N HN Hd ts Hts (t1 ++ t2) HT t1 t2 b); [done|done]]. apply sumv_ext; [done|]. intros b' _ _. by rewrite (joint_G N HN Hd ts Hts (t1 ++ t2) HT).
Qed.

(** A property of the numbers below a bound is that of a list, up to double negation. *)
Lemma listed (P : nat -> Prop) k : ~ ~ exists l, NoDup l /\ forall v, v ∈ l <-> v < k /\ P v.
Proof.
  induction k as [|k IH]; intros Hn.
  - apply Hn. exists []. split; [constructor|]. intros v. rewrite elem_of_nil. lia.
  - apply IH. intros (l & Hl & H). assert (~ P k) as Hk.
    + intros Hk. apply Hn. exists (k :: l). split; [constructor; [rewrite H; lia|done]|]. intros v. rewrite elem_of_cons, H. split; [intros [->|[? ?]]; split; try done; lia|]. intros [Hv Pv]. destruct (decide (v = k)); [by left|right; split; [lia|done]].
    + apply Hn. exists l. split; [done|]. intros v. rewrite H. split; [intros [? ?]; split; [lia|done]|]. intros [Hv Pv]. split; [|done]. destruct (decide (v = k)) as [->|]; [done|lia].
Qed.
Lemma sumv_off (V W : list nat) (h : asg -> Qc) : (forall b b', (forall v, v ∉ V -> b v = b' v) -> h b = h b') -> forall b b', (forall v, v ∉ V -> b v = b' v) -> sumv dom W h b = sumv dom W h b'.
Proof. intros Hh. induction W as [|w W IH]; intros b b' Hb; cbn [sumv]; [by apply Hh|]. apply qsum_ext. intros i _. apply IH. intros v Hv. unfold upd. case_bool_decide; [done|by apply Hb]. Qed.
Lemma dep_mul_split (V W : list nat) (f h : asg -> Qc) a : (forall b b', (forall v, v ∉ W -> b v = b' v) -> f b = f b') -> (forall b b', (forall v, v ∉ V -> b v = b' v) -> h b = h b') -> valid dom a ->
  sumv dom (V ++ W) (fun b => f b * h b)%Qc a = (sumv dom V f a * sumv dom W h a)%Qc.
Proof.
  intros Hf Hh Ha. rewrite sumv_app. rewrite (sumv_ext dom V _ (fun b => (sumv dom W h b * f b)%Qc) a Ha).
  - rewrite (sumv_mul_l dom V f (sumv dom W h)); [ring|]. by apply sumv_off.
  - intros b Hb _. rewrite (sumv_mul_l dom W h f); [ring|done].
Qed.
Theorem markov x ys s a : x < n -> (forall v, v ∈ ys ++ s -> v < n) -> x ∉ ys -> x ∉ s -> (forall v, v ∈ ys -> v ∉ s) -> (forall y, y ∈ ys -> ~ d_connected (arcs_of N) x y s) -> valid dom a ->
  (chance N ts (x :: ys ++ s) a * chance N ts s a)%Qc = (chance N ts (x :: s) a * chance N ts (ys ++ s) a)%Qc.
Proof.
  intros Hx Hin Hxy Hxs Hys Hsep Ha. set (g := arcs_of N) in *. destruct (decide ((chance N ts (x :: ys ++ s) a * chance N ts s a)%Qc = (chance N ts (x :: s) a * chance N ts (ys ++ s) a)%Qc)) as [|Hne]; [done|exfalso].
  apply (listed (ancestral g s x ys) n). intros (C & HCnd & HC). apply (listed (touched g s x ys) n). intros (T & HTnd & HT). apply Hne. clear Hne.
  pose proof net_acyclic as Hac. destruct (fresh_dag_dag N HN) as [Hb _]. fold g in Hb, Hac.
  set (A := filter (fun v => v ∈ T /\ v ∉ s) C). set (B := filter (fun v => ~ (v ∈ T /\ v ∉ s)) C).
  set (fam := fun c => c :: parents_of N c). set (in_f := fun c => Exists (fun v => v ∈ A) (fam c)).
  set (f := fun b => qprod (filter in_f C) (fun v => tval (tab v) b)). set (h := fun b => qprod (filter (fun c => ~ in_f c) C) (fun v => tval (tab v) b)).
  assert (forall c v, v ∈ fam c -> v = c \/ g v c = true) as Hfam. { intros c v [->|Hv]%elem_of_cons; [by left|right]. apply (parents_of_arcs N c v HN), dag_parents_elem in Hv as [Hv _]. done. }
  assert (forall c, c ∈ C -> pt_vars (tab c) = fam c) as Hvars. { intros c [Hc _]%HC. destruct (lookup_lt_is_Some_2 ts c) as [t Ht]; [by rewrite (proj1 Hts)|]. unfold tab. rewrite Ht. apply (proj2 Hts c t Ht). }
  assert (forall c v, c ∈ C -> v ∈ fam c -> v ∈ C) as HCf. { intros c v [Hc Hca]%HC [->|Hv]%Hfam; apply HC; [done|]. split; [apply (Hb v c Hv)|by eapply ancestral_parent]. }
  assert (forall v, v ∈ A <-> v ∈ C /\ v ∈ T /\ v ∉ s) as HA by (intros v; unfold A; rewrite elem_of_list_filter; tauto).
  assert (forall v, v ∈ B <-> v ∈ C /\ v ∉ A) as HB by (intros v; unfold B; rewrite elem_of_list_filter, HA; tauto).
  assert (forall v, v ∈ s -> v ∈ C) as HsC. { intros v Hv. apply HC. split; [apply Hin, elem_of_app; by right|]. do 4 right. exists v. split; [done|by left]. }
  assert (x ∈ C) as HxC by (apply HC; split; [done|by left]). assert (forall y, y ∈ ys -> y ∈ C) as HyC by (intros y Hy; apply HC; split; [apply Hin, elem_of_app; by left|by right; right; left]).
  assert (forall y, y ∈ ys -> y ∈ A) as HyA. { intros y Hy. apply HA. split_and!; [by apply HyC| |by apply Hys]. apply HT. split; [apply Hin, elem_of_app; by left|by left]. }
  assert (x ∉ A) as HxA. { intros (_ & Hxt & _)%HA. apply HT in Hxt as [_ [?|[b Hb']]]; [done|]. by apply (separated_unreached g Hac s x ys b Hxy Hsep). }
  assert (forall c v, c ∈ C -> in_f c -> v ∈ fam c -> v ∈ A \/ v ∈ s) as Hf.
  { intros c v Hc (u & Hu & HuA)%Exists_exists Hv. destruct (decide (v ∈ s)); [by right|left]. apply HA. split; [by eapply HCf|]. split; [|done]. apply HT. split; [apply HC; by eapply HCf|].
    apply HA in HuA as (_ & Hut & Hus). apply HT in Hut as [_ Hut]. apply HC in Hc as [_ Hc]. by apply (family_touched g s x ys c u v Hc Hus Hut); apply Hfam. }
  assert (forall V : list nat, (forall v, v ∈ V -> v ∉ A /\ v ∉ s) -> forall b b', (forall v, v ∉ V -> b v = b' v) -> f b = f b') as Df.
  { intros V HV b b' Hbb. apply qprod_ext. intros c [Hcf Hc]%elem_of_list_filter. apply tval_dep. intros v Hv. rewrite (Hvars c Hc) in Hv. apply Hbb. intros HvV. destruct (HV v HvV). by destruct (Hf c v Hc Hcf Hv). }
  assert (forall V : list nat, (forall v, v ∈ V -> v ∈ A) -> forall b b', (forall v, v ∉ V -> b v = b' v) -> h b = h b') as Dh.
  { intros V HV b b' Hbb. apply qprod_ext. intros c [Hcf Hc]%elem_of_list_filter. apply tval_dep. intros v Hv. rewrite (Hvars c Hc) in Hv. apply Hbb. intros HvV. apply Hcf. apply Exists_exists. exists v. split; [done|by apply HV]. }
  assert (forall b, qprod C (fun v => tval (tab v) b) = (f b * h b)%Qc) as HQ.
  { intros b. unfold f, h. rewrite <-qprod_app. apply qprod_perm. symmetry. apply filter_both. }
  assert (forall l : list nat, (forall v, v ∈ s -> v ∈ l) -> (forall v, v ∈ l -> v ∈ C) -> chance N ts l a = (sumv dom (filter (fun v => v ∉ l) A) f a * sumv dom (filter (fun v => v ∉ l) B) h a)%Qc) as Hmain.
  { intros l Hsl HlC. rewrite (barren C HCnd ltac:(intros v [? _]%HC; done)); [| |done|done].
    - rewrite <-(dep_mul_split (filter (fun v => v ∉ l) A) (filter (fun v => v ∉ l) B) f h a); [| | |done].
      + assert (filter (fun v => v ∉ l) C ≡ₚ filter (fun v => v ∉ l) A ++ filter (fun v => v ∉ l) B) as HP by (rewrite <-filter_app; unfold A, B; by rewrite (filter_both (fun v => v ∈ T /\ v ∉ s) C)).
        rewrite (sumv_perm dom _ _ _ a) with (3 := HP); [|intros b b' Hbb; apply qprod_ext; intros v _; by apply tval_proper|by apply NoDup_filter]. apply sumv_ext; [done|]. intros b _ _. apply HQ.
      + apply Df. intros v [Hvl [HvC HvA]%HB]%elem_of_list_filter. split; [done|]. intros Hvs. by apply Hvl, Hsl.
      + apply Dh. by intros v [_ Hv]%elem_of_list_filter.
    - intros p c [Hc Hca]%HC Hpc. apply HC. split; [apply (Hb p c Hpc)|by eapply ancestral_parent]. }
  rewrite !Hmain; try (intros v Hv; set_solver).
  assert (filter (fun v => v ∉ x :: ys ++ s) A = filter (fun v => v ∉ ys ++ s) A) as -> by (apply LearnProofs.filter_ext_in; intros v Hv; rewrite !not_elem_of_cons; split; [tauto|]; intros ?; split; [congruence|done]).
  assert (filter (fun v => v ∉ x :: s) A = filter (fun v => v ∉ s) A) as -> by (apply LearnProofs.filter_ext_in; intros v Hv; rewrite !not_elem_of_cons; split; [tauto|]; intros ?; split; [congruence|done]).
  assert (filter (fun v => v ∉ x :: ys ++ s) B = filter (fun v => v ∉ x :: s) B) as -> by (apply LearnProofs.filter_ext_in; intros v [_ Hv]%HB; rewrite !not_elem_of_cons, not_elem_of_app; split; [tauto|]; intros [? ?]; split_and!; [done|intros Hy; by apply Hv, HyA|done]).
  assert (filter (fun v => v ∉ ys ++ s) B = filter (fun v => v ∉ s) B) as -> by (apply LearnProofs.filter_ext_in; intros v [_ Hv]%HB; rewrite not_elem_of_app; split; [tauto|]; intros ?; split; [intros Hy; by apply Hv, HyA|done]).
  ring.
Qed.
End indep.
