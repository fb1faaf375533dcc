(** Markov equivalent graphs are connected by reversals of covered edges, and products of ratios over the families of a graph
    do not change under them. *)
From Coq Require Import Field QArith.
From Verif Require Import DSepSpec DSepProofs BeliefProofs Sums TableSpec TableProofs.
Local Open Scope nat_scope.

(** ** Least and greatest elements of lists *)
Lemma least {A} (f : A -> nat) l : l <> [] -> exists x, x ∈ l /\ forall y, y ∈ l -> f x <= f y.
Proof.
  induction l as [|a l IH]; [done|]. intros _. destruct l as [|b l]; [exists a; split; [by left|]; intros y ->%elem_of_list_singleton; lia|].
  destruct IH as (x & Hx & H); [done|]. destruct (decide (f a <= f x)) as [Hle|Hgt].
  - exists a. split; [by left|]. intros y [->|Hy]%elem_of_cons; [lia|]. specialize (H y Hy). lia.
  - exists x. split; [by right|]. intros y [->|Hy]%elem_of_cons; [lia|]. by apply H.
Qed.
Lemma greatest {A} (f : A -> nat) l : l <> [] -> exists x, x ∈ l /\ forall y, y ∈ l -> f y <= f x.
Proof.
  induction l as [|a l IH]; [done|]. intros _. destruct l as [|b l]; [exists a; split; [by left|]; intros y ->%elem_of_list_singleton; lia|].
  destruct IH as (x & Hx & H); [done|]. destruct (decide (f x <= f a)) as [Hle|Hgt].
  - exists a. split; [by left|]. intros y [->|Hy]%elem_of_cons; [lia|]. specialize (H y Hy). lia.
  - exists x. split; [by right|]. intros y [->|Hy]%elem_of_cons; [lia|]. by apply H.
Qed.
Lemma filter_fewer {A} (P Q : A -> Prop) `{!forall x, Decision (P x), !forall x, Decision (Q x)} l x : (forall y, Q y -> P y) -> x ∈ l -> P x -> ~ Q x -> length (filter Q l) < length (filter P l).
Proof.
  intros HPQ Hx HP HQ. assert (forall l, length (filter Q l) <= length (filter P l)) as Hle.
  { clear l Hx. induction l as [|y l IH]; [done|]. rewrite !filter_cons. destruct (decide (Q y)) as [Hq|]; [rewrite decide_True by (by apply HPQ); cbn; lia|]. destruct (decide (P y)); cbn; lia. }
  induction l as [|y l IH]; [by apply elem_of_nil in Hx|]. rewrite !filter_cons. apply elem_of_cons in Hx as [->|Hx].
  - rewrite (decide_True _ _ HP), (decide_False _ _ HQ). cbn. specialize (Hle l). lia.
  - specialize (IH Hx). destruct (decide (Q y)) as [Hq|]; [rewrite decide_True by (by apply HPQ); cbn; lia|]. destruct (decide (P y)); cbn; lia.
Qed.

Section cover.
Context (n : nat).
Definition ranked (g : digraph) (rank : nat -> nat) : Prop := (forall x y, g x y = true -> x < n /\ y < n) /\ forall x y, g x y = true -> rank x < rank y.
Definition reverse_edge (g : digraph) (x y : nat) : digraph := fun u v => if decide (u = x /\ v = y) then false else if decide (u = y /\ v = x) then true else g u v.
Definition covered (g : digraph) (x y : nat) : Prop := g x y = true /\ forall w, g w y = true <-> w = x \/ g w x = true.

Lemma ranked_asym g r x y : ranked g r -> g x y = true -> g y x = true -> False.
Proof. intros [_ H] H1%H H2%H. lia. Qed.
Lemma ranked_irrefl g r x : ranked g r -> g x x = true -> False.
Proof. intros [_ H] H1%H. lia. Qed.
Lemma reverse_spec g x y u v : x <> y -> reverse_edge g x y u v = true <-> (u = y /\ v = x) \/ (g u v = true /\ ~ (u = x /\ v = y)).
Proof. intros Hne. unfold reverse_edge. destruct (decide _) as [[-> ->]|H1]; [split; [done|]; intros [[E _]|[_ H]]; [by destruct Hne|by destruct H]|]. destruct (decide _) as [[-> ->]|H2]; [split; [by left|done]|]. tauto. Qed.
Lemma covered_ne g r x y : ranked g r -> covered g x y -> x <> y.
Proof. intros HR [H _] ->. by eapply ranked_irrefl. Qed.

Lemma reverse_ranked g r x y : ranked g r -> covered g x y -> exists r', ranked (reverse_edge g x y) r'.
Proof.
  intros HR HC. pose proof (covered_ne g r x y HR HC) as Hne. destruct HR as [Hb Hr]. destruct HC as [Hxy Hcov]. pose proof (Hr _ _ Hxy) as Rxy.
  exists (fun v => if decide (v = y) then 2 * r x else 2 * r v + 1). split.
  - intros u v H. apply reverse_spec in H; [|done]. destruct H as [[-> ->]|[H _]]; [apply Hb in Hxy; tauto|by apply Hb].
  - intros u v H. apply reverse_spec in H; [|done]. destruct H as [[-> ->]|[H Hn]].
    + rewrite decide_True, decide_False by done. lia.
    + pose proof (Hr _ _ H). destruct (decide (u = y)) as [->|], (decide (v = y)) as [->|]; try lia.
      apply Hcov in H as [->|H]; [by destruct Hn|]. apply Hr in H. lia.
Qed.
Lemma reverse_adjacent g x y u v : x <> y -> g x y = true -> adjacent (reverse_edge g x y) u v <-> adjacent g u v.
Proof.
  intros Hne Hxy. unfold adjacent. rewrite !(reverse_spec g x y) by done. split.
  - intros [[[-> ->]|[H _]]|[[-> ->]|[H _]]]; tauto.
  - intros [H|H].
    + destruct (decide (u = x /\ v = y)) as [[-> ->]|Hn]; [tauto|]. left. by right.
    + destruct (decide (v = x /\ u = y)) as [[-> ->]|Hn]; [tauto|]. right. by right.
Qed.
Lemma reverse_equivalent g r x y : ranked g r -> covered g x y -> markov_equivalent g (reverse_edge g x y).
Proof.
  intros HR HC. pose proof (covered_ne g r x y HR HC) as Hne. destruct HC as [Hxy Hcov]. split; [intros u v; symmetry; by apply reverse_adjacent|].
  intros u v w. unfold v_structure, meets. rewrite (reverse_adjacent g x y u w Hne Hxy), !(reverse_spec g x y) by done. split.
  - intros ((Hu & Hw) & Huw & Hna). split_and!; [| |done|done].
    + right. split; [done|]. intros [-> ->]. apply Hcov in Hw as [->|Hw]; [done|]. apply Hna. by right.
    + right. split; [done|]. intros [-> ->]. apply Hcov in Hu as [->|Hu]; [done|]. apply Hna. by left.
  - intros ((Hu & Hw) & Huw & Hna). split_and!; [| |done|done].
    + destruct Hu as [[-> ->]|[Hu _]]; [|done]. destruct Hw as [[-> _]|[Hw _]]; [done|]. exfalso. apply Hna. right. apply Hcov. by right.
    + destruct Hw as [[-> ->]|[Hw _]]; [|done]. destruct Hu as [[-> _]|[Hu _]]; [done|]. exfalso. apply Hna. left. apply Hcov. by right.
Qed.

(** ** The edges that differ *)
Definition opposed (g h : digraph) : list (nat * nat) := filter (fun e => g e.1 e.2 = true /\ h e.2 e.1 = true) (list_prod (seq 0 n) (seq 0 n)).
Lemma opposed_spec g h r x y : ranked g r -> (x, y) ∈ opposed g h <-> g x y = true /\ h y x = true.
Proof.
  intros [Hb _]. unfold opposed. rewrite elem_of_list_filter, elem_of_list_In, in_prod_iff, <-!elem_of_list_In, !elem_of_seq. cbn [fst snd]. split; [tauto|]. intros [H H']. pose proof (Hb _ _ H). split; [done|lia].
Qed.
Lemma covered_exists g h r s : ranked g r -> ranked h s -> markov_equivalent g h -> opposed g h <> [] -> exists x y, covered g x y /\ h y x = true.
Proof.
  intros Hg Hh [Hadj Hv] Hne. destruct (least (fun e => r e.2) _ Hne) as ([x0 y] & Hin & Hmin). cbn [snd] in Hmin.
  destruct (greatest (fun e => r e.1) (filter (fun e => e.2 = y) (opposed g h))) as ([x y'] & Hin' & Hmax).
  { intros E. apply (elem_of_nil (x0, y)). rewrite <-E. by apply elem_of_list_filter. }
  apply elem_of_list_filter in Hin' as [Ey Hin']. cbn [snd] in Ey. subst y'. cbn [fst] in Hmax.
  apply (opposed_spec g h r) in Hin' as [Hxy Hyx]; [|done].
  assert (forall u v, g u v = true -> h v u = true -> r y <= r v) as Hmin' by (intros u v H H'; by apply (Hmin (u, v)), (opposed_spec g h r)).
  assert (forall u, g u y = true -> h y u = true -> r u <= r x) as Hmax' by (intros u H H'; apply (Hmax (u, y)), elem_of_list_filter; split; [done|]; by apply (opposed_spec g h r)).
  clear Hmin Hmax Hin Hne x0. exists x, y. split; [|done]. split; [done|].
  assert (forall u v, g u v = true -> h u v = true \/ h v u = true) as Hdir by (intros u v H; apply Hadj; by left).
  pose proof (proj2 Hg) as Rg. intros w. split.
  - intros Hwy. destruct (decide (w = x)) as [->|Hwx]; [by left|]. right.
    assert (adjacent g w x) as [H|Hxw].
    { destruct (g w x) eqn:E1; [by left|]. destruct (g x w) eqn:E2; [by right|]. exfalso.
      assert (v_structure g w y x) as HV by (split_and!; [by split|done|intros [H|H]; congruence]). apply Hv in HV as ([_ H] & _). by eapply (ranked_asym h s). }
    { done. }
    exfalso. destruct (Hdir _ _ Hwy) as [H1|H1]; [|specialize (Hmax' w Hwy H1); pose proof (Rg _ _ Hxw); lia].
    destruct (Hdir _ _ Hxw) as [H2|H2].
    + pose proof (proj2 Hh _ _ H1). pose proof (proj2 Hh _ _ H2). pose proof (proj2 Hh _ _ Hyx). lia.
    + specialize (Hmin' x w Hxw H2). pose proof (Rg _ _ Hwy). lia.
  - intros [->|Hwx]; [done|]. pose proof (Rg _ _ Hwx). pose proof (Rg _ _ Hxy).
    destruct (Hdir _ _ Hwx) as [H1|H1]; [|specialize (Hmin' w x Hwx H1); lia].
    assert (adjacent g w y) as [H'|H'].
    { destruct (g w y) eqn:E1; [by left|]. destruct (g y w) eqn:E2; [by right|]. exfalso.
      assert (v_structure h w x y) as HV. { split_and!; [by split|intros ->; lia|]. intros H'. apply Hadj in H' as [H'|H']; congruence. }
      apply Hv in HV as ([_ H'] & _). by eapply (ranked_asym g r). }
    + done.
    + pose proof (Rg _ _ H'). lia.
Qed.
Lemma reverse_fewer g h r s x y : ranked g r -> ranked h s -> covered g x y -> h y x = true -> length (opposed (reverse_edge g x y) h) < length (opposed g h).
Proof.
  intros Hg Hh HC Hyx. pose proof (covered_ne g r x y Hg HC) as Hne. destruct HC as [Hxy _]. apply (filter_fewer _ _ _ (x, y)).
  - intros [u v]. cbn [fst snd]. rewrite (reverse_spec g x y) by done. intros [[[-> ->]|[H _]] H']; [|done]. exfalso. by eapply (ranked_asym h s).
  - rewrite elem_of_list_In, in_prod_iff, <-!elem_of_list_In, !elem_of_seq. pose proof (proj1 Hg _ _ Hxy). lia.
  - done.
  - cbn [fst snd]. rewrite (reverse_spec g x y) by done. intros [[[E _]|[_ H]] _]; [by apply Hne|by apply H].
Qed.
Lemma equivalent_trans g h k : markov_equivalent g h -> markov_equivalent h k -> markov_equivalent g k.
Proof. intros [A1 V1] [A2 V2]. split; [intros x y; by rewrite A1, A2|intros x y z; by rewrite V1, V2]. Qed.
Lemma equivalent_sym g h : markov_equivalent g h -> markov_equivalent h g.
Proof. intros [A1 V1]. split; [intros x y; by rewrite A1|intros x y z; by rewrite V1]. Qed.

(** Whatever reversals of covered edges keep is the same for equivalent graphs. *)
Lemma equivalent_ind {A} (S : digraph -> A) : (forall g h, (forall x y, g x y = h x y) -> S g = S h) -> (forall g r x y, ranked g r -> covered g x y -> S (reverse_edge g x y) = S g) ->
  forall g h r s, ranked g r -> ranked h s -> markov_equivalent g h -> S g = S h.
Proof.
  intros Hext Hrev g h r s Hg Hh. remember (length (opposed g h)) as m eqn:Em. revert g r Hg Em. induction (lt_wf m) as [m _ IH]. intros g r Hg -> Heq.
  destruct (decide (opposed g h = [])) as [E|E].
  - assert (forall u v, g u v = true -> h v u = true -> False) as Hno by (intros u v H H'; apply (elem_of_nil (u, v)); rewrite <-E; by apply (opposed_spec g h r)).
    apply Hext. intros x y. destruct Heq as [Hadj _]. destruct (g x y) eqn:Eg, (h x y) eqn:Eh; try done; exfalso.
    + destruct (proj1 (Hadj x y)) as [H|H]; [by left|congruence|by eapply Hno].
    + destruct (proj2 (Hadj x y)) as [H|H]; [by left|congruence|by eapply Hno].
  - destruct (covered_exists g h r s Hg Hh Heq E) as (x & y & HC & Hyx). rewrite <-(Hrev g r x y Hg HC). destruct (reverse_ranked g r x y Hg HC) as [r' Hr'].
    apply (IH _ (reverse_fewer g h r s x y Hg Hh HC Hyx) _ r' Hr' eq_refl). apply equivalent_trans with g; [|done]. apply equivalent_sym. by eapply reverse_equivalent.
Qed.

(** ** Ratios over families *)
Lemma qprod_two (l : list nat) (f f' : nat -> Qc) x y : NoDup l -> x ∈ l -> y ∈ l -> x <> y -> (f x * f y = f' x * f' y)%Qc -> (forall v, v ∈ l -> v <> x -> v <> y -> f v = f' v) -> qprod l f = qprod l f'.
Proof.
  intros Hnd Hx Hy Hne E H. destruct (elem_of_Permutation l x) as [HP _]. destruct (HP Hx) as [l1 E1]. assert (y ∈ l1) as Hy1 by (rewrite E1 in Hy; apply elem_of_cons in Hy as [->|]; done).
  destruct (elem_of_Permutation l1 y) as [HP' _]. destruct (HP' Hy1) as [l2 E2]. rewrite E2 in E1. rewrite !(qprod_perm _ _ _ E1), !qprod_cons, !Qcmult_assoc, E. f_equal. rewrite E1 in Hnd. apply NoDup_cons in Hnd as [N1 [N2 _]%NoDup_cons]. apply qprod_ext. intros v Hv. apply H.
  - rewrite E1. by right; right.
  - intros ->. apply N1. by right.
  - by intros ->.
Qed.
Lemma dag_parents_elem g v p : p ∈ dag_parents n g v <-> g p v = true /\ p < n.
Proof. unfold dag_parents. rewrite elem_of_list_filter, elem_of_seq. split; intros [? ?]; (split; [done|lia]). Qed.
Context (F : list nat -> Qc) (HF : forall l1 l2, (forall v, v ∈ l1 <-> v ∈ l2) -> F l1 = F l2) (HF0 : forall v l, F l = 0%Qc -> F (v :: l) = 0%Qc).
Definition families (g : digraph) : Qc := qprod (seq 0 n) (fun v => F (v :: dag_parents n g v) / F (dag_parents n g v))%Qc.
Lemma families_reverse g r x y : ranked g r -> covered g x y -> families (reverse_edge g x y) = families g.
Proof using HF HF0.
  intros HR HC. pose proof (covered_ne g r x y HR HC) as Hne. destruct HC as [Hxy Hcov]. pose proof (proj1 HR _ _ Hxy) as [Hx Hy]. unfold families.
  assert (forall P Q R, (R = 0 -> Q = 0)%Qc -> (P / R * (Q / P) = if decide (P = 0) then 0 else Q / R)%Qc) as Hmul.
  { intros P Q R H. destruct (decide (P = 0%Qc)) as [->|HP]; [unfold Qcdiv; ring|]. destruct (decide (R = 0%Qc)) as [->|HR0]; [rewrite H by done; unfold Qcdiv; ring|]. field. done. }
  set (P := dag_parents n g x).
  assert (F (x :: dag_parents n (reverse_edge g x y) x) = F (y :: x :: P)) as E1. { apply HF. intros v. unfold P. rewrite !elem_of_cons, !dag_parents_elem, (reverse_spec g x y) by done. split.
    - intros [->|[[[-> _]|[H _]] Hv]]; [right; by left|by left|right; right; by split].
    - intros [->|[->|[H Hv]]]; [right; auto|by left|right]. split; [|done]. right. split; [done|]. by intros [_ ?]. }
  assert (F (dag_parents n (reverse_edge g x y) x) = F (y :: P)) as E2. { apply HF. intros v. unfold P. rewrite !elem_of_cons, !dag_parents_elem, (reverse_spec g x y) by done. split; [tauto|]. intros [->|[H1 H2]]; [tauto|]. split; [|done]. right. split; [done|]. by intros [_ ?]. }
  assert (forall v, v ∈ dag_parents n (reverse_edge g x y) y <-> v ∈ P) as E3.
  { intros v. unfold P. rewrite !dag_parents_elem, (reverse_spec g x y), Hcov by done. split.
    - intros [[[_ H]|[[->|H] H']] Hv]; [by destruct Hne|by destruct H'|done].
    - intros [H Hv]. split; [|done]. right. split; [by right|]. intros [-> _]. by eapply ranked_irrefl. }
  assert (forall v, v ∈ dag_parents n g y <-> v ∈ x :: P) as E4. { intros v. unfold P. rewrite elem_of_cons, !dag_parents_elem, Hcov. destruct (decide (v = x)) as [->|]; tauto. }
  apply (qprod_two _ _ _ x y); [apply NoDup_seq|apply elem_of_seq; lia|apply elem_of_seq; lia|done| |].
  - rewrite E1, E2. rewrite (HF _ P E3), (HF (y :: dag_parents n (reverse_edge g x y) y) (y :: P)) by (intros v; by rewrite !elem_of_cons, E3).
    rewrite (HF (dag_parents n g y) (x :: P) E4), (HF (y :: dag_parents n g y) (y :: x :: P)) by (intros v; by rewrite !elem_of_cons, E4, elem_of_cons). fold P.
    rewrite (Qcmult_comm (F (y :: x :: P) / F (y :: P))), !Hmul by (intros H; by apply HF0, HF0).
    assert (F (y :: P) = 0%Qc -> F (y :: x :: P) = 0%Qc) as Z1 by (intros H; rewrite (HF (y :: x :: P) (x :: y :: P)); [by apply HF0|]; intros v; rewrite !elem_of_cons; tauto).
    assert (F (x :: P) = 0%Qc -> F (y :: x :: P) = 0%Qc) as Z2 by (by apply HF0).
    destruct (decide (F (y :: P) = 0%Qc)) as [H1|H1], (decide (F (x :: P) = 0%Qc)) as [H2|H2]; try done; [rewrite Z1 by done|rewrite Z2 by done]; unfold Qcdiv; ring.
  - intros v Hv Hvx Hvy. assert (forall p, p ∈ dag_parents n (reverse_edge g x y) v <-> p ∈ dag_parents n g v) as E. { intros p. rewrite !dag_parents_elem, (reverse_spec g x y) by done. split; [|tauto]. intros [[[-> ->]|H] ?]; [done|tauto]. }
    rewrite (HF _ _ E). f_equal. apply HF. intros p. by rewrite !elem_of_cons, E.
Qed.
Lemma families_equivalent g h : dag n g -> dag n h -> markov_equivalent g h -> families g = families h.
Proof using HF HF0.
  intros Hg Hh. destruct (dag_rank n g Hg) as [r Hr]. destruct (dag_rank n h Hh) as [s Hs]. apply (equivalent_ind families) with r s; [| |split; [apply Hg|done]|split; [apply Hh|done]].
  - intros g' h' H. apply qprod_ext. intros v _. assert (dag_parents n g' v = dag_parents n h' v) as ->; [|done]. unfold dag_parents. apply list_filter_iff. intros p. by rewrite H.
  - intros. by eapply families_reverse.
Qed.
End cover.
