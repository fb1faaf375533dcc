(** The extension of the pattern to an acyclic graph stays in the equivalence class when the reversible edges form cliques. *)
From Verif Require Import ExtendSpec DSepTheorems DSepProofs OrientSafe ShdTheorems OrientTheorems OrientProofs3 PCSpec EssentialSpec RecoverPipe OrientProofs.
Local Open Scope nat_scope.

Theorem pc_dag_compelled : forall n g ind tst gmax size sch depth doms, dag n g -> dsep_oracle ind n g -> decides tst ind n gmax -> 1 <= size <= gmax -> valid_sched sch ->
  (forall v, length (dag_parents n g v) < depth) -> length doms = n -> (exists x y, x < n /\ y < n /\ x <> y /\ ~ adjacent g x y) ->
  exists F, forall fuel, F <= fuel -> exists es A S, skeleton_search tst n depth fuel size sch = Ok (es, A, S) /\ forall coin, exists N, orient_skeleton fuel doms true coin es A S = Ok N /\
  netinv N /\ length (nt_nodes N) = n /\ (forall x y, adjacent (arcs_of N) x y <-> adjacent g x y) /\
  (forall x y, (forall h, dag n h -> markov_equivalent g h -> h x y = true) -> arcs_of N x y = true) /\
  (forall x y, adjacent g x y -> reversible n g x y \/ (forall h, dag n h -> markov_equivalent g h -> h x y = true) \/ (forall h, dag n h -> markov_equivalent g h -> h y x = true)).
Proof.
  intros n g ind tst gmax size sch depth doms Hdag Ho Hdec Hsz Hsch Hdeg Hd Hmiss. destruct (pc_core_coins n g ind tst gmax size sch depth doms Hdag Ho Hdec Hsz Hsch Hdeg Hd) as (F & HF).
  exists F. intros fuel Hf. destruct (HF fuel Hf) as (es & A & S & N0 & H1 & H2 & E & U & D & L & Hes & Hfn & HSk & Hlk & Hpat & Hfu & _ & HD & Hsound & Heither & _).
  exists es, A, S. split; [done|]. intros coin.
  assert (length E < edge_capacity n) as Hcap. { destruct Hmiss as (x & y & Hx & Hy & Hne & Hna). destruct (decide (length E < edge_capacity n)); [done|]. exfalso. apply Hna, Hlk, (complete_linked n E A HSk); [lia|done|done|done]. }
  destruct (left_theorem n E A (edge_capacity n) coin N0 U (D ++ L) fuel HSk Hpat Hcap Hfu) as (N & L2 & HN & HP & _).
  pose proof (proj1 (pattern_pat n E A N [] _ HSk) HP) as [Hp Hperm]. exists N. split; [by rewrite (H2 true)|]. split; [apply HP|]. split; [apply HP|].
  assert (forall x y, has_directed N x y \/ has_directed N y x <-> adjacent g x y) as HA.
  { intros x y. rewrite !(pat_directed _ _ _ _ _ _ Hp), <-Hlk, (linked_bare n E A x y HSk). cbn [app] in Hperm. rewrite <-Hperm. split.
    - intros Hxy. assert (x <> y) as Hne. { intros ->. pose proof (pat_acyclic _ _ _ _ Hp y) as Hac. apply Hac. apply tc_once. tauto. } split; [done|]. destruct Hxy as [H|H]; [by apply (elem_of_list_fmap_1 bare) in H|]. apply (elem_of_list_fmap_1 bare) in H. by rewrite bare_swap.
    - intros [Hne Hin]. apply elem_of_list_fmap in Hin as ([u v] & Heq & Hin). unfold bare in Heq. cbn in Heq. assert ((u = x /\ v = y) \/ (u = y /\ v = x)) as [[-> ->]|[-> ->]]; [|by left|by right]. injection Heq as Q1 Q2. lia. }
  assert (forall x y h, dag n h -> h x y = true -> h y x = true -> False) as Hasym. { intros x y h Hh H3 H4. destruct (dag_rank n h Hh) as (rk & Hrk). apply Hrk in H3, H4. lia. }
  assert (markov_equivalent g g) as Hrefl by (by split).
  assert (forall x y, adjacent g x y -> open_edge A (D ++ L) x y \/ (x, y) ∈ D ++ L \/ (y, x) ∈ D ++ L) as Hcases. { intros x y Ha. apply Hlk in Ha. destruct (decide ((x, y) ∈ D ++ L)); [by right; left|]. destruct (decide ((y, x) ∈ D ++ L)); [by right; right|]. by left. }
  assert (forall x y, open_edge A (D ++ L) x y -> open_edge A (D ++ L) y x) as Hosym. { intros x y (Hl & ? & ?). split_and!; [|done|done]. by apply Hlk, adjacent_sym, Hlk. }
  split_and!.
  - intros x y. rewrite <-HA. unfold adjacent. by rewrite !has_directed_arcs.
  - intros x y Hall. apply has_directed_arcs, (pat_directed _ _ _ _ x y Hp), elem_of_app. left. pose proof (Hall g Hdag Hrefl) as Hg. destruct (Hcases x y ltac:(by left)) as [Hop|[?|Hyx]]; [|done|]; exfalso.
    + destruct (Heither y x (Hosym _ _ Hop)) as (h & Hh & Heq & Hyx). by apply (Hasym x y h Hh); [apply Hall|].
    + apply (Hasym x y g Hdag Hg). by apply Hsound.
  - intros x y Ha. destruct (Hcases x y Ha) as [Hop|[H|H]]; [left; split; auto|right; left|right; right]; intros h; by apply Hsound.
Qed.
Theorem pc_dag_class : forall n g ind tst gmax size sch depth doms, dag n g -> dsep_oracle ind n g -> decides tst ind n gmax -> 1 <= size <= gmax -> valid_sched sch ->
  (forall v, length (dag_parents n g v) < depth) -> length doms = n -> (exists x y, x < n /\ y < n /\ x <> y /\ ~ adjacent g x y) ->
  exists F, forall fuel, F <= fuel -> exists es A S, skeleton_search tst n depth fuel size sch = Ok (es, A, S) /\ (reversible_cliques n g -> forall coin, exists N, orient_skeleton fuel doms true coin es A S = Ok N /\
  netinv N /\ length (nt_nodes N) = n /\ dag n (arcs_of N) /\ markov_equivalent g (arcs_of N)).
Proof.
  intros n g ind tst gmax size sch depth doms Hdag Ho Hdec Hsz Hsch Hdeg Hd Hmiss. destruct (pc_dag_compelled n g ind tst gmax size sch depth doms Hdag Ho Hdec Hsz Hsch Hdeg Hd Hmiss) as (F & HF). exists F. intros fuel Hf. destruct (HF fuel Hf) as (es & A & S & H1 & HF2).
  exists es, A, S. split; [done|]. intros Hcl coin. destruct (HF2 coin) as (N & H2 & HN & HL & HA & HC & HE). exists N. split; [done|]. split; [done|]. split; [done|]. assert (dag n (arcs_of N)) as HdN by (rewrite <-HL; by apply fresh_dag_dag). split; [done|]. assert (markov_equivalent g g) as Hrefl by (by split).
  assert (forall x y, arcs_of N x y = true -> arcs_of N y x = true -> False) as Hasym. { intros x y H3 H4. destruct (dag_rank n _ HdN) as (rk & Hrk). apply Hrk in H3, H4. lia. }
  assert (forall x y z, arcs_of N x y = true -> arcs_of N z y = true -> x <> z -> ~ adjacent g x z -> (forall h, dag n h -> markov_equivalent g h -> h x y = true) -> v_structure g x y z) as Hhalf.
  { intros x y z Hx Hz Hne Hna Hall. destruct (HE z y ltac:(apply HA; by left)) as [[(h & Hh & Heq & Hzy) _]|[Hz'|Hz']].
    - apply Heq. split_and!; [by split; [apply Hall|]|done|]. intros H. apply Hna. by apply (proj1 Heq).
    - split_and!; [split; [by apply Hall|by apply Hz']|done|done].
    - exfalso. apply (Hasym y z); [by apply HC|done]. }
  apply kept_equivalent.
  - intros x y. apply (HA x y).
  - intros x y z Hv. apply HC. intros h Hh Heq. apply Heq in Hv. apply Hv.
  - intros x y z ([Hx Hz] & Hne & Hna). assert (~ adjacent g x z) as Hna' by (intros H; by apply Hna, HA). destruct (HE x y ltac:(apply HA; by left)) as [Hr|[Hall|Hall]].
    + destruct (HE z y ltac:(apply HA; by left)) as [Hr'|[Hall|Hall]].
      * exfalso. apply Hna'. by apply (Hcl x y z).
      * assert (v_structure g z y x) as (M1 & M2 & M3). { apply Hhalf; done. } split_and!; [by destruct M1|done|done].
      * exfalso. apply (Hasym y z); [by apply HC|done].
    + by apply Hhalf.
    + exfalso. apply (Hasym y x); [by apply HC|done].
Qed.
