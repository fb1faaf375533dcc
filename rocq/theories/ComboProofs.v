(** Parent configurations after adding directed edges to a network. *)
From Verif Require Import GraphWitness.
Local Open Scope nat_scope.

Definition combos_ok (doms : list nat) (N : network) : Prop :=
  forall i nd, nt_nodes N !! i = Some nd -> doms !! i = Some (nd_dom nd) /\ combos_exact (fun v => default 0 (doms !! v)) nd.
Lemma set_parent_child_combos doms N p c N' :
  netinv N -> combos_ok doms N -> set_parent_child N p c = Ok N' -> combos_ok doms N'.
Proof.
  intros HI H. unfold set_parent_child. destruct (nt_nodes N !! p) as [ndp|] eqn:Hp; [|unfold find_node; by rewrite Hp]. rewrite (find_node_ok _ _ _ Hp). cbn [mbind outcome_bind].
  set (N1 := set_nodes N (<[p:=node_add_child c ndp]> (nt_nodes N))).
  assert (combos_ok doms N1 /\ forall i nd, nt_nodes N1 !! i = Some nd -> StronglySorted lt (nd_parents nd)) as [H1 Hs1].
  { split; intros i nd; cbn; intros [(<- & <- & Hi)|(Hne & Hi)]%list_lookup_insert_Some.
    - destruct (H _ _ Hp) as [Hd Hc]. done.
    - by apply H.
    - apply (ni_parents _ HI _ _ Hp).
    - apply (ni_parents _ HI _ _ Hi). }
  destruct (nt_nodes N1 !! c) as [ndc|] eqn:Hc; [|unfold find_node; by rewrite Hc]. rewrite (find_node_ok _ _ _ Hc). cbn [mbind outcome_bind]. intros [= <-].
  intros i nd. cbn [set_nodes nt_nodes]. intros [(<- & <- & Hi)|(Hne & Hi)]%list_lookup_insert_Some; [|by apply H1].
  destruct (H1 _ _ Hc) as [Hd Hx]. split.
  - unfold node_add_parent. by case_bool_decide.
  - destruct (H _ _ Hp) as [Hdp _]. replace (nd_dom ndp) with (default 0 (doms !! p)) by (by rewrite Hdp). apply add_parent_exact; [by eapply Hs1|done].
Qed.
Lemma add_edges_run doms es N done0 :
  (forall p c, (p, c) ∈ es -> p < length doms /\ c < length doms) ->
  acyclic (fun x y => (x, y) ∈ done0 ++ es) ->
  netinv N -> length (nt_nodes N) = length doms -> combos_ok doms N -> (forall x y, has_directed N x y <-> (x, y) ∈ done0) ->
  exists N', run N ((fun e => AddD e.1 e.2) <$> es) = Ok N' /\ netinv N' /\ length (nt_nodes N') = length doms /\ combos_ok doms N' /\ (forall x y, has_directed N' x y <-> (x, y) ∈ done0 ++ es).
Proof.
  revert N done0. induction es as [|[p c] es IH]; intros N done0 Hr Hac HI Hl HC Hd.
  - exists N. rewrite app_nil_r. done.
  - destruct (Hr p c) as [Hp Hc]; [left|]. unfold run. rewrite fmap_cons. cbn [mfor exec fst snd].
    destruct (add_directed_edge_spec N p c HI) as (N' & b & Hadd & HI' & Hl' & _ & _ & Hb & Hyes & _); [lia..|].
    assert (b = true) as ->.
    { apply Hb. intros Hcyc. assert (forall x y, tc (has_directed N) x y -> tc (fun x y => (x, y) ∈ done0 ++ (p, c) :: es) x y) as Hmono.
      { intros x y Hxy. induction Hxy as [x y Hxy|x y z Hxy _ IHt]; [apply tc_once|eapply tc_l; [|exact IHt]]; apply elem_of_app; left; by apply Hd. }
      apply (Hac p). assert ((p, c) ∈ done0 ++ (p, c) :: es) as Hin by (apply elem_of_app; right; left). destruct Hcyc as [->|Hcyc]; [by apply tc_once|]. eapply tc_l; [exact Hin|]. by apply Hmono. }
    rewrite Hadd. cbn [fmap outcome_fmap fst mbind outcome_bind]. specialize (Hyes eq_refl).
    destruct (IH N' (done0 ++ [(p, c)])) as (N2 & Hrun & H1 & H2 & H3 & H4).
    + intros p1 c1 Hin1. apply Hr. by right.
    + by rewrite <-app_assoc.
    + done.
    + lia.
    + unfold add_directed_edge in Hadd. destruct (find_node N p); [|done]. destruct (find_node N c); [|done]. cbn [mbind outcome_bind] in Hadd.
      destruct (set_parent_child N p c) as [N1|] eqn:Hs; [|done]. cbn [mbind outcome_bind] in Hadd. destruct (contain_circle N1) as [[]|]; cbn [mbind outcome_bind] in Hadd; [by destruct (remove_parent_child N1 p c)| |done].
      injection Hadd as <-. pose proof (set_parent_child_combos doms N p c N1 HI HC Hs) as Hok. exact Hok.
    + intros x y. rewrite elem_of_app, elem_of_list_singleton, <-Hd. unfold has_directed. rewrite Hyes. setoid_rewrite elem_of_app. setoid_rewrite elem_of_list_singleton. split.
      * intros (e & [He| ->] & Hx); [left; by exists e|]. right. cbn in Hx. destruct Hx as (-> & -> & _). done.
      * intros [(e & He & Hx)|[= -> ->]]; [exists e; auto|]. exists (directed_edge p c). split_and!; try done. by right.
    + exists N2. split_and!; try done. by rewrite <-app_assoc in H4.
Qed.
(** Any additions that close no cycle: the parents are those of the edges and the configurations those of the parents. *)
Theorem network_combos doms es :
  (forall p c, (p, c) ∈ es -> p < length doms /\ c < length doms) -> acyclic (fun p c => (p, c) ∈ es) ->
  exists N, run (new_network doms) ((fun e => AddD e.1 e.2) <$> es) = Ok N /\ length (nt_nodes N) = length doms /\
  forall v nd, nt_nodes N !! v = Some nd -> combos_exact (fun w => default 0 (doms !! w)) nd /\ forall p, p ∈ nd_parents nd <-> (p, v) ∈ es.
Proof.
  intros Hr Hac. destruct (new_network_inv doms) as [HI _]. destruct (add_edges_run doms es (new_network doms) [] Hr Hac HI) as (N & HN & HI' & Hl & HC & Hd).
  - cbn. by rewrite fmap_length.
  - intros i nd. cbn. intros (d & Hi & ->)%list_lookup_fmap_Some. split; [exact Hi|]. split; [apply NoDup_singleton|]. intros c. cbn. rewrite elem_of_list_singleton. split; [by intros ->|]. intros [Hf _]. by destruct c.
  - intros x y. split; [|by intros ?%elem_of_nil]. intros (e & He%elem_of_nil & _). done.
  - exists N. split_and!; [done..|]. intros v nd Hv. split; [by apply (HC v)|]. intros p. rewrite <-(Hd p v : _ <-> (p, v) ∈ es). rewrite (proj2 (ni_consistent _ HI' p v)). unfold parent_rel. split; [eauto|]. intros (nd' & Hv' & Hp). congruence.
Qed.
(** A refused addition leaves incomplete configurations behind. *)
Theorem refused_combos : exists N, run (new_network [2;2]) [AddD 0 1; AddD 1 0] = Ok N /\ exists nd, nt_nodes N !! 0 = Some nd /\ nd_parents nd = [] /\ ~ combos_exact (fun _ => 2) nd.
Proof.
  eexists. split; [vm_compute; reflexivity|]. eexists. split; [vm_compute; reflexivity|]. split; [done|]. intros [_ H]. specialize (H [(1, 1)]). cbn in H. destruct H as [H _]. specialize (H ltac:(right; left)). destruct H as [H _]. done.
Qed.
Lemma network_combos_witness :
  ((forall p c, (p, c) ∈ [(0, 2); (1, 2)] -> p < 3 /\ c < 3) /\ acyclic (fun p c => (p, c) ∈ [(0, 2); (1, 2)])) /\
  exists N nd, run (new_network [2;3;2]) [AddD 0 2; AddD 1 2] = Ok N /\ nt_nodes N !! 2 = Some nd /\ length (nd_combos nd) = 6.
Proof.
  assert (forall p c, (p, c) ∈ [(0, 2); (1, 2)] -> p < 2 /\ c = 2) as H.
  { intros p c [[= -> ->]|[[= -> ->]|Hn%elem_of_nil]%elem_of_cons]%elem_of_cons; [lia..|done]. }
  split; [split|].
  - intros p c Hpc%H. lia.
  - assert (forall x y, tc (fun p c => (p, c) ∈ [(0, 2); (1, 2)]) x y -> x < 2 /\ y = 2) as Ht.
    { intros x y Hxy. induction Hxy as [x y Hxy%H|x y z Hxy%H _ IHt]; lia. }
    intros x Hx%Ht. lia.
  - eexists _, _. split; [vm_compute; reflexivity|]. split; [vm_compute; reflexivity|]. reflexivity.
Qed.
