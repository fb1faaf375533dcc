(** Proofs about sets, parent configurations and edge edits (Node.cpp, Network.cpp). *)
From Verif Require Export KahnProofs.
From Coq Require Export Sorted.
Local Open Scope nat_scope.

(** ** Sets as increasing lists *)
Lemma elem_of_sins x y l : y ∈ sins x l <-> y = x \/ y ∈ l.
Proof.
  induction l as [|z l IH]; cbn [sins].
  - rewrite elem_of_list_singleton, elem_of_nil. tauto.
  - case_bool_decide; [|case_bool_decide as Hz]; rewrite ?elem_of_cons, ?IH; [tauto| |tauto]. naive_solver.
Qed.
Lemma elem_of_serase x y l : y ∈ serase x l <-> y ∈ l /\ y ≠ x.
Proof. unfold serase. rewrite elem_of_list_filter. tauto. Qed.
Lemma SSorted_Forall {A} (R : A -> A -> Prop) x l : StronglySorted R (x :: l) <-> Forall (R x) l /\ StronglySorted R l.
Proof. split; [intros H; inversion H; auto|intros [? ?]; by constructor]. Qed.
Lemma sins_sorted x l : StronglySorted lt l -> StronglySorted lt (sins x l).
Proof.
  induction l as [|z l IH]; intros Hs; cbn [sins]; [repeat constructor|].
  apply SSorted_Forall in Hs as [Hz Hs]. case_bool_decide; [|case_bool_decide].
  - constructor; [by constructor|]. constructor; [done|]. eapply Forall_impl; [exact Hz|]. cbn; lia.
  - by constructor.
  - constructor; [by apply IH|]. apply Forall_forall. intros y Hy. apply elem_of_sins in Hy as [->|Hy]; [lia|].
    rewrite Forall_forall in Hz. by apply Hz.
Qed.
Lemma serase_sorted x l : StronglySorted lt l -> StronglySorted lt (serase x l).
Proof.
  induction l as [|z l IH]; intros Hs; [done|]. apply SSorted_Forall in Hs as [Hz Hs]. unfold serase. rewrite filter_cons.
  case_decide; [|by apply IH]. constructor; [by apply IH|]. apply Forall_forall. intros y [_ Hy]%elem_of_list_filter.
  rewrite Forall_forall in Hz. by apply Hz.
Qed.
Lemma lt_sorted_NoDup l : StronglySorted lt l -> NoDup l.
Proof.
  induction 1 as [|x l Hs IH Hx]; constructor; [|done]. intros Hin. rewrite Forall_forall in Hx. apply Hx in Hin. lia.
Qed.
Lemma lt_sorted_ext l l' : StronglySorted lt l -> StronglySorted lt l' -> (forall x, x ∈ l <-> x ∈ l') -> l = l'.
Proof.
  revert l'; induction l as [|x l IH]; intros [|y l'] Hs Hs' Heq.
  - done.
  - exfalso. eapply not_elem_of_nil, Heq. left.
  - exfalso. eapply not_elem_of_nil, Heq. left.
  - apply SSorted_Forall in Hs as [Hx Hs], Hs' as [Hy Hs']. rewrite Forall_forall in Hx, Hy.
    assert (x = y) as ->.
    { assert (x ∈ y :: l') as H1 by (apply Heq; left). assert (y ∈ x :: l) as H2 by (apply Heq; left).
      apply elem_of_cons in H1 as [->|H1]; [done|]. apply elem_of_cons in H2 as [->|H2]; [done|].
      apply Hx in H2. apply Hy in H1. lia. }
    f_equal. apply IH; [done..|]. intros z. specialize (Heq z). rewrite !elem_of_cons in Heq. split; intros Hz.
    + destruct (proj1 Heq (or_intror Hz)) as [->|]; [|done]. apply Hx in Hz. lia.
    + destruct (proj2 Heq (or_intror Hz)) as [->|]; [|done]. apply Hy in Hz. lia.
Qed.
Lemma sins_present x l : StronglySorted lt l -> x ∈ l -> sins x l = l.
Proof.
  intros Hs Hx. apply lt_sorted_ext; [by apply sins_sorted|done|]. intros y. rewrite elem_of_sins. naive_solver.
Qed.
Lemma serase_sins x l : StronglySorted lt l -> x ∉ l -> serase x (sins x l) = l.
Proof.
  intros Hs Hx. apply lt_sorted_ext; [by apply serase_sorted, sins_sorted|done|]. intros y.
  rewrite elem_of_serase, elem_of_sins. split; [naive_solver|]. intros Hy. split; [by right|]. by intros ->.
Qed.
Lemma serase_absent x l : x ∉ l -> serase x l = l.
Proof.
  induction l as [|y l IH]; intros Hx; [done|]. apply not_elem_of_cons in Hx as [Hy Hx]. unfold serase. rewrite filter_cons.
  rewrite decide_True by done. f_equal. by apply IH.
Qed.

(** ** Parent configurations *)
Lemma elem_of_ccset_add c c' S : c' ∈ ccset_add c S <-> c' = c \/ c' ∈ S.
Proof.
  unfold ccset_add. case_bool_decide as H; [naive_solver|]. rewrite elem_of_app, elem_of_list_singleton. tauto.
Qed.
Lemma NoDup_ccset_add c S : NoDup S -> NoDup (ccset_add c S).
Proof.
  intros H. unfold ccset_add. case_bool_decide as Hc; [done|]. apply NoDup_app. split_and!; [done| |apply NoDup_singleton].
  intros x Hx ->%elem_of_list_singleton. done.
Qed.
Lemma fold_ccset (f : config -> config) (S acc : list config) :
  (forall c', c' ∈ foldl (fun acc c => ccset_add (f c) acc) acc S <-> c' ∈ acc \/ exists c, c ∈ S /\ c' = f c) /\
  (NoDup acc -> NoDup (foldl (fun acc c => ccset_add (f c) acc) acc S)).
Proof.
  revert acc; induction S as [|x S IH]; intros acc; cbn [foldl].
  - split; [|done]. intros c'. split; [by left|]. intros [?|(c & Hc & _)]; [done|by apply elem_of_nil in Hc].
  - destruct (IH (ccset_add (f x) acc)) as [H1 H2]. split; [|intros Ha; by apply H2, NoDup_ccset_add].
    intros c'. rewrite H1, elem_of_ccset_add. split.
    + intros [[->|?]|(c & Hc & ->)]; [right; exists x; split; [left|done]|by left|right; exists c; split; [by right|done]].
    + intros [?|(c & Hc & ->)]; [by left; right|]. apply elem_of_cons in Hc as [->|Hc]; [by left; left|right; eauto].
Qed.
Lemma fold2_ccset (f : nat -> config -> config) (S : list config) (is : list nat) acc :
  (forall c', c' ∈ foldl (fun acc i => foldl (fun acc c => ccset_add (f i c) acc) acc S) acc is
     <-> c' ∈ acc \/ exists i c, i ∈ is /\ c ∈ S /\ c' = f i c) /\
  (NoDup acc -> NoDup (foldl (fun acc i => foldl (fun acc c => ccset_add (f i c) acc) acc S) acc is)).
Proof.
  revert acc; induction is as [|i is IH]; intros acc; cbn [foldl].
  - split; [|done]. intros c'. split; [by left|]. intros [?|(i & c & Hi & _)]; [done|by apply elem_of_nil in Hi].
  - destruct (fold_ccset (f i) S acc) as [F1 F2].
    destruct (IH (foldl (fun acc c => ccset_add (f i c) acc) acc S)) as [H1 H2]. split; [|tauto].
    intros c'. rewrite H1, F1. split.
    + intros [[?|(c & Hc & ->)]|(j & c & Hj & Hc & ->)]; [by left| |].
      * right. exists i, c. split; [left|done].
      * right. exists j, c. split; [by right|done].
    + intros [?|(j & c & Hj & Hc & ->)]; [by left; left|]. apply elem_of_cons in Hj as [->|Hj].
      * left. right. eauto.
      * right. eauto.
Qed.
Lemma elem_of_add_combos p d S c' :
  c' ∈ add_parent_combos p d S <-> exists i c, i < d /\ c ∈ S /\ c' = cins (p, i) c.
Proof.
  unfold add_parent_combos. rewrite (proj1 (fold2_ccset (fun i c => cins (p, i) c) S (seq 0 d) [])).
  rewrite elem_of_nil. setoid_rewrite elem_of_seq. split.
  - intros [[]|(i & c & Hi & ?)]. exists i, c. split; [lia|done].
  - intros (i & c & Hi & ?). right. exists i, c. split; [lia|done].
Qed.
Lemma elem_of_remove_combos p d S c' :
  c' ∈ remove_parent_combos p d S <-> exists i c, i < d /\ c ∈ S /\ c' = cerase (p, i) c.
Proof.
  unfold remove_parent_combos. rewrite (proj1 (fold2_ccset (fun i c => cerase (p, i) c) S (seq 0 d) [])).
  rewrite elem_of_nil. setoid_rewrite elem_of_seq. split.
  - intros [[]|(i & c & Hi & ?)]. exists i, c. split; [lia|done].
  - intros (i & c & Hi & ?). right. exists i, c. split; [lia|done].
Qed.

Lemma cins_fst p i c : p ∉ fst <$> c -> fst <$> cins (p, i) c = sins p (fst <$> c).
Proof.
  induction c as [|[v x] c IH]; intros Hp; [done|]. cbn [fmap list_fmap fst] in Hp. apply not_elem_of_cons in Hp as [Hv Hp].
  cbn [cins fmap list_fmap fst sins]. unfold pair_lt. cbn [fst snd].
  destruct (decide (p < v)) as [Hlt|Hlt].
  - rewrite !bool_decide_true by (try done; by left). done.
  - rewrite bool_decide_false by lia. rewrite (bool_decide_false (p < v)) by done.
    rewrite (bool_decide_false ((p, i) = (v, x))) by congruence. rewrite (bool_decide_false (p = v)) by done.
    cbn. f_equal. by apply IH.
Qed.
Lemma elem_of_cins vx c w : w ∈ cins vx c <-> w = vx \/ w ∈ c.
Proof.
  induction c as [|z l IH]; cbn [cins].
  - rewrite elem_of_list_singleton, elem_of_nil. tauto.
  - case_bool_decide; [|case_bool_decide as Hz]; rewrite ?elem_of_cons, ?IH; [tauto| |tauto]. naive_solver.
Qed.
(** A configuration of [sins p ps] comes from one of [ps]. *)
Lemma cins_surj p ps c' :
  StronglySorted lt ps -> p ∉ ps -> fst <$> c' = sins p ps ->
  exists i c, c' = cins (p, i) c /\ fst <$> c = ps.
Proof.
  revert c'; induction ps as [|v ps IH]; intros c' Hs Hp Hc'.
  - cbn in Hc'. destruct c' as [|[w i] [|]]; try done. injection Hc' as ->. by exists i, [].
  - apply not_elem_of_cons in Hp as [Hv Hp]. cbn [sins] in Hc'. destruct (decide (p < v)) as [Hlt|Hlt].
    + rewrite bool_decide_true in Hc' by done. destruct c' as [|[w i] c]; [done|]. injection Hc' as -> Hc.
      exists i, c. split; [|done]. destruct c as [|[w x] c]; [done|]. injection Hc as -> Hc. cbn [cins].
      rewrite bool_decide_true; [done|]. by left.
    + rewrite !bool_decide_false in Hc' by done. destruct c' as [|[w x] c]; [done|]. injection Hc' as -> Hc.
      apply SSorted_Forall in Hs as [_ Hs]. destruct (IH c Hs Hp Hc) as (i & c0 & -> & Hc0).
      exists i, ((v, x) :: c0). split; [|cbn; by rewrite Hc0]. cbn [cins].
      rewrite bool_decide_false by (unfold pair_lt; cbn; lia).
      rewrite bool_decide_false; [done|]. congruence.
Qed.

Lemma add_parent_exact dom p nd :
  StronglySorted lt (nd_parents nd) -> combos_exact dom nd -> combos_exact dom (node_add_parent p (dom p) nd).
Proof.
  intros Hs [Hnd Hc]. unfold node_add_parent. case_bool_decide as Hp; [done|]. split; cbn [nd_combos nd_parents].
  - by apply (proj2 (fold2_ccset (fun i c => cins (p, i) c) _ _ _)), NoDup_nil_2.
  - intros c'. rewrite elem_of_add_combos. split.
    + intros (i & c & Hi & Hin & ->). apply Hc in Hin as [Hf Hv]. split.
      * rewrite cins_fst by (by rewrite Hf). by rewrite Hf.
      * rewrite Forall_forall in *. intros w Hw. apply elem_of_cins in Hw as [->|Hw]; [done|by apply Hv].
    + intros [Hf Hv]. destruct (cins_surj p (nd_parents nd) c' Hs Hp Hf) as (i & c & -> & Hfc).
      rewrite Forall_forall in Hv. exists i, c. split_and!; [|apply Hc; split; [done|]|done].
      * apply (Hv (p, i)). apply elem_of_cins. by left.
      * apply Forall_forall. intros w Hw. apply Hv, elem_of_cins. by right.
Qed.

(** Any sequence of AddParent calls on a fresh node. *)
Theorem add_parents_exact dom ps d :
  let nd := add_parents dom ps (new_node d) in
  combos_exact dom nd /\ StronglySorted lt (nd_parents nd) /\ (forall p, p ∈ nd_parents nd <-> p ∈ ps).
Proof.
  cbn zeta. unfold add_parents.
  assert (forall nd, combos_exact dom nd -> StronglySorted lt (nd_parents nd) ->
    let nd' := foldl (fun nd p => node_add_parent p (dom p) nd) nd ps in
    combos_exact dom nd' /\ StronglySorted lt (nd_parents nd') /\ (forall p, p ∈ nd_parents nd' <-> p ∈ ps \/ p ∈ nd_parents nd)) as H.
  { induction ps as [|p ps IH]; intros nd Hc Hs; cbn [foldl].
    - split_and!; [done..|]. intros p. rewrite elem_of_nil. tauto.
    - destruct (IH (node_add_parent p (dom p) nd)) as (H1 & H2 & H3).
      + by apply add_parent_exact.
      + unfold node_add_parent. case_bool_decide; [done|]. by apply sins_sorted.
      + split_and!; [done..|]. intros q. cbn zeta in *. rewrite H3, elem_of_cons. unfold node_add_parent.
        case_bool_decide as Hp; cbn [nd_parents]; [naive_solver|]. rewrite elem_of_sins. tauto. }
  destruct (H (new_node d)) as (H1 & H2 & H3).
  - split; [apply NoDup_singleton|]. intros c. cbn. rewrite elem_of_list_singleton. split.
    + intros ->. by split.
    + intros [Hf _]. by destruct c.
  - constructor.
  - split_and!; [done..|]. intros p. rewrite H3. cbn. rewrite elem_of_nil. tauto.
Qed.

(** Removal restores the configurations of the remaining parents only for parents with at
    most one value. *)
Lemma cerase_absent vx c : vx ∉ c -> cerase vx c = c.
Proof.
  induction c as [|y l IH]; intros Hx; [done|]. apply not_elem_of_cons in Hx as [Hy Hx]. unfold cerase. rewrite filter_cons.
  rewrite decide_True by done. f_equal. by apply IH.
Qed.
Lemma exists_config dom ps : (forall v, v ∈ ps -> 0 < dom v) -> is_config dom ps ((fun v => (v, 0)) <$> ps).
Proof.
  intros H. split; [rewrite <-list_fmap_compose; apply list_fmap_id|].
  apply Forall_forall. intros w Hw. apply elem_of_list_fmap in Hw as (v & -> & Hv). cbn. by apply H.
Qed.
Lemma cerase_fst p x c : (p, x) ∈ c -> NoDup (fst <$> c) -> fst <$> cerase (p, x) c = serase p (fst <$> c).
Proof.
  induction c as [|[v y] c IH]; intros Hin Hnd; [by apply elem_of_nil in Hin|].
  cbn in Hnd. apply NoDup_cons in Hnd as [Hv Hnd]. unfold cerase, serase. cbn [fmap list_fmap fst]. rewrite !filter_cons. cbn [fst].
  apply elem_of_cons in Hin as [[= <- <-]|Hin].
  - rewrite decide_False by (intros H; by apply H). rewrite decide_False by (intros H; by apply H).
    fold (cerase (p, x) c). rewrite cerase_absent; [symmetry; by apply serase_absent|].
    intros H. apply Hv. apply elem_of_list_fmap. by exists (p, x).
  - assert (v ≠ p). { intros ->. apply Hv. apply elem_of_list_fmap. by exists (p, x). }
    rewrite decide_True by congruence. rewrite decide_True by done. cbn. f_equal. by apply IH.
Qed.
Theorem remove_parent_exact_iff dom p nd nd' :
  StronglySorted lt (nd_parents nd) -> combos_exact dom nd -> p ∈ nd_parents nd ->
  (forall v, v ∈ nd_parents nd -> 0 < dom v) ->
  node_remove_parent p (dom p) nd = Ok nd' ->
  (combos_exact dom nd' <-> dom p = 1).
Proof.
  intros Hs [Hnd Hc] Hp Hpos. unfold node_remove_parent. rewrite bool_decide_true by done.
  destruct (vec_erase_first p (nd_pvec nd)) as [v|]; [|done]. cbn [mbind outcome_bind]. intros [= <-].
  pose proof (Hpos p Hp) as Hdp. pose proof (lt_sorted_NoDup _ Hs) as Hpn. split.
  - intros [_ Hex]. cbn [nd_combos nd_parents] in Hex. destruct (decide (dom p = 1)) as [|Hne]; [done|exfalso].
    set (c := (fun v => (v, 0)) <$> nd_parents nd).
    assert (is_config dom (nd_parents nd) c) as Hcc by (by apply exists_config).
    assert (c ∈ remove_parent_combos p (dom p) (nd_combos nd)) as Hin.
    { apply elem_of_remove_combos. exists 1, c. split_and!; [lia|by apply Hc|]. symmetry. apply cerase_absent.
      intros H. apply elem_of_list_fmap in H as (? & [=] & _). }
    apply Hex in Hin as [Hf _]. destruct Hcc as [Hf' _]. rewrite Hf' in Hf.
    rewrite Hf in Hp. apply elem_of_serase in Hp as [_ Hp]. done.
  - intros H1. split; cbn [nd_combos nd_parents].
    + by apply (proj2 (fold2_ccset (fun i c => cerase (p, i) c) _ _ _)), NoDup_nil_2.
    + intros c'. rewrite elem_of_remove_combos. split.
      * intros (i & c & Hi & Hin & ->). apply Hc in Hin as [Hf Hv]. assert (i = 0) as -> by lia.
        assert ((p, 0) ∈ c) as Hp0.
        { rewrite <-Hf in Hp. apply elem_of_list_fmap in Hp as ([q x] & Hq & Hqx). cbn in Hq. subst q.
          rewrite Forall_forall in Hv. pose proof (Hv _ Hqx) as Hx. cbn in Hx. by assert (x = 0) as -> by lia. }
        split; [rewrite cerase_fst by (try done; by rewrite Hf); by rewrite Hf|].
        apply Forall_forall. intros w [_ Hw]%elem_of_list_filter. rewrite Forall_forall in Hv. by apply Hv.
      * intros [Hf Hv]. exists 0, (cins (p, 0) c').
        assert (p ∉ fst <$> c') as Hpc by (rewrite Hf, elem_of_serase; tauto).
        assert (fst <$> cins (p, 0) c' = nd_parents nd) as Hfst.
        { rewrite cins_fst by done. rewrite Hf. apply lt_sorted_ext; [by apply sins_sorted, serase_sorted|done|].
          intros y. rewrite elem_of_sins, elem_of_serase. destruct (decide (y = p)) as [->|]; naive_solver. }
        split_and!; [lia| |].
        -- apply Hc. split; [done|].
           apply Forall_forall. intros w Hw. apply elem_of_cins in Hw as [->|Hw]; [cbn; lia|]. rewrite Forall_forall in Hv. by apply Hv.
        -- clear -Hpc. induction c' as [|[v x] c IH]; cbn [cins].
           { unfold cerase. rewrite filter_cons, decide_False by (intros H; by apply H). done. }
           cbn in Hpc. apply not_elem_of_cons in Hpc as [Hv Hpc].
           case_bool_decide.
           ++ unfold cerase. rewrite filter_cons, decide_False by (intros H'; by apply H'). fold (cerase (p, 0) ((v, x) :: c)).
              symmetry. apply cerase_absent. apply not_elem_of_cons. split; [congruence|]. intros Hin. apply Hpc, elem_of_list_fmap. by exists (p, 0).
           ++ rewrite bool_decide_false by congruence. unfold cerase. rewrite filter_cons, decide_True by congruence. f_equal. by apply IH.
Qed.
