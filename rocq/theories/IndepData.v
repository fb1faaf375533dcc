(** Separated variables are independent in representative data. *)
From Coq Require Import Field QArith.
From Verif Require Import IndepSpec GSquareSpec IndepProofs IndepTheorems NetProofs2 CountProofs QueryProofs Sums LearnProofs LearnTheorems LikelihoodProofs RecoverProofs RecoverTheorems RecoverClose TableProofs2 TableProofs.
Local Open Scope nat_scope.

Lemma matching_occurrences D vs a : CellSpec.matching D vs (a <$> vs) = occurrences (co_cols D) (co_rows D) vs a.
Proof.
  unfold CellSpec.matching, occurrences. f_equal. apply list_filter_iff. intros j. unfold row_values, agrees. rewrite mapM_Some. induction vs as [|v vs IH]; [by split; intros; constructor|].
  rewrite fmap_cons, Forall2_cons, Forall_cons. by rewrite IH.
Qed.
Lemma qn_inj a b : qn a = qn b -> a = b.
Proof. intros H%CountProofs.qz_inj. lia. Qed.
Lemma zip_values vs cs : NoDup vs -> length cs = length vs -> set_evidence (zip vs cs) (fun _ => 0) <$> vs = cs.
Proof.
  revert cs. induction vs as [|v vs IH]; intros [|c cs] Hdup Hl; try done. apply NoDup_cons in Hdup as [Hv Hdup]. cbn [zip zip_with]. rewrite fmap_cons. f_equal.
  - cbn. by rewrite upd_same.
  - rewrite <-(IH cs Hdup) at 2 by (cbn in Hl; lia). apply list_fmap_ext. intros i w Hw. cbn. rewrite upd_other; [done|]. intros ->. apply Hv. by eapply elem_of_list_lookup_2.
Qed.
Section data.
Context (N : network) (HN : netinv N) (Hd : doms_positive N) (ts : list ptable) (Hts : distributions N ts) (D : columns) (HD : complete N D) (Hsize : co_vars D = net_size N) (HR : representative N ts D).
Notation dom := (net_dom N).
Notation n := (net_size N).
Set Default Proof Using "All".
Lemma occurrences_beyond vs a v : v ∈ vs -> ~ a v < dom v -> occurrences (co_cols D) (co_rows D) vs a = 0.
Proof.
  intros Hv Ha. unfold occurrences. destruct (filter _ _) as [|j l] eqn:E; [done|]. exfalso. assert (j ∈ j :: l) as Hj by left. rewrite <-E in Hj. apply elem_of_list_filter in Hj as [Hag _]. unfold agrees in Hag. rewrite Forall_forall in Hag. specialize (Hag v Hv). unfold entry in Hag. destruct (co_cols D !! v) as [col|] eqn:Hc; [|done]. cbn in Hag.
  destruct HD as (_ & _ & H). destruct (H v col Hc) as [_ HF]. rewrite Forall_forall in HF. apply Ha, HF. by eapply elem_of_list_lookup_2.
Qed.
Lemma fraction_product l1 l2 l3 l4 a : (fraction D l1 a * fraction D l2 a = fraction D l3 a * fraction D l4 a)%Qc <->
  occurrences (co_cols D) (co_rows D) l1 a * occurrences (co_cols D) (co_rows D) l2 a = occurrences (co_cols D) (co_rows D) l3 a * occurrences (co_cols D) (co_rows D) l4 a.
Proof.
  unfold fraction. assert (qn (co_rows D) <> 0)%Qc as Hm. { destruct HR as [H _]. intros E. apply (qn_inj _ 0) in E. lia. }
  set (o := occurrences (co_cols D) (co_rows D)). split.
  - intros H. apply qn_inj. rewrite !qn_mul. transitivity (qn (o l1 a) / qn (co_rows D) * (qn (o l2 a) / qn (co_rows D)) * (qn (co_rows D) * qn (co_rows D)))%Qc; [field; done|]. rewrite H. field. done.
  - intros H. transitivity (qn (o l1 a * o l2 a) / (qn (co_rows D) * qn (co_rows D)))%Qc; [rewrite qn_mul; field; done|]. rewrite H, qn_mul. field. done.
Qed.
Lemma occurrences_set l1 l2 a : (forall v, v ∈ l1 <-> v ∈ l2) -> occurrences (co_cols D) (co_rows D) l1 a = occurrences (co_cols D) (co_rows D) l2 a.
Proof. intros H. unfold occurrences. f_equal. apply list_filter_iff. intros j. unfold agrees. rewrite !Forall_forall. by setoid_rewrite H. Qed.
Lemma counts_independent x y zs : x < n -> y < n -> Forall (fun v => v < n) zs -> NoDup (zs ++ [x; y]) -> cond_indep D x y zs <-> independent N ts x [y] zs.
Proof.
  intros Hx Hy Hzs Hdup. rewrite Forall_forall in Hzs.
  assert (forall a, matching D (zs ++ [x; y]) ((a <$> zs) ++ [a x; a y]) = occurrences (co_cols D) (co_rows D) (x :: [y] ++ zs) a) as M1. { intros a. change [a x; a y] with (a <$> [x; y]). rewrite <-fmap_app, matching_occurrences. apply occurrences_set. intros v. rewrite !elem_of_app, !elem_of_cons, !elem_of_app, !elem_of_cons, elem_of_nil. naive_solver. }
  assert (forall a, matching D (zs ++ [x]) ((a <$> zs) ++ [a x]) = occurrences (co_cols D) (co_rows D) (x :: zs) a) as M2. { intros a. change [a x] with (a <$> [x]). rewrite <-fmap_app, matching_occurrences. apply occurrences_set. intros v. rewrite !elem_of_app, !elem_of_cons, elem_of_nil. naive_solver. }
  assert (forall a, matching D (zs ++ [y]) ((a <$> zs) ++ [a y]) = occurrences (co_cols D) (co_rows D) ([y] ++ zs) a) as M3. { intros a. change [a y] with (a <$> [y]). rewrite <-fmap_app, matching_occurrences. apply occurrences_set. intros v. rewrite !elem_of_app, !elem_of_cons, elem_of_nil. naive_solver. }
  assert (forall a, valid dom a -> (chance N ts (x :: [y] ++ zs) a * chance N ts zs a)%Qc = (chance N ts (x :: zs) a * chance N ts ([y] ++ zs) a)%Qc <->
    occurrences (co_cols D) (co_rows D) (x :: [y] ++ zs) a * occurrences (co_cols D) (co_rows D) zs a = occurrences (co_cols D) (co_rows D) (x :: zs) a * occurrences (co_cols D) (co_rows D) ([y] ++ zs) a) as HC.
  { intros a Ha. rewrite <-!(representative_chance N HN Hd D HD Hsize ts _ a HR); [apply fraction_product|..]; try done; intros v; cbn [app]; rewrite ?elem_of_cons; naive_solver. }
  split.
  - intros H a Ha. apply HC; [done|]. specialize (H (a <$> zs) (a x) (a y) ltac:(by rewrite fmap_length)). rewrite M1, M2, M3, matching_occurrences in H. done.
  - intros H z c d Hz. set (f := set_evidence (zip (zs ++ [x; y]) (z ++ [c; d])) (fun _ => 0)). pose proof (zip_values (zs ++ [x; y]) (z ++ [c; d]) Hdup ltac:(rewrite !app_length, Hz; done)) as Hf. fold f in Hf. rewrite fmap_app in Hf. apply app_inj_1 in Hf as [Hf1 Hf2]; [|by rewrite fmap_length]. injection Hf2 as Hc Hdd. rewrite <-Hf1, <-Hc, <-Hdd. rewrite M1, M2, M3, matching_occurrences.
    destruct (decide (Forall (fun v => f v < dom v) (zs ++ [x; y]))) as [HV|HV].
    + apply HC; [|apply H]; intros v; (destruct (decide (v ∈ zs ++ [x; y])) as [Hv|Hv]; [rewrite Forall_forall in HV; by apply HV|]); unfold f; (rewrite set_evidence_other; [apply (LearnProofs.dpos N HN Hd)|]); rewrite fst_zip; [done| |done|]; rewrite !app_length, Hz; done.
    + apply not_Forall_Exists in HV; [|apply _]. apply Exists_exists in HV as (v & Hv & Hnv). cbn in Hnv. apply elem_of_app in Hv as [Hv|[->|[->|[]%elem_of_nil]%elem_of_cons]%elem_of_cons].
      * rewrite (occurrences_beyond zs f v), (occurrences_beyond (x :: zs) f v) by (done || by right). lia.
      * rewrite (occurrences_beyond (x :: [y] ++ zs) f x), (occurrences_beyond (x :: zs) f x) by (done || by left). lia.
      * rewrite (occurrences_beyond (x :: [y] ++ zs) f y), (occurrences_beyond ([y] ++ zs) f y) by (done || set_solver). lia.
Qed.
Lemma complete_tabulated : tabulated D (domain_sizes N).
Proof.
  destruct HD as (H1 & _ & H3). split; [unfold domain_sizes; rewrite fmap_length, H1, Hsize; done|]. intros v col d Hv Hdv. destruct (H3 v col Hv) as [H4 H5]. split; [done|].
  unfold net_dom, dom_of in H5. rewrite Hdv in H5. exact H5.
Qed.
Theorem separated_data x y zs : x < n -> y < n -> Forall (fun v => v < n) zs -> NoDup (zs ++ [x; y]) -> ~ d_connected (arcs_of N) x y zs -> cond_indep D x y zs.
Proof.
  intros Hx Hy Hzs Hdup Hsep. apply counts_independent; try done. intros a Ha. apply NoDup_app in Hdup as (_ & Hd1 & Hd2). rewrite Forall_forall in Hzs. apply (markov N HN Hd ts Hts); try done.
  - intros v [->%elem_of_list_singleton|Hv]%elem_of_app; [done|by apply Hzs].
  - intros ->%elem_of_list_singleton. apply NoDup_cons in Hd2 as [H _]. apply H. left.
  - intros H. apply (Hd1 x H). left.
  - intros v ->%elem_of_list_singleton H. apply (Hd1 y H). right. left.
  - by intros v ->%elem_of_list_singleton.
Qed.
Theorem faithful_data : faithful N ts -> data_faithful D n (arcs_of N).
Proof.
  intros HF x y s Hxy Hy Hxs Hys Hs Hb. assert (NoDup (s ++ [x; y])) as Hdup.
  { apply NoDup_app. split_and!.
    - by apply NetProofs.lt_sorted_NoDup.
    - intros v Hv [->|[->|[]%elem_of_nil]%elem_of_cons]%elem_of_cons; done.
    - apply NoDup_cons. split; [|apply NoDup_singleton]. intros ->%elem_of_list_singleton. lia. }
  split; [|intros H; apply separated_data; try done; lia]. intros H Hc. apply (HF x y s); try done; [lia| |apply counts_independent; try done; lia]. apply NoDup_app in Hdup as (H1 & _ & H3). apply NoDup_cons in H3 as [H3 _]. apply NoDup_cons. split; [intros [->|Hxs']%elem_of_cons; [lia|done]|]. by apply NoDup_cons.
Qed.
End data.
