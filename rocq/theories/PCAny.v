(** The skeleton search whatever the tests answer. *)
From Verif Require Import PCModel PCSpec OrientSpec OrientSafe UtilProofs NetProofs PCProofs PCProofs2 PCProofs3 PCProofs4.
Local Open Scope nat_scope.

Lemma mfor_preserves {I S} (P : S -> Prop) (l : list I) f s s' : (forall i s s', P s -> f i s = Ok s' -> P s') -> P s -> mfor l f s = Ok s' -> P s'.
Proof. intros Hf. revert s. induction l as [|i l IH]; intros s HP H; cbn [mfor] in H; [by injection H as <-|]. bind_in H E as s1. by eapply IH; [eapply Hf|]. Qed.
Section any.
Context (tst : nat -> nat -> list nat -> nat -> outcome ci_result).
Lemma testing_pair c g e r : testing tst c g e = Ok r -> pe_pair (fst r) = pe_pair e.
Proof.
  unfold testing. destruct (pe_cg e) as [cg|]; [|done]. intros H. bind_in H E1 as [cg' choices]. bind_in H E2 as c0. case_bool_decide; [by injection H as <-|]. bind_in H E3 as [zs i]. bind_in H E4 as res.
  destruct (ci_indep res); [|by injection H as <-]. bind_in H E5 as ch. bind_in H E6 as s. by injection H as <-.
Qed.
Lemma check_tests_pair c g e r : check_tests tst c g e = Ok r -> pe_pair (fst (fst r)) = pe_pair e.
Proof.
  unfold check_tests. intros H. bind_in H E as [e1 ind]. apply testing_pair in E. cbn [fst] in E. destruct ind; [injection H as <-; exact E|]. destruct (pe_finish e1) as [[]|]; [| |done]; [|injection H as <-; exact E]. case_bool_decide; injection H as <-; exact E.
Qed.
Lemma start_node_pair adj c p e e' : start_node adj c p e = Ok e' -> pe_pair e' = pe_pair e.
Proof. unfold start_node. intros H. bind_in H E as cg. by injection H as <-. Qed.
Lemma check_edge_pair adj c g e r : check_edge tst adj c g e = Ok r -> pe_pair (fst (fst r)) = pe_pair e.
Proof.
  unfold check_edge. assert (forall e r, (a2 ← find_adjacencies adj (pe_n2 e) (pe_n1 e); if bool_decide (c <= length a2) then e ← start_node a2 c PNode2 e; check_tests tst c g e else Ok (with_remove (with_adj e a2) false, false, None)) = Ok r -> pe_pair (fst (fst r)) = pe_pair e) as H2.
  { clear. intros e r H. bind_in H E as a2. case_bool_decide; [|by injection H as <-]. bind_in H E2 as e2. apply start_node_pair in E2. apply check_tests_pair in H. congruence. }
  cbv zeta. destruct (pe_process e); [|apply check_tests_pair|apply H2|apply check_tests_pair]. intros H. bind_in H E as a1. case_bool_decide; [|by apply H2]. bind_in H E2 as e2. apply start_node_pair in E2. apply check_tests_pair in H. congruence.
Qed.
Lemma vset_pairs (es : list pedge) i e e' es' : es !! i = Some e -> pe_pair e' = pe_pair e -> vset es i e' = Ok es' -> pe_pair <$> es' = pe_pair <$> es.
Proof. intros He Hp H. apply vset_inv in H as [_ ->]. rewrite list_fmap_insert, Hp. apply list_insert_id. by rewrite list_lookup_fmap, He. Qed.
Lemma vget_some {A} (l : list A) i x : vget l i = Ok x -> l !! i = Some x.
Proof. unfold vget. destruct (l !! i); [|done]. by intros [= ->]. Qed.
Lemma run_batch_pairs adj c g order batch es sep r : run_batch tst adj c g order batch es sep = Ok r -> pe_pair <$> (fst (fst r)) = pe_pair <$> es.
Proof.
  unfold run_batch. intros H. apply (mfor_preserves (fun st => pe_pair <$> fst (fst st) = pe_pair <$> es)) in H; [done| |done].
  intros p [[es1 sep1] push] st' HI Hs. cbn [fst] in HI. bind_in Hs E1 as id. bind_in Hs E2 as e. bind_in Hs E3 as [[e' b] ins]. bind_in Hs E4 as es2. bind_in Hs E5 as push2. injection Hs as <-. cbn [fst]. rewrite <-HI.
  apply vget_some in E2. apply check_edge_pair in E3. cbn [fst] in E3. by eapply vset_pairs.
Qed.
Lemma batches_pairs fuel adj c g sch t stack es sep r : batches tst fuel adj c g sch t stack es sep = Ok r -> pe_pair <$> (fst r) = pe_pair <$> es.
Proof.
  revert t stack es sep. induction fuel as [|fuel IH]; intros t stack es sep; destruct stack as [|i stack]; cbn [batches]; try done; try (by intros [= <-]).
  intros H. bind_in H E as [[es1 sep1] push]. apply run_batch_pairs in E. cbn [fst] in E. apply IH in H. congruence.
Qed.
Lemma level_zero_pairs order es sep r : level_zero tst order es sep = Ok r -> pe_pair <$> (fst r) = pe_pair <$> es.
Proof.
  unfold level_zero. intros H. apply (mfor_preserves (fun st => pe_pair <$> fst st = pe_pair <$> es)) in H; [done| |done].
  intros p [es1 sep1] st' HI Hs. cbn [fst] in HI. bind_in Hs E2 as e. bind_in Hs E3 as res. destruct (ci_indep res); [|by injection Hs as <-]. bind_in Hs E4 as es2. injection Hs as <-. cbn [fst]. rewrite <-HI.
  apply vget_some in E2. eapply (vset_pairs _ _ e); [exact E2| |exact E4]. done.
Qed.
(** The remaining edges and the lists of neighbours belong together. *)
Definition consistent (n : nat) (es : list pedge) (adj : adjs) : Prop :=
  NoDup (pe_pair <$> es) /\ (forall p, p ∈ pe_pair <$> es -> fst p < snd p /\ snd p < n) /\ adj = adj_of n (pe_pair <$> es).
Lemma remove_marked_consistent n es adj r : consistent n es adj -> remove_marked es adj = Ok r -> consistent n (fst r) (snd r).
Proof.
  intros (Hnd & Hb & ->) H. rewrite remove_marked_ok in H; [|done|intros e He; apply (Hb (pe_pair e)); by apply elem_of_list_fmap_1]. injection H as <-. cbn [fst snd].
  set (w := fun p => if bool_decide (p ∈ pe_pair <$> filter (fun e => pe_remove e = true) es) then Some ([] : list nat) else None).
  destruct (marked_filter w es (pe_pair <$> es) Hnd eq_refl) as [H1 H2].
  { intros i e p He Hp. rewrite list_lookup_fmap, He in Hp. injection Hp as <-. unfold w. destruct (pe_remove e) eqn:Hr.
    - rewrite (bool_decide_true (pe_pair e ∈ _)); [by rewrite bool_decide_true|]. apply elem_of_list_fmap_1, elem_of_list_filter. split; [done|]. by eapply elem_of_list_lookup_2.
    - rewrite (bool_decide_false (pe_pair e ∈ _)); [rewrite bool_decide_false; [done|by intros [? ?]]|]. intros Hin. apply elem_of_list_fmap in Hin as (e2 & Heq & He2). apply elem_of_list_filter in He2 as [Hr2 He2]. apply elem_of_list_lookup in He2 as [j Hj].
      assert (i = j) as <-; [|congruence]. eapply (NoDup_lookup (pe_pair <$> es)); [done|rewrite list_lookup_fmap, He; reflexivity|rewrite list_lookup_fmap, Hj, Heq; reflexivity]. }
  split; [|split].
  - rewrite H1. by apply NoDup_filter.
  - intros p Hp. rewrite H1 in Hp. apply elem_of_list_filter in Hp as [_ Hp]. by apply Hb.
  - by rewrite H1, H2.
Qed.
Lemma consistent_pairs n es es' adj : pe_pair <$> es' = pe_pair <$> es -> consistent n es adj -> consistent n es' adj.
Proof. intros E (H1 & H2 & H3). split; [by rewrite E|]. split; [by rewrite E|by rewrite E]. Qed.
Lemma search_consistent n fuel c g sch es adj sep r : consistent n es adj -> search_at_depth tst fuel c g sch es adj sep = Ok r -> consistent n (fst (fst (fst r))) (snd (fst (fst r))).
Proof.
  intros HC H. unfold search_at_depth in H. bind_in H E as [es1 sep1]. apply batches_pairs in E. cbn [fst] in E. bind_in H E2 as [es2 adj2]. injection H as <-. cbn [fst snd].
  change es2 with (fst (es2, adj2)). change adj2 with (snd (es2, adj2)) at 2. eapply remove_marked_consistent; [|exact E2]. eapply consistent_pairs; [|exact HC]. rewrite E, <-list_fmap_compose. by apply list_fmap_ext.
Qed.
Lemma levels_consistent n ds fuel g sch es adj sep r : consistent n es adj -> levels tst ds fuel g sch es adj sep = Ok r -> consistent n (fst (fst r)) (snd (fst r)).
Proof.
  revert es adj sep. induction ds as [|d ds IH]; intros es adj sep HC H; cbn [levels] in H; [by injection H as <-|]. bind_in H E as [[[es1 adj1] sep1] more]. apply (search_consistent n) in E; [|done]. cbn [fst snd] in E. destruct more; [by eapply IH|by injection H as <-].
Qed.
Theorem search_any n depth fuel g sch es A S : skeleton_search tst n depth fuel g sch = Ok (es, A, S) -> skeleton_of n (pe_pair <$> es) A.
Proof.
  unfold skeleton_search. destruct (start_ok n) as (l & -> & Hcol & Hnd & Hin). cbn [mbind outcome_bind]. rewrite Hcol. cbn [mbind outcome_bind].
  assert ((fun i => serase i (seq 0 n)) <$> seq 0 n = adj_of n (start_pairs n)) as ->.
  { unfold adj_of. apply list_fmap_ext'. intros x Hx. apply elem_of_seq in Hx. apply lt_sorted_ext; [apply serase_sorted, seq_sorted|apply nb_sorted|]. intros v. rewrite elem_of_serase, elem_of_nb, elem_of_seq, !Hin. lia. }
  intros H. bind_in H E1 as [es1 sep1]. apply level_zero_pairs in E1. cbn [fst] in E1. bind_in H E2 as [es2 adj2].
  assert (pe_pair <$> (new_pedge <$> start_pairs n) = start_pairs n) as Hnew. { rewrite <-list_fmap_compose. rewrite <-(list_fmap_id (start_pairs n)) at 2. apply list_fmap_ext. by intros i [x y] _. }
  assert (consistent n es1 (adj_of n (start_pairs n))) as C1. { rewrite Hnew in E1. split; [by rewrite E1|]. rewrite E1. split; [|done]. intros [x y] Hp. by apply Hin. }
  apply (remove_marked_consistent _ _ _ _ C1) in E2. cbn [fst snd] in E2. apply (levels_consistent n) in H as (H1 & H2 & H3); [|done]. cbn [fst snd] in *. subst A. split; [done|]. split; [intros x y Hxy; by apply H2 in Hxy|]. split; [apply adj_of_length|]. split.
  - intros x row Hx. assert (x < n) as Hxn by (apply lookup_lt_Some in Hx; by rewrite adj_of_length in Hx). rewrite adj_of_lookup in Hx by done. injection Hx as <-. apply nb_sorted.
  - intros x y. split.
    + intros (row & Hx & Hy). assert (x < n) as Hxn by (apply lookup_lt_Some in Hx; by rewrite adj_of_length in Hx). rewrite adj_of_lookup in Hx by done. injection Hx as <-. apply elem_of_nb in Hy as [_ Hy]. exact Hy.
    + intros Hp. assert (x < n /\ y < n) as [Hx Hy]. { destruct Hp as [Hp|Hp]; apply H2 in Hp; cbn in Hp; lia. } exists (nb n (pe_pair <$> es) x). split; [by apply adj_of_lookup|]. by apply elem_of_nb.
Qed.
End any.
