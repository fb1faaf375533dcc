(** From data to answers: structure learning with the G-square test, parameter learning and the junction tree. *)
From Coq Require Import Field QArith Reals Lra.
From Verif Require Import ExtendSpec ExtendTheorems ExtendPipe GSquareSpec GSquareProofs2 GSquareTheorems SaveWitness CellSpec GibbsProofs IndepSpec IndepData IndepLearn DSepTheorems OrientSafe ShdTheorems RecoverSpec RecoverTheorems RecoverClose EssentialSpec EquivTheorems PCSpec LearnSpec TableProofs.
Local Open Scope nat_scope.

Lemma tabulated_complete N D : complete N D -> co_vars D = net_size N -> tabulated D (domain_sizes N).
Proof.
  intros (H1 & _ & H3) Hs. split; [unfold domain_sizes; rewrite fmap_length, H1, Hs; done|]. intros v col d Hv Hdv. destruct (H3 v col Hv) as [H4 H5]. split; [done|].
  unfold net_dom, dom_of in H5. rewrite Hdv in H5. exact H5.
Qed.
Lemma copies_complete N D k p : complete N D -> co_vars D = net_size N -> each_row k (co_rows D) p -> complete N (pick_rows p D).
Proof.
  intros HD Hs Hp. pose proof (pick_tabulated k p D (domain_sizes N) ltac:(by apply tabulated_complete) Hp) as [_ HT]. destruct HD as (C1 & C2 & C3). split_and!; [cbn [pick_rows co_cols co_vars]; by rewrite fmap_length|done|].
  intros v col Hv. assert (v < net_size N) as Hvn. { apply lookup_lt_Some in Hv. cbn [pick_rows co_cols] in Hv. rewrite fmap_length in Hv. lia. }
  destruct (lookup_lt_is_Some_2 (domain_sizes N) v) as [d Hdv]; [unfold domain_sizes; by rewrite fmap_length|]. destruct (HT v col d Hv Hdv) as [H1 H2]. split; [done|]. assert (net_dom N v = d) as ->; [|done]. unfold net_dom, dom_of. by rewrite Hdv.
Qed.
Lemma copies_representative N ts D k p : 0 < k -> complete N D -> co_vars D = net_size N -> each_row k (co_rows D) p -> representative N ts D -> representative N ts (pick_rows p D).
Proof.
  intros Hk HD Hs Hp [HR1 HR2]. assert (co_rows (pick_rows p D) = k * co_rows D) as Hrows.
  { cbn [pick_rows co_rows]. unfold each_row in Hp. rewrite Hp. clear. induction k as [|k IH]; [done|]. cbn [replicate concat]. rewrite app_length, seq_length, IH. lia. }
  split; [rewrite Hrows; nia|]. intros a Ha. rewrite <-(HR2 a Ha). unfold fraction. rewrite <-!matching_occurrences, Hrows, (each_row_matching k p D (domain_sizes N) _ _ ltac:(by apply tabulated_complete) Hp).
  assert (forall a b, qn (a * b) = qn a * qn b)%Qc as Hm by (intros; apply qn_mul). rewrite !Hm. assert (qn k <> 0)%Qc by (apply qn_ne; lia). assert (qn (co_rows D) <> 0)%Qc by (apply qn_ne; lia). by field.
Qed.
Theorem learned_answers N : netinv N -> doms_positive N -> reversible_cliques (net_size N) (arcs_of N) -> (exists x y, x < net_size N /\ y < net_size N /\ x <> y /\ ~ adjacent (arcs_of N) x y) ->
  forall ts D, distributions N ts -> (forall a, valid (net_dom N) a -> joint ts a <> 0%Qc) -> faithful N ts -> complete N D -> co_vars D = net_size N -> representative N ts D ->
  forall F alpha size psch depth, chi_square_like F -> (0 < alpha < 1)%R -> size = 1 \/ 1 <= size <= 8 /\ (alpha < 1 - F 0 0%nat)%R -> valid_sched psch -> (forall v, length (parents_of N v) < depth) ->
  exists K, forall k p, K <= k -> each_row k (co_rows D) p -> forall pcoin,
  exists fuel0, forall fuel, fuel0 <= fuel -> exists es A S M, skeleton_search (gsquare_test F alpha (pick_rows p D) (domain_sizes N)) (net_size N) depth fuel size psch = Ok (es, A, S) /\ orient_skeleton fuel (domain_sizes N) true pcoin es A S = Ok M /\
  markov_equivalent (arcs_of N) (arcs_of M) /\ forall coin, exists ts2, learn_params M (pick_rows p D) 0 coin [] = Ok ts2 /\
    (forall a, valid (net_dom N) a -> joint ts2 a = joint ts a) /\
    (weakly_connected N -> forall o, valid_order o -> exists T, jt_build o M ts2 = Ok T /\
       forall sch E, valid_scheduler sch -> evidence_in_range N E -> evidence_weight N ts E <> 0%Qc -> query_probs sch T E (jt_backup T) = Ok (jt_backup T, answer_all N ts E)).
Proof.
  intros HN Hd Hcl Hmiss ts D Hts Hpos Hf HD Hs HR F alpha size psch depth HF Ha Hsz Hsch Hdep. assert (length (domain_sizes N) = net_size N) as HL by (unfold domain_sizes; apply fmap_length).
  assert (tabulated D (domain_sizes N)) as HT by (by apply tabulated_complete). destruct (eventually_oracle F alpha D (domain_sizes N) (arcs_of N) HT) as [K HK]; rewrite ?HL; try done; [by apply fresh_dag_dag|by eapply faithful_data|].
  exists (S K). intros k p Hk Hp pcoin. destruct (HK k p ltac:(lia) Hp) as (ind & Hind & He). pose proof (pick_tabulated k p D _ HT Hp) as HD'. destruct (test_decides F alpha (pick_rows p D) (domain_sizes N) size HD' ltac:(lra)) as (gmax & Hgm & Hdec); [tauto|].
  rewrite HL in *. apply (clique_pipeline N HN Hd Hcl ind _ gmax size psch depth pcoin); try done; [by eapply decides_ext|lia|by eapply copies_complete|apply (copies_representative N ts D k p); [lia|done..]].
Qed.
