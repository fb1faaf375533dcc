From Verif Require Import DataProofs CSVTheorems SVMTheorems DataSpec UtilProofs.
Local Open Scope nat_scope.

Lemma evidence_elem q (row : rowv) v x :
  (v, x) ∈ (fun jp => snd jp) <$> filter (fun jp => fst jp <> q) (zip (seq 0 (length row)) row) <-> exists j, j <> q /\ row !! j = Some (v, x).
Proof.
  rewrite elem_of_list_fmap. split.
  - intros ([j p] & Hp & Hin). cbn in Hp. subst p. apply elem_of_list_filter in Hin as [Hj Hin]. cbn in Hj.
    apply elem_of_list_lookup in Hin as [k Hk]. apply lookup_zip_with_Some in Hk as (a & b & [= -> ->] & Ha & Hb).
    apply lookup_seq in Ha as [-> _]. exists k. done.
  - intros (j & Hj & Hr). exists (j, (v, x)). split; [done|]. apply elem_of_list_filter. split; [done|].
    apply elem_of_list_lookup. exists j. apply lookup_zip_with_Some. exists j, (v, x). split_and!; try done.
    rewrite lookup_seq_lt; [done|]. by eapply lookup_lt_Some.
Qed.
Theorem evidence_right q (row : rowv) g :
  NoDup (fst <$> row) -> row !! q = Some (q, g) ->
  exists e, evidence_of q row = Ok (e, g) /\ right_evidence q row e g.
Proof.
  intros Hnd Hq. unfold evidence_of. unfold vat. rewrite Hq. cbn [mbind outcome_bind snd]. eexists. split; [done|]. split.
  - intros v x. rewrite evidence_elem. split.
    + intros (j & Hj & Hr). split; [by eapply elem_of_list_lookup_2|]. intros ->. apply Hj. eapply NoDup_lookup; [exact Hnd| |].
      * by rewrite list_lookup_fmap, Hr.
      * by rewrite list_lookup_fmap, Hq.
    + intros [Hin Hv]. apply elem_of_list_lookup in Hin as [j Hj]. exists j. split; [|done]. intros ->. rewrite Hq in Hj. injection Hj as -> _. done.
  - by eapply elem_of_list_lookup_2.
Qed.
Theorem evidence_iff q (row : rowv) e g :
  NoDup (fst <$> row) -> evidence_of q row = Ok (e, g) -> right_evidence q row e g <-> exists g', row !! q = Some (q, g').
Proof.
  intros Hnd He. split.
  - intros [H1 H2]. unfold evidence_of in He. apply bind_ok in He as ([v y] & Hv & He). injection He as He _.
    assert (row !! q = Some (v, y)) as Hq. { unfold vat in Hv. destruct (row !! q) eqn:E; [by injection Hv as ->|discriminate Hv]. }
    destruct (decide (v = q)) as [->|Hne]; [by exists y|]. exfalso.
    assert ((v, y) ∈ e) as Hin by (apply H1; split; [by eapply elem_of_list_lookup_2|done]).
    rewrite <-He in Hin. apply evidence_elem in Hin as (j & Hj & Hr). apply Hj. eapply NoDup_lookup; [exact Hnd| |].
    + by rewrite list_lookup_fmap, Hr.
    + by rewrite list_lookup_fmap, Hq.
  - intros [g' Hq]. destruct (evidence_right q row g' Hnd Hq) as (e' & He' & Hr). rewrite He in He'. by injection He' as -> ->.
Qed.
Theorem evidence_short q (row : rowv) : length row <= q -> evidence_of q row = Err Thrown.
Proof. intros H. unfold evidence_of, vat. rewrite (lookup_ge_None_2 row q) by done. done. Qed.

(** Rows of a CSV test file: the variables up to the class variable are all known. *)
Lemma sorted_NoDup (l : list nat) : StronglySorted lt l -> NoDup l.
Proof.
  induction 1 as [|x l H IH Hx]; [constructor|]. apply NoDup_cons. split; [|done]. intros Hin. rewrite Forall_forall in Hx. apply Hx in Hin. lia.
Qed.
Lemma sorted_prefix (l : list nat) q : StronglySorted lt l -> (forall i, i <= q -> i ∈ l) -> l !! q = Some q.
Proof.
  assert (forall l k q, StronglySorted lt l -> (forall x, x ∈ l -> k <= x) -> (forall i, k <= i <= q -> i ∈ l) -> k <= q -> l !! (q - k) = Some q) as H.
  { clear. induction l as [|x l IH]; intros k q Hs Hk Hi Hq.
    - exfalso. by apply (elem_of_nil q), Hi.
    - inversion Hs as [|?? Hs' Hx]; subst. rewrite Forall_forall in Hx. assert (x = k) as ->.
      { assert (k ∈ x :: l) as [->|Hin]%elem_of_cons by (apply Hi; lia); [done|]. apply Hx in Hin. assert (k <= x) by (apply Hk; left). lia. }
      destruct (decide (q = k)) as [->|Hne]; [by rewrite Nat.sub_diag|].
      replace (q - k) with (S (q - S k)) by lia. cbn. apply IH; [done| | |lia].
      + intros y Hy. apply Hx in Hy. lia.
      + intros i Hik. assert (i ∈ k :: l) as [->|Hin]%elem_of_cons by (apply Hi; lia); [lia|done]. }
  intros Hs Hi. specialize (H l 0 q Hs). rewrite Nat.sub_0_r in H. apply H; [lia| |lia]. intros i [_ Hiq]. by apply Hi.
Qed.
Theorem evidence_csv q ds cells row :
  codes_known ds cells row -> q < length cells ->
  (forall i c, i <= q -> cells !! i = Some c -> c <> [] /\ exists d, ds !! i = Some d /\ c ∈ d) ->
  exists e g, evidence_of q row = Ok (e, g) /\ right_evidence q row e g.
Proof.
  intros [Hs Hc] Hq Hk. assert ((fst <$> row) !! q = Some q) as Hqq.
  { apply sorted_prefix; [done|]. intros i Hi. destruct (lookup_lt_is_Some_2 cells i) as [c Hci]; [lia|].
    destruct (Hk i c Hi Hci) as (Hne & d & Hd & Hin). apply elem_of_list_lookup in Hin as [v Hv].
    apply elem_of_list_fmap. exists (i, Z.of_nat v). split; [done|]. apply Hc. by exists c, d, v. }
  rewrite list_lookup_fmap in Hqq. apply fmap_Some in Hqq as ([q' g] & Hrow & Hq'). cbn in Hq'. subst q'.
  destruct (evidence_right q row g) as (e & He & Hr); [by apply sorted_NoDup|done|]. by exists e, g.
Qed.
Theorem evidence_positions q (row : rowv) : q < length row -> (forall v i x, row !! i = Some (v, x) -> v = i) ->
  exists e g, evidence_of q row = Ok (e, g) /\ right_evidence q row e g.
Proof.
  intros Hq Hp. destruct (lookup_lt_is_Some_2 row q Hq) as [[v g] Hv]. pose proof (Hp _ _ _ Hv) as ->.
  assert (fst <$> row = seq 0 (length row)) as Hf.
  { apply list_eq. intros i. rewrite list_lookup_fmap. destruct (row !! i) as [[v x]|] eqn:E.
    - pose proof (Hp _ _ _ E) as ->. rewrite lookup_seq_lt; [done|]. by eapply lookup_lt_Some.
    - rewrite lookup_ge_None_2; [done|]. rewrite seq_length. by apply lookup_ge_None_1. }
  destruct (evidence_right q row g) as (e & He & Hr); [rewrite Hf; apply NoDup_seq|done|]. by exists e, g.
Qed.

(** Rows of a LIBSVM test file. *)
Lemma mfor_partial {I S} (P : S -> Prop) (l : list I) (body : I -> S -> outcome S) s s' :
  P s -> (forall i s0 s1, P s0 -> body i s0 = Ok s1 -> P s1) -> mfor l body s = Ok s' -> P s'.
Proof.
  intros H0 Hstep. revert s H0. induction l as [|i l IH]; intros s H0 H; cbn in H; [by injection H as <-|].
  apply bind_ok in H as (s1 & H1 & H2). eapply IH; [|exact H2]. by eapply Hstep.
Qed.
Definition positioned (n : nat) (row : rowv) : Prop := length row = n /\ forall i v x, row !! i = Some (v, x) -> v = i.
Lemma positioned_set n row i x row' : positioned n row -> vset row i (i, x) = Ok row' -> positioned n row'.
Proof.
  intros [Hl Hp] H. apply vset_inv in H as [Hi ->]. split; [by rewrite insert_length|]. intros k v y Hk.
  destruct (decide (i = k)) as [->|Hne].
  - rewrite list_lookup_insert in Hk by done. by injection Hk as <- _.
  - rewrite list_lookup_insert_ne in Hk by done. by eapply Hp.
Qed.
Lemma svm_test_line_positioned n cls s row : svm_test_line n cls s = Ok row -> positioned n row.
Proof.
  unfold svm_test_line. intros H. apply bind_ok in H as (t & _ & H). apply bind_ok in H as (ps & _ & H). apply bind_ok in H as (l & _ & H).
  apply bind_ok in H as (v & _ & H). apply bind_ok in H as (row0 & H0 & H). eapply mfor_partial; [| |exact H].
  - eapply positioned_set; [|exact H0]. split; [by rewrite fmap_length, seq_length|]. intros i w x Hi. rewrite list_lookup_fmap in Hi.
    apply fmap_Some in Hi as (k & Hk & [= -> ->]). apply lookup_seq in Hk as [-> _]. done.
  - intros f r r' Hr Hb. apply bind_ok in Hb as (p & _ & Hb). apply bind_ok in Hb as (a & _ & Hb). apply bind_ok in Hb as (i & _ & Hb).
    case_bool_decide; [by injection Hb as <-|]. apply bind_ok in Hb as (b & _ & Hb). apply bind_ok in Hb as (w & _ & Hb).
    case_bool_decide; [discriminate Hb|]. by eapply positioned_set.
Qed.
Theorem svm_rows_positioned n cls text rows : load_svm_testing n cls text = Ok rows -> forall row, row ∈ rows -> positioned n row.
Proof.
  unfold load_svm_testing. generalize (S (length text)) as fuel. intros fuel H.
  assert (forall fuel text acc rows, (forall row, row ∈ acc -> positioned n row) -> svm_test_loop fuel n cls text acc = Ok rows ->
    forall row, row ∈ rows -> positioned n row) as Hgen.
  { clear. induction fuel as [|fuel IH]; intros text acc rows Ha H; [done|]. cbn [svm_test_loop] in H.
    destruct (getline text) as [[[line rest] ok] eof]. destruct eof; [by injection H as <-|]. apply bind_ok in H as (row & Hr & H).
    eapply IH; [|exact H]. intros r [Hin|Hin%elem_of_list_singleton]%elem_of_app; [by apply Ha|]. subst r. by eapply svm_test_line_positioned. }
  eapply Hgen; [|exact H]. by intros row Hrow%elem_of_nil.
Qed.
Theorem evidence_svm n cls text rows row :
  load_svm_testing n cls text = Ok rows -> cls < n -> row ∈ rows -> exists e g, evidence_of cls row = Ok (e, g) /\ right_evidence cls row e g.
Proof.
  intros H Hc Hr. destruct (svm_rows_positioned _ _ _ _ H row Hr) as [Hl Hp]. apply evidence_positions; [lia|]. intros v i x Hi. by eapply Hp.
Qed.
