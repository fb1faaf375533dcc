(** The averages that are printed in inference mode with a reference file. *)
From Coq Require Import Field QArith.
From Verif Require Import EvalModel EvalSpec EvalProofs FlowProofs BuildProofs JTTheorems UtilProofs TableProofs.
Local Open Scope nat_scope.

Lemma Qc_sqr_nonneg (x : Qc) : (0 <= x * x)%Qc.
Proof.
  destruct (Qclt_le_dec x 0) as [H|H].
  - assert (0 <= - x)%Qc as H'. { apply Qclt_le_weak in H. apply Qcopp_le_compat in H. exact H. }
    replace (x * x)%Qc with ((- x) * (- x))%Qc by ring. pose proof (Qcmult_le_compat_r 0 (- x) (- x) H' H') as Hm. by rewrite Qcmult_0_l in Hm.
  - pose proof (Qcmult_le_compat_r 0 x x H H) as Hm. by rewrite Qcmult_0_l in Hm.
Qed.
Lemma qround_nonneg x : (0 <= x)%Qc -> (0 <= qround x 7)%Qc.
Proof.
  intros Hx. destruct (qround_spec x 7 Hx) as (z & Hz & Hlo & _). assert (0 < UtilModel.qz (10 ^ Z.of_nat 7))%Qc as Hp by (by apply (UtilProofs.qz_lt 0)).
  assert (0 <= z)%Z as Hz0.
  { destruct (Z.le_gt_cases 0 z) as [|Hneg]; [done|]. exfalso. assert (UtilModel.qz z <= UtilModel.qz (-1))%Qc as H1 by (apply UtilProofs.qz_le; lia).
    assert (0 <= x * UtilModel.qz (10 ^ Z.of_nat 7))%Qc as H2. { pose proof (Qcmult_le_compat_r 0 x _ Hx (Qclt_le_weak _ _ Hp)) as Hm. by rewrite Qcmult_0_l in Hm. }
    assert (0 - 1 / UtilModel.qz 2 < UtilModel.qz (-1))%Qc as H3. { eapply Qcle_lt_trans; [|eapply Qclt_le_trans; [exact Hlo|exact H1]]. unfold Qcminus. apply Qcplus_le_compat; [exact H2|apply Qcle_refl]. }
    revert H3. apply Qcle_not_lt. apply (bool_decide_unpack _). vm_compute. exact I. }
  assert (qround x 7 = UtilModel.qz z / UtilModel.qz (10 ^ Z.of_nat 7))%Qc as ->. { rewrite <-Hz. generalize dependent (UtilModel.qz (10 ^ Z.of_nat 7)). intros q Hlo Hp. intros. unfold Qcdiv. rewrite <-Qcmult_assoc, Qcmult_inv_r; [ring|]. intros ->. by apply Qclt_not_eq in Hp. }
  apply Qc_div_nonneg; [by apply (UtilProofs.qz_le 0)|by apply Qclt_le_weak].
Qed.
Section evaluate.
Context (sq : Qc -> Qc) (stod : str -> outcome Qc) (N : network) (HN : net_ok N) (Hn : 0 < net_size N) (o : mem_order) (Ho : valid_order o) (pts : list ptable)
  (Hf : Forall (table_of_family N) pts) (Hnn : Forall (nonneg (net_dom N)) pts) (T : jtree) (HT : jt_build o N pts = Ok T).
Set Default Proof Using "All".
Lemma tree_doms : jt_doms T = domain_sizes N.
Proof. exact (us_doms _ _ _ (built_usable N HN Hn o Ho pts Hf Hnn T HT)). Qed.
Definition row_errors (E : list (nat * nat)) (ref : nat -> nat -> Qc) : Qc * Qc :=
  (root_mean_square sq (fun x => x) (compared N pts E ref), root_mean_square sq sq (compared N pts E ref)).

Definition row_step (sch : nat -> scheduler) (every : nat) (tables : list (list Qc)) (iE : nat * list (nat * nat)) (acc : tabs * (Qc * Qc)) : outcome (tabs * (Qc * Qc)) :=
  _ ← imod (S (fst iE)) every;
  r ← query_probs (sch (fst iE)) T (snd iE) (fst acc);
  exact ← vget tables (fst iE);
  m ← calculate_mse sq (snd r) exact;
  h ← calculate_hd sq (snd r) exact;
  Ok (fst r, (fst (snd acc) + m, snd (snd acc) + h)%Qc).
Lemma row_step_ok sch every tables i E ref acc : valid_scheduler (sch i) -> every <> 0 -> evidence_in_range N E -> evidence_weight N pts E <> 0%Qc -> tables !! i = Some (ref_row N E ref) ->
  row_step sch every tables (i, E) (jt_backup T, acc) = if bool_decide (compared N pts E ref = []) then Err DivZero else Ok (jt_backup T, (fst acc + fst (row_errors E ref), snd acc + snd (row_errors E ref))%Qc).
Proof.
  intros Hs Hev HE Hw Ht. unfold row_step. cbn [fst snd]. assert (exists y, imod (S i) every = Ok y) as [y ->] by (unfold imod; rewrite bool_decide_false by done; by eexists). cbn [mbind outcome_bind].
  rewrite (exact_probs N HN Hn o Ho pts Hf Hnn T HT (sch i) E Hs HE Hw). cbn [mbind outcome_bind fst snd]. rewrite (vget_ok _ _ _ Ht). cbn [mbind outcome_bind].
  rewrite (calculate_mse_ok sq N pts E ref (no_doms _ HN)), (calculate_hd_ok sq N pts E ref (no_doms _ HN)). case_bool_decide; done.
Qed.
Lemma rows_ok sch every Es refs : (forall i, valid_scheduler (sch i)) -> every <> 0 -> length refs = length Es -> Forall (fun E => evidence_in_range N E /\ evidence_weight N pts E <> 0%Qc) Es ->
  (forall i E ref, Es !! i = Some E -> refs !! i = Some ref -> compared N pts E ref <> []) ->
  forall k pre acc, k = length pre -> mfor (zip (seq k (length Es)) Es) (row_step sch every (pre ++ zip_with (ref_row N) Es refs)) (jt_backup T, acc) =
    Ok (jt_backup T, (fst acc + qsum (zip_with row_errors Es refs) fst, snd acc + qsum (zip_with row_errors Es refs) snd)%Qc).
Proof.
  intros Hs Hev Hl HE. revert refs Hl. induction HE as [|E Es [HE Hw] HEs IH]; intros [|ref refs] Hl Hne k pre acc Hk; try done.
  - cbn. destruct acc. f_equal. f_equal. f_equal; cbn; ring.
  - cbn [length seq zip zip_with mfor]. rewrite (row_step_ok sch every _ k E ref acc (Hs k) Hev HE Hw) by (rewrite lookup_app_r, Hk, Nat.sub_diag by lia; done).
    rewrite bool_decide_false by (by apply (Hne 0)). cbn [mbind outcome_bind].
    specialize (IH refs ltac:(by injection Hl) ltac:(intros i E1 ref1; apply (Hne (S i))) (S k) (pre ++ [ref_row N E ref]) (fst acc + fst (row_errors E ref), snd acc + snd (row_errors E ref))%Qc ltac:(rewrite app_length; cbn; lia)).
    rewrite <-app_assoc in IH. cbn [app] in IH. rewrite IH. cbn [fst snd]. rewrite !qsum_cons. f_equal. f_equal. f_equal; ring.
Qed.
Lemma rows_bad sch every Es refs j E0 ref0 : (forall i, valid_scheduler (sch i)) -> every <> 0 -> length refs = length Es -> Forall (fun E => evidence_in_range N E /\ evidence_weight N pts E <> 0%Qc) Es ->
  Es !! j = Some E0 -> refs !! j = Some ref0 -> compared N pts E0 ref0 = [] ->
  forall k pre acc, k = length pre -> mfor (zip (seq k (length Es)) Es) (row_step sch every (pre ++ zip_with (ref_row N) Es refs)) (jt_backup T, acc) = Err DivZero.
Proof.
  intros Hs Hev Hl HE. revert refs j Hl. induction HE as [|E Es [HE Hw] HEs IH]; intros [|ref refs] j Hl Hj Hj' Hc k pre acc Hk; try done.
  cbn [length seq zip zip_with mfor]. rewrite (row_step_ok sch every _ k E ref acc (Hs k) Hev HE Hw) by (rewrite lookup_app_r, Hk, Nat.sub_diag by lia; done).
  case_bool_decide as He; [done|]. cbn [mbind outcome_bind]. destruct j as [|j]; [cbn in Hj, Hj'; congruence|].
  specialize (IH refs j ltac:(by injection Hl) Hj Hj' Hc (S k) (pre ++ [ref_row N E ref]) (fst acc + fst (row_errors E ref), snd acc + snd (row_errors E ref))%Qc ltac:(rewrite app_length; cbn; lia)).
  rewrite <-app_assoc in IH. cbn [app] in IH. by rewrite IH.
Qed.
Lemma every_pos (Es : list (list (nat * nat))) : 20 <= length Es -> length Es / 20 <> 0.
Proof using. intros Hl. clear -Hl. assert (0 < length Es / 20) by (apply Nat.div_str_pos; lia). lia. Qed.
Definition errors_of (Es : list (list (nat * nat))) (refs : list (nat -> nat -> Qc)) (f : Qc -> Qc) : list Qc :=
  zip_with (fun E ref => root_mean_square sq f (compared N pts E ref)) Es refs.
Lemma average_of Es refs f g : (forall E ref, g (row_errors E ref) = root_mean_square sq f (compared N pts E ref)) -> length refs = length Es ->
  (qsum (zip_with row_errors Es refs) g / LearnModel.qz (Z.of_nat (length Es)))%Qc = average (errors_of Es refs f).
Proof using N pts sq.
  intros H Hl. unfold average. f_equal.
  - unfold errors_of. clear Hl. revert refs. induction Es as [|E Es IH]; intros [|ref refs]; try done. cbn [zip_with]. rewrite !qsum_cons, H. by rewrite (IH refs).
  - f_equal. unfold errors_of. rewrite zip_with_length. f_equal. f_equal. clear -Hl. lia.
Qed.
Theorem evaluate_ok sch Es refs text : (forall i, valid_scheduler (sch i)) -> 20 <= length Es -> Forall (fun E => evidence_in_range N E /\ evidence_weight N pts E <> 0%Qc) Es ->
  is_reference stod N Es refs text -> (forall i E ref, Es !! i = Some E -> refs !! i = Some ref -> compared N pts E ref <> []) ->
  evaluate_errors sq stod sch T text Es = Ok (average (errors_of Es refs (fun x => x)), average (errors_of Es refs sq)).
Proof.
  intros Hs Hl HE Href Hne. unfold evaluate_errors. rewrite tree_doms, (load_reference_ok sq stod N Es refs text (no_doms _ HN) Href). cbn [mbind outcome_bind].
  unfold predict_errors. pose proof (rows_ok sch _ Es refs Hs (every_pos Es Hl) (proj1 Href) HE Hne 0 [] (0, 0)%Qc eq_refl) as Hrows. cbn [app] in Hrows. unfold row_step in Hrows. cbv zeta. rewrite Hrows. cbn [mbind outcome_bind fst snd].
  rewrite bool_decide_false by lia. f_equal. rewrite !Qcplus_0_l. f_equal; (apply average_of; [done|apply Href]).
Qed.
Theorem evaluate_bad sch Es refs text : (forall i, valid_scheduler (sch i)) -> Forall (fun E => evidence_in_range N E /\ evidence_weight N pts E <> 0%Qc) Es ->
  is_reference stod N Es refs text -> length Es < 20 \/ (exists i E ref, Es !! i = Some E /\ refs !! i = Some ref /\ compared N pts E ref = []) ->
  evaluate_errors sq stod sch T text Es = Err DivZero.
Proof.
  intros Hs HE Href Hbad. unfold evaluate_errors. rewrite tree_doms, (load_reference_ok sq stod N Es refs text (no_doms _ HN) Href). cbn [mbind outcome_bind].
  destruct (decide (length Es < 20)) as [Hl|Hl].
  - unfold predict_errors. rewrite (Nat.div_small _ _ Hl). destruct Es as [|E Es]; done.
  - destruct Hbad as [?|(i & E & ref & Hi & Hi' & Hc)]; [lia|]. unfold predict_errors.
    pose proof (rows_bad sch _ Es refs i E ref Hs (every_pos Es ltac:(lia)) (proj1 Href) HE Hi Hi' Hc 0 [] (0, 0)%Qc eq_refl) as Hrows. cbn [app] in Hrows. unfold row_step in Hrows. cbv zeta. by rewrite Hrows.
Qed.

(** ** When the errors are zero *)
Lemma rms_zero f (l : list (Qc * Qc)) : root_like sq -> l <> [] -> (forall p, p ∈ l -> f p.1 = f p.2 -> p.1 = p.2) ->
  (0 <= root_mean_square sq f l)%Qc /\ (root_mean_square sq f l = 0%Qc <-> Forall (fun p => p.1 = p.2) l).
Proof using N pts sq.
  intros (R1 & R2 & R3 & _) Hne Hinj. unfold root_mean_square. set (s := qsum l _). assert (0 <= s)%Qc as Hs by (apply qsum_nonneg; intros x _; apply Qc_sqr_nonneg).
  assert (0 < LearnModel.qz (Z.of_nat (length l)))%Qc as Hz. { destruct l; [done|]. apply (UtilProofs.qz_lt 0). cbn [length]. clear. lia. }
  assert (0 <= s / LearnModel.qz (Z.of_nat (length l)))%Qc as Hq by (apply Qc_div_nonneg; [done|by apply Qclt_le_weak]).
  split; [by apply R1|]. split.
  - intros H%R2; [|done]. assert (s = 0)%Qc as Hs0. { transitivity (s / LearnModel.qz (Z.of_nat (length l)) * LearnModel.qz (Z.of_nat (length l)))%Qc; [field; intros Hz0; rewrite Hz0 in Hz; by apply Qclt_not_eq in Hz|]. rewrite H. ring. }
    apply Forall_forall. intros p Hp. apply Hinj; [done|]. pose proof (qsum_nonneg_zero l _ ltac:(intros x _; apply Qc_sqr_nonneg) Hs0 p Hp) as H0. cbv beta in H0. apply Qcmult_integral in H0. assert (f p.1 - f p.2 = 0)%Qc as Hd by tauto. transitivity (f p.1 - f p.2 + f p.2)%Qc; [ring|]. rewrite Hd. ring.
  - intros HF. replace s with 0%Qc. { unfold Qcdiv. rewrite Qcmult_0_l. exact R3. } symmetry. apply qsum_zero. intros p Hp. rewrite Forall_forall in HF. rewrite (HF p Hp). ring.
Qed.
Lemma average_zero (l : list Qc) : l <> [] -> (forall x, x ∈ l -> (0 <= x)%Qc) -> average l = 0%Qc <-> Forall (fun x => x = 0%Qc) l.
Proof using N pts sq.
  intros Hne Hp. unfold average. assert (0 < LearnModel.qz (Z.of_nat (length l)))%Qc as Hz. { destruct l; [done|]. apply (UtilProofs.qz_lt 0). cbn [length]. clear. lia. }
  split.
  - intros H. assert (qsum l (fun x => x) = 0)%Qc as Hs0. { transitivity (qsum l (fun x => x) / LearnModel.qz (Z.of_nat (length l)) * LearnModel.qz (Z.of_nat (length l)))%Qc; [field; intros Hz0; rewrite Hz0 in Hz; by apply Qclt_not_eq in Hz|]. rewrite H. ring. }
    apply Forall_forall. intros x Hx. by apply (qsum_nonneg_zero l (fun x => x)).
  - intros HF. rewrite qsum_zero; [unfold Qcdiv; ring|]. intros x Hx. rewrite Forall_forall in HF. by apply HF.
Qed.
Lemma elem_of_compared E ref p : p ∈ compared N pts E ref <-> exists v k, v < net_size N /\ v ∉ fst <$> E /\ k < net_dom N v /\ (0 < ref v k)%Qc /\ p = (qround (posterior N pts E v k) 7, ref v k).
Proof.
  unfold compared. rewrite elem_of_list_bind. setoid_rewrite elem_of_list_bind. setoid_rewrite elem_of_list_singleton. setoid_rewrite elem_of_list_filter. setoid_rewrite elem_of_seq. split.
  - intros (v & (k & -> & Hk & _ & Hd) & Hv & _ & Hn0). exists v, k. done.
  - intros (v & k & Hv & Ho0 & Hk & Hr & ->). exists v. split; [|split; [done|split; [lia|done]]]. exists k. split; [done|]. split; [done|]. split; [lia|done].
Qed.
Theorem evaluate_zero sch Es refs text : root_like sq -> (forall i, valid_scheduler (sch i)) -> 20 <= length Es -> Forall (fun E => evidence_in_range N E /\ evidence_weight N pts E <> 0%Qc) Es ->
  is_reference stod N Es refs text -> (forall i E ref, Es !! i = Some E -> refs !! i = Some ref -> compared N pts E ref <> []) ->
  exists m h, evaluate_errors sq stod sch T text Es = Ok (m, h) /\ (0 <= m)%Qc /\ (0 <= h)%Qc /\
    let agree := forall i E ref v k, Es !! i = Some E -> refs !! i = Some ref -> v < net_size N -> v ∉ fst <$> E -> k < net_dom N v -> (0 < ref v k)%Qc -> qround (posterior N pts E v k) 7 = ref v k in
    (m = 0%Qc <-> agree) /\ (h = 0%Qc <-> agree).
Proof.
  intros Hsq Hs Hl HE Href Hne. pose proof (evaluate_ok sch Es refs text Hs Hl HE Href Hne) as Heq. eexists _, _. split; [exact Heq|]. clear Heq.
  assert (forall f, (forall p, (0 <= p.1)%Qc -> (0 <= p.2)%Qc -> f p.1 = f p.2 -> p.1 = p.2) ->
    (0 <= average (errors_of Es refs f))%Qc /\ (average (errors_of Es refs f) = 0%Qc <-> forall i E ref v k, Es !! i = Some E -> refs !! i = Some ref -> v < net_size N -> v ∉ fst <$> E -> k < net_dom N v -> (0 < ref v k)%Qc -> qround (posterior N pts E v k) 7 = ref v k)) as Hgen.
  { intros f Hinj. destruct Href as [Hrl _]. assert (forall i E ref, Es !! i = Some E -> refs !! i = Some ref -> (0 <= root_mean_square sq f (compared N pts E ref))%Qc /\ (root_mean_square sq f (compared N pts E ref) = 0%Qc <-> Forall (fun p => p.1 = p.2) (compared N pts E ref))) as Hrow.
    { intros i E ref Hi Hi'. apply rms_zero; [done|by eapply Hne|]. intros p (v & k & Hv & Hv' & Hk & Hr & ->)%elem_of_compared. apply Hinj; [|by apply Qclt_le_weak]. apply qround_nonneg. rewrite Forall_lookup in HE. destruct (HE i E Hi) as [HEr Hw].
      by apply (posterior_distribution N HN Hn o Ho pts Hf Hnn T HT E v HEr Hw Hv Hv'). }
    assert (errors_of Es refs f <> []) as Hnil. { unfold errors_of. intros Hz. apply (f_equal length) in Hz. rewrite zip_with_length in Hz. cbn in Hz. lia. }
    assert (forall x, x ∈ errors_of Es refs f -> exists i E ref, Es !! i = Some E /\ refs !! i = Some ref /\ x = root_mean_square sq f (compared N pts E ref)) as Hel.
    { intros x (i & Hi)%elem_of_list_lookup. unfold errors_of in Hi. apply lookup_zip_with_Some in Hi as (E & ref & -> & H1 & H2). by exists i, E, ref. }
    assert (forall x, x ∈ errors_of Es refs f -> (0 <= x)%Qc) as Hpos. { intros x (i & E & ref & H1 & H2 & ->)%Hel. by apply (Hrow i). }
    split.
    - unfold average. apply Qc_div_nonneg; [by apply qsum_nonneg|]. apply (UtilProofs.qz_le 0). lia.
    - rewrite average_zero by done. split.
      + intros HF i E ref v k Hi Hi' Hv Hv' Hk Hr. rewrite Forall_forall in HF. assert (root_mean_square sq f (compared N pts E ref) ∈ errors_of Es refs f) as Hin.
        { unfold errors_of. apply elem_of_list_lookup. exists i. apply lookup_zip_with_Some. by exists E, ref. }
        apply HF in Hin. apply (Hrow i E ref Hi Hi') in Hin. rewrite Forall_forall in Hin. apply (Hin (qround (posterior N pts E v k) 7, ref v k)). apply elem_of_compared. by exists v, k.
      + intros HA. apply Forall_forall. intros x (i & E & ref & H1 & H2 & ->)%Hel. apply (Hrow i E ref H1 H2). apply Forall_forall. intros p (v & k & Hv & Hv' & Hk & Hr & ->)%elem_of_compared. cbn. by apply (HA i E ref v k). }
  destruct (Hgen (fun x => x)) as [Hm Hm']; [done|]. destruct (Hgen sq) as [Hh Hh']. { intros p H1 H2. by apply Hsq. }
  done.
Qed.
End evaluate.
