(** The result of a query does not depend on the schedule of the parallel loops (C11). *)
From Verif Require Import JTModel ParProofs.
Local Open Scope nat_scope.

Lemma okeq_bind' {A B} (m1 m2 : outcome A) (f1 f2 : A -> outcome B) :
  okeq m1 m2 -> (forall x, okeq (f1 x) (f2 x)) -> okeq (m1 ≫= f1) (m2 ≫= f2).
Proof. intros H1 H2. apply okeq_bind; auto. Qed.
Lemma okeq_bind_r' {A B} (m : outcome A) (f1 f2 : A -> outcome B) :
  (forall x, okeq (f1 x) (f2 x)) -> okeq (m ≫= f1) (m ≫= f2).
Proof. intros H2. apply okeq_bind'; [apply okeq_refl|done]. Qed.
Lemma mfor_okeq {I S} (l : list I) (f g : I -> S -> outcome S) s :
  (forall i s, i ∈ l -> okeq (f i s) (g i s)) -> okeq (mfor l f s) (mfor l g s).
Proof.
  revert s. induction l as [|i l IH]; intros s H; [apply okeq_refl|]. cbn [mfor].
  apply okeq_bind'; [apply H; left|]. intros x. apply IH. intros j y Hj. apply H. by right.
Qed.

Section sched.
Context (sch sch' : scheduler) (Hs : valid_scheduler sch) (Hs' : valid_scheduler sch').
Set Default Proof Using "All".

Lemma load_evidence_to_nodes_okeq tag st nodes index value :
  okeq (load_evidence_to_nodes sch tag st nodes index value) (load_evidence_to_nodes sch' tag st nodes index value).
Proof.
  unfold load_evidence_to_nodes. apply okeq_bind_r'. intros ts.
  apply okeq_bind'; [apply par1_fill_okeq; [apply Hs|apply Hs'|intros; apply okeq_refl]|]. intros locs.
  apply okeq_bind'; [apply par2_fill_okeq; [apply Hs|apply Hs']|]. intros vidx.
  apply okeq_bind'; [eapply par1_okeq; [apply Hs|apply Hs']|]. intros ts'. apply okeq_refl.
Qed.
Lemma load_evidence_okeq tag n E st : okeq (load_evidence sch tag n E st) (load_evidence sch' tag n E st).
Proof.
  apply mfor_okeq. intros [i [index value]] st' _. destruct (bool_decide _); [apply okeq_refl|].
  apply okeq_bind_r'. intros nodes. apply load_evidence_to_nodes_okeq.
Qed.
Lemma separator_level_collection_okeq tag T i st :
  okeq (separator_level_collection sch tag T i st) (separator_level_collection sch' tag T i st).
Proof.
  unfold separator_level_collection. do 4 (apply okeq_bind_r'; intros ?).
  apply okeq_bind'; [apply par2_fill_okeq; [apply Hs|apply Hs']|]. intros ?. apply okeq_refl.
Qed.
Lemma separator_level_distribution_okeq tag T i st :
  okeq (separator_level_distribution sch tag T i st) (separator_level_distribution sch' tag T i st).
Proof.
  unfold separator_level_distribution. do 5 (apply okeq_bind_r'; intros ?).
  apply okeq_bind'; [apply par2_fill_okeq; [apply Hs|apply Hs']|]. intros ?. apply okeq_refl.
Qed.
Lemma multiply_level_okeq tag st vec clqs tmp : okeq (multiply_level sch tag st vec clqs tmp) (multiply_level sch' tag st vec clqs tmp).
Proof.
  unfold multiply_level. apply okeq_bind'; [apply par2_okeq; [apply Hs|apply Hs']|]. intros ?. apply okeq_refl.
Qed.
Lemma clique_level_collection_okeq tag T i has k st :
  okeq (clique_level_collection sch tag T i has k st) (clique_level_collection sch' tag T i has k st).
Proof.
  unfold clique_level_collection. do 5 (apply okeq_bind_r'; intros ?).
  apply okeq_bind'; [apply par2_fill_okeq; [apply Hs|apply Hs']|]. intros ?.
  apply okeq_bind_r'. intros ?. apply multiply_level_okeq.
Qed.
Lemma clique_level_distribution_okeq tag T i st :
  okeq (clique_level_distribution sch tag T i st) (clique_level_distribution sch' tag T i st).
Proof.
  unfold clique_level_distribution. do 3 (apply okeq_bind_r'; intros ?).
  apply okeq_bind'; [apply par2_fill_okeq; [apply Hs|apply Hs']|]. intros ?.
  apply okeq_bind_r'. intros ?. apply multiply_level_okeq.
Qed.
Lemma collect_okeq tag T st : okeq (collect sch tag T st) (collect sch' tag T st).
Proof.
  apply mfor_okeq. intros i st' _. unfold collect_level. destruct (Nat.odd i); [apply separator_level_collection_okeq|].
  do 2 (apply okeq_bind_r'; intros ?). apply mfor_okeq. intros k st'' _. apply clique_level_collection_okeq.
Qed.
Lemma distribute_okeq tag T st : okeq (distribute sch tag T st) (distribute sch' tag T st).
Proof.
  apply mfor_okeq. intros i st' _. unfold distribute_level.
  destruct (Nat.odd i); [apply separator_level_distribution_okeq|apply clique_level_distribution_okeq].
Qed.
Lemma propagate_okeq T E st : okeq (propagate sch T E st) (propagate sch' T E st).
Proof.
  unfold propagate. apply okeq_bind'; [apply load_evidence_okeq|]. intros st1. apply okeq_bind_r'. intros cs.
  apply okeq_bind'; [apply collect_okeq|]. intros st2. apply distribute_okeq.
Qed.
Lemma query_label_okeq T q E st : okeq (query_label sch T q E st) (query_label sch' T q E st).
Proof. unfold query_label. apply okeq_bind'; [apply propagate_okeq|]. intros st1. apply okeq_refl. Qed.
Lemma query_probs_okeq T E st : okeq (query_probs sch T E st) (query_probs sch' T E st).
Proof. unfold query_probs. apply okeq_bind'; [apply propagate_okeq|]. intros st1. apply okeq_refl. Qed.
End sched.

Lemma predict_okeq (sch sch' : nat -> scheduler) T q Es : (forall i, valid_scheduler (sch i)) -> (forall i, valid_scheduler (sch' i)) ->
  okeq (predict sch T q Es) (predict sch' T q Es).
Proof.
  intros H H'. unfold predict. apply okeq_bind'; [|intros; apply okeq_refl]. apply mfor_okeq. intros [i E] acc _.
  apply okeq_bind_r'. intros _. apply okeq_bind'; [by apply query_label_okeq|]. intros. apply okeq_refl.
Qed.
