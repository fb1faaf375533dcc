(** The chain 0 -> 1 -> 2 with 36 rows. *)
From Coq Require Import Field QArith.
From Verif Require Import BayesSpec GSquareSpec OrientSafe SampleWitness GraphWitness NetProofs2 NetProofs3 ShdTheorems LearnProofs LearnTheorems EquivTheorems JTWitness LearnWitness LikelihoodWitness RecoverWitness IndepWitness UtilProofs BayesProofs BayesTheorems TableProofs.
Local Open Scope nat_scope.

Definition rows36 : columns := Eval vm_compute in pick_rows (seq 0 18 ++ seq 0 18) rows18.
Lemma rows36_hyps : complete relay_net rows36 /\ co_vars rows36 = net_size relay_net /\ representative relay_net relay_tables rows36 /\ 20 <= co_rows rows36.
Proof.
  split_and!; [apply complete_check; [reflexivity|vm_compute; lia|vm_compute; reflexivity]|reflexivity| |vm_compute; lia].
  apply representative_check; [exact relay_inv|exact relay_doms|exact relay_distributions|reflexivity|vm_compute; lia|vm_compute; reflexivity].
Qed.
Lemma outcome_check (r : outcome Qc) q : match r with Ok p => bool_decide (p = q) | _ => false end = true -> r = Ok q.
Proof. destruct r as [p|]; [|done]. intros H. apply bool_decide_eq_true in H. by rewrite H. Qed.
Definition relay_accuracy (xs : list nat) : outcome Qc :=
  T ← jt_build addr_order relay_net relay_tables; labels ← predict (fun _ => wild_sched) T 0 (row_questions rows36 xs); accuracy (row_truths rows36 0) (Z.of_nat <$> labels).
(** Nothing is known about 0; its grandchild is; its child is. *)
Lemma relay_accuracies : relay_accuracy [] = Ok (frac 1 2) /\ relay_accuracy [2] = Ok (frac 5 9) /\ relay_accuracy [1; 2] = Ok (frac 2 3).
Proof. split_and!; apply outcome_check; vm_compute; reflexivity. Qed.
(** Always 0 is right half the time. *)
Lemma relay_constant : from_evidence (row_questions rows36 [2]) (replicate 36 0%Z) /\ accuracy (row_truths rows36 0) (replicate 36 0%Z) = Ok (frac 1 2).
Proof.
  split; [split; [reflexivity|]|apply outcome_check; vm_compute; reflexivity]. intros i j E Hi Hj. apply lookup_lt_Some in Hi, Hj. unfold row_questions in Hi, Hj. rewrite fmap_length, seq_length in Hi, Hj. change (co_rows rows36) with 36 in *. by rewrite !lookup_replicate_2.
Qed.
(** The 800 rows of RecoverWitness.v: 301 instead of 300 and so on. *)
Lemma wire_test : (forall a, valid (net_dom arrow_net) a -> differ_by (frac 1 800) (fraction rows800 (seq 0 (net_size arrow_net)) a) (joint wire_tables a)) /\
  (forall j, j < co_rows rows800 -> joint wire_tables (data_row rows800 j) <> 0%Qc) /\ 20 <= co_rows rows800.
Proof.
  assert (forall a, valid (net_dom arrow_net) a -> a <$> seq 0 (net_size arrow_net) ∈ bits (net_size arrow_net)) as Hin.
  { intros a Ha. apply bits_elem. intros v Hv. specialize (Ha v). unfold net_dom, dom_of in Ha. change (domain_sizes arrow_net) with (replicate (net_size arrow_net) 2) in Ha. rewrite (lookup_replicate_2 _ _ _ Hv) in Ha. exact Ha. }
  split_and!; [| |apply Nat.leb_le; vm_compute; reflexivity].
  - intros a Ha. rewrite (joint_values arrow_net wire_tables a arrow_inv arrow_doms wire_distributions), (fraction_values rows800 (net_size arrow_net)) by (intros v [_ Hv]%elem_of_seq; done).
    assert (forallb (fun l => near_b (frac 1 800) (fraction rows800 (seq 0 (net_size arrow_net)) (of_values l)) (joint wire_tables (of_values l))) (bits (net_size arrow_net)) = true) as HC by (vm_compute; reflexivity).
    rewrite forallb_forall in HC. apply near_b_spec, HC, elem_of_list_In. by apply Hin.
  - intros j Hj. apply (positive_check arrow_net wire_tables arrow_inv arrow_doms wire_distributions); [reflexivity|vm_compute; reflexivity|]. destruct rows800_complete as [C1 C2]. apply (BayesProofs.row_valid arrow_net arrow_inv arrow_doms rows800 C1 C2 0 []); [vm_compute; lia|by intros v []%elem_of_nil|by intros []%elem_of_nil|done].
Qed.
Lemma wire_c : forall x, x < net_size arrow_net -> (((1 + 1) * frac 1 800 + qn 1 / qn (co_rows rows800) * qn (net_dom arrow_net x)) / (frac 1 2 - frac 1 800) <= frac 4 399)%Qc.
Proof. intros [|[|x]] Hx; [apply (bool_decide_unpack _); vm_compute; exact I..|exfalso; vm_compute in Hx; lia]. Qed.
Lemma wire_gaps : ((1 + 1) * qn (prod_list (domain_sizes arrow_net)) * frac 1 800 = frac 1 100)%Qc /\ ((1 + 1) * qn (prod_list (domain_sizes arrow_net)) * (frac 1 800 + qn (net_size arrow_net) * frac 4 399) = frac 6799 39900)%Qc.
Proof. split; apply (bool_decide_unpack _); vm_compute; exact I. Qed.
