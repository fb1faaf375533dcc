(** Columns with too many values for 32 bits. *)
From Verif Require Import LimitModel LimitSpec PCModel PCSpec LimitTheorems LimitLearn.
Local Open Scope nat_scope.

(** Two columns of [k] different values: [k] rows, each value once. *)
Definition square (k : nat) : columns := mkCols [seq 0 k; seq 0 k] k 2.
Lemma square_tabulated k : tabulated (square k) [k; k].
Proof.
  split; [done|]. intros v col d Hc Hd. assert (col = seq 0 k /\ d = k) as [-> ->]; [|split; [apply seq_length|apply Forall_forall; intros u Hu; apply elem_of_seq in Hu; lia]].
  destruct v as [|[|v]]; cbn [lookup list_lookup co_cols square] in Hc, Hd; [injection Hc as <-; injection Hd as <-; done..|done].
Qed.
Lemma square_overflows k M : 0 < k -> M < k * k -> exists D ds, tabulated D ds /\ Forall (fun d => 0 < d) ds /\ co_rows D = k /\ length ds = 2 /\
  forall accept g sch depth fuel, valid_sched sch -> skeleton_search (independence_result_i M accept D ds) (length ds) depth fuel g sch = Err Overflow.
Proof.
  intros Hk HM. exists (square k), [k; k]. split_and!; [apply square_tabulated|by repeat constructor|done|done|]. intros accept g sch depth fuel Hs. by apply (learning_over _ _ _ _ 0 1 k k); [apply square_tabulated|..].
Qed.
Lemma wide_overflows : exists D ds, tabulated D ds /\ Forall (fun d => 0 < d) ds /\ co_rows D = Z.to_nat 46341 /\ length ds = 2 /\
  forall accept g sch depth fuel, valid_sched sch -> skeleton_search (independence_result_i (Z.to_nat 2147483647) accept D ds) (length ds) depth fuel g sch = Err Overflow.
Proof. apply square_overflows; [lia|]. apply Nat2Z.inj_lt. rewrite Nat2Z.inj_mul, !Z2Nat.id by lia. lia. Qed.
