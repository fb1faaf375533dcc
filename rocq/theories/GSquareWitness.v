(** Examples for the G-square test. *)
From Coq Require Import Reals Psatz.
From Verif Require Import GSquareModel GSquareSpec CellProofs4 CellTheorems OrientModel DSepWitness PCWitness SaveWitness GSquareProofs GSquareProofs2 GSquareTheorems TableProofs.
From Coq Require Import Lra.
Local Open Scope R_scope.

(** The distribution function of chi-square with two degrees of freedom, used for all numbers of degrees. *)
Definition chi_two (q : R) (df : nat) : R := 1 - exp (- (q / 2)).
Lemma chi_two_like : chi_square_like chi_two.
Proof.
  intros df _. unfold chi_two. split; [replace (- (0 / 2)) with 0 by lra; rewrite exp_0; lra|]. intros e He. exists (2 * (1 - ln e)). intros q Hq.
  assert (exp (- (q / 2)) < e); [|lra]. rewrite <-(exp_ln e He). apply exp_increasing. lra.
Qed.
Lemma chi_two_zero alpha : 0 < alpha < 1 -> alpha < 1 - chi_two 0 0.
Proof. intros H. unfold chi_two. replace (- (0 / 2)) with 0 by lra. rewrite exp_0. lra. Qed.
(** Independence in the data can be computed. *)
Definition cells_factorise (D : columns) (ds : list nat) (x y : nat) (zs : list nat) : bool :=
  forallb (fun z => forallb (fun a => forallb (fun b => bool_decide (matching D (zs ++ [x; y]) (z ++ [a; b]) * matching D zs z = matching D (zs ++ [x]) (z ++ [a]) * matching D (zs ++ [y]) (z ++ [b]))%nat)
    (seq 0 (default 0%nat (ds !! y)))) (seq 0 (default 0%nat (ds !! x)))) (configs (sizes_of ds zs)).
Lemma cells_cond_indep D ds x y zs : tabulated D ds -> (x < length ds)%nat -> (y < length ds)%nat -> cells_factorise D ds x y zs = true <-> cond_indep D x y zs.
Proof.
  intros HD Hx Hy. unfold cells_factorise. rewrite forallb_forall. split.
  - intros H. apply (g_square_zero D ds HD x y Hx Hy). rewrite (g_square_gap D ds HD x y Hx Hy). rewrite Rsum_zero; [ring|]. intros z Hz. apply Rsum_zero. intros a Ha. apply Rsum_zero. intros b Hb. apply (gap_zero D ds HD x y Hx Hy); [by eapply configs_same_length|].
    specialize (H z (proj1 (elem_of_list_In _ _) Hz)). rewrite forallb_forall in H. specialize (H a (proj1 (elem_of_list_In _ _) Ha)). rewrite forallb_forall in H. specialize (H b (proj1 (elem_of_list_In _ _) Hb)). by apply bool_decide_eq_true in H.
  - intros H z Hz. apply elem_of_list_In in Hz. apply forallb_forall. intros a _. apply forallb_forall. intros b _. apply bool_decide_eq_true. apply H. by eapply configs_same_length.
Qed.
Lemma lamp_tabulated : tabulated lamp_columns [2;2;2]%nat.
Proof. split; [done|]. intros [|[|[|v]]] col k Hc Hk; cbn in Hc, Hk; try done; injection Hc as <-; injection Hk as <-; (split; [done|]); repeat constructor. Qed.
Lemma lamp_faithful : data_faithful lamp_columns 3 lamp_graph.
Proof.
  intros x y s Hxy Hy Hxs Hys Hs Hb. rewrite <-(dsep_of_oracle 3 _ lamp_bounds x y s Hxy Hy Hxs Hys Hs). rewrite <-(cells_cond_indep lamp_columns [2;2;2]%nat x y s lamp_tabulated) by (cbn; lia).
  destruct (lamp_sets x y s Hxy Hy Hxs Hys Hs Hb) as [(-> & -> & [-> | ->])|[(-> & -> & [-> | ->])|(-> & -> & [-> | ->])]]; vm_compute; done.
Qed.
Lemma lamp_learning : tabulated lamp_columns [2;2;2]%nat /\ dag 3 lamp_graph /\ data_faithful lamp_columns 3 lamp_graph /\ chi_square_like chi_two /\ 0 < 1 / 20 < 1 /\ 1 / 20 < 1 - chi_two 0 0 /\
  valid_sched forwards /\ (forall v, (length (dag_parents 3 lamp_graph v) < 3)%nat) /\ each_row 2 4 [3;0;0;1;2;2;1;3]%nat.
Proof.
  split_and!; [exact lamp_tabulated|exact (graph_dag 3 _ lamp_bounds)|exact lamp_faithful|exact chi_two_like|lra|lra|apply chi_two_zero; lra|exact forwards_valid|intros [|[|[|v]]]; vm_compute; repeat constructor|].
  unfold each_row. cbn [replicate concat seq app]. apply (bool_decide_unpack _). vm_compute. exact I.
Qed.
(** The switches are independent; the alarm depends on each of them. *)
Lemma lamp_counts : cond_indep lamp_columns 0 1 [] /\ ~ cond_indep lamp_columns 0 2 [] /\ degrees lamp_columns [2;2;2]%nat 0 2 [] = 1%nat /\ degrees lamp_columns [2;2;2]%nat 0 2 [1]%nat = 1%nat /\
  tally lamp_columns [2;2;2]%nat [0;2]%nat = [1;1;0;2]%nat.
Proof.
  split_and!; try (vm_compute; reflexivity).
  - apply (cells_cond_indep lamp_columns [2;2;2]%nat 0 1 [] lamp_tabulated); [cbn; lia|cbn; lia|]. vm_compute. reflexivity.
  - intros H. apply (cells_cond_indep lamp_columns [2;2;2]%nat 0 2 [] lamp_tabulated) in H; [|cbn; lia|cbn; lia]. vm_compute in H. discriminate H.
Qed.
(** The cells of switch and alarm hold 1, 1, 0 and 2 of the four rows. *)
Lemma lamp_value : g_square lamp_columns [2;2;2]%nat 0 2 [] = 2 * (ln (4 / 2) + (ln (4 / 6) + 2 * ln (8 / 6))).
Proof.
  unfold g_square. cbn [sizes_of fmap list_fmap configs Rsum foldr lookup list_lookup default from_option Datatypes.id seq app]. cbv zeta. cbn [foldr Rsum].
  repeat match goal with |- context [matching lamp_columns ?a ?b] => let v := eval vm_compute in (matching lamp_columns a b) in change (matching lamp_columns a b) with v end.
  cbn [INR]. rewrite Rmult_0_r, Rmult_0_l. replace (1 * (1 + 1 + 1 + 1) / ((1 + 1) * 1)) with (4 / 2) by field. replace (1 * (1 + 1 + 1 + 1) / ((1 + 1) * (1 + 1 + 1))) with (4 / 6) by field. replace ((1 + 1) * (1 + 1 + 1 + 1) / ((1 + 1) * (1 + 1 + 1))) with (8 / 6) by field. ring.
Qed.
