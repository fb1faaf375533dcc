(** Concrete data for the witnesses in Properties_Learn.v. *)
From Verif Require Import LearnModel LearnSpec GraphModel2 LearnTheorems.
From Verif Require Export JTWitness.
Local Open Scope nat_scope.

Definition is_ok {A} (o : outcome A) : bool := match o with Ok _ => true | Err _ => false end.
(** Five rows for the network 0 -> 2 <- 1, 2 -> 3. *)
Definition rows5 : columns := mkCols [[0;1;1;0;1];[1;0;1;1;1];[0;0;1;1;0];[2;0;1;2;2]] 5 4.
Lemma jt_inv : netinv jt_net.
Proof. eapply (proj1 (reach [2;2;2;3] [AddD 0 2; AddD 1 2; AddD 2 3] jt_net _ _ _)). Unshelve. all: vm_compute; reflexivity. Qed.
Lemma complete_check N D : length (co_cols D) = co_vars D -> co_vars D <= net_size N ->
  forallb (fun vc : nat * list nat => bool_decide (length (snd vc) = co_rows D) && forallb (fun x => bool_decide (x < net_dom N (fst vc))) (snd vc)) (zip (seq 0 (co_vars D)) (co_cols D)) = true -> complete N D.
Proof.
  intros H1 H2 H3. split_and!; [done|done|]. intros v col Hv. rewrite forallb_forall in H3. specialize (H3 (v, col)).
  rewrite <-elem_of_list_In in H3. rewrite andb_true_iff, bool_decide_eq_true in H3. destruct H3 as [H3 H4].
  - apply elem_of_list_lookup. exists v. apply lookup_zip_with_Some. exists v, col. split_and!; [done| |done]. apply lookup_seq. split; [done|]. rewrite <-H1. by eapply lookup_lt_Some.
  - split; [done|]. rewrite forallb_forall in H4. apply Forall_forall. intros x Hx. specialize (H4 x). rewrite <-elem_of_list_In, bool_decide_eq_true in H4. by apply H4.
Qed.
Lemma rows5_complete : complete jt_net rows5.
Proof. apply complete_check; [reflexivity|vm_compute; lia|vm_compute; reflexivity]. Qed.
Lemma rows5_hyps : netinv jt_net /\ doms_positive jt_net /\ 0 < net_size jt_net /\ complete jt_net rows5 /\ co_vars rows5 = net_size jt_net /\ weakly_connected jt_net.
Proof. split_and!; [exact jt_inv|exact (no_doms _ jt_net_ok)|vm_compute; lia|exact rows5_complete|reflexivity|exact jt_connected]. Qed.
Definition rows5_learned : list ptable := Eval vm_compute in get [] (learn_params jt_net rows5 1 (fun _ _ => 0) []).
Lemma rows5_pots : pt_pots <$> rows5_learned = [[frac 3 7; frac 4 7]; [frac 2 7; frac 5 7];
  [frac 1 2; frac 1 2; frac 2 3; frac 1 2; frac 1 2; frac 1 2; frac 1 3; frac 1 2];
  [frac 1 3; frac 1 5; frac 1 6; frac 2 5; frac 1 2; frac 2 5]].
Proof. apply (bool_decide_unpack _). vm_compute. exact I. Qed.
Lemma rows5_learn : learn_params jt_net rows5 1 (fun _ _ => 0) [] = Ok rows5_learned.
Proof. vm_compute. reflexivity. Qed.
(** Without smoothing: the parent configuration 0 = 0, 1 = 0 never occurs. *)
Lemma rows5_unseen : exists x nd a, nt_nodes jt_net !! x = Some nd /\ valid (net_dom jt_net) a /\ occurrences (co_cols rows5) (co_rows rows5) (nd_parents nd) a = 0.
Proof. exists 2. eexists. exists (fun _ => 0). split; [reflexivity|]. split; [|vm_compute; reflexivity]. intros v. do 4 (destruct v as [|v]; [vm_compute; lia|]). vm_compute; lia. Qed.
(** Without smoothing, on two unconnected nodes: every (empty) configuration occurs. *)
Definition rows3 : columns := mkCols [[0;1;1];[1;0;1]] 3 2.
Lemma apart_inv : netinv apart_net.
Proof. apply (new_network_inv [2;2]). Qed.
Lemma rows3_complete : complete apart_net rows3.
Proof. apply complete_check; [reflexivity|vm_compute; lia|vm_compute; reflexivity]. Qed.
Lemma rows3_hyps : netinv apart_net /\ doms_positive apart_net /\ complete apart_net rows3 /\ co_vars rows3 = net_size apart_net.
Proof. split_and!; [exact apart_inv|vm_compute; repeat constructor|exact rows3_complete|reflexivity]. Qed.
Lemma rows3_seen : forall x nd a, nt_nodes apart_net !! x = Some nd -> valid (net_dom apart_net) a -> occurrences (co_cols rows3) (co_rows rows3) (nd_parents nd) a <> 0.
Proof. intros x nd a Hx _. destruct x as [|[|x]]; cbn in Hx; try done; injection Hx as <-; vm_compute; lia. Qed.
(** ROOT of a data set with three rows. *)
Lemma root_not_distribution : exists N roots N' D ts t, netinv N /\ complete N D /\ co_vars D = net_size N /\ find_roots N = Ok roots /\ add_root_node N roots = Ok N' /\
  learn_params N' D 1 (fun _ _ => 0) [] = Ok ts /\ ts !! net_size N = Some t /\ pt_vars t = [net_size N] /\ qsum (pt_pots t) (fun p => p) <> 1%Qc.
Proof.
  exists apart_net. eexists _, _, rows3, _, _. split; [exact apart_inv|]. split; [exact rows3_complete|]. split; [reflexivity|]. split; [vm_compute; reflexivity|]. split; [vm_compute; reflexivity|]. split; [vm_compute; reflexivity|]. split; [vm_compute; reflexivity|]. split; [reflexivity|].
  apply (bool_decide_unpack _). vm_compute. exact I.
Qed.
(** Learning twice from the same data. *)
Definition rows_one : columns := mkCols [[0;0;1]] 3 1.
Lemma relearn_counterexample : exists N D ts1 ts2 T1 T2 ans1 ans2,
  learn_params N D 1 (fun _ _ => 0) [] = Ok ts1 /\ learn_params N D 1 (fun _ _ => 0) ts1 = Ok ts2 /\
  jt_build addr_order N ts1 = Ok T1 /\ jt_build addr_order N ts2 = Ok T2 /\
  query_probs seq_sched T1 [] (jt_backup T1) = Ok (jt_backup T1, ans1) /\ query_probs seq_sched T2 [] (jt_backup T2) = Ok (jt_backup T2, ans2) /\
  ans1 = [frac 3 5; frac 2 5] /\ ans2 = [frac 9 13; frac 4 13].
Proof.
  exists (new_network [2]), rows_one. eexists _, _, _, _, _, _.
  split; [vm_compute; reflexivity|]. split; [vm_compute; reflexivity|]. split; [vm_compute; reflexivity|]. split; [vm_compute; reflexivity|]. split; [vm_compute; reflexivity|]. split; [vm_compute; reflexivity|].
  split; apply (bool_decide_unpack _); vm_compute; exact I.
Qed.
Lemma relearn_appends N D alpha coin pts ts : learn_params N D alpha coin [] = Ok ts -> learn_params N D alpha coin pts = Ok (pts ++ ts).
Proof.
  unfold learn_params. set (root := if bool_decide _ then None else _). clearbody root.
  assert (forall (l : list nat) (f : nat -> outcome ptable) (p q : list ptable), mfor l (fun x (pts : list ptable) => t ← (f x : outcome ptable); Ok (pts ++ [t])) p = Ok q -> mfor l (fun x pts => t ← f x; Ok (pts ++ [t])) (pts ++ p) = Ok (pts ++ q)) as H.
  { induction l as [|x l IH]; intros f p q; cbn; [by intros [= ->]|]. destruct (f x : outcome ptable) as [t|]; cbn; [|done]. rewrite <-app_assoc. apply IH. }
  intros E. apply bind_ok in E as (p & Hp & E). specialize (H _ _ _ _ Hp). rewrite app_nil_r in H. rewrite H. cbn [mbind outcome_bind].
  destruct root as [r|]; [|by injection E as ->]. destruct (learn_root N D alpha r); [|done]. cbn in *. injection E as <-. by rewrite <-app_assoc.
Qed.
(** A history of counts for a node with one parent. *)
Definition two_parent_values : node := node_add_parent 1 2 (new_node 3).
Definition some_history : list (nat * config * Z) := [((0, [(1, 0)]), 3%Z); ((2, [(1, 0)]), 1%Z); ((0, [(1, 0)]), 2%Z)].
Lemma some_history_ok : Forall (fun e => e.1.1 < nd_dom two_parent_values) some_history /\ Forall (fun e => 0 <= e.2)%Z some_history /\ [(1, 1)] ∉ (fun e => e.1.2) <$> some_history /\
  get_probability two_parent_values (add_counts two_parent_values some_history new_counters) 0 [(1, 0)] = Ok (frac 6 9).
Proof.
  split_and!; [vm_compute; repeat constructor|vm_compute; repeat constructor; discriminate|set_solver|vm_compute; reflexivity].
Qed.
