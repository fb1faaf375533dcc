(** A concrete network for the witnesses in Properties_JT.v: 0 -> 2 <- 1, 2 -> 3 with domain
    sizes 2, 2, 2, 3; and a network in two pieces. *)
From Verif Require Export JTModel JTSpec GraphSpec GraphWitness.
From Verif Require Import ParProofs JTTheorems.
From Verif Require PassProofs.
Local Open Scope nat_scope.

Definition frac (a : Z) (b : BinNums.positive) : Qc := Q2Qc (QArith_base.Qmake a b).
Definition mk_table (vars dims : list nat) (pots : list Qc) : ptable :=
  mkPT vars pots dims (strides dims) (length vars) (length pots).
Definition jt_net : network := Eval vm_compute in get (new_network []) (run (new_network [2;2;2;3]) [AddD 0 2; AddD 1 2; AddD 2 3]).
Definition jt_pts : list ptable := [mk_table [0] [2] [frac 1 4; frac 3 4]; mk_table [1] [2] [frac 1 2; frac 1 2];
  mk_table [2;0;1] [2;2;2] [frac 1 4; frac 1 3; frac 1 2; frac 1 5; frac 3 4; frac 2 3; frac 1 2; frac 4 5];
  mk_table [3;2] [3;2] [frac 1 2; frac 1 3; frac 1 4; frac 1 3; frac 1 4; frac 1 3]].
Definition addr_order : mem_order := mkOrder (fun l => l) (fun l => l).
Definition rev_order : mem_order := mkOrder (fun l => reverse l) (fun l => reverse l).
Definition seq_sched : scheduler := fun _ n => in_order n.
(** All iterations read before any writes, and they write in reverse order. *)
Definition wild_sched : scheduler := fun _ n => (Rd <$> seq 0 n) ++ (Wr <$> reverse (seq 0 n)).

Lemma nonneg_pots dom t : Forall (fun x => (0 <= x)%Qc) (pt_pots t) -> nonneg dom t.
Proof.
  intros H a _. unfold tval. destruct (pt_pots t !! _) as [x|] eqn:E; cbn; [|apply Qcle_refl]. rewrite Forall_forall in H. apply H. by eapply elem_of_list_lookup_2.
Qed.
Lemma two_phase_valid n ws : ws ≡ₚ seq 0 n -> valid_schedule n ((Rd <$> seq 0 n) ++ (Wr <$> ws)).
Proof.
  intros Hw. split; [by rewrite Hw|]. intros s i j Hi Hj.
  apply lookup_app_Some in Hi as [Hi|[_ Hi]]; [|rewrite list_lookup_fmap in Hi; by destruct (ws !! _)]. apply lookup_app_Some in Hj as [Hj|[Hl _]]; [rewrite list_lookup_fmap in Hj; by destruct (seq 0 n !! _)|]. apply lookup_lt_Some in Hi. lia.
Qed.
Lemma wild_valid : valid_scheduler wild_sched.
Proof. intros tag n. apply two_phase_valid. apply reverse_Permutation. Qed.
Lemma rev_order_valid : valid_order rev_order.
Proof. split; intros l; apply reverse_Permutation. Qed.
Lemma addr_order_valid : valid_order addr_order.
Proof. split; intros l; done. Qed.

Lemma jt_edge x y : child_rel jt_net x y <-> (x, y) ∈ [(0, 2); (1, 2); (2, 3)].
Proof.
  split.
  - intros (nd & Hnd & Hy). destruct x as [|[|[|[|x]]]]; cbn in Hnd; try done; injection Hnd as <-; cbn in Hy; try (apply elem_of_list_singleton in Hy as ->); try by apply elem_of_nil in Hy.
    + left.
    + right; left.
    + right; right; left.
  - intros H. repeat (apply elem_of_cons in H as [[= -> ->]|H]); [..|by apply elem_of_nil in H]; eexists; (split; [reflexivity|]); cbn; left.
Qed.
Lemma jt_net_ok : net_ok jt_net.
Proof.
  split.
  - apply ni_children. eapply (proj1 (reach [2;2;2;3] [AddD 0 2; AddD 1 2; AddD 2 3] jt_net _ _ _)). Unshelve. all: vm_compute; reflexivity.
  - assert (forall x y, tc (child_rel jt_net) x y -> x < y) as H.
    { induction 1 as [x y Hxy|x y z Hxy _ IH]; apply jt_edge in Hxy; repeat (apply elem_of_cons in Hxy as [[= -> ->]|Hxy]; [lia|]); by apply elem_of_nil in Hxy. }
    intros x Hx. specialize (H x x Hx). lia.
  - vm_compute. repeat constructor.
Qed.
Lemma jt_connected : weakly_connected jt_net.
Proof.
  assert (forall x, x < 4 -> rtc (fun a b => child_rel jt_net a b \/ child_rel jt_net b a) x 2) as H.
  { intros x Hx. destruct x as [|[|[|[|x]]]]; [| |constructor| |lia]; apply rtc_once; [left|left|right]; apply jt_edge; set_solver. }
  intros x y Hx Hy. eapply rtc_transitive; [by apply H|]. assert (forall a b, rtc (fun a b => child_rel jt_net a b \/ child_rel jt_net b a) a b -> rtc (fun a b => child_rel jt_net a b \/ child_rel jt_net b a) b a) as Hsym.
  { intros a b. induction 1 as [|a b c Hab _ IH]; [constructor|]. eapply rtc_r; [exact IH|]. tauto. }
  apply Hsym. by apply H.
Qed.
Lemma jt_tables : Forall (table_of_family jt_net) jt_pts.
Proof.
  repeat constructor.
  all: try (apply (bool_decide_unpack _); vm_compute; exact I); try done.
  - exists 0. split; [vm_compute; lia|]. intros v ->%elem_of_list_singleton. by left.
  - exists 1. split; [vm_compute; lia|]. intros v ->%elem_of_list_singleton. by left.
  - exists 2. split; [vm_compute; lia|]. intros v Hv. repeat (apply elem_of_cons in Hv as [->|Hv]); [by left|right; apply jt_edge; set_solver|right; apply jt_edge; set_solver|by apply elem_of_nil in Hv].
  - exists 3. split; [vm_compute; lia|]. intros v Hv. repeat (apply elem_of_cons in Hv as [->|Hv]); [by left|right; apply jt_edge; set_solver|by apply elem_of_nil in Hv].
Qed.
Lemma jt_nonneg : Forall (nonneg (net_dom jt_net)) jt_pts.
Proof. apply Forall_forall. intros t Ht. apply nonneg_pots. repeat (apply elem_of_cons in Ht as [->|Ht]; [apply (bool_decide_unpack _); vm_compute; exact I|]). by apply elem_of_nil in Ht. Qed.
Lemma jt_hyps : net_ok jt_net /\ 0 < net_size jt_net /\ Forall (table_of_family jt_net) jt_pts /\ Forall (nonneg (net_dom jt_net)) jt_pts /\ weakly_connected jt_net.
Proof. split_and!; [exact jt_net_ok|vm_compute; lia|exact jt_tables|exact jt_nonneg|exact jt_connected]. Qed.
Definition jt_tree : jtree := Eval vm_compute in get (mkTree [] [] (mkMarks [] [] [] []) (mkTabs [] [])) (jt_build rev_order jt_net jt_pts).
Lemma jt_tree_built : jt_build rev_order jt_net jt_pts = Ok jt_tree.
Proof. vm_compute. reflexivity. Qed.
Definition jt_evidence : list (nat * nat) := [(3, 1)].
Lemma jt_evidence_ok : evidence_in_range jt_net jt_evidence /\ evidence_weight jt_net jt_pts jt_evidence <> 0%Qc.
Proof.
  split.
  - intros v x Hin _. apply elem_of_list_singleton in Hin as [= -> ->]. vm_compute. lia.
  - vm_compute. discriminate.
Qed.
(** Evidence of probability zero: a copy in which node 1 is never 0. *)
Definition jt_pts_det : list ptable := [mk_table [0] [2] [frac 1 4; frac 3 4]; mk_table [1] [2] [frac 0 1; frac 1 1];
  mk_table [2;0;1] [2;2;2] [frac 1 4; frac 1 3; frac 1 2; frac 1 5; frac 3 4; frac 2 3; frac 1 2; frac 4 5];
  mk_table [3;2] [3;2] [frac 1 2; frac 1 3; frac 1 4; frac 1 3; frac 1 4; frac 1 3]].
Lemma jt_impossible : evidence_in_range jt_net [(1, 0)] /\ evidence_weight jt_net jt_pts_det [(1, 0)] = 0%Qc.
Proof.
  split; [|vm_compute; reflexivity]. intros v x Hin _. apply elem_of_list_singleton in Hin as [= -> ->]. vm_compute. lia.
Qed.
(** Two nodes without an edge. *)
Definition apart_net : network := new_network [2;2].
Definition apart_pts : list ptable := [mk_table [0] [2] [frac 1 4; frac 3 4]; mk_table [1] [2] [frac 1 2; frac 1 2]].
Lemma apart_ok : net_ok apart_net /\ 0 < net_size apart_net /\ Forall (table_of_family apart_net) apart_pts /\ Forall (nonneg (net_dom apart_net)) apart_pts.
Proof.
  assert (forall x y, ~ child_rel apart_net x y) as Hno.
  { intros x y (nd & Hnd & Hy). destruct x as [|[|x]]; cbn in Hnd; try done; injection Hnd as <-; by apply elem_of_nil in Hy. }
  split_and!.
  - split.
    + apply ni_children. apply (new_network_inv [2;2]).
    + intros x Hx. inversion Hx; by eapply Hno.
    + vm_compute. repeat constructor.
  - vm_compute. lia.
  - repeat constructor.
    all: try (apply (bool_decide_unpack _); vm_compute; exact I); try done.
    + exists 0. split; [vm_compute; lia|]. intros v ->%elem_of_list_singleton. by left.
    + exists 1. split; [vm_compute; lia|]. intros v ->%elem_of_list_singleton. by left.
  - apply Forall_forall. intros t Ht. apply nonneg_pots. repeat (apply elem_of_cons in Ht as [->|Ht]; [apply (bool_decide_unpack _); vm_compute; exact I|]). by apply elem_of_nil in Ht.
Qed.
Lemma apart_fails : jt_build addr_order apart_net apart_pts = Err NullDeref.
Proof. vm_compute. reflexivity. Qed.
Lemma build_not_total : exists N pts o, valid_order o /\ net_ok N /\ 0 < net_size N /\ Forall (table_of_family N) pts /\ Forall (nonneg (net_dom N)) pts /\ jt_build o N pts = Err NullDeref.
Proof. exists apart_net, apart_pts, addr_order. split; [exact addr_order_valid|]. pose proof apart_ok as (?&?&?&?). split_and!; [done..|exact apart_fails]. Qed.
(** Three queries of a session, under different schedules. *)
Definition jt_session : list (scheduler * query) := [(seq_sched, AskProbs jt_evidence); (wild_sched, AskLabel 3 [(0, 1)]); (seq_sched, AskProbs [(0, 1); (2, 0)])].
Lemma seq_valid : valid_scheduler seq_sched.
Proof. intros tag n. apply PassProofs.in_order_valid. Qed.
Lemma jt_session_valid : Forall (fun sq => valid_scheduler (fst sq)) jt_session.
Proof. apply Forall_cons; split; [exact seq_valid|]. apply Forall_cons; split; [exact wild_valid|]. apply Forall_cons; split; [exact seq_valid|constructor]. Qed.
Definition jt_answers : list answer := Eval vm_compute in get [] (r ← run_queries jt_tree jt_session (jt_backup jt_tree); Ok (snd r)).
Lemma jt_session_run : run_queries jt_tree jt_session (jt_backup jt_tree) = Ok (jt_backup jt_tree, jt_answers).
Proof. vm_compute. reflexivity. Qed.
Lemma predict_not_total : exists sch, valid_scheduler sch /\ predict (fun _ => sch) jt_tree 3 [[(0, 1)]] = Err DivZero /\
  exists l, query_label sch jt_tree 3 [(0, 1)] (jt_backup jt_tree) = Ok (jt_backup jt_tree, l).
Proof. exists seq_sched. split; [exact seq_valid|]. split; [vm_compute; reflexivity|]. exists 0. vm_compute. reflexivity. Qed.
