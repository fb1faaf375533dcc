(** Concrete networks for the witnesses in Properties_Graph.v, and refuting examples. *)
From Verif Require Export ShdProofs RootProofs.
Local Open Scope nat_scope.

Definition has_directedb (N : network) (x y : nat) : bool := bool_decide ((x, y) ∈ directed_pairs (nt_edges N)).
Fixpoint no_repb (N : network) (ops : list edit) : bool :=
  match ops with
  | [] => true
  | o :: ops' => match o with AddD p c => negb (has_directedb N p c) | _ => true end &&
                 match exec N o with Ok N' => no_repb N' ops' | Err _ => true end
  end.
Lemma no_repb_ok N ops : no_repb N ops = true -> no_repeated_add N ops.
Proof.
  revert N; induction ops as [|o ops IH]; intros N; cbn [no_repb no_repeated_add]; [done|].
  rewrite andb_true_iff. intros [H1 H2]. split.
  - destruct o; try done. apply negb_true_iff, bool_decide_eq_false in H1. by rewrite has_directed_pairs.
  - destruct (exec N o); [by apply IH|done].
Qed.
Definition rangeb (n : nat) (o : edit) : bool :=
  match o with AddD p c | DelD p c | AddU p c | DelU p c => bool_decide (p < n) && bool_decide (c < n) end.
Lemma rangeb_ok n ops : forallb (rangeb n) ops = true -> Forall (edit_in_range n) ops.
Proof.
  intros H. apply Forall_forall. intros o Ho. rewrite forallb_forall in H. specialize (H o (proj1 (elem_of_list_In _ _) Ho)).
  destruct o; cbn in *; rewrite andb_true_iff, !bool_decide_eq_true in H; done.
Qed.
Lemma reach doms ops N :
  forallb (rangeb (length doms)) ops = true -> no_repb (new_network doms) ops = true -> run (new_network doms) ops = Ok N ->
  netinv N /\ no_dup_directed N.
Proof.
  intros H1%rangeb_ok H2%no_repb_ok H3. destruct (new_network_inv doms) as [HI Hd].
  destruct (run_inv (new_network doms) ops HI Hd) as (N' & H4 & H5 & H6 & _); [by cbn; rewrite fmap_length|done|].
  rewrite H3 in H4. injection H4 as <-. done.
Qed.

Definition get {A} (d : A) (o : outcome A) : A := match o with Ok a => a | Err _ => d end.
(** 0 -> 1 -> 3, 2 -> 3, 0 -> 3 refused reverse edge 3 -> 0, and an isolated node 4. *)
Definition ex_ops : list edit := [AddD 0 1; AddD 1 3; AddD 3 0; AddD 2 3; AddU 0 3; DelU 0 3; AddD 0 4; DelD 0 4].
Definition ex_net : network := Eval vm_compute in get (new_network []) (run (new_network [2;3;2;2;3]) ex_ops).
Lemma ex_run : run (new_network [2;3;2;2;3]) ex_ops = Ok ex_net.
Proof. vm_compute. reflexivity. Qed.
Lemma ex_inv : netinv ex_net /\ no_dup_directed ex_net.
Proof. eapply reach; [| |exact ex_run]; vm_compute; reflexivity. Qed.
Lemma ex_range : Forall (edit_in_range 5) ex_ops /\ no_repeated_add (new_network [2;3;2;2;3]) ex_ops.
Proof. split; [apply (rangeb_ok 5)|apply no_repb_ok]; vm_compute; reflexivity. Qed.
Lemma ex_fresh : nt_topo ex_net = [] /\ forall e, e ∈ nt_edges ex_net -> e_ep1 e = Tail /\ e_ep2 e = Arrow /\ e_ordered e = false.
Proof. split; [reflexivity|]. intros e He. repeat (apply elem_of_cons in He as [->|He]; [done|]). by apply elem_of_nil in He. Qed.

(** The matrix of 0 -> 1 -> 2 -> 0 and its in-degrees. *)
Lemma ex_matrix : square_matrix 3 [[0;1;0];[0;0;1];[1;0;0]] /\ indegrees_of 3 [[0;1;0];[0;0;1];[1;0;0]] [1;1;1]%Z.
Proof.
  split.
  - split; [done|]. intros row Hrow. repeat (apply elem_of_cons in Hrow as [->|Hrow]; [done|]). by apply elem_of_nil in Hrow.
  - split; [done|]. intros j Hj. destruct j as [|[|[|]]]; [exists [2]|exists [0]|exists [1]|lia]; (split; [done|]); (split; [apply NoDup_singleton|]);
      intros i; rewrite elem_of_list_singleton; (split; [intros ->; eexists; done|]);
      intros (row & H1 & H2); destruct i as [|[|[|]]]; cbn in H1; try done; injection H1 as <-; by cbn in H2.
Qed.

(** Removing a parent of domain size two leaves the old configurations. *)
Lemma remove_parent_counterexample :
  exists nd', node_remove_parent 0 2 (add_parents (fun _ => 2) [0;1] (new_node 2)) = Ok nd' /\ ~ combos_exact (fun _ => 2) nd'.
Proof.
  eexists. split; [vm_compute; reflexivity|]. intros [_ H]. destruct (H [(0, 1); (1, 0)]) as [H1 _].
  feed pose proof H1 as H2; [|by destruct H2]. vm_compute. by repeat (first [left|right]).
Qed.

(** ** Structural Hamming distance *)
Definition shd_ops : list edit := [AddD 0 1; AddD 1 3; AddD 2 3].
Definition with_count (N : network) : network := mkNet (nt_nodes N) (nt_edges N) (nt_topo N) (length (nt_edges N)).
Definition shd_true : network := Eval vm_compute in with_count (get (new_network []) (run (new_network [2;2;2;2]) shd_ops)).
Definition shd_pat : network := Eval vm_compute in get (new_network []) (run (new_network [2;2;2;2]) [AddU 0 1; AddD 1 3; AddD 3 2]).
Lemma singleb N : (forall k1 k2 e1 e2, nt_edges N !! k1 = Some e1 -> nt_edges N !! k2 = Some e2 ->
  (e_n1 e1 = e_n1 e2 /\ e_n2 e1 = e_n2 e2 \/ e_n1 e1 = e_n2 e2 /\ e_n2 e1 = e_n1 e2) -> k1 = k2) -> single N.
Proof.
  intros H i j e1 e2 [H1 J1] [H2 J2]. apply elem_of_list_lookup in H1 as [k1 H1]. apply elem_of_list_lookup in H2 as [k2 H2].
  assert (k1 = k2) as ->; [|congruence]. eapply H; try done. intuition congruence.
Qed.
Lemma shd_pat_single : single shd_pat.
Proof.
  apply singleb. intros k1 k2 e1 e2 H1 H2. destruct k1 as [|[|[|]]], k2 as [|[|[|]]]; cbn in H1, H2; try done; injection H1 as <-; injection H2 as <-; cbn; lia.
Qed.
Lemma shd_true_inv : netinv shd_true /\ no_dup_directed shd_true.
Proof.
  assert (exists N, run (new_network [2;2;2;2]) shd_ops = Ok N /\ with_count N = shd_true) as (N & HN & <-).
  { eexists. split; [vm_compute; reflexivity|reflexivity]. }
  destruct (reach [2;2;2;2] shd_ops N) as [H1 H2]; [vm_compute; reflexivity..|done|]. split; [|done].
  eapply netinv_same; [exact H1|done|done|]. apply (ni_edges _ H1).
Qed.
Lemma has_directedb_spec N x y : has_directed N x y <-> has_directedb N x y = true.
Proof. unfold has_directedb. by rewrite has_directed_pairs, bool_decide_eq_true. Qed.
(** Nodes with at most two parents meet the hypothesis, whatever the order. *)
Lemma two_parents_single_extra fixed N t :
  (forall x y z1 z2, has_directed N x y -> has_directed N z1 y -> has_directed N z2 y -> z1 <> x -> z2 <> x -> z1 = z2) -> single_extra fixed N t.
Proof. intros H x y z1 z2 H1 _ _ H2 H3 H4 H5 _ _. exact (H x y z1 z2 H1 H2 H3 H4 H5). Qed.
Lemma shd_true_two fixed t : single_extra fixed shd_true t.
Proof.
  apply two_parents_single_extra. intros x y z1 z2 (e & He & <- & <- & _) (e1 & He1 & <- & E1 & _) (e2 & He2 & <- & E2 & _).
  repeat (apply elem_of_cons in He as [->|He]; [|]); try by apply elem_of_nil in He.
  all: repeat (apply elem_of_cons in He1 as [->|He1]; [|]); try by apply elem_of_nil in He1.
  all: repeat (apply elem_of_cons in He2 as [->|He2]; [|]); try by apply elem_of_nil in He2.
  all: cbn in *; try done; lia.
Qed.
Lemma shd_pattern_hyps :
  single shd_pat /\ length (nt_nodes shd_true) = length (nt_nodes shd_pat) /\
  (exists e0, nt_edges shd_pat !! 0 = Some e0 /\ is_directed e0 = false) /\
  netinv shd_true /\ no_dup_directed shd_true /\ nt_topo shd_true = [] /\ nt_num_edges shd_true = length (nt_edges shd_true) /\
  (forall e, e ∈ nt_edges shd_true -> e_ep1 e = Tail /\ e_ep2 e = Arrow /\ e_ordered e = false) /\
  (forall fixed t, single_extra fixed shd_true t) /\
  get_shd shd_true shd_pat = Ok 1.
Proof.
  split_and!; try apply shd_true_inv; try done; [apply shd_pat_single|eexists; split; reflexivity| |].
  - intros e He. repeat (apply elem_of_cons in He as [->|He]; [done|]). by apply elem_of_nil in He.
  - apply shd_true_two.
Qed.
Definition shd_dag2 : network := Eval vm_compute in get (new_network []) (run (new_network [2;2;2;2]) [AddD 0 1; AddD 3 1; AddD 0 2]).
Lemma shd_dag_hyps : single shd_true /\ single shd_dag2 /\ length (nt_nodes shd_true) = length (nt_nodes shd_dag2) /\
  (exists e0, nt_edges shd_dag2 !! 0 = Some e0 /\ is_directed e0 = true) /\ get_shd shd_true shd_dag2 = Ok 3.
Proof.
  split_and!; [| |reflexivity|eexists; split; reflexivity|reflexivity].
  - destruct shd_true_inv. apply dag_single; try done. repeat constructor.
  - apply singleb. intros k1 k2 e1 e2 H1 H2. destruct k1 as [|[|[|]]], k2 as [|[|[|]]]; cbn in H1, H2; try done; injection H1 as <-; injection H2 as <-; cbn; lia.
Qed.

(** A node with three pairwise non-adjacent parents: erase on an empty vector. *)
Lemma shd_three_parents_counterexample :
  exists T L, run (new_network [2;2;2;2]) [AddD 0 3; AddD 1 3; AddD 2 3] = Ok T /\
    run (new_network [2;2;2;2]) [AddU 0 3; AddD 1 3; AddD 2 3] = Ok L /\ get_shd T L = Err OutOfBounds.
Proof. do 2 eexists. split; [vm_compute; reflexivity|]. split; vm_compute; reflexivity. Qed.
(** With further edges the same node makes the comparison read labels that were never set. *)
Lemma shd_unset_label_counterexample :
  exists T L, run (new_network [2;2;2;2;2]) [AddD 0 3; AddD 1 3; AddD 2 3; AddD 3 4] = Ok T /\
    run (new_network [2;2;2;2;2]) [AddU 0 3; AddD 1 3; AddD 2 3] = Ok L /\ get_shd (with_count T) L = Err Uninit.
Proof. do 2 eexists. split; [vm_compute; reflexivity|]. split; vm_compute; reflexivity. Qed.
Lemma shd_no_edges_counterexample : get_shd (new_network [2;2]) (new_network [2;2]) = Err Thrown.
Proof. reflexivity. Qed.

(** ** Saving *)
Lemma save_witness : (exists e0, nt_edges ex_net !! 0 = Some e0 /\ is_directed e0 = true) /\ save_bn_structure ex_net = Ok [Arc 0 1; Arc 2 3; Arc 1 3].
Proof. split; [eexists; split; reflexivity|reflexivity]. Qed.
Definition pat_net : network := Eval vm_compute in with_count shd_pat.
Lemma save_pattern_witness :
  nt_num_edges pat_net = length (nt_edges pat_net) /\ (exists e0, nt_edges pat_net !! 0 = Some e0 /\ is_directed e0 = false) /\
  Forall (fun e => e_ep1 e = Tail) (nt_edges pat_net) /\ save_bn_structure pat_net = Ok [Link 0 1; Arc 1 3; Arc 3 2].
Proof. split_and!; [reflexivity|eexists; split; reflexivity|repeat constructor|reflexivity]. Qed.

Lemma histories_inv doms ops :
  Forall (edit_in_range (length doms)) ops -> no_repeated_add (new_network doms) ops ->
  exists N', run (new_network doms) ops = Ok N' /\ netinv N' /\ no_dup_directed N' /\ length (nt_nodes N') = length doms.
Proof.
  intros H1 H2. destruct (new_network_inv doms) as [HI Hd].
  destruct (run_inv (new_network doms) ops HI Hd) as (N' & H4 & H5 & H6 & H7); [by cbn; rewrite fmap_length|done|].
  exists N'. split_and!; try done. rewrite H7. cbn. by rewrite fmap_length.
Qed.
Lemma remove_parent_witness :
  let dom v := match v with 0 => 1 | _ => 2 end in
  combos_exact dom (add_parents dom [0;1] (new_node 2)) /\ StronglySorted lt (nd_parents (add_parents dom [0;1] (new_node 2))) /\
  exists nd', node_remove_parent 0 (dom 0) (add_parents dom [0;1] (new_node 2)) = Ok nd' /\ nd_combos nd' = [[(1, 0)]; [(1, 1)]].
Proof.
  cbn zeta. match goal with |- combos_exact ?d _ /\ _ => destruct (add_parents_exact d [0;1] 2) as (H1 & H2 & _) end.
  split_and!; [done|done|]. eexists. split; vm_compute; reflexivity.
Qed.
