(** Deletions, histories of edits, cached topological order. *)
From Verif Require Export NetProofs2.
Local Open Scope nat_scope.

Lemma edge_same_spec a b : edge_same a b = true <->
  e_n1 a = e_n1 b /\ e_n2 a = e_n2 b /\ e_ep1 a = e_ep1 b /\ e_ep2 a = e_ep2 b.
Proof. unfold edge_same. rewrite !andb_true_iff, !bool_decide_eq_true. tauto. Qed.
Lemma find_edge_some edges e pos : find_edge edges e = Some pos ->
  exists a pre post, edges = pre ++ a :: post /\ length pre = pos /\ edge_same a e = true /\ Forall (fun x => edge_same x e = false) pre.
Proof.
  revert pos; induction edges as [|a l IH]; intros pos; cbn; [done|]. destruct (edge_same a e) eqn:Ha.
  - intros [= <-]. exists a, [], l. done.
  - destruct (find_edge l e) as [k|]; [|done]. intros [= <-]. destruct (IH k eq_refl) as (b & pre & post & -> & <- & Hb & Hf).
    exists b, (a :: pre), post. split_and!; try done. by constructor.
Qed.
Lemma find_edge_none edges e : find_edge edges e = None <-> forall a, a ∈ edges -> edge_same a e = false.
Proof.
  induction edges as [|a l IH]; cbn.
  - split; [|done]. intros _ a Ha. by apply elem_of_nil in Ha.
  - destruct (edge_same a e) eqn:Ha.
    + split; [done|]. intros H. rewrite (H a) in Ha; [done|left].
    + destruct (find_edge l e); cbn.
      * split; [done|]. intros H. destruct IH as [_ IH]. feed pose proof IH; [|done]. intros b Hb. apply H. by right.
      * split; [|done]. intros _ b Hb. apply elem_of_cons in Hb as [->|Hb]; [done|]. by apply IH.
Qed.
Lemma get_directed_edge_none N x y : get_directed_edge N x y = None <-> ~ has_directed N x y.
Proof.
  unfold get_directed_edge. rewrite find_edge_none. split.
  - intros H (e & He & H1 & H2 & H3 & H4). specialize (H _ He). assert (edge_same e (directed_edge x y) = true); [|congruence].
    apply edge_same_spec. done.
  - intros H a Ha. destruct (edge_same a _) eqn:E; [|done]. exfalso. apply H. apply edge_same_spec in E as (? & ? & ? & ?). by exists a.
Qed.
Lemma erase_at_middle {A} (pre : list A) a post : erase_at (pre ++ a :: post) (length pre) = pre ++ post.
Proof.
  unfold erase_at. rewrite take_app. f_equal. replace (S (length pre)) with (length (pre ++ [a])) by (rewrite app_length; cbn; lia).
  replace (pre ++ a :: post) with ((pre ++ [a]) ++ post) by (by rewrite <-app_assoc). apply drop_app.
Qed.

Lemma acyclic_sub {A} (R S : A -> A -> Prop) : (forall x y, R x y -> S x y) -> acyclic S -> acyclic R.
Proof. intros H Ha x Hx. apply (Ha x). by eapply tc_mono. Qed.

Lemma directed_pairs_app l1 l2 : directed_pairs (l1 ++ l2) = directed_pairs l1 ++ directed_pairs l2.
Proof. unfold directed_pairs. by rewrite filter_app, fmap_app. Qed.

(** ** DeleteDirectedEdge, for edge lists without repeated directed edges *)
Theorem delete_directed_edge_spec N p c :
  netinv N -> no_dup_directed N -> p < length (nt_nodes N) -> c < length (nt_nodes N) ->
  exists N' b, delete_directed_edge N p c = Ok (N', b) /\ netinv N' /\ no_dup_directed N' /\
    length (nt_nodes N') = length (nt_nodes N) /\
    (b = true <-> has_directed N p c) /\ (b = false -> N' = N) /\
    (forall x y, has_directed N' x y <-> has_directed N x y /\ ~ (x = p /\ y = c)).
Proof.
  intros HI Hnd Hp Hc. unfold delete_directed_edge.
  destruct (lookup_lt_is_Some_2 _ _ Hp) as [ndp Hndp], (lookup_lt_is_Some_2 _ _ Hc) as [ndc Hndc].
  rewrite (find_node_ok _ _ _ Hndp), (find_node_ok _ _ _ Hndc). cbn [mbind outcome_bind].
  destruct (get_directed_edge N p c) as [pos|] eqn:Hpos.
  2: { pose proof (proj1 (get_directed_edge_none _ _ _) Hpos) as Hn. exists N, false. split_and!; try done.
       intros x y. split; [|tauto]. intros Hh. split; [done|]. intros [-> ->]. done. }
  assert (has_directed N p c) as Hdir.
  { apply find_edge_some in Hpos as (a & pre & post & E & _ & Hs & _). apply edge_same_spec in Hs as (H1 & H2 & H3 & H4).
    exists a. split_and!; try done. rewrite E. apply elem_of_app. right. left. }
  destruct (remove_parent_child_spec N p c Hp Hc) as (N1 & -> & He1 & Ht1 & Hne1 & Hl1 & Hn1).
  { intros nd Hnd' Hin. by rewrite (proj2 (ni_parents _ HI _ _ Hnd')). }
  cbn [mbind outcome_bind]. exists (set_edges N1 (erase_at (nt_edges N1) pos)), true. split; [done|].
  apply find_edge_some in Hpos as (a & pre & post & Eed & <- & Hs & Hpre).
  apply edge_same_spec in Hs as (H1 & H2 & H3 & H4). cbn in H1, H2, H3, H4.
  assert (erase_at (nt_edges N1) (length pre) = pre ++ post) as Her by (rewrite He1, Eed; apply erase_at_middle).
  assert (directed_pairs [a] = [(p, c)]) as Hda.
  { unfold directed_pairs. rewrite filter_cons, decide_True by (split; congruence). cbn. by rewrite H1, H2. }
  assert (directed_pairs (nt_edges N) = directed_pairs pre ++ (p, c) :: directed_pairs post) as Hdp.
  { rewrite Eed. rewrite (directed_pairs_app pre (a :: post)). f_equal. change (a :: post) with ([a] ++ post). by rewrite directed_pairs_app, Hda. }
  unfold no_dup_directed in Hnd. rewrite Hdp in Hnd.
  assert ((p, c) ∉ directed_pairs pre ++ directed_pairs post) as Hnin.
  { rewrite <-Permutation_middle in Hnd. by apply NoDup_cons in Hnd as [? _]. }
  assert (forall x y, has_directed (set_edges N1 (erase_at (nt_edges N1) (length pre))) x y <-> has_directed N x y /\ ~ (x = p /\ y = c)) as Hhd.
  { intros x y. rewrite !has_directed_pairs. cbn [set_edges nt_edges]. rewrite Her, directed_pairs_app, Hdp.
    rewrite !elem_of_app, elem_of_cons. rewrite elem_of_app in Hnin. split.
    - intros H. split; [tauto|]. intros [-> ->]. done.
    - intros [[?|[[= -> ->]|?]] Hne]; [tauto| |tauto]. exfalso. tauto. }
  assert (forall i nd', nt_nodes N1 !! i = Some nd' -> exists nd, nt_nodes N !! i = Some nd) as Hback.
  { intros i nd' Hi. apply lookup_lt_is_Some_2. rewrite <-Hl1. by eapply lookup_lt_Some. }
  split_and!; try done.
  - split; cbn [set_edges nt_nodes nt_edges].
    + intros x nd' Hx. cbn [set_edges nt_nodes] in Hx |- *. destruct (Hback _ _ Hx) as [nd Hnd']. destruct (Hn1 _ _ Hnd') as (nd'' & Hx'' & _ & Hc' & _).
      rewrite Hx in Hx''. injection Hx'' as <-. rewrite Hc', Hl1. destruct (ni_children _ HI _ _ Hnd') as [Hs Hb].
      case_decide; [|done]. split; [by apply serase_sorted|]. apply Forall_forall. intros y [Hy _]%elem_of_serase. rewrite Forall_forall in Hb. by apply Hb.
    + intros x nd' Hx. destruct (Hback _ _ Hx) as [nd Hnd']. destruct (Hn1 _ _ Hnd') as (nd'' & Hx'' & _ & _ & Hp' & Hv').
      rewrite Hx in Hx''. injection Hx'' as <-. destruct (ni_parents _ HI _ _ Hnd') as [Hs Hperm]. rewrite Hp'.
      case_decide as Hd; [|by rewrite Hv'].
      split; [by apply serase_sorted|]. destruct (vec_erase_first_ok p (nd_pvec nd)) as (l & Hl & Hpl); [rewrite Hperm; tauto|].
      rewrite Hl in Hv'. injection Hv' as <-.
      assert (NoDup (p :: l)) as Hndl by (rewrite <-Hpl, Hperm; by apply lt_sorted_NoDup). apply NoDup_cons in Hndl as [Hpl' Hndl].
      apply NoDup_Permutation; [done|by apply lt_sorted_NoDup, serase_sorted|]. intros z. rewrite elem_of_serase, <-Hperm, Hpl, elem_of_cons.
      split; [|naive_solver]. intros Hz. split; [by right|]. by intros ->.
    + intros x y. rewrite Hhd. destruct (ni_consistent _ HI x y) as [C1 C2]. split.
      * rewrite C1. split.
        -- intros [(nd & Hx & Hy) Hne]. destruct (Hn1 _ _ Hx) as (nd' & Hx' & _ & Hc' & _). exists nd'. split; [done|]. rewrite Hc'.
           case_decide; [|done]. apply elem_of_serase. split; [done|]. naive_solver.
        -- intros (nd' & Hx & Hy). cbn [set_edges nt_nodes] in Hx. destruct (Hback _ _ Hx) as [nd Hnd']. destruct (Hn1 _ _ Hnd') as (nd'' & Hx'' & _ & Hc' & _).
           rewrite Hx in Hx''. injection Hx'' as <-. rewrite Hc' in Hy. case_decide.
           ++ apply elem_of_serase in Hy as [Hy Hne]. split; [by exists nd|]. naive_solver.
           ++ split; [by exists nd|]. naive_solver.
      * rewrite C2. split.
        -- intros [(nd & Hx & Hy) Hne]. destruct (Hn1 _ _ Hx) as (nd' & Hx' & _ & _ & Hp' & _). exists nd'. split; [done|]. rewrite Hp'.
           case_decide; [|done]. apply elem_of_serase. split; [done|]. naive_solver.
        -- intros (nd' & Hx & Hy). cbn [set_edges nt_nodes] in Hx. destruct (Hback _ _ Hx) as [nd Hnd']. destruct (Hn1 _ _ Hnd') as (nd'' & Hx'' & _ & _ & Hp' & _).
           rewrite Hx in Hx''. injection Hx'' as <-. rewrite Hp' in Hy. case_decide as Hd.
           ++ apply elem_of_serase in Hy as [Hy Hne]. split; [by exists nd|]. naive_solver.
           ++ split; [by exists nd|]. intros [-> ->]. by apply Hd.
    + eapply acyclic_sub; [|apply (ni_acyclic _ HI)]. intros x y Hxy. apply Hhd in Hxy. tauto.
    + rewrite Hl1, Her. pose proof (ni_edges _ HI) as Hw. rewrite Eed in Hw. apply Forall_app in Hw as [Hw1 Hw2]. inversion Hw2; subst.
      apply Forall_app. done.
  - unfold no_dup_directed. cbn [set_edges nt_edges]. rewrite Her, directed_pairs_app.
    rewrite <-Permutation_middle in Hnd. by apply NoDup_cons in Hnd as [_ ?].
Qed.

(** ** Undirected edges do not touch the recorded relations *)
Lemma netinv_edges N edges :
  netinv N -> directed_pairs edges = directed_pairs (nt_edges N) -> Forall (edge_wf (length (nt_nodes N))) edges -> netinv (set_edges N edges).
Proof.
  intros HI Hd Hw. assert (forall x y, has_directed (set_edges N edges) x y <-> has_directed N x y) as Hhd.
  { intros x y. rewrite !has_directed_pairs. cbn [set_edges nt_edges]. by rewrite Hd. }
  split.
  - intros x nd Hx. by apply (ni_children _ HI x nd).
  - intros x nd Hx. by apply (ni_parents _ HI x nd).
  - intros x y. rewrite Hhd. apply (ni_consistent _ HI).
  - rewrite (acyclic_ext _ _ Hhd). apply (ni_acyclic _ HI).
  - done.
Qed.
Lemma directed_pairs_undirected x y : directed_pairs [undirected_edge x y] = [].
Proof. unfold directed_pairs, undirected_edge. by case_bool_decide; rewrite filter_cons, decide_False by (intros [? [=]]). Qed.
Lemma directed_pairs_same_undirected a x y : edge_same a (undirected_edge x y) = true -> directed_pairs [a] = [].
Proof.
  intros H. apply edge_same_spec in H as (_ & _ & _ & He). unfold directed_pairs. rewrite filter_cons, decide_False; [done|].
  intros [_ Ha]. rewrite Ha in He. unfold undirected_edge in He. by case_bool_decide.
Qed.
Theorem add_undirected_edge_spec N p c :
  netinv N -> p < length (nt_nodes N) -> c < length (nt_nodes N) ->
  exists N', add_undirected_edge N p c = Ok N' /\ netinv N' /\ nt_nodes N' = nt_nodes N /\
    nt_edges N' = nt_edges N ++ [undirected_edge p c] /\ directed_pairs (nt_edges N') = directed_pairs (nt_edges N).
Proof.
  intros HI Hp Hc. unfold add_undirected_edge.
  destruct (lookup_lt_is_Some_2 _ _ Hp) as [ndp Hndp], (lookup_lt_is_Some_2 _ _ Hc) as [ndc Hndc].
  rewrite (find_node_ok _ _ _ Hndp), (find_node_ok _ _ _ Hndc). cbn [mbind outcome_bind].
  assert (directed_pairs (nt_edges N ++ [undirected_edge p c]) = directed_pairs (nt_edges N)) as Hd.
  { by rewrite directed_pairs_app, directed_pairs_undirected, app_nil_r. }
  eexists; split; [done|]. split_and!; [|done|done|done]. apply netinv_edges; [done|done|].
  apply Forall_app. split; [apply (ni_edges _ HI)|]. constructor; [|done]. unfold edge_wf, undirected_edge. case_bool_decide; cbn; split_and!; try done; lia.
Qed.
Theorem delete_undirected_edge_spec N p c :
  netinv N -> p < length (nt_nodes N) -> c < length (nt_nodes N) ->
  exists N' b, delete_undirected_edge N p c = Ok (N', b) /\ netinv N' /\ nt_nodes N' = nt_nodes N /\
    directed_pairs (nt_edges N') = directed_pairs (nt_edges N).
Proof.
  intros HI Hp Hc. unfold delete_undirected_edge.
  destruct (lookup_lt_is_Some_2 (nt_nodes N) (p `min` c)) as [nd1 Hnd1]; [lia|].
  destruct (lookup_lt_is_Some_2 (nt_nodes N) (p `max` c)) as [nd2 Hnd2]; [lia|].
  rewrite (find_node_ok _ _ _ Hnd1), (find_node_ok _ _ _ Hnd2). cbn [mbind outcome_bind].
  destruct (get_undirected_edge N (p `min` c) (p `max` c)) as [pos|] eqn:Hpos.
  2: { exists N, false. done. }
  apply find_edge_some in Hpos as (a & pre & post & E & <- & Hs & _). do 2 eexists. split; [done|].
  rewrite E, erase_at_middle. cbn [set_edges nt_nodes nt_edges].
  assert (directed_pairs (pre ++ post) = directed_pairs (nt_edges N)) as Hd.
  { rewrite E. change (a :: post) with ([a] ++ post). rewrite !directed_pairs_app. by rewrite (directed_pairs_same_undirected _ _ _ Hs). }
  split_and!; [|done|by rewrite Hd, E]. apply netinv_edges; [done|done|].
  pose proof (ni_edges _ HI) as Hw. rewrite E in Hw. apply Forall_app in Hw as [? Hw]. inversion Hw; subst. apply Forall_app. done.
Qed.

(** ** Histories *)
Lemma new_network_inv doms : netinv (new_network doms) /\ no_dup_directed (new_network doms).
Proof.
  assert (forall x y, ~ has_directed (new_network doms) x y) as Hno.
  { intros x y (e & He & _). by apply elem_of_nil in He. }
  assert (forall x nd, nt_nodes (new_network doms) !! x = Some nd -> exists d, nd = new_node d) as Hnd.
  { intros x nd Hx. cbn in Hx. rewrite list_lookup_fmap in Hx. destruct (doms !! x); [|done]. injection Hx as <-. eauto. }
  split; [split|apply NoDup_nil_2].
  - intros x nd Hx. destruct (Hnd _ _ Hx) as [d ->]. cbn. split; constructor.
  - intros x nd Hx. destruct (Hnd _ _ Hx) as [d ->]. cbn. split; constructor.
  - intros x y. split; (split; [by intros ?%Hno|]); intros (nd & Hx & Hy); destruct (Hnd _ _ Hx) as [d ->]; by apply elem_of_nil in Hy.
  - intros x Hx. inversion Hx; by eapply Hno.
  - constructor.
Qed.
Lemma exec_inv N o :
  netinv N -> no_dup_directed N -> edit_in_range (length (nt_nodes N)) o ->
  match o with AddD p c => ~ has_directed N p c | _ => True end ->
  exists N', exec N o = Ok N' /\ netinv N' /\ no_dup_directed N' /\ length (nt_nodes N') = length (nt_nodes N).
Proof.
  intros HI Hnd Hr Ho. destruct o as [p c|p c|p c|p c]; destruct Hr as [Hp Hc]; cbn [exec].
  - destruct (add_directed_edge_spec N p c HI Hp Hc) as (N' & b & -> & HI' & Hl & _ & _ & _ & Ht & Hf). exists N'. split_and!; try done.
    destruct b.
    + unfold no_dup_directed. rewrite (Ht eq_refl), directed_pairs_app. apply NoDup_app. split_and!; [done| |].
      * intros [x y] Hxy Hin. unfold directed_pairs in Hin. rewrite filter_cons, decide_True in Hin by done. cbn in Hin.
        apply elem_of_list_singleton in Hin as [= -> ->]. apply Ho. by apply has_directed_pairs.
      * unfold directed_pairs. rewrite filter_cons, decide_True by done. cbn. apply NoDup_singleton.
    + unfold no_dup_directed. by rewrite (proj1 (Hf eq_refl)).
  - destruct (delete_directed_edge_spec N p c HI Hnd Hp Hc) as (N' & b & -> & HI' & Hnd' & Hl & _). exists N'. done.
  - destruct (add_undirected_edge_spec N p c HI Hp Hc) as (N' & -> & HI' & Hn & _ & Hd). exists N'. rewrite Hn.
    split_and!; try done. unfold no_dup_directed. by rewrite Hd.
  - destruct (delete_undirected_edge_spec N p c HI Hp Hc) as (N' & b & -> & HI' & Hn & Hd). exists N'. rewrite Hn.
    split_and!; try done. unfold no_dup_directed. by rewrite Hd.
Qed.
Lemma run_inv N ops :
  netinv N -> no_dup_directed N -> Forall (edit_in_range (length (nt_nodes N))) ops -> no_repeated_add N ops ->
  exists N', run N ops = Ok N' /\ netinv N' /\ no_dup_directed N' /\ length (nt_nodes N') = length (nt_nodes N).
Proof.
  unfold run. revert N; induction ops as [|o ops IH]; intros N HI Hnd Hr Hnr; [by exists N|].
  inversion Hr as [|? ? Ho Hr']; subst. destruct Hnr as [Hn Hnr].
  destruct (exec_inv N o HI Hnd Ho Hn) as (N1 & HN1 & HI1 & Hnd1 & Hl1). cbn [mfor]. rewrite HN1 in *. cbn [mbind outcome_bind].
  destruct (IH N1 HI1 Hnd1) as (N' & H1 & H2 & H3 & H4); [by rewrite Hl1|done|]. exists N'. split_and!; try done. lia.
Qed.
Theorem histories_consistent doms ops :
  Forall (edit_in_range (length doms)) ops -> no_repeated_add (new_network doms) ops ->
  exists N', run (new_network doms) ops = Ok N' /\ acyclic (has_directed N') /\ consistent N'.
Proof.
  intros Hr Hn. destruct (new_network_inv doms) as [HI Hd].
  destruct (run_inv (new_network doms) ops HI Hd) as (N' & H1 & H2 & H3 & H4); [by cbn; rewrite fmap_length|done|].
  exists N'. split_and!; [done|apply (ni_acyclic _ H2)|apply (ni_consistent _ H2)].
Qed.

(** Repeating an addition breaks both. *)
Lemma repeated_add_counterexample :
  exists N', run (new_network [2;2]) [AddD 0 1; AddD 0 1; DelD 0 1; AddD 1 0] = Ok N' /\
    ~ acyclic (has_directed N') /\ ~ consistent N'.
Proof.
  eexists. split; [vm_compute; reflexivity|]. match goal with |- context [has_directed ?N] => set (N' := N) end.
  assert (has_directed N' 0 1) as H01 by (exists (directed_edge 0 1); split_and!; try done; left).
  assert (has_directed N' 1 0) as H10 by (exists (directed_edge 1 0); split_and!; try done; right; left).
  split.
  - intros Ha. apply (Ha 0). eapply tc_l; [exact H01|]. by apply tc_once.
  - intros Hc. apply (Hc 0 1) in H01 as (nd & Hx & Hy). injection Hx as <-. by apply elem_of_nil in Hy.
Qed.

(** ** Cached topological order *)
Theorem get_topo_ord_fresh N :
  netinv N -> nt_topo N = [] -> exists N' t, get_topo_ord N = Ok (N', t) /\ nt_topo N' = t /\ nt_edges N' = nt_edges N /\ nt_nodes N' = nt_nodes N /\
    topological (has_directed N) (length (nt_nodes N)) t.
Proof.
  intros HI Ht. unfold get_topo_ord. rewrite bool_decide_true by done.
  destruct (gen_topo_ord_spec N (ni_children _ HI)) as (t & -> & H1 & _). do 2 eexists. split; [done|]. split_and!; try done.
  destruct H1 as [Hp Ho]. { rewrite (acyclic_ext _ (has_directed N)); [apply (ni_acyclic _ HI)|]. intros x y. by apply netinv_child. }
  split; [done|]. intros i j x y Hx Hy Hd. eapply Ho; [done..|]. by apply netinv_child.
Qed.
Lemma stale_topo_counterexample :
  exists N1 N2 N3 t, get_topo_ord (new_network [2;2]) = Ok (N1, [0;1]) /\ add_directed_edge N1 1 0 = Ok (N2, true) /\
    get_topo_ord N2 = Ok (N3, t) /\ ~ topological (has_directed N2) 2 t.
Proof.
  do 4 eexists. split; [vm_compute; reflexivity|]. split; [vm_compute; reflexivity|]. split; [vm_compute; reflexivity|].
  intros [_ Ho]. feed pose proof (Ho 1 0 1 0); [done|done| |lia]. exists (directed_edge 1 0). split_and!; try done. left.
Qed.
