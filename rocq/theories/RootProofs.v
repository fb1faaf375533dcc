(** FindRootsInDAGForest and AddRootNode connect the graph; SaveBNStructure. *)
From Verif Require Export NetProofs3 GraphSpec2.
Local Open Scope nat_scope.

Definition seen (vis : list bool) (i : nat) : Prop := vis !! i = Some true.
Definition unseen_count (vis : list bool) : nat := length (filter (fun b => b = false) vis).

Lemma unseen_insert vis i : vis !! i = Some false -> S (unseen_count (<[i:=true]> vis)) = unseen_count vis.
Proof.
  unfold unseen_count. revert i; induction vis as [|b vis IH]; intros [|i] H; try done.
  - injection H as ->. cbn [insert list_insert]. by rewrite !filter_cons, decide_False, decide_True.
  - cbn in H. cbn [insert list_insert]. rewrite !filter_cons. destruct (decide (b = false)); cbn [length]; pose proof (IH i H) as Hi; unfold insert in *; lia.
Qed.
Lemma unseen_le vis : unseen_count vis <= length vis.
Proof. apply filter_length. Qed.

Lemma visit_ok n cs vis q :
  length vis = n -> (forall c, c ∈ cs -> c < n) ->
  exists vis' new, mfor cs bfs_visit (vis, q) = Ok (vis', q ++ new) /\ length vis' = n /\
    (forall i, seen vis' i <-> seen vis i \/ i ∈ cs) /\ (forall i, i ∈ new <-> i ∈ cs /\ ~ seen vis i) /\
    unseen_count vis' + length new = unseen_count vis.
Proof.
  intros Hlen Hcs.
  destruct (mfor_inv (fun dn st => exists new, snd st = q ++ new /\ length (fst st) = n /\
    (forall i, seen (fst st) i <-> seen vis i \/ i ∈ dn) /\ (forall i, i ∈ new <-> i ∈ dn /\ ~ seen vis i) /\
    unseen_count (fst st) + length new = unseen_count vis) cs bfs_visit (vis, q)) as ([vis' q'] & -> & new & Hq & Hl & Hs & Hn & Hc).
  - exists []. cbn [fst snd length]. split_and!; [by rewrite app_nil_r|done| | |lia].
    + intros i. rewrite elem_of_nil. tauto.
    + intros i. rewrite !elem_of_nil. tauto.
  - intros dn c rest [v0 q0] Hsplit (new & Hq & Hl & Hs & Hn & Hc). cbn [fst snd] in *.
    assert (c < n) as Hcn by (apply Hcs; rewrite Hsplit; apply elem_of_app; right; left).
    unfold bfs_visit. cbn [fst snd]. destruct (lookup_lt_is_Some_2 v0 c) as [b Hb]; [lia|]. rewrite (vget_ok _ _ _ Hb). cbn [mbind outcome_bind].
    destruct b.
    + eexists. split; [done|]. exists new. cbn [fst snd]. split_and!; try done.
      * intros i. rewrite Hs, elem_of_app, elem_of_list_singleton. split; [tauto|]. intros [?|[?| ->]]; [tauto|tauto|]. by apply Hs.
      * intros i. rewrite Hn, elem_of_app, elem_of_list_singleton. split; [tauto|]. intros [[?| ->] ?]; [tauto|]. split; [|done].
        assert (seen v0 c) as Hsc by done. apply Hs in Hsc. tauto.
    + rewrite vset_ok by lia. cbn [mbind outcome_bind]. eexists. split; [done|]. exists (new ++ [c]). cbn [fst snd].
      assert (~ (seen vis c \/ c ∈ dn)) as Hnc. { rewrite <-Hs. unfold seen. by rewrite Hb. }
      split_and!.
      * by rewrite Hq, <-app_assoc.
      * by rewrite insert_length.
      * intros i. rewrite elem_of_app, elem_of_list_singleton. unfold seen at 1. destruct (decide (i = c)) as [->|Hic].
        -- rewrite list_lookup_insert by lia. tauto.
        -- rewrite list_lookup_insert_ne by done. change (v0 !! i = Some true) with (seen v0 i). rewrite Hs. tauto.
      * intros i. rewrite !elem_of_app, !elem_of_list_singleton, Hn. split; [|tauto]. intros [?| ->]; [tauto|]. split; [by right|tauto].
      * rewrite app_length. cbn [length]. pose proof (unseen_insert v0 c Hb). lia.
  - cbn [fst snd] in *. exists vis', new. rewrite Hq. done.
Qed.

Section roots.
Context (N : network) (HI : netinv N).
Set Default Proof Using "All".
Notation n := (length (nt_nodes N)).

Lemma adj_node v nd w : nt_nodes N !! v = Some nd -> adj N v w <-> w ∈ nd_children nd \/ w ∈ nd_parents nd.
Proof.
  intros Hv. unfold adj. rewrite <-(netinv_child N v w HI), <-(netinv_parent N w v HI). unfold child_rel, parent_rel. rewrite Hv. naive_solver.
Qed.
Lemma adj_bound v w : adj N v w -> v < n /\ w < n.
Proof. intros [H|H]; apply (has_directed_bound N) in H; tauto. Qed.
Lemma adj_sym v w : adj N v w -> adj N w v.
Proof. unfold adj. tauto. Qed.

Lemma bfs_ok fuel vis q :
  length vis = n -> unseen_count vis + length q <= fuel -> (forall v, v ∈ q -> seen vis v) ->
  (forall v w, seen vis v -> v ∉ q -> adj N v w -> seen vis w) ->
  exists vis', bfs fuel N vis q = Ok vis' /\ length vis' = n /\ (forall v, seen vis v -> seen vis' v) /\
    (forall v w, seen vis' v -> adj N v w -> seen vis' w) /\
    (forall v, seen vis' v -> seen vis v \/ exists u, u ∈ q /\ rtc (adj N) u v) /\
    unseen_count vis' <= unseen_count vis.
Proof.
  revert vis q; induction fuel as [|fuel IH]; intros vis [|cur q] Hlen Hf Hq Hcl; cbn [length] in Hf; try lia.
  1,2: exists vis; split_and!; try done; [intros v w Hv; apply Hcl; [done|apply not_elem_of_nil]|by left].
  cbn [bfs]. assert (cur < n) as Hcur. { rewrite <-Hlen. apply lookup_lt_is_Some_1. exists true. apply Hq. left. }
  destruct (lookup_lt_is_Some_2 _ _ Hcur) as [nd Hnd]. rewrite (find_node_ok _ _ _ Hnd). cbn [mbind outcome_bind].
  assert (forall w, w ∈ nd_children nd -> w < n) as Hb1. { intros w Hw. apply (adj_bound cur w), (adj_node cur nd w Hnd). by left. }
  assert (forall w, w ∈ nd_parents nd -> w < n) as Hb2. { intros w Hw. apply (adj_bound cur w), (adj_node cur nd w Hnd). by right. }
  destruct (visit_ok n (nd_children nd) vis q Hlen Hb1) as (v1 & new1 & -> & L1 & S1 & N1 & C1). cbn [mbind outcome_bind].
  destruct (visit_ok n (nd_parents nd) v1 (q ++ new1) L1 Hb2) as (v2 & new2 & -> & L2 & S2 & N2 & C2). cbn [mbind outcome_bind fst snd].
  assert (forall i, seen v2 i <-> seen vis i \/ adj N cur i) as S3. { intros i. rewrite S2, S1, (adj_node cur nd i Hnd). tauto. }
  destruct (IH v2 ((q ++ new1) ++ new2)) as (vis' & -> & L' & Hmono & Hcl' & Hreach & Hc).
  - done.
  - rewrite !app_length. lia.
  - intros v. rewrite !elem_of_app, N1, N2, S2, S1. intros [[Hv|Hv]|Hv]; [|tauto|tauto]. left. left. apply Hq. by right.
  - intros v w Hv Hnv Hvw. apply S3. destruct (decide (v = cur)) as [->|Hne]; [by right|].
    rewrite !elem_of_app in Hnv. left. apply (Hcl v w); [|rewrite elem_of_cons; tauto|done].
    destruct (vis !! v) as [[]|] eqn:Ev; [done| |].
    + exfalso. assert (~ seen vis v) as Hns by (unfold seen; by rewrite Ev). rewrite N1, N2, S1 in Hnv. rewrite S2, S1 in Hv.
      destruct (decide (v ∈ nd_children nd)); [tauto|]. tauto.
    + exfalso. assert (is_Some (v2 !! v)) as Hs by (by exists true). apply lookup_lt_is_Some in Hs. apply lookup_ge_None in Ev. lia.
  - exists vis'. split_and!; try done.
    + intros v Hv. apply Hmono, S3. by left.
    + intros v Hv. destruct (Hreach v Hv) as [Hv2|(u & Hu & Hrt)].
      * apply S3 in Hv2 as [?|Ha]; [by left|right]. exists cur. split; [left|]. by apply rtc_once.
      * rewrite !elem_of_app, N1, N2 in Hu. destruct Hu as [[Hu|[Hu _]]|[Hu _]].
        -- right. exists u. split; [by right|done].
        -- right. exists cur. split; [left|]. eapply rtc_l; [|done]. apply (adj_node cur nd u Hnd). by left.
        -- right. exists cur. split; [left|]. eapply rtc_l; [|done]. apply (adj_node cur nd u Hnd). by right.
    + lia.
Qed.

Lemma parentless v nd : nt_nodes N !! v = Some nd -> nd_parents nd = [] <-> forall x, ~ has_directed N x v.
Proof.
  intros Hv. split.
  - intros Hp x Hx. apply (netinv_parent N x v HI) in Hx as (nd' & Hv' & Hin). rewrite Hv in Hv'. injection Hv' as <-. rewrite Hp in Hin. by apply elem_of_nil in Hin.
  - intros Hx. destruct (nd_parents nd) as [|p ps] eqn:E; [done|]. exfalso. apply (Hx p). apply (netinv_parent N p v HI). exists nd. split; [done|]. rewrite E. left.
Qed.
Lemma pick_root_ok vis : length vis = n ->
  exists best, pick_root N vis = Ok best /\
    match best with
    | Some (_, r) => r < n /\ vis !! r = Some false /\ forall x, ~ has_directed N x r
    | None => forall i, i < n -> (forall x, ~ has_directed N x i) -> seen vis i
    end.
Proof.
  intros Hlen. unfold pick_root.
  match goal with |- context [mfor ?l ?b ?s] =>
    destruct (mfor_inv (fun (dn : list nat) best => match best with
    | Some (_, r) => r < n /\ vis !! r = Some false /\ forall x, ~ has_directed N x r
    | None => forall i, i ∈ dn -> (forall x, ~ has_directed N x i) -> seen vis i
    end) l b s) as (best & Hb & Hbest) end.
  - intros i Hi. by apply elem_of_nil in Hi.
  - intros dn i rest best Hs Hb. assert (i ∈ seq 0 n) as Hi by (rewrite Hs; apply elem_of_app; right; left). apply elem_of_seq in Hi.
    destruct (lookup_lt_is_Some_2 (nt_nodes N) i) as [nd Hnd]; [lia|]. rewrite (find_node_ok _ _ _ Hnd). cbn [mbind outcome_bind].
    pose proof (parentless i nd Hnd) as Hpl.
    case_bool_decide as Hp.
    + apply length_zero_iff_nil in Hp. destruct (lookup_lt_is_Some_2 vis i) as [v Hv]; [lia|]. rewrite (vget_ok _ _ _ Hv). cbn [mbind outcome_bind].
      assert (i < n /\ (v = false -> vis !! i = Some false) /\ forall x, ~ has_directed N x i) as (Hin & Hvf & Hnx).
      { split_and!; [lia|by intros ->|]. by apply Hpl. }
      destruct v; [|destruct best as [[m r]|]].
      * eexists. split; [done|]. destruct best as [[m r]|]; [done|]. intros j Hj Hjn. apply elem_of_app in Hj as [Hj|Hj%elem_of_list_singleton]; [by apply Hb|]. by subst.
      * case_bool_decide; (eexists; split; [done|]); cbn; tauto.
      * eexists; split; [done|]. cbn. tauto.
    + eexists. split; [done|]. destruct best as [[m r]|]; [done|]. intros j Hj Hjn. apply elem_of_app in Hj as [Hj|Hj%elem_of_list_singleton]; [by apply Hb|]. subst j.
      exfalso. apply Hp. apply length_zero_iff_nil. by apply Hpl.
  - rewrite Hb. exists best. split; [done|]. destruct best as [[m r]|]; [done|]. intros i Hi. apply Hbest. apply elem_of_seq. lia.
Qed.

Lemma rtc_adj_sym v w : rtc (adj N) v w -> rtc (adj N) w v.
Proof. induction 1 as [|a b c Hab _ IH]; [done|]. eapply rtc_r; [done|]. by apply adj_sym. Qed.
Lemma closed_rtc (V : nat -> Prop) v w : (forall v w, V v -> adj N v w -> V w) -> V v -> rtc (adj N) v w -> V w.
Proof. intros Hcl Hv. induction 1 as [|a b c Hab _ IH]; [done|]. apply IH. by eapply Hcl. Qed.

Definition roots_ok (roots : list nat) (V : nat -> Prop) : Prop :=
  (forall r, r ∈ roots -> r < n /\ forall x, ~ has_directed N x r) /\
  NoDup roots /\ (forall r1 r2, r1 ∈ roots -> r2 ∈ roots -> rtc (adj N) r1 r2 -> r1 = r2) /\
  (forall v, v < n -> V v <-> exists r, r ∈ roots /\ rtc (adj N) r v).

Lemma find_roots_loop_ok fuel vis roots :
  length vis = n -> unseen_count vis < fuel -> (forall v w, seen vis v -> adj N v w -> seen vis w) -> roots_ok roots (seen vis) ->
  exists roots', find_roots_loop fuel N vis roots = Ok roots' /\ roots_ok roots' (fun v => v < n).
Proof.
  revert vis roots; induction fuel as [|fuel IH]; intros vis roots Hlen Hf Hcl Hr; [lia|]. cbn [find_roots_loop].
  destruct (pick_root_ok vis Hlen) as (best & -> & Hbest). cbn [mbind outcome_bind]. destruct best as [[m r]|].
  - destruct Hbest as (Hrn & Hrf & Hrp). rewrite vset_ok by lia. cbn [mbind outcome_bind].
    assert (~ seen vis r) as Hnr by (unfold seen; by rewrite Hrf).
    assert (forall v, seen (<[r:=true]> vis) v <-> v = r \/ seen vis v) as Hs1.
    { intros v. unfold seen. destruct (decide (v = r)) as [->|]; [rewrite list_lookup_insert by lia; tauto|rewrite list_lookup_insert_ne by done; tauto]. }
    pose proof (unseen_insert vis r Hrf) as Hc1. pose proof (unseen_le vis) as Hle.
    destruct (bfs_ok n (<[r:=true]> vis) [r]) as (vis' & -> & L' & Hmono & Hcl' & Hreach & Hc').
    + by rewrite insert_length.
    + cbn [length]. lia.
    + intros v Hv%elem_of_list_singleton. apply Hs1. by left.
    + intros v w Hv Hnv Hvw. rewrite elem_of_list_singleton in Hnv. apply Hs1 in Hv as [->|Hv]; [done|]. apply Hs1. right. by eapply Hcl.
    + cbn [mbind outcome_bind]. apply IH; [done|lia|done|]. destruct Hr as (R1 & R2 & R3 & R4).
      assert (forall r', r' ∈ roots -> ~ rtc (adj N) r' r) as Hun.
      { intros r' Hr' Hrt. apply Hnr. apply R4; [done|]. by exists r'. }
      split_and!.
      * intros r' [?|Hr'%elem_of_list_singleton]%elem_of_app; [by apply R1|by subst].
      * apply NoDup_app. split_and!; [done| |apply NoDup_singleton]. intros x Hx Hxr%elem_of_list_singleton. subst. by apply (Hun r Hx).
      * intros r1 r2 [H1|H1%elem_of_list_singleton]%elem_of_app [H2|H2%elem_of_list_singleton]%elem_of_app Hrt.
        -- by apply R3.
        -- subst. exfalso. by apply (Hun r1).
        -- subst. exfalso. apply (Hun r2); [done|]. by apply rtc_adj_sym.
        -- congruence.
      * intros v Hv. split.
        -- intros Hs. destruct (Hreach v Hs) as [Hs'|(u & Hu%elem_of_list_singleton & Hrt)].
           ++ apply Hs1 in Hs' as [->|Hs']; [exists r; split; [apply elem_of_app; right; left|done]|].
              apply R4 in Hs' as (r' & ? & ?); [|done]. exists r'. split; [apply elem_of_app; by left|done].
           ++ subst. exists r. split; [apply elem_of_app; right; left|done].
        -- intros (r' & [Hr'|Hr'%elem_of_list_singleton]%elem_of_app & Hrt).
           ++ apply Hmono, Hs1. right. apply R4; [done|]. by exists r'.
           ++ subst. apply (closed_rtc (seen vis') r v); [done| |done]. apply Hmono, Hs1. by left.
  - exists roots. split; [done|]. destruct Hr as (R1 & R2 & R3 & R4). split_and!; try done. intros v Hv. rewrite <-R4 by done. split; [|done]. intros _.
    destruct (decide (vis !! v = Some true)) as [|Hns]; [done|exfalso].
    destruct (no_source_cycle (has_directed N) (filter (fun x => vis !! x ≠ Some true) (seq 0 n)) v) as [x Hx].
    + apply elem_of_list_filter. split; [done|]. apply elem_of_seq. lia.
    + intros x [Hx Hxn]%elem_of_list_filter. apply elem_of_seq in Hxn.
      destruct (lookup_lt_is_Some_2 (nt_nodes N) x) as [nd Hnd]; [lia|].
      destruct (nd_parents nd) as [|p ps] eqn:Ep.
      { exfalso. apply Hx. apply Hbest; [lia|]. by apply (parentless x nd). }
      assert (has_directed N p x) as Hpx. { apply (netinv_parent N p x HI). exists nd. split; [done|]. rewrite Ep. left. }
      exists p. split; [|done]. apply elem_of_list_filter. destruct (has_directed_bound _ _ _ HI Hpx). split; [|apply elem_of_seq; lia].
      intros Hs. apply Hx. apply (Hcl p x Hs). by left.
    + by apply (ni_acyclic _ HI x).
Qed.

Theorem find_roots_ok : exists roots, find_roots N = Ok roots /\ roots_ok roots (fun v => v < n).
Proof.
  apply find_roots_loop_ok.
  - apply replicate_length.
  - pose proof (unseen_le (replicate n false)) as H. rewrite replicate_length in H. lia.
  - intros v w Hv. unfold seen in Hv. apply lookup_replicate in Hv as [? _]. done.
  - split_and!.
    + intros r Hr. by apply elem_of_nil in Hr.
    + apply NoDup_nil_2.
    + intros r1 r2 Hr. by apply elem_of_nil in Hr.
    + intros v Hv. split; [|by intros (r & ?%elem_of_nil & _)]. intros Hs. unfold seen in Hs. apply lookup_replicate in Hs as [? _]. done.
Qed.

(** ** AddRootNode *)
Lemma add_root_spec roots : NoDup roots -> (forall r, r ∈ roots -> r < n) ->
  exists N', add_root_node N roots = Ok N' /\ length (nt_nodes N') = S n /\
    nt_edges N' = nt_edges N ++ (directed_edge n <$> roots) /\ nt_num_edges N' = nt_num_edges N + length roots /\
    (forall i nd, nt_nodes N !! i = Some nd -> nt_nodes N' !! i = Some (if decide (i ∈ roots) then node_add_parent n 2 nd else nd)) /\
    exists root, nt_nodes N' !! n = Some root /\ nd_dom root = 2 /\ nd_parents root = [] /\ nd_pvec root = [] /\
      StronglySorted lt (nd_children root) /\ forall c, c ∈ nd_children root <-> c ∈ roots.
Proof.
  intros Hnd Hr. unfold add_root_node.
  match goal with |- context [mfor roots ?b ?s] =>
    destruct (mfor_inv (fun dn (st : network * node) => length (nt_nodes (fst st)) = n /\ nt_edges (fst st) = nt_edges N ++ (directed_edge n <$> dn) /\
      nt_num_edges (fst st) = nt_num_edges N + length dn /\
      (forall i nd, nt_nodes N !! i = Some nd -> nt_nodes (fst st) !! i = Some (if decide (i ∈ dn) then node_add_parent n 2 nd else nd)) /\
      nd_dom (snd st) = 2 /\ nd_parents (snd st) = [] /\ nd_pvec (snd st) = [] /\
      StronglySorted lt (nd_children (snd st)) /\ forall c, c ∈ nd_children (snd st) <-> c ∈ dn) roots b s) as ([N1 root] & -> & H1 & H2 & H3 & H4 & H5 & H6 & H7 & H8 & H9) end.
  - cbn [fst snd length]. split_and!; [done|cbn; by rewrite app_nil_r|lia| |done|done|done|constructor|done].
    intros i nd Hi. destruct (decide (i ∈ [])) as [Hin|]; [by apply elem_of_nil in Hin|done].
  - intros dn c rest [N0 root] Hs (H1 & H2 & H3 & H4 & H5 & H6 & H7 & H8 & H9). cbn [fst snd] in *.
    assert (c ∈ roots) as Hc by (rewrite Hs; apply elem_of_app; right; left). pose proof (Hr c Hc) as Hcn.
    destruct (lookup_lt_is_Some_2 _ _ Hcn) as [nd Hndc]. pose proof (H4 _ _ Hndc) as Hlk.
    assert (c ∉ dn) as Hcd. { rewrite Hs in Hnd. apply NoDup_app in Hnd as (_ & Hd & _). intros Hin. apply (Hd _ Hin). left. }
    destruct (decide (c ∈ dn)); [done|].
    rewrite (find_node_ok _ _ _ Hlk). cbn [mbind outcome_bind]. eexists. split; [done|]. cbn [fst snd set_nodes nt_nodes nt_edges nt_num_edges].
    split_and!.
    + by rewrite insert_length.
    + rewrite H2, fmap_app, <-app_assoc. done.
    + rewrite H3, app_length. cbn. lia.
    + intros i nd' Hi. destruct (decide (i = c)) as [->|Hic].
      * rewrite list_lookup_insert by lia. rewrite Hndc in Hi. injection Hi as <-. destruct (decide (c ∈ dn ++ [c])) as [_|Hn]; [by rewrite <-H5|].
        exfalso. apply Hn. apply elem_of_app. right. left.
      * rewrite list_lookup_insert_ne by done. rewrite (H4 _ _ Hi). destruct (decide (i ∈ dn)), (decide (i ∈ dn ++ [c])) as [Hin|Hin]; try done.
        -- exfalso. apply Hin. apply elem_of_app. by left.
        -- apply elem_of_app in Hin as [?|?%elem_of_list_singleton]; done.
    + done.
    + done.
    + done.
    + by apply sins_sorted.
    + intros x. cbn. rewrite elem_of_sins, H9, elem_of_app, elem_of_list_singleton. tauto.
  - cbn [mbind outcome_bind fst snd] in *. eexists. split; [done|]. cbn [set_nodes nt_nodes nt_edges nt_num_edges]. split_and!; try done.
    + rewrite app_length. cbn. lia.
    + intros i nd Hi. rewrite lookup_app_l; [by apply H4|]. rewrite H1. by eapply lookup_lt_Some.
    + exists root. split_and!; try done. rewrite <-H1. rewrite lookup_app_r, Nat.sub_diag by done. done.
Qed.

Lemma root_edges N' roots x y :
  nt_edges N' = nt_edges N ++ (directed_edge n <$> roots) -> has_directed N' x y <-> has_directed N x y \/ x = n /\ y ∈ roots.
Proof.
  intros He. unfold has_directed. rewrite He. split.
  - intros (e & [Hin|Hin]%elem_of_app & H); [left; by exists e|]. apply elem_of_list_fmap in Hin as (c & -> & Hc). right. cbn in H. destruct H as (<- & <- & _). done.
  - intros [(e & Hin & H)|[-> Hy]].
    + exists e. split; [apply elem_of_app; by left|done].
    + exists (directed_edge n y). split; [|done]. apply elem_of_app. right. apply elem_of_list_fmap. by exists y.
Qed.

Theorem add_root_netinv roots N' :
  NoDup roots -> (forall r, r ∈ roots -> r < n) -> add_root_node N roots = Ok N' -> netinv N'.
Proof.
  intros Hnd Hr Hok. destruct (add_root_spec roots Hnd Hr) as (N2 & Hok' & Hlen & Hed & _ & Hnodes & root & Hroot & _ & Rp & Rv & Rs & Rc).
  rewrite Hok in Hok'. injection Hok' as <-.
  assert (forall x y, has_directed N' x y <-> has_directed N x y \/ x = n /\ y ∈ roots) as Hhd by (intros; by apply root_edges).
  assert (forall i nd', nt_nodes N' !! i = Some nd' -> i = n /\ nd' = root \/ i <> n /\ exists nd, nt_nodes N !! i = Some nd /\ nd' = if decide (i ∈ roots) then node_add_parent n 2 nd else nd) as Hinv.
  { intros i nd' Hi. destruct (decide (i = n)) as [->|Hin]; [left; split; congruence|right]. split; [done|].
    destruct (lookup_lt_is_Some_2 (nt_nodes N) i) as [nd Hnd']; [apply lookup_lt_Some in Hi; lia|]. exists nd. split; [done|]. rewrite (Hnodes _ _ Hnd') in Hi. by injection Hi as <-. }
  assert (forall i nd, nt_nodes N !! i = Some nd -> n ∉ nd_parents nd) as Hnp.
  { intros i nd Hi Hin. assert (has_directed N n i) as Hd by (apply (netinv_parent N n i HI); by exists nd). apply (has_directed_bound _ _ _ HI) in Hd. lia. }
  assert (forall nd, nd_children (node_add_parent n 2 nd) = nd_children nd) as Hch. { intros nd. unfold node_add_parent. by case_bool_decide. }
  assert (forall i nd, nt_nodes N !! i = Some nd -> nd_parents (node_add_parent n 2 nd) = sins n (nd_parents nd) /\ nd_pvec (node_add_parent n 2 nd) = nd_pvec nd ++ [n]) as Hpa.
  { intros i nd Hi. unfold node_add_parent. rewrite bool_decide_false by (by eapply Hnp). done. }
  split.
  - intros x nd' Hx. rewrite Hlen. apply Hinv in Hx as [[-> ->]|(Hxn & nd & Hx & ->)].
    + split; [done|]. apply Forall_forall. intros c Hc. apply Rc, Hr in Hc. lia.
    + destruct (ni_children _ HI _ _ Hx) as [Hs Hb]. assert (nd_children (if decide (x ∈ roots) then node_add_parent n 2 nd else nd) = nd_children nd) as -> by (case_decide; [apply Hch|done]).
      split; [done|]. eapply Forall_impl; [exact Hb|]. cbn. intros; lia.
  - intros x nd' Hx. apply Hinv in Hx as [[-> ->]|(Hxn & nd & Hx & ->)].
    + rewrite Rp, Rv. split; constructor.
    + destruct (ni_parents _ HI _ _ Hx) as [Hs Hp]. case_decide; [|done]. destruct (Hpa _ _ Hx) as [-> ->]. split; [by apply sins_sorted|].
      apply NoDup_Permutation.
      * rewrite Hp. apply NoDup_app. split_and!; [by apply lt_sorted_NoDup| |apply NoDup_singleton]. intros z Hz Hzn%elem_of_list_singleton. subst. by eapply Hnp.
      * by apply lt_sorted_NoDup, sins_sorted.
      * intros z. rewrite elem_of_sins, elem_of_app, elem_of_list_singleton, Hp. tauto.
  - intros x y. rewrite Hhd. split.
    + split.
      * intros [Hd|[-> Hy]].
        -- apply (netinv_child N x y HI) in Hd as (nd & Hx & Hy). eexists. split; [by apply Hnodes|]. case_decide; [by rewrite Hch|done].
        -- exists root. split; [done|]. by apply Rc.
      * intros (nd' & Hx & Hy). apply Hinv in Hx as [[-> ->]|(Hxn & nd & Hx & ->)].
        -- right. split; [done|]. by apply Rc.
        -- left. apply (netinv_child N x y HI). exists nd. split; [done|]. case_decide; [by rewrite Hch in Hy|done].
    + split.
      * intros [Hd|[-> Hy]].
        -- apply (netinv_parent N x y HI) in Hd as (nd & Hx & Hy). eexists. split; [by apply Hnodes|]. case_decide; [|done].
           destruct (Hpa _ _ Hx) as [-> _]. apply elem_of_sins. by right.
        -- pose proof (Hr _ Hy) as Hyn. destruct (lookup_lt_is_Some_2 _ _ Hyn) as [nd Hnd']. eexists. split; [by apply Hnodes|]. destruct (decide (y ∈ roots)); [|done].
           destruct (Hpa _ _ Hnd') as [-> _]. apply elem_of_sins. by left.
      * intros (nd' & Hx & Hy). apply Hinv in Hx as [[-> ->]|(Hxn & nd & Hx & ->)].
        -- rewrite Rp in Hy. by apply elem_of_nil in Hy.
        -- case_decide.
           ++ destruct (Hpa _ _ Hx) as [E _]. rewrite E in Hy. apply elem_of_sins in Hy as [->|Hy]; [by right|]. left. apply (netinv_parent N x y HI). by exists nd.
           ++ left. apply (netinv_parent N x y HI). by exists nd.
  - assert (forall x y, tc (has_directed N') x y -> y <> n) as Hyn.
    { induction 1 as [x y Hxy|x y z _ _ IH]; [|done]. apply Hhd in Hxy as [Hxy|[_ Hy]]; [apply (has_directed_bound _ _ _ HI) in Hxy; lia|apply Hr in Hy; lia]. }
    assert (forall x y, tc (has_directed N') x y -> x <> n -> tc (has_directed N) x y) as Hold.
    { induction 1 as [x y Hxy|x y z Hxy Hyz IH]; intros Hxn.
      - apply Hhd in Hxy as [Hxy|[? _]]; [by apply tc_once|done].
      - pose proof (Hyn x y (tc_once _ _ _ Hxy)) as Hy. apply Hhd in Hxy as [Hxy|[? _]]; [|done]. eapply tc_l; [done|]. by apply IH. }
    intros x Hx. apply (ni_acyclic _ HI x). apply Hold; [done|]. by eapply Hyn.
  - rewrite Hlen, Hed. apply Forall_app. split.
    + eapply Forall_impl; [apply (ni_edges _ HI)|]. intros e (? & ? & ? & ?). split_and!; try done; lia.
    + apply Forall_fmap, Forall_forall. intros c Hc. apply Hr in Hc. split_and!; cbn; try done; lia.
Qed.
End roots.

Theorem root_connects N :
  netinv N ->
  exists roots N', find_roots N = Ok roots /\ add_root_node N roots = Ok N' /\
    length (nt_nodes N') = S (length (nt_nodes N)) /\
    (forall r, r ∈ roots -> r < length (nt_nodes N) /\ forall x, ~ has_directed N x r) /\
    NoDup roots /\
    (forall v, v < length (nt_nodes N) -> exists r, r ∈ roots /\ rtc (adj N) v r /\ forall r', r' ∈ roots -> rtc (adj N) v r' -> r' = r) /\
    (forall x y, has_directed N' x y <-> has_directed N x y \/ x = length (nt_nodes N) /\ y ∈ roots) /\
    acyclic (has_directed N') /\ consistent N' /\
    (forall v w, v < length (nt_nodes N') -> w < length (nt_nodes N') -> rtc (adj N') v w).
Proof.
  intros HI. destruct (find_roots_ok N HI) as (roots & Hf & R1 & R2 & R3 & R4).
  assert (forall r, r ∈ roots -> r < length (nt_nodes N)) as Hr by (intros r Hr; by apply R1).
  destruct (add_root_spec N HI roots R2 Hr) as (N' & Hok & Hlen & Hed & _). pose proof (add_root_netinv N HI roots N' R2 Hr Hok) as HI'.
  assert (forall x y, has_directed N' x y <-> has_directed N x y \/ x = length (nt_nodes N) /\ y ∈ roots) as Hhd by (intros; by apply root_edges).
  exists roots, N'. split_and!; try done.
  - intros v Hv. destruct (proj1 (R4 v Hv) Hv) as (r & Hin & Hrt). exists r. split_and!; [done|by apply rtc_adj_sym|].
    intros r' Hr' Hrt'. symmetry. apply R3; [done|done|]. by etrans.
  - apply (ni_acyclic _ HI').
  - apply (ni_consistent _ HI').
  - assert (forall v, v < length (nt_nodes N') -> rtc (adj N') (length (nt_nodes N)) v) as Hto.
    { intros v Hv. rewrite Hlen in Hv. destruct (decide (v = length (nt_nodes N))) as [->|Hne]; [done|].
      destruct (proj1 (R4 v ltac:(lia))) as (r & Hin & Hrt); [lia|]. eapply rtc_l; [left; apply Hhd; right; by split|].
      eapply rtc_subrel; [|done]. intros x y [H|H]; [left|right]; apply Hhd; by left. }
    intros v w Hv Hw. etrans; [|by apply Hto]. apply (rtc_adj_sym N' HI'). by apply Hto.
Qed.

(** ** SaveBNStructure *)
Lemma save_children N x cs out : Forall (fun c => c < length (nt_nodes N)) cs ->
  mfor cs (fun c out => _ ← find_node N c; Ok (out ++ [Arc x c])) out = Ok (out ++ (Arc x <$> cs)).
Proof.
  intros Hb. revert out. induction Hb as [|c cs Hc _ IH]; intros out; cbn [mfor]; [by rewrite app_nil_r|].
  destruct (lookup_lt_is_Some_2 _ _ Hc) as [ndc Hndc]. rewrite (find_node_ok _ _ _ Hndc). cbn [mbind outcome_bind].
  rewrite IH, <-app_assoc. done.
Qed.
(** The branch of [save_bn_structure] for a first edge that is directed. *)
Definition save_arcs (N : network) : outcome (list line) :=
  nt ← get_topo_ord N;
  mfor (seq 0 (length (nt_nodes N))) (fun i out =>
    x ← vget (snd nt) i; nd ← find_node N x;
    mfor (nd_children nd) (fun c out => _ ← find_node N c; Ok (out ++ [Arc x c])) out) [].
Lemma save_arcs_ok N :
  netinv N -> nt_topo N = [] ->
  exists lines, save_arcs N = Ok lines /\ NoDup lines /\
    (forall l, l ∈ lines <-> exists x y, l = Arc x y /\ has_directed N x y).
Proof.
  intros HI Ht. unfold save_arcs.
  destruct (get_topo_ord_fresh N HI Ht) as (N1 & t & -> & _ & _ & Hn1 & Hp & _). cbn [mbind outcome_bind snd].
  assert (length t = length (nt_nodes N)) as Hlt. { apply Permutation_length in Hp. by rewrite seq_length in Hp. }
  match goal with |- context [mfor ?l ?b ?s] =>
    destruct (mfor_inv (fun (dn : list nat) out => NoDup out /\ forall ln, ln ∈ out <-> exists k x y, k ∈ dn /\ t !! k = Some x /\ ln = Arc x y /\ has_directed N x y) l b s) as (out & -> & Hnd & Hout) end.
  - split; [apply NoDup_nil_2|]. intros l. split; [by intros ?%elem_of_nil|]. by intros (k & x & y & ?%elem_of_nil & _).
  - intros dn i rest out Hs [Hnd Hout]. assert (i ∈ seq 0 (length (nt_nodes N))) as Hi by (rewrite Hs; apply elem_of_app; right; left). apply elem_of_seq in Hi.
    assert (i ∉ dn) as Hni. { assert (NoDup (dn ++ i :: rest)) as HN by (rewrite <-Hs; apply NoDup_seq). apply NoDup_app in HN as (_ & Hdj & _). intros Hin. apply (Hdj _ Hin). left. }
    destruct (lookup_lt_is_Some_2 t i) as [x Hx]; [lia|]. rewrite (vget_ok _ _ _ Hx). cbn [mbind outcome_bind].
    assert (x < length (nt_nodes N)) as Hxn. { apply elem_of_list_lookup_2 in Hx. rewrite Hp in Hx. apply elem_of_seq in Hx. lia. }
    destruct (lookup_lt_is_Some_2 _ _ Hxn) as [nd Hnd']. rewrite (find_node_ok _ _ _ Hnd'). cbn [mbind outcome_bind].
    rewrite (save_children N x (nd_children nd)) by (apply (ni_children _ HI _ _ Hnd')).
    eexists. split; [done|]. split.
    + apply NoDup_app. split_and!; [done| |].
      * intros l Hl Hl'. apply Hout in Hl as (k & x' & y' & Hk & Hx' & -> & _). apply elem_of_list_fmap in Hl' as (c & [= -> ->] & _).
        apply Hni. assert (k = i) as <-; [|done]. eapply NoDup_lookup; [|done|done]. rewrite Hp. apply NoDup_seq.
      * apply NoDup_fmap_2; [by intros ? ? [=]|]. apply lt_sorted_NoDup, (ni_children _ HI _ _ Hnd').
    + intros l. rewrite elem_of_app, Hout, elem_of_list_fmap. split.
      * intros [(k & x' & y' & ? & ?)|(c & -> & Hc)].
        -- exists k, x', y'. split; [apply elem_of_app; by left|done].
        -- exists i, x, c. split_and!; [apply elem_of_app; right; left|done|done|]. apply (netinv_child N x c HI). by exists nd.
      * intros (k & x' & y' & [Hk|Hk%elem_of_list_singleton]%elem_of_app & Hx' & -> & Hxy); [left; eauto 10|right].
        subst k. rewrite Hx in Hx'. injection Hx' as <-. exists y'. split; [done|]. apply (netinv_child N x y' HI) in Hxy as (nd2 & Hnd2 & ?).
        rewrite Hnd' in Hnd2. by injection Hnd2 as ->.
  - exists out. split_and!; try done. intros l. rewrite Hout. split.
    + intros (k & x & y & _ & _ & ? & ?). eauto.
    + intros (x & y & -> & Hxy). destruct (has_directed_bound _ _ _ HI Hxy) as [Hx _].
      assert (x ∈ t) as Hxt. { rewrite Hp. apply elem_of_seq. lia. }
      apply elem_of_list_lookup in Hxt as [k Hk]. exists k, x, y. split_and!; try done. apply elem_of_seq. apply lookup_lt_Some in Hk. lia.
Qed.
Theorem save_dag_ok N :
  netinv N -> nt_topo N = [] -> (exists e0, nt_edges N !! 0 = Some e0 /\ is_directed e0 = true) ->
  exists lines, save_bn_structure N = Ok lines /\ NoDup lines /\
    (forall l, l ∈ lines <-> exists x y, l = Arc x y /\ has_directed N x y).
Proof.
  intros HI Ht (e0 & He0 & Hd). unfold save_bn_structure. rewrite (vget_ok _ _ _ He0). cbn [mbind outcome_bind]. rewrite Hd. by apply save_arcs_ok.
Qed.
Theorem save_pattern_ok N :
  nt_num_edges N = length (nt_edges N) -> (exists e0, nt_edges N !! 0 = Some e0 /\ is_directed e0 = false) ->
  Forall (fun e => e_ep1 e = Tail) (nt_edges N) ->
  save_bn_structure N = Ok ((fun e => match e_ep2 e with Arrow => Arc (e_n1 e) (e_n2 e) | Tail => Link (e_n1 e) (e_n2 e) end) <$> nt_edges N).
Proof.
  intros Hnum (e0 & He0 & Hd) Htail. unfold save_bn_structure. rewrite (vget_ok _ _ _ He0). cbn [mbind outcome_bind]. rewrite Hd, Hnum.
  set (f := fun e => match e_ep2 e with Arrow => Arc (e_n1 e) (e_n2 e) | Tail => Link (e_n1 e) (e_n2 e) end).
  match goal with |- mfor ?l ?b ?s = _ =>
    destruct (mfor_inv (fun (dn : list nat) out => out = f <$> take (length dn) (nt_edges N)) l b s) as (out & -> & ->) end.
  - done.
  - intros dn i rest out Hs ->.
    assert (i = length dn /\ i < length (nt_edges N)) as [-> Hi].
    { assert (seq 0 (length (nt_edges N)) !! length dn = Some i) as Hlk by (rewrite Hs; apply list_lookup_middle; done).
      pose proof (lookup_lt_Some _ _ _ Hlk) as Hlt. rewrite seq_length in Hlt. apply lookup_seq in Hlk as [-> ?]. done. }
    destruct (lookup_lt_is_Some_2 _ _ Hi) as [e He]. unfold vat. rewrite He. cbn [mbind outcome_bind]. eexists. split; [done|].
    rewrite app_length, Nat.add_1_r, (take_S_r _ _ e He), fmap_app. f_equal. cbn. f_equal.
    rewrite Forall_forall in Htail. pose proof (Htail e (elem_of_list_lookup_2 _ _ _ He)) as Hte. unfold f, is_directed. rewrite Hte. by destruct (e_ep2 e).
  - by rewrite seq_length, firstn_all.
Qed.
Theorem save_no_edges N : nt_edges N = [] -> save_bn_structure N = Err OutOfBounds.
Proof. intros H. unfold save_bn_structure, vget. by rewrite H. Qed.
