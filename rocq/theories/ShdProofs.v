(** Structural Hamming distance counts the node pairs that disagree. *)
From Verif Require Export CompelProofs2.
Local Open Scope nat_scope.

Lemma get_edge_spec N i j :
  match get_edge N i j with
  | Some pos => exists e, nt_edges N !! pos = Some e /\ joins N i j e
  | None => forall e, ~ joins N i j e
  end.
Proof.
  unfold get_edge, joins. induction (nt_edges N) as [|a l IH]; cbn [get_edge_in].
  - by intros e [?%elem_of_nil _].
  - destruct (_ || _) eqn:Hc.
    + exists a. split; [done|]. split; [left|]. rewrite orb_true_iff, !andb_true_iff, !bool_decide_eq_true in Hc. tauto.
    + destruct (get_edge_in l i j) as [pos|]; cbn.
      * destruct IH as (e & He & Hin & Hj). exists e. split; [done|]. split; [by right|done].
      * intros e [Hin Hj]. apply elem_of_cons in Hin as [->|Hin]; [|by apply (IH e)].
        rewrite orb_false_iff, !andb_false_iff, !bool_decide_eq_false in Hc. tauto.
Qed.
Lemma shd_one_spec T L i j :
  single T -> single L -> i < length (nt_nodes T) -> j < length (nt_nodes T) -> i < length (nt_nodes L) -> j < length (nt_nodes L) ->
  exists d, shd_one T L i j = Ok d /\ (d = 0 /\ agree T L i j \/ d = 1 /\ ~ agree T L i j).
Proof.
  intros HT HL Hi1 Hj1 Hi2 Hj2. unfold shd_one.
  destruct (lookup_lt_is_Some_2 _ _ Hi1) as [? H1], (lookup_lt_is_Some_2 _ _ Hj1) as [? H2], (lookup_lt_is_Some_2 _ _ Hi2) as [? H3], (lookup_lt_is_Some_2 _ _ Hj2) as [? H4].
  rewrite (find_node_ok _ _ _ H1), (find_node_ok _ _ _ H2), (find_node_ok _ _ _ H3), (find_node_ok _ _ _ H4). cbn [mbind outcome_bind].
  pose proof (get_edge_spec T i j) as GT. pose proof (get_edge_spec L i j) as GL.
  destruct (get_edge T i j) as [p1|], (get_edge L i j) as [p2|].
  - destruct GT as (e1 & E1 & J1), GL as (e2 & E2 & J2). unfold vat. rewrite E1, E2. cbn [mbind outcome_bind]. eexists. split; [done|].
    destruct (_ && _) eqn:Hc.
    + left. split; [done|]. rewrite !andb_true_iff, !bool_decide_eq_true in Hc. destruct Hc as [[C1 C2] C3]. intros n1 n2 ep. split.
      * intros (e & He & <- & <- & <-). rewrite (HT _ _ _ _ He J1). by exists e2.
      * intros (e & He & <- & <- & <-). rewrite (HL _ _ _ _ He J2). by exists e1.
    + right. split; [done|]. intros Ha. rewrite !andb_false_iff, !bool_decide_eq_false in Hc.
      destruct (proj1 (Ha (e_n1 e1) (e_n2 e1) (e_ep2 e1))) as (e & He & A1 & A2 & A3); [by exists e1|]. rewrite (HL _ _ _ _ He J2) in *. naive_solver.
  - destruct GT as (e1 & E1 & J1). eexists. split; [done|]. right. split; [done|]. intros Ha.
    destruct (proj1 (Ha (e_n1 e1) (e_n2 e1) (e_ep2 e1))) as (e & He & _); [by exists e1|]. by apply (GL e).
  - destruct GL as (e1 & E1 & J1). eexists. split; [done|]. right. split; [done|]. intros Ha.
    destruct (proj2 (Ha (e_n1 e1) (e_n2 e1) (e_ep2 e1))) as (e & He & _); [by exists e1|]. by apply (GT e).
  - exists 0. split; [done|]. left. split; [done|]. intros n1 n2 ep. split; intros (e & He & _); exfalso; [by apply (GT e)|by apply (GL e)].
Qed.

Theorem shd_pairs_spec T L :
  single T -> single L -> length (nt_nodes T) = length (nt_nodes L) ->
  exists bad, shd_pairs T L = Ok (length bad) /\ NoDup bad /\
    forall i j, (i, j) ∈ bad <-> i < j /\ j < length (nt_nodes L) /\ ~ agree T L i j.
Proof.
  intros HT HL Hlen. unfold shd_pairs. set (n := length (nt_nodes L)) in *.
  match goal with |- context [mfor ?l ?b ?s] =>
    destruct (mfor_inv (fun (dn : list nat) acc => exists bad, acc = length bad /\ NoDup bad /\
       forall i j, (i, j) ∈ bad <-> i ∈ dn /\ i < j /\ j < n /\ ~ agree T L i j) l b s) as (d & -> & bad & -> & Hnd & Hb) end.
  - exists []. split_and!; [done|apply NoDup_nil_2|]. intros i j. split; [by intros ?%elem_of_nil|]. by intros [?%elem_of_nil _].
  - intros dn i1 rest acc Hs (bad & -> & Hnd & Hb).
    assert (i1 ∈ seq 0 n) as Hi1 by (rewrite Hs; apply elem_of_app; right; left). apply elem_of_seq in Hi1.
    assert (i1 ∉ dn) as Hni. { assert (NoDup (dn ++ i1 :: rest)) as HN by (rewrite <-Hs; apply NoDup_seq). apply NoDup_app in HN as (_ & Hd & _). intros Hin. apply (Hd _ Hin). left. }
    match goal with |- exists s1, mfor ?l ?b ?s = _ /\ _ =>
      destruct (mfor_inv (fun (dn2 : list nat) acc => exists bad, acc = length bad /\ NoDup bad /\
        forall i j, (i, j) ∈ bad <-> (i ∈ dn /\ i < j /\ j < n \/ i = i1 /\ j ∈ dn2) /\ ~ agree T L i j) l b s) as (d & -> & bad2 & -> & Hnd2 & Hb2) end.
    + exists bad. split_and!; try done. intros i j. rewrite Hb. split; [tauto|]. intros [[?|[_ ?%elem_of_nil]] ?]; [tauto|done].
    + intros dn2 i2 rest2 acc Hs2 (bad2 & -> & Hnd2 & Hb2).
      assert (i2 ∈ seq (S i1) (n - S i1)) as Hi2 by (rewrite Hs2; apply elem_of_app; right; left). apply elem_of_seq in Hi2.
      assert (i2 ∉ dn2) as Hni2. { assert (NoDup (dn2 ++ i2 :: rest2)) as HN by (rewrite <-Hs2; apply NoDup_seq). apply NoDup_app in HN as (_ & Hd & _). intros Hin. apply (Hd _ Hin). left. }
      destruct (shd_one_spec T L i1 i2) as (d & -> & Hd); [done|done|fold n; lia..|]. cbn [mbind outcome_bind]. eexists. split; [done|].
      destruct Hd as [[-> Ha]|[-> Ha]].
      * exists bad2. split_and!; [lia|done|]. intros i j. rewrite Hb2, elem_of_app, elem_of_list_singleton. split; [tauto|].
        intros [[?|[-> [?| ->]]] ?]; tauto.
      * exists ((i1, i2) :: bad2). split_and!; [cbn; lia| |].
        -- apply NoDup_cons. split; [|done]. intros Hin. apply Hb2 in Hin as [[[? _]|[_ ?]] _]; done.
        -- intros i j. rewrite elem_of_cons, Hb2, elem_of_app, elem_of_list_singleton. split.
           ++ intros [[= -> ->]|[? ?]]; [|tauto]. split; [|done]. right. tauto.
           ++ intros [[?|[-> [?| ->]]] ?]; tauto.
    + eexists. split; [done|]. exists bad2. split_and!; try done. intros i j. rewrite Hb2, elem_of_app, elem_of_list_singleton, elem_of_seq. split.
      * intros [[?|[-> ?]] ?]; [tauto|]. split_and!; [by right|lia|lia|done].
      * intros ([?| ->] & ? & ? & ?); [tauto|]. split; [|done]. right. split; [done|lia].
  - exists bad. split_and!; try done. intros i j. rewrite Hb, elem_of_seq. split; [tauto|]. intros (? & ? & ?). split_and!; try done; lia.
Qed.

(** ** The true graph turned into a pattern *)
Lemma netinv_same N N' :
  netinv N -> nt_nodes N' = nt_nodes N -> directed_pairs (nt_edges N') = directed_pairs (nt_edges N) ->
  Forall (edge_wf (length (nt_nodes N))) (nt_edges N') -> netinv N'.
Proof.
  intros HI Hn Hd Hw. assert (forall x y, has_directed N' x y <-> has_directed N x y) as Hhd.
  { intros x y. rewrite !has_directed_pairs. by rewrite Hd. }
  split.
  - intros x nd Hx. rewrite Hn in *. by apply (ni_children _ HI x nd).
  - intros x nd Hx. rewrite Hn in *. by apply (ni_parents _ HI x nd).
  - intros x y. rewrite Hhd. unfold child_rel, parent_rel. rewrite Hn. apply (ni_consistent _ HI).
  - rewrite (acyclic_ext _ _ Hhd). apply (ni_acyclic _ HI).
  - by rewrite Hn.
Qed.
Lemma dag_single_pos N :
  netinv N -> no_dup_directed N -> Forall is_arc (nt_edges N) ->
  forall k1 k2 e1 e2, nt_edges N !! k1 = Some e1 -> nt_edges N !! k2 = Some e2 ->
    (e_n1 e1 = e_n1 e2 /\ e_n2 e1 = e_n2 e2 \/ e_n1 e1 = e_n2 e2 /\ e_n2 e1 = e_n1 e2) -> k1 = k2.
Proof.
  intros HI Hnd Harc k1 k2 e1 e2 H1 H2 Hc. destruct Hc as [[A B]|[A B]].
  - unfold no_dup_directed in Hnd. rewrite directed_pairs_all in Hnd by done. eapply NoDup_lookup; [done| |].
    + rewrite list_lookup_fmap, H1. done.
    + rewrite list_lookup_fmap, H2. cbn. unfold epair. by rewrite A, B.
  - exfalso. rewrite Forall_forall in Harc. apply elem_of_list_lookup_2 in H1, H2.
    destruct (Harc _ H1) as [? ?], (Harc _ H2) as [? ?]. apply (ni_acyclic _ HI (e_n1 e1)).
    eapply tc_l; [exists e1; split_and!; done|]. apply tc_once. exists e2. split_and!; congruence.
Qed.
Lemma dag_single N : netinv N -> no_dup_directed N -> Forall is_arc (nt_edges N) -> single N.
Proof.
  intros HI Hnd Harc i j e1 e2 [H1 J1] [H2 J2]. apply elem_of_list_lookup in H1 as [k1 H1]. apply elem_of_list_lookup in H2 as [k2 H2].
  assert (k1 = k2) as ->; [|congruence]. eapply dag_single_pos; try done. intuition congruence.
Qed.

Theorem to_pattern_ok T :
  netinv T -> no_dup_directed T -> nt_topo T = [] -> nt_num_edges T = length (nt_edges T) ->
  (forall e, e ∈ nt_edges T -> e_ep1 e = Tail /\ e_ep2 e = Arrow /\ e_ordered e = false) ->
  forall comp, (forall T1 t, get_topo_ord T = Ok (T1, t) -> single_extra (fun w x => comp w x = true) T t) -> (forall t, topological (has_directed T) (length (nt_nodes T)) t -> label_rule T t comp) ->
  exists T', to_pattern T = Ok T' /\ nt_nodes T' = nt_nodes T /\ Forall2 loosened (nt_edges T) (nt_edges T') /\ single T' /\
    Forall2 (fun e e' => is_arc e' <-> comp (e_n1 e) (e_n2 e) = true) (nt_edges T) (nt_edges T').
Proof.
  intros HI Hnd Htopo Hnum Hall comp Hse Hrule. assert (Forall is_arc (nt_edges T)) as Harc.
  { apply Forall_forall. intros e He. destruct (Hall e He) as (? & ? & _). done. }
  destruct (order_edge_spec T HI Hnd Htopo Hall) as (N1 & l & t & Ho & Ht & Hp & Hl & Hs & Hn & Htt & He).
  unfold to_pattern. rewrite Ho. cbn [mbind outcome_bind fst snd].
  assert (epair <$> nt_edges N1 = epair <$> nt_edges T) as Hep1.
  { rewrite He, <-list_fmap_compose. apply list_fmap_ext. done. }
  assert (Forall is_arc (nt_edges N1)) as Harc1.
  { rewrite He. apply Forall_fmap. eapply Forall_impl; [exact Harc|]. done. }
  assert (directed_pairs (nt_edges N1) = directed_pairs (nt_edges T)) as Hdp1 by (by rewrite !directed_pairs_all).
  assert (forall x y, has_directed N1 x y <-> has_directed T x y) as Hhd by (intros x y; by rewrite !has_directed_pairs, Hdp1).
  assert (netinv N1) as HI1.
  { eapply netinv_same; [done..|]. rewrite He. apply Forall_fmap. eapply Forall_impl; [apply (ni_edges _ HI)|]. intros e. unfold edge_wf. done. }
  assert (nt_num_edges N1 = nt_num_edges T /\ exists T1, get_topo_ord T = Ok (T1, t)) as [Hnum1 [T1 HT1]].
  { unfold order_edge in Ho. apply bind_ok in Ho as ([Nt t'] & Hg & Ho). apply bind_ok in Ho as (st & _ & Ho).
    case_bool_decide; [done|]. injection Ho as <- _. cbn [fst set_edges nt_num_edges]. pose proof Hg as Hg0. unfold get_topo_ord in Hg. rewrite bool_decide_true in Hg by done.
    unfold gen_topo_ord in Hg. apply bind_ok in Hg as (gi & _ & Hg). apply bind_ok in Hg as (tt' & _ & Hg). injection Hg as <- <-. cbn in Htt. subst tt'. split; [done|by eexists]. }
  destruct (find_compelled_ok N1 t l) with (comp := comp) as (N2 & -> & Hn2 & Hnum2 & Hep2 & Harc2 & Hlab2).
  - done.
  - unfold no_dup_directed. by rewrite Hdp1.
  - done.
  - rewrite Hn. destruct Ht as [? Hto]. split; [done|]. intros i j x y Hi Hj Hxy. eapply Hto; [done..|]. by apply Hhd.
  - apply Forall_forall. intros e Hin. by apply Hl.
  - rewrite Hep1. done.
  - done.
  - pose proof (Hse T1 t HT1) as Hst. intros x y z1 z2 A1 A2 A0 A3 A4 A5 A6 A7 A8. rewrite Hhd in A1, A3, A4, A7, A8. eapply (Hst x y); try done.
    + intros z i j Hz. apply A2. by apply Hhd.
    + intros w Hw Hc. apply Hhd. apply A0; [by apply Hhd|done].
  - pose proof (Hrule t Ht) as Hrt. intros x y b A1 A2 A3. rewrite Hhd in A1, A3. rewrite (Hrt x y b A1) by (try done; intros z i j Hz; apply A2; by apply Hhd). setoid_rewrite Hhd. done.
  - cbn [mbind outcome_bind].
    set (conv := fun e : edge => match e_label e with Some Reversible => undirected_edge (e_n1 e) (e_n2 e) | _ => e end).
    assert (length (nt_edges N2) = length (nt_edges T)) as Hlen2.
    { rewrite <-(fmap_length epair (nt_edges N2)), Hep2, Hep1. apply fmap_length. }
    match goal with |- context [mfor ?l ?b ?s] =>
      destruct (mfor_inv (fun (dn : list nat) es => es = (conv <$> take (length dn) (nt_edges N2)) ++ drop (length dn) (nt_edges N2)) l b s) as (es & -> & Hes) end.
    + done.
    + intros dn i rest es Hs' ->.
      assert (i = length dn /\ i < nt_num_edges N2) as [-> Hi].
      { assert (seq 0 (nt_num_edges N2) !! length dn = Some i) as Hlk by (rewrite Hs'; apply list_lookup_middle; done).
        pose proof (lookup_lt_Some _ _ _ Hlk) as Hlt. rewrite seq_length in Hlt. apply lookup_seq in Hlk as [-> ?]. done. }
      destruct (lookup_lt_is_Some_2 (nt_edges N2) (length dn)) as [e Hel]; [lia|].
      assert (length (conv <$> take (length dn) (nt_edges N2)) = length dn) as Htl by (rewrite fmap_length, take_length; lia).
      assert (((conv <$> take (length dn) (nt_edges N2)) ++ drop (length dn) (nt_edges N2)) !! length dn = Some e) as Hlk.
      { rewrite lookup_app_r by lia. rewrite Htl, Nat.sub_diag, lookup_drop, Nat.add_0_r. done. }
      unfold vat. rewrite Hlk. cbn [mbind outcome_bind].
      rewrite (drop_S _ e _ Hel). rewrite app_length, Nat.add_1_r. rewrite (take_S_r _ _ e Hel), fmap_app, <-app_assoc. cbn [fmap list_fmap app].
      pose proof (Hlab2 e (elem_of_list_lookup_2 _ _ _ Hel)) as Hle. rewrite Hle.
      assert (conv e = match e_label e with Some Reversible => undirected_edge (e_n1 e) (e_n2 e) | _ => e end) as Hce by done.
      rewrite Hle in Hce. destruct (lab_of comp (epair e)); rewrite Hce.
      * eexists. split; [done|]. done.
      * eexists. split; [done|]. rewrite insert_app_r_alt by lia. rewrite Htl, Nat.sub_diag. cbn. done.
    + cbn [mbind outcome_bind]. rewrite seq_length, Hnum2, Hnum1, Hnum, <-Hlen2, firstn_all, drop_all, app_nil_r in Hes.
      eexists. split; [done|]. cbn [set_edges nt_nodes nt_edges]. split; [by rewrite Hn2|].
      assert (Forall2 loosened (nt_edges T) es) as HF.
      { rewrite Hes. apply Forall2_same_length_lookup_2. { by rewrite fmap_length. }
        intros k e e' Hk Hk'. rewrite list_lookup_fmap in Hk'. destruct (nt_edges N2 !! k) as [e2|] eqn:Hk2; [|done]. cbn in Hk'. injection Hk' as <-.
        assert (epair e2 = epair e) as Hee.
        { assert ((epair <$> nt_edges N2) !! k = (epair <$> nt_edges T) !! k) as Hkk by (by rewrite Hep2, Hep1). rewrite !list_lookup_fmap, Hk, Hk2 in Hkk. change (Some (epair e2) = Some (epair e)) in Hkk. congruence. }
        rewrite Forall_forall in Harc2. pose proof (Harc2 _ (elem_of_list_lookup_2 _ _ _ Hk2)) as Ha2. unfold conv.
        destruct (e_label e2) as [[]|]; [by left| |by left]. right.
        pose proof (ni_acyclic _ HI (e_n1 e)) as Hac.
        assert (e_n1 e2 ≠ e_n2 e2) as Hne.
        { intros Heq. unfold epair in Hee. injection Hee as E1 E2. apply Hac. apply tc_once. exists e. rewrite Forall_forall in Harc.
          destruct (Harc _ (elem_of_list_lookup_2 _ _ _ Hk)). split_and!; try done; [by eapply elem_of_list_lookup_2|congruence]. }
        unfold epair in Hee. injection Hee as E1 E2. unfold undirected_edge. case_bool_decide; cbn; split_and!; try done; try lia.
        - left. unfold epair. cbn. by rewrite E1, E2.
        - right. unfold epair. cbn. by rewrite E1, E2. }
      split; [done|]. split.
      2: { rewrite Hes. apply Forall2_same_length_lookup_2. { by rewrite fmap_length. }
        intros k e e' Hk Hk'. rewrite list_lookup_fmap in Hk'. destruct (nt_edges N2 !! k) as [e2|] eqn:Hk2; [|done]. cbn in Hk'. injection Hk' as <-.
        assert (epair e2 = epair e) as Hee.
        { assert ((epair <$> nt_edges N2) !! k = (epair <$> nt_edges T) !! k) as Hkk by (by rewrite Hep2, Hep1). rewrite !list_lookup_fmap, Hk, Hk2 in Hkk. change (Some (epair e2) = Some (epair e)) in Hkk. congruence. }
        rewrite Forall_forall in Harc2. pose proof (Harc2 _ (elem_of_list_lookup_2 _ _ _ Hk2)) as Ha2. unfold conv.
        rewrite (Hlab2 e2 (elem_of_list_lookup_2 _ _ _ Hk2)). unfold lab_of. rewrite Hee. cbn [epair fst snd]. destruct (comp (e_n1 e) (e_n2 e)); [done|]. split; [|done]. unfold is_arc, undirected_edge. case_bool_decide; cbn; intros [? ?]; done. }
      intros i j e1 e2 [H1 J1] [H2 J2]. cbn in H1, H2. apply elem_of_list_lookup in H1 as [k1 H1]. apply elem_of_list_lookup in H2 as [k2 H2].
      destruct (Forall2_lookup_r _ _ _ _ _ HF H1) as (f1 & F1 & L1). destruct (Forall2_lookup_r _ _ _ _ _ HF H2) as (f2 & F2 & L2).
      assert (k1 = k2) as ->; [|congruence]. eapply (dag_single_pos T); try done.
      assert (epair e1 = epair f1 \/ epair e1 = (e_n2 f1, e_n1 f1)) as P1 by (destruct L1; tauto).
      assert (epair e2 = epair f2 \/ epair e2 = (e_n2 f2, e_n1 f2)) as P2 by (destruct L2; tauto).
      unfold epair in P1, P2. destruct P1 as [P1|P1], P2 as [P2|P2]; injection P1; injection P2; intros; intuition congruence.
Qed.

Theorem get_shd_dag T L :
  single T -> single L -> length (nt_nodes T) = length (nt_nodes L) ->
  (exists e0, nt_edges L !! 0 = Some e0 /\ is_directed e0 = true) ->
  exists bad, get_shd T L = Ok (length bad) /\ NoDup bad /\
    forall i j, (i, j) ∈ bad <-> i < j /\ j < length (nt_nodes L) /\ ~ agree T L i j.
Proof.
  intros HT HL Hlen (e0 & He0 & Hd). unfold get_shd, is_dag, vat. rewrite He0. cbn [mbind outcome_bind]. rewrite Hd. cbn [mbind outcome_bind].
  by apply shd_pairs_spec.
Qed.
Theorem get_shd_pattern T L :
  single L -> length (nt_nodes T) = length (nt_nodes L) ->
  (exists e0, nt_edges L !! 0 = Some e0 /\ is_directed e0 = false) ->
  netinv T -> no_dup_directed T -> nt_topo T = [] -> nt_num_edges T = length (nt_edges T) ->
  (forall e, e ∈ nt_edges T -> e_ep1 e = Tail /\ e_ep2 e = Arrow /\ e_ordered e = false) ->
  forall comp, (forall T1 t, get_topo_ord T = Ok (T1, t) -> single_extra (fun w x => comp w x = true) T t) -> (forall t, topological (has_directed T) (length (nt_nodes T)) t -> label_rule T t comp) ->
  exists T' bad, to_pattern T = Ok T' /\ nt_nodes T' = nt_nodes T /\ Forall2 loosened (nt_edges T) (nt_edges T') /\ Forall2 (fun e e' => is_arc e' <-> comp (e_n1 e) (e_n2 e) = true) (nt_edges T) (nt_edges T') /\
    get_shd T L = Ok (length bad) /\ NoDup bad /\
    forall i j, (i, j) ∈ bad <-> i < j /\ j < length (nt_nodes L) /\ ~ agree T' L i j.
Proof.
  intros HL Hlen (e0 & He0 & Hd) HI Hnd Ht Hnum Hall comp Hse Hrule.
  destruct (to_pattern_ok T) with (comp := comp) as (T' & HT' & Hn' & HF & Hs' & HC); try done.
  destruct (shd_pairs_spec T' L) as (bad & Hb & Hnd' & Hbad); [done|done|by rewrite Hn'|].
  exists T', bad. split_and!; try done. unfold get_shd, is_dag, vat. rewrite He0. cbn [mbind outcome_bind]. rewrite Hd, HT'. cbn [mbind outcome_bind]. done.
Qed.
