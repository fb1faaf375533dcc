(** Proofs about the classification job. *)
From Coq Require Import Field QArith.
From Verif Require Export ClassSpec.
From Verif Require Import OrientSafe NetProofs NetProofs2 NetProofs3 StructProofs RootProofs DataProofs CSVTheorems UtilProofs PipeProofs PipeTheorems JTTheorems BeliefProofs LearnProofs.
From Verif Require Import LearnTheorems.
Local Open Scope nat_scope.

(** ** The training data *)
Lemma load_shape text d : load_csv_training text = Ok d -> length (d_columns d) = d_nvars d /\ forall i col, d_columns d !! i = Some col -> length col = length (d_rows d).
Proof.
  unfold load_csv_training. destruct (getline text) as [[[header rest] b1] b2].
  destruct (trim_right header) as [h|]; [|done]. cbn [mbind outcome_bind]. destruct (split_str h [comma]) as [names|]; [|done]. cbn [mbind outcome_bind].
  case_bool_decide; [|done]. destruct (line_after h rest b2) as [l r]. set (n := length (filter (fun c => c = comma) header) + 1).
  destruct (csv_train_loop (S (length r)) n l r (replicate n []) []) as [[ds rows]|]; [|done]. cbn [mbind outcome_bind].
  destruct (dense_rows n (length rows) rows) as [dense|]; [|done]. cbn [mbind outcome_bind]. destruct (column_major n (length rows) dense) as [cols|] eqn:E; [|done]. intros [= <-]. cbn [d_columns d_nvars d_rows].
  unfold column_major in E. apply mcollect_inv in E as [E1 E2]. rewrite seq_length in E1. split; [done|]. intros i col Hi.
  assert (i < n) as Hlt by (rewrite <-E1; by eapply lookup_lt_Some). specialize (E2 i i col ltac:(by apply lookup_seq) Hi). apply mcollect_inv in E2 as [E2 _]. by rewrite seq_length in E2.
Qed.
Lemma row_width text header rows j cells : csv_table text header rows -> rows !! j = Some cells -> length cells = length header.
Proof. intros (_ & _ & _ & _ & H) Hj. apply elem_of_list_lookup_2 in Hj. by apply H in Hj as [? _]. Qed.
Record trained (header : list str) (rows : list (list str)) (d : dataset) (D : columns) : Prop := {
  tr_vars : d_nvars d = length header;
  tr_dicts : length (d_dicts d) = length header;
  tr_sizes : d_sizes d = length <$> d_dicts d;
  tr_first : forall i dict, d_dicts d !! i = Some dict -> first_appearance (column i rows) dict;
  tr_coded : coded_as (d_dicts d) rows D;
  tr_cols : length (co_cols D) = length header;
  tr_range : forall i col dict, co_cols D !! i = Some col -> d_dicts d !! i = Some dict -> length col = length rows /\ Forall (fun x => x < length dict) col }.
Lemma training_columns train header rows : csv_table train header rows -> NoDup header -> exists d D, load_csv_training train = Ok d /\ columns_of d = Ok D /\ trained header rows d D.
Proof.
  intros HT HN. destruct (csv_training train header rows HT HN) as (d & Hd & _ & Hv & Hl & Hs & Hf & Hr & _ & Hcell). exists d.
  destruct (load_shape train d Hd) as [Hcl Hcol].
  assert (forall i col j z, d_columns d !! i = Some col -> col !! j = Some z -> exists cells c dict v, rows !! j = Some cells /\ cells !! i = Some c /\ d_dicts d !! i = Some dict /\ dict !! v = Some c /\ z = Z.of_nat v) as Hz.
  { intros i col j z Hi Hj. assert (j < length rows) as Hjl by (rewrite <-Hr, <-(Hcol i col Hi); by eapply lookup_lt_Some). destruct (lookup_lt_is_Some_2 _ _ Hjl) as [cells Hcells].
    assert (i < length cells) as Hil by (rewrite (row_width _ _ _ _ _ HT Hcells), <-Hv, <-Hcl; by eapply lookup_lt_Some). destruct (lookup_lt_is_Some_2 _ _ Hil) as [c Hc].
    destruct (Hcell i j cells c Hcells Hc) as (col' & dict & v & H1 & H2 & H3 & H4). assert (col' = col) as -> by congruence. exists cells, c, dict, v. split_and!; try done. congruence. }
  set (nat_col := fun col : list Z => Z.to_nat <$> col).
  exists (mkCols (nat_col <$> d_columns d) (length (d_rows d)) (d_nvars d)). split; [done|]. split.
  { unfold columns_of. rewrite (mcollect_ok _ _ nat_col); [done|]. intros col Hin. apply elem_of_list_lookup in Hin as [i Hi]. apply (mcollect_ok _ _ Z.to_nat). intros z Hzin. apply elem_of_list_lookup in Hzin as [j Hj].
    destruct (Hz i col j z Hi Hj) as (cs & c0 & dt & v & _ & _ & _ & _ & ->). rewrite bool_decide_false by lia. done. }
  split; try done.
  - split; [done|]. split; [cbn; lia|]. intros i j cells c Hj Hi. destruct (Hcell i j cells c Hj Hi) as (col & dict & v & H1 & H2 & H3 & H4). exists dict, v. split_and!; [done|done|].
    unfold entry. cbn [co_cols]. rewrite list_lookup_fmap, H1. cbn. unfold nat_col. rewrite list_lookup_fmap, H4. cbn. by rewrite Nat2Z.id.
  - cbn [co_cols]. rewrite fmap_length. lia.
  - intros i col dict Hi Hdict. cbn [co_cols] in Hi. apply list_lookup_fmap_inv in Hi as (zs & -> & Hi). unfold nat_col. rewrite fmap_length. split; [rewrite <-Hr; by eapply Hcol|].
    apply Forall_fmap, Forall_forall. intros z Hzin. apply elem_of_list_lookup in Hzin as [j Hj]. destruct (Hz i zs j z Hi Hj) as (cs & c0 & dict' & v & _ & _ & H2 & H3 & ->). cbn. rewrite Nat2Z.id. assert (dict' = dict) as -> by congruence. by eapply lookup_lt_Some.
Qed.

(** ** The test rows *)
Definition coded_row (eg : list (nat * nat) * nat) : rowv := (0, Z.of_nat (snd eg)) :: zrow (fst eg).
Definition test_row (dicts : list (list str)) (cells : list str) (eg : list (nat * nat) * nat) : Prop :=
  evidence_cells dicts cells (fst eg) /\ exists (c : str) dict, cells !! 0 = Some c /\ dicts !! 0 = Some dict /\ dict !! snd eg = Some c.
Lemma sorted_cons_inv (x : nat) l : StronglySorted lt (x :: l) -> StronglySorted lt l /\ Forall (lt x) l.
Proof. inversion 1; done. Qed.
Lemma split_row dicts cells row c dict v : codes_known dicts cells row -> cells !! 0 = Some c -> c <> [] -> dicts !! 0 = Some dict -> dict !! v = Some c ->
  NoDup dict -> exists eg, test_row dicts cells eg /\ row = coded_row eg.
Proof.
  intros [Hs Hin] Hc Hne Hd Hv Hnd. assert ((0, Z.of_nat v) ∈ row) as H0 by (apply Hin; by exists c, dict, v). destruct row as [|[i z] row]; [by apply elem_of_nil in H0|].
  rewrite fmap_cons in Hs. cbn [fst] in Hs. apply sorted_cons_inv in Hs as [Hs Hlt]. rewrite Forall_forall in Hlt.
  assert ((i, z) = (0, Z.of_nat v)) as [= -> ->].
  { apply elem_of_cons in H0 as [H0|H0]; [done|]. specialize (Hlt 0). assert (0 ∈ fst <$> row) as Hf by (apply elem_of_list_fmap; by exists (0, Z.of_nat v)). apply Hlt in Hf. lia. }
  set (E := (fun p : nat * Z => (p.1, Z.to_nat p.2)) <$> row).
  assert (zrow E = row) as HE.
  { unfold zrow, E. rewrite <-list_fmap_compose. rewrite <-(list_fmap_id row) at 2. apply list_fmap_ext. intros k [a b] Hk. cbn. apply elem_of_list_lookup_2 in Hk.
    assert ((a, b) ∈ (0, Z.of_nat v) :: row) as Ha by (by right). apply Hin in Ha as (c0 & dt & w & _ & _ & _ & _ & ->). by rewrite Nat2Z.id. }
  exists (E, v). split; [|by rewrite <-HE]. split; [|by exists c, dict]. cbn [fst]. split.
  - unfold E. rewrite <-list_fmap_compose. change (fst ∘ (fun p : nat * Z => (p.1, Z.to_nat p.2))) with (fst : nat * Z -> nat). done.
  - intros i w. split.
    + intros Hw. assert ((i, Z.of_nat w) ∈ row) as Hr by (rewrite <-HE; unfold zrow; apply elem_of_list_fmap; by exists (i, w)).
      assert (0 < i) as Hi by (apply Hlt; apply elem_of_list_fmap; by exists (i, Z.of_nat w)). split; [lia|].
      assert ((i, Z.of_nat w) ∈ (0, Z.of_nat v) :: row) as Hr' by (by right). apply Hin in Hr' as (c' & d' & w' & H1 & H2 & H3 & H4 & H5). exists c', d'. replace w with w' by lia. done.
    + intros (Hi & c' & d' & H1 & H2 & H3 & H4). assert ((i, Z.of_nat w) ∈ (0, Z.of_nat v) :: row) as Hr by (apply Hin; by exists c', d', w).
      apply elem_of_cons in Hr as [[= ]|Hr]; [lia|]. unfold E. apply elem_of_list_fmap. exists (i, Z.of_nat w). cbn. by rewrite Nat2Z.id.
Qed.
Lemma Forall2_choose {A B C} (P : A -> B -> Prop) (Q : A -> C -> Prop) (f : C -> B) l k : Forall2 P l k -> (forall x y, x ∈ l -> P x y -> exists z, Q x z /\ y = f z) -> exists zs, Forall2 Q l zs /\ k = f <$> zs.
Proof.
  induction 1 as [|x y l k H _ IH]; intros Hc; [by exists []|]. destruct IH as (zs & H1 & ->); [intros a b Ha; apply Hc; by right|]. destruct (Hc x y ltac:(left) H) as (z & Hz & ->). exists (z :: zs). split; [by constructor|done].
Qed.
Lemma test_rows_coded header rows d D test theader trows : trained header rows d D -> csv_table test theader trows -> length theader = length header -> header <> [] -> class_known rows trows ->
  exists egs, load_csv_testing (d_nvars d) (d_dicts d) test = Ok (coded_row <$> egs) /\ Forall2 (test_row (d_dicts d)) trows egs.
Proof.
  intros HT HC Hl Hne Hk. pose proof (tr_dicts _ _ _ _ HT) as Hdl.
  assert (forall dict, dict ∈ d_dicts d -> NoDup dict) as Hnd. { intros dict Hin. apply elem_of_list_lookup in Hin as [i Hi]. by destruct (tr_first _ _ _ _ HT i dict Hi). }
  destruct (csv_testing test theader trows (d_dicts d) HC ltac:(lia) Hnd) as (coded & Hld & Hlen & Hcodes). rewrite Hdl in Hld. rewrite (tr_vars _ _ _ _ HT).
  assert (Forall2 (codes_known (d_dicts d)) trows coded) as HF. { apply Forall2_same_length_lookup. split; [done|]. intros j cells row. apply Hcodes. }
  destruct (Forall2_choose _ (test_row (d_dicts d)) coded_row _ _ HF) as (egs & H1 & ->); [|by exists egs].
  intros cells row Hin Hcode. destruct (Hk cells Hin) as (c & Hc & Hcn & Hcol). destruct (lookup_lt_is_Some_2 (d_dicts d) 0) as [dict Hdict]; [rewrite Hdl; by destruct header; [|cbn; lia]|].
  destruct (tr_first _ _ _ _ HT 0 dict Hdict) as (Hnd0 & Hsame & _). apply Hsame in Hcol. apply elem_of_list_lookup in Hcol as [v Hv]. by eapply split_row.
Qed.
Lemma mcollect_fmap {A B C} (f : A -> B) (g : B -> outcome C) l : mcollect (f <$> l) g = mcollect l (fun x => g (f x)).
Proof. induction l as [|x l IH]; [done|]. cbn. destruct (g (f x)); [|done]. cbn. by rewrite <-IH. Qed.
Lemma coded_queries egs : make_queries 0 (coded_row <$> egs) = Ok ((fun eg => (zrow (fst eg), Z.of_nat (snd eg))) <$> egs).
Proof. unfold make_queries. rewrite mcollect_fmap. apply mcollect_ok. intros [E g] _. rewrite evidence_zero. done. Qed.
Lemma coded_evidence egs : mcollect ((fun eg => (zrow (fst eg), Z.of_nat (snd eg))) <$> egs) (fun q => as_evidence (fst q)) = Ok (fst <$> egs).
Proof. rewrite mcollect_fmap. apply mcollect_ok. intros [E g] _. cbn [fst]. apply as_evidence_zrow. Qed.
Lemma count_correct (dicts trows : list (list str)) egs labels : (forall dict, dicts !! 0 = Some dict -> NoDup dict) -> Forall2 (test_row dicts) trows egs -> length labels = length egs ->
  length (filter (fun gp : Z * Z => fst gp = snd gp) (zip ((fun eg : list (nat * nat) * nat => Z.of_nat (snd eg)) <$> egs) (Z.of_nat <$> labels))) = length (filter (fun rl => is_class dicts (fst rl) (snd rl)) (zip trows labels)).
Proof.
  intros Hnd HF. revert labels. induction HF as [|cells [E g] trows egs (_ & c & dict & H1 & H2 & H3) _ IH]; intros labels Hl; [done|]. destruct labels as [|l labels]; [done|].
  rewrite !fmap_cons. cbn [zip zip_with snd]. rewrite !filter_cons. cbn [fst snd]. injection Hl as Hl. specialize (IH labels Hl).
  assert (Z.of_nat g = Z.of_nat l <-> is_class dicts cells l) as Hiff.
  { unfold is_class. rewrite H1, H2. cbn [mbind option_bind]. split; [intros E'; assert (g = l) as -> by lia; done|]. intros Hl'. f_equal. cbn in H3. by eapply (NoDup_lookup dict); [apply Hnd| |]. }
  destruct (decide (Z.of_nat g = Z.of_nat l)) as [Hy|Hn].
  - rewrite decide_True by by apply Hiff. cbn [length]. by rewrite IH.
  - rewrite decide_False by (intros Hx; by apply Hn, Hiff). done.
Qed.

(** ** The learned network *)
Record learned (N : network) (D : columns) (flips : nat -> nat -> nat) (o : mem_order) (N' : network) (ts : list ptable) (T : jtree) : Prop := {
  le_ts : learn_params N' D 1 flips [] = Ok ts;
  le_tree : jt_build o N' ts = Ok T;
  le_ok : net_ok N';
  le_size : net_size N' = S (net_size N);
  le_dom : forall v, v < net_size N -> net_dom N' v = net_dom N v;
  le_family : Forall (table_of_family N') ts;
  le_positive : forall t a, t ∈ ts -> valid (net_dom N') a -> (0 < tval t a)%Qc;
  le_joint : forall a, valid (net_dom N') a -> joint ts a = learned_joint N' D flips a }.
Lemma learn_netinv N D flips o : netinv N -> doms_positive N -> complete N D -> co_vars D = net_size N -> (forall x j, flips x j < 2) -> valid_order o ->
  exists roots N' ts T, find_roots N = Ok roots /\ add_root_node N roots = Ok N' /\ learned N D flips o N' ts T.
Proof.
  intros HN Hd HD Hs Hcoin Ho. assert (0 < 1)%Z as Hal by done. destruct (learn_params_root N HN Hd D HD Hs 1 flips Hcoin Hal) as (roots & N' & ts & HR & Hts & Hlen & Hall & tr & Htr & Hcr).
  destruct (rooted_facts N HN Hd D HD Hs roots N' HR) as (HN' & Hd' & _ & Hs' & _ & Hconn & (ndr & Hndr & Hpr) & _).
  set (f := fun x a => if decide (x < net_size N) then smoothed N' (with_column D (flips x <$> seq 0 (co_rows D))) (co_rows D) 1 x (parents_of N' x) a else root_half (co_rows D) 1).
  assert (0 < root_half (co_rows D) 1)%Qc as Hrp.
  { apply CountProofs.Qc_div_pos; [by apply CountProofs.Qc_add_pos_r; [apply CountProofs.qn_nonneg|]|]. apply CountProofs.Qc_add_pos_r; [apply CountProofs.qn_nonneg|]. unfold LearnModel.qn. rewrite <-CountProofs.qz_mul, <-CountProofs.qz_0. apply (proj1 (CountProofs.qz_lt 0 _)). lia. }
  assert (forall x t, ts !! x = Some t -> table_of_family N' t /\ forall a, valid (net_dom N') a -> tval t a = f x a /\ (0 < tval t a)%Qc) as Hinv.
  { intros x t Ht. unfold f. case_decide as Hx.
    - destruct (lookup_lt_is_Some_2 (nt_nodes N') x) as [nd Hnd]; [unfold net_size in *; lia|]. destruct (Hall x nd Hnd Hx) as (t' & Ht' & HC). replace t' with t in HC by congruence. destruct HC as (HC & Hp & _). split; [by eapply is_cpt_family|].
      intros a Ha. split; [|by apply Hp]. unfold parents_of. rewrite Hnd. by apply HC.
    - assert (x = net_size N) as -> by (apply lookup_lt_Some in Ht; lia). replace tr with t in Hcr by congruence. split; [rewrite <-Hpr in Hcr; by eapply is_cpt_family|]. intros a Ha. destruct Hcr as (_ & _ & Hcr). rewrite Hcr by done. done. }
  assert (Forall (table_of_family N') ts) as Hfam by (apply Forall_forall; intros t Ht; apply elem_of_list_lookup in Ht as [x Ht]; by apply (Hinv x)).
  assert (forall t a, t ∈ ts -> valid (net_dom N') a -> (0 < tval t a)%Qc) as Hpos by (intros t a Ht Ha; apply elem_of_list_lookup in Ht as [x Ht]; by apply (Hinv x)).
  assert (net_ok N') as Hok by by apply netinv_ok.
  destruct (positive_queries N' ts o) as (T & HT & _); try done; [lia|]. exists roots, N', ts, T. destruct HR as [HR1 HR2]. split; [done|]. split; [done|]. split; try done.
  - destruct (root_connects N HN) as (roots' & N2 & Hf' & _ & _ & R1 & R2 & _). assert (roots' = roots) as -> by congruence.
    assert (forall r, r ∈ roots -> r < length (nt_nodes N)) as Hr by (intros r Hr; by apply R1).
    destruct (add_root_spec N HN roots R2 Hr) as (N3 & Ha2 & _ & _ & _ & Hnodes & _). assert (N3 = N') as -> by congruence.
    intros v Hv. destruct (lookup_lt_is_Some_2 _ _ Hv) as [nd Hnd']. unfold net_dom, dom_of, domain_sizes. rewrite !list_lookup_fmap, Hnd', (Hnodes _ _ Hnd'). cbn. case_decide; [|done]. unfold node_add_parent. by case_bool_decide.
  - intros a Ha. rewrite (joint_product ts f) by (intros x t Ht; by apply (Hinv x t Ht)). unfold learned_joint.
    rewrite Hlen, seq_S, BeliefProofs.qprod_app, BeliefProofs.qprod_cons, BeliefProofs.qprod_nil, Hs. cbn [Nat.add]. f_equal.
    + apply BeliefProofs.qprod_ext. intros x Hx. apply elem_of_seq in Hx. unfold f. by rewrite decide_True by lia.
    + unfold f. rewrite decide_False by lia. ring.
Qed.

(** *** The edge list does not matter *)
Lemma bfs_edges N es fuel : forall visited que, bfs fuel (set_edges N es) visited que = bfs fuel N visited que.
Proof.
  induction fuel as [|fuel IH]; intros visited que; destruct que as [|cur que]; try done. cbn [bfs]. change (find_node (set_edges N es) cur) with (find_node N cur).
  destruct (find_node N cur) as [nd|]; [|done]. cbn [mbind outcome_bind]. destruct (mfor (nd_children nd) bfs_visit (visited, que)) as [st|]; [|done]. cbn [mbind outcome_bind].
  destruct (mfor (nd_parents nd) bfs_visit st) as [st'|]; [|done]. cbn [mbind outcome_bind]. apply IH.
Qed.
Lemma find_roots_edges N es : find_roots (set_edges N es) = find_roots N.
Proof.
  unfold find_roots. change (nt_nodes (set_edges N es)) with (nt_nodes N). generalize (replicate (length (nt_nodes N)) false) ([] : list nat). generalize (S (length (nt_nodes N))) as fuel.
  induction fuel as [|fuel IH]; intros visited roots; [done|]. cbn [find_roots_loop]. change (pick_root (set_edges N es) visited) with (pick_root N visited).
  destruct (pick_root N visited) as [[[m root]|]|]; [|done|done]. cbn [mbind outcome_bind]. destruct (vset visited root true) as [vs|]; [|done]. cbn [mbind outcome_bind].
  change (nt_nodes (set_edges N es)) with (nt_nodes N). rewrite bfs_edges. destruct (bfs (length (nt_nodes N)) N vs [root]) as [vs'|]; [|done]. cbn [mbind outcome_bind]. apply IH.
Qed.
Lemma add_root_edges N es roots N' : add_root_node (set_edges N es) roots = Ok N' -> exists N2, add_root_node N roots = Ok N2 /\ nt_nodes N2 = nt_nodes N'.
Proof.
  unfold add_root_node. change (nt_nodes (set_edges N es)) with (nt_nodes N). set (r := length (nt_nodes N)). set (step := fun c (st : network * node) =>
    ndc ← find_node (fst st) c; let root := node_add_child c (snd st) in
    let N := set_nodes (fst st) (<[c := node_add_parent r (nd_dom root) ndc]> (nt_nodes (fst st))) in
    Ok (mkNet (nt_nodes N) (nt_edges N ++ [directed_edge r c]) (nt_topo N) (S (nt_num_edges N)), root)).
  enough (forall M M' nd, nt_nodes M = nt_nodes M' -> forall M2 nd2, mfor roots step (M, nd) = Ok (M2, nd2) -> exists M3, mfor roots step (M', nd) = Ok (M3, nd2) /\ nt_nodes M3 = nt_nodes M2) as Hgen.
  { intros H. destruct (mfor roots step (set_edges N es, new_node 2)) as [[M2 nd2]|] eqn:E; [|done]. injection H as <-. destruct (Hgen (set_edges N es) N (new_node 2) eq_refl _ _ E) as (M3 & -> & Hn). cbn [mbind outcome_bind]. eexists. split; [done|]. cbn. by rewrite Hn. }
  clear N' . induction roots as [|c roots IH]; intros M M' nd HM M2 nd2 H.
  - injection H as <- <-. by exists M'.
  - change (mbind (M := outcome) (fun s => mfor roots step s) (step c (M, nd)) = Ok (M2, nd2)) in H. change (exists M3, mbind (M := outcome) (fun s => mfor roots step s) (step c (M', nd)) = Ok (M3, nd2) /\ nt_nodes M3 = nt_nodes M2).
    unfold step at 2 in H. unfold step at 2. cbn [fst snd] in H |- *. assert (find_node M' c = find_node M c) as -> by (unfold find_node; by rewrite HM). destruct (find_node M c) as [ndc|]; [|done]. cbn [mbind outcome_bind] in H |- *.
    eapply IH; [|exact H]. cbn. by rewrite HM.
Qed.
Lemma learned_same N0 N D flips o N1 N2 ts T : nt_nodes N0 = nt_nodes N -> nt_nodes N1 = nt_nodes N2 -> learned N D flips o N2 ts T -> learned N0 D flips o N1 ts T.
Proof.
  destruct N0 as [nodes0 e0 t0 m0], N as [nodes e t m], N1 as [nodes1 e1 t1 m1], N2 as [nodes2 e2 t2 m2]. cbn. intros -> ->. intros [H1 H2 [H3 H3' H3''] H4 H5 H6 H7 H8].
  split; [exact H1|exact H2|split; [exact H3|exact H3'|exact H3'']|exact H4|exact H5|exact H6|exact H7|exact H8].
Qed.
Lemma learn_family N D flips o : family_ok N -> doms_positive N -> complete N D -> co_vars D = net_size N -> (forall x j, flips x j < 2) -> valid_order o ->
  exists roots N' ts T, find_roots N = Ok roots /\ add_root_node N roots = Ok N' /\ learned N D flips o N' ts T.
Proof.
  intros HN Hd HD Hs Hf Ho. destruct (learn_netinv (set_edges N (OrientSafe.canon N)) D flips o (canon_inv N HN) Hd HD Hs Hf Ho) as (roots & N2 & ts & T & Hr & Ha & HL).
  rewrite find_roots_edges in Hr. destruct (add_root_edges N _ roots N2 Ha) as (N' & Ha' & Hn). exists roots, N', ts, T. split; [done|]. split; [done|]. by apply (learned_same _ (set_edges N (OrientSafe.canon N)) _ _ _ _ N2).
Qed.

(** ** The labels *)
Section labels.
Context (N : network) (D : columns) (flips : nat -> nat -> nat) (o : mem_order) (N' : network) (ts : list ptable) (T : jtree) (HL : learned N D flips o N' ts T).
Lemma evidence_valid E a : evidence_in_range N' E -> (forall v x, (v, x) ∈ E -> v < net_size N') -> valid (net_dom N') a -> valid (net_dom N') (set_evidence E a).
Proof.
  intros HE Hb Ha. unfold set_evidence. induction E as [|[w x] E IH]; [done|]. cbn. apply valid_upd.
  - apply IH; intros v y Hin; [apply HE; by right|apply (Hb v y); by right].
  - apply HE; [left|apply (Hb w x); left].
Qed.
Lemma learned_sum E vs a : evidence_in_range N' E -> (forall v x, (v, x) ∈ E -> v < net_size N') -> valid (net_dom N') a ->
  sumv (net_dom N') vs (fun a => joint ts (set_evidence E a)) a = sumv (net_dom N') vs (fun a => learned_joint N' D flips (set_evidence E a)) a.
Proof using HL. intros HE Hb Ha. apply sumv_ext; [done|]. intros b Hv _. apply (le_joint _ _ _ _ _ _ _ HL). by apply evidence_valid. Qed.
Lemma posterior_learned E q x : evidence_in_range N' E -> (forall v x, (v, x) ∈ E -> v < net_size N') -> x < net_dom N' q -> posterior N' ts E q x = learned_posterior N' D flips E q x.
Proof using HL.
  intros HE Hb Hx. pose proof (net_dom_pos _ (le_ok _ _ _ _ _ _ _ HL)) as Hpos. assert (valid (net_dom N') (fun _ => 0)) as H0 by (intros w; apply Hpos).
  unfold posterior, learned_posterior, weight, evidence_weight, learned_weight. cbn [app fmap list_fmap fst set_evidence foldr snd]. f_equal.
  - apply learned_sum; [done|done|]. by apply valid_upd.
  - by apply learned_sum.
Qed.
Lemma best_most E l : evidence_in_range N' E -> (forall v x, (v, x) ∈ E -> v < net_size N') -> best_label N' ts E 0 l -> most_probable N' D flips E l.
Proof using HL.
  intros HE Hb (H1 & H2 & H3). split; [done|]. split.
  - intros x Hx. rewrite <-!posterior_learned by done. by apply H2.
  - intros x Hx. rewrite <-!posterior_learned by (try done; lia). by apply H3.
Qed.
End labels.

(** ** The job *)
Theorem classify_ok train header rows : csv_table train header rows -> NoDup header ->
  forall test theader trows, csv_table test theader trows -> length theader = length header -> 20 <= length trows -> class_known rows trows ->
  forall accept depth fuel size ssch coin flips o sch, (forall x j, flips x j < 2) -> valid_order o -> (forall i, valid_scheduler (sch i)) ->
  exists d D, load_csv_training train = Ok d /\ columns_of d = Ok D /\ coded_as (d_dicts d) rows D /\
  match learn_structure accept depth fuel size ssch true coin d D with
  | Err e => classify accept depth fuel size ssch coin flips o sch train test = Err e
  | Ok N => acyclic (parent_rel N) /\ domain_sizes N = length <$> d_dicts d /\
      exists roots N' labels, find_roots N = Ok roots /\ add_root_node N roots = Ok N' /\
        Forall2 (fun cells l => exists E, evidence_cells (d_dicts d) cells E /\ most_probable N' D flips E l) trows labels /\
        classify accept depth fuel size ssch coin flips o sch train test = Ok (correct_fraction (d_dicts d) trows labels)
  end.
Proof.
  intros HC HN test theader trows HCt Hlt H20 Hk accept depth fuel size ssch coin flips o sch Hf Ho Hsch.
  destruct (training_columns train header rows HC HN) as (d & D & Hd & HD & HT). exists d, D. split; [done|]. split; [done|]. split; [apply (tr_coded _ _ _ _ HT)|].
  assert (header <> []) as Hhn by apply HC. assert (rows <> []) as Hrn by apply HC.
  destruct (test_rows_coded header rows d D test theader trows HT HCt Hlt Hhn Hk) as (egs & Hload & Hegs).
  unfold classify. rewrite Hd. cbn [mbind outcome_bind]. rewrite Hload. cbn [mbind outcome_bind]. rewrite HD. cbn [mbind outcome_bind].
  destruct (learn_structure accept depth fuel size ssch true coin d D) as [N|e] eqn:HS; [|done]. cbn [mbind outcome_bind].
  assert (family_ok N /\ domain_sizes N = d_sizes d) as [HF Hdom].
  { unfold learn_structure in HS. destruct (skeleton_search (independence_result accept D (d_sizes d)) (d_nvars d) depth fuel size ssch) as [[[es adj] sep]|]; [|done]. cbn [mbind outcome_bind] in HS. by eapply orient_kept. }
  rewrite (tr_sizes _ _ _ _ HT) in Hdom. split; [apply (fo_acyclic N HF)|]. split; [done|].
  assert (net_size N = length header) as Hsize by (unfold net_size; rewrite <-(tr_dicts _ _ _ _ HT); transitivity (length (domain_sizes N)); [unfold domain_sizes; by rewrite fmap_length|]; by rewrite Hdom, fmap_length).
  assert (forall v dict, d_dicts d !! v = Some dict -> net_dom N v = length dict) as Hnd by (intros v dict Hv; unfold net_dom, dom_of; rewrite Hdom, list_lookup_fmap, Hv; done).
  assert (forall v dict, d_dicts d !! v = Some dict -> 0 < length dict) as Hpos.
  { intros v dict Hv. destruct (tr_first _ _ _ _ HT v dict Hv) as (_ & Hsame & _). destruct rows as [|cells rows']; [done|]. assert (v < length cells) as Hlv by (rewrite (row_width _ _ _ 0 _ HC eq_refl), <-(tr_dicts _ _ _ _ HT); by eapply lookup_lt_Some).
    destruct (lookup_lt_is_Some_2 _ _ Hlv) as [c Hc]. assert (c ∈ dict) as Hin. { apply Hsame. unfold column. apply elem_of_list_omap. exists cells. split; [left|done]. } destruct dict; [by apply elem_of_nil in Hin|cbn; lia]. }
  assert (doms_positive N) as Hdp. { unfold doms_positive. rewrite Hdom. apply Forall_forall. intros k Hin. apply elem_of_list_fmap in Hin as (dict & -> & Hin). apply elem_of_list_lookup in Hin as [v Hv]. by eapply Hpos. }
  destruct (tr_coded _ _ _ _ HT) as (Hcr & Hcv & _). assert (co_vars D = net_size N) as Hvars by (rewrite Hcv, Hsize; apply (tr_dicts _ _ _ _ HT)).
  assert (complete N D) as Hcomp.
  { split; [rewrite (tr_cols _ _ _ _ HT); lia|]. split; [lia|]. intros v col Hv. assert (v < length (d_dicts d)) as Hvl by (rewrite (tr_dicts _ _ _ _ HT), <-(tr_cols _ _ _ _ HT); by eapply lookup_lt_Some).
    destruct (lookup_lt_is_Some_2 _ _ Hvl) as [dict Hdict]. rewrite (Hnd v dict Hdict), Hcr. by apply (tr_range _ _ _ _ HT v). }
  destruct (learn_family N D flips o HF Hdp Hcomp Hvars Hf Ho) as (roots & N' & ts & T & Hroots & Hadd & HL). rewrite Hroots. cbn [mbind outcome_bind]. rewrite Hadd. cbn [mbind outcome_bind].
  rewrite (le_ts _ _ _ _ _ _ _ HL). cbn [mbind outcome_bind]. rewrite coded_queries. cbn [mbind outcome_bind]. rewrite (le_tree _ _ _ _ _ _ _ HL). cbn [mbind outcome_bind]. rewrite coded_evidence. cbn [mbind outcome_bind].
  assert (forall cells eg, test_row (d_dicts d) cells eg -> evidence_in_range N' (fst eg) /\ (forall v x, (v, x) ∈ fst eg -> v < net_size N') /\ 0 ∉ fst <$> fst eg) as Hev.
  { intros cells eg [[_ HE] _]. assert (forall v x, (v, x) ∈ fst eg -> v <> 0 /\ v < net_size N /\ x < net_dom N v) as Hall.
    { intros v x Hin. apply HE in Hin as (Hv0 & c & dict & _ & _ & H2 & H3). split; [done|]. split; [rewrite Hsize, <-(tr_dicts _ _ _ _ HT); by eapply lookup_lt_Some|]. rewrite (Hnd v dict H2). by eapply lookup_lt_Some. }
    split_and!.
    - intros v x Hin _. destruct (Hall v x Hin) as (_ & H1 & H2). by rewrite (le_dom _ _ _ _ _ _ _ HL v H1).
    - intros v x Hin. destruct (Hall v x Hin) as (_ & H1 & _). rewrite (le_size _ _ _ _ _ _ _ HL). lia.
    - intros Hin. apply elem_of_list_fmap in Hin as ([v x] & Hv & Hin). cbn in Hv. subst v. by destruct (Hall 0 x Hin). }
  assert (Forall (fun eg => exists cells, test_row (d_dicts d) cells eg) egs) as Hall. { apply Forall_forall. intros eg Hin. apply elem_of_list_lookup in Hin as [j Hj]. destruct (Forall2_lookup_r _ _ _ _ _ Hegs Hj) as (cells & _ & Hc). by exists cells. }
  assert (length egs = length trows) as Hle by (symmetry; by eapply Forall2_length).
  destruct (predict_ok N' o ts T sch 0 (fst <$> egs)) as (labels & Hpred & Hbest); try done.
  - apply (le_ok _ _ _ _ _ _ _ HL).
  - rewrite (le_size _ _ _ _ _ _ _ HL). lia.
  - apply (le_family _ _ _ _ _ _ _ HL).
  - apply Forall_forall. intros t Ht a Ha. apply Qclt_le_weak. by apply (le_positive _ _ _ _ _ _ _ HL).
  - apply (le_tree _ _ _ _ _ _ _ HL).
  - right. rewrite fmap_length. lia.
  - rewrite (le_size _ _ _ _ _ _ _ HL). lia.
  - apply Forall_fmap. eapply Forall_impl; [exact Hall|]. intros eg (cells & Hc). destruct (Hev cells eg Hc) as (H1 & H2 & H3). cbn. split_and!; [done| |done].
    apply evidence_weight_positive; [apply (le_ok _ _ _ _ _ _ _ HL)|apply (le_family _ _ _ _ _ _ _ HL)|apply (le_positive _ _ _ _ _ _ _ HL)|done].
  - exists roots, N', labels. split; [done|]. split; [done|]. rewrite Hpred. cbn [mbind outcome_bind]. assert (length labels = length egs) as Hll by (symmetry; apply Forall2_length in Hbest; by rewrite fmap_length in Hbest). split.
    + apply Forall2_fmap_l in Hbest. apply Forall2_same_length_lookup. split; [lia|]. intros j cells l Hj Hl. destruct (lookup_lt_is_Some_2 egs j) as [eg Heg]; [rewrite Hle; by eapply lookup_lt_Some|].
      pose proof (Forall2_lookup_lr _ _ _ _ _ _ Hegs Hj Heg) as Htr. pose proof (Forall2_lookup_lr _ _ _ _ _ _ Hbest Heg Hl) as Hb. destruct (Hev cells eg Htr) as (H1 & H2 & _). exists (fst eg). split; [apply Htr|]. by apply (best_most N D flips o N' ts T HL).
    + rewrite <-list_fmap_compose. change (snd ∘ (fun eg : list (nat * nat) * nat => (zrow (fst eg), Z.of_nat (snd eg)))) with (fun eg : list (nat * nat) * nat => Z.of_nat (snd eg)).
      rewrite accuracy_spec; [|intros E; apply (f_equal length) in E; rewrite fmap_length in E; cbn in E; lia|rewrite !fmap_length; done].
      rewrite (count_correct (d_dicts d) trows) by (try done; intros dict Hdict; by destruct (tr_first _ _ _ _ HT 0 dict Hdict)). rewrite fmap_length, Hle. done.
Qed.
