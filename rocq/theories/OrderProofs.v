(** OrderEdge lists every edge once, in Chickering's order. *)
From Verif Require Export NetProofs3 GraphSpec2.
Local Open Scope nat_scope.

(** The edges with the [is_ordered] flag set for the pairs in [out]. *)
Definition mark (out : list (nat * nat)) (e : edge) : edge :=
  mkEdge (e_n1 e) (e_n2 e) (e_ep1 e) (e_ep2 e) (bool_decide (epair e ∈ out)) (e_label e).
Definition row_pairs (t : list nat) (par : list nat) (y : nat) (ks : list nat) : list (nat * nat) :=
  omap (fun k => match t !! k with Some x => if bool_decide (x ∈ par) then Some (x, y) else None | None => None end) ks.

Lemma elem_of_row_pairs t par y ks p : p ∈ row_pairs t par y ks <-> exists k x, k ∈ ks /\ t !! k = Some x /\ x ∈ par /\ p = (x, y).
Proof.
  unfold row_pairs. rewrite elem_of_list_omap. split.
  - intros (k & Hk & H). destruct (t !! k) as [x|] eqn:E; [|done]. case_bool_decide; [|done]. injection H as <-. eauto 10.
  - intros (k & x & Hk & E & Hx & ->). exists k. rewrite E, bool_decide_true by done. done.
Qed.
Lemma directed_pairs_all l : Forall (fun e => e_ep1 e = Tail /\ e_ep2 e = Arrow) l -> directed_pairs l = epair <$> l.
Proof.
  induction 1 as [|e l He _ IH]; [done|]. unfold directed_pairs in *. rewrite filter_cons, decide_True by done. cbn. by f_equal.
Qed.
Lemma edge_same_mark out a e : edge_same (mark out a) e = edge_same a e.
Proof. done. Qed.
Lemma find_edge_mark out l e : find_edge (mark out <$> l) e = find_edge l e.
Proof. induction l as [|a l IH]; [done|]. cbn. rewrite edge_same_mark, IH. done. Qed.

Section order.
Context (N : network) (HI : netinv N) (Hnd : no_dup_directed N).
Context (Hall : Forall (fun e => e_ep1 e = Tail /\ e_ep2 e = Arrow) (nt_edges N)).
Context (t : list nat) (Ht : topological (has_directed N) (length (nt_nodes N)) t).
Set Default Proof Using "All".
Notation E := (nt_edges N).
Notation inner y nd := (fun k (st : list edge * list edge) =>
      x ← vat t k;
      if bool_decide (x ∈ nd_parents nd) then
        match find_edge (fst st) (directed_edge x y) with
        | None => Err Thrown
        | Some pos =>
            e ← vat (fst st) pos;
            if e_ordered e then Ok st else
            let e' := mkEdge (e_n1 e) (e_n2 e) (e_ep1 e) (e_ep2 e) true (e_label e) in
            Ok (<[pos := e']> (fst st), snd st ++ [e'])
        end
      else Ok st).

Definition ord_state (out : list (nat * nat)) (st : list edge * list edge) : Prop :=
  fst st = mark out <$> E /\ epair <$> snd st = out /\ Forall (fun e => e_ep1 e = Tail /\ e_ep2 e = Arrow) (snd st).

Lemma t_NoDup : NoDup t.
Proof. destruct Ht as [-> _]. apply NoDup_seq. Qed.

Lemma inner_step y nd k x out st :
  nt_nodes N !! y = Some nd -> t !! k = Some x -> ord_state out st -> (x, y) ∉ out ->
  exists st', inner y nd k st = Ok st' /\ ord_state (out ++ row_pairs t (nd_parents nd) y [k]) st'.
Proof.
  intros Hy Hk (H1 & H2 & H3) Hout. cbv beta. assert (vat t k = Ok x) as -> by (unfold vat; by rewrite Hk). cbn [mbind outcome_bind]. unfold row_pairs. cbn [omap list_omap]. rewrite Hk.
  destruct (bool_decide (x ∈ nd_parents nd)) eqn:Hx.
  2: { exists st. split; [done|]. by rewrite app_nil_r. }
  apply bool_decide_eq_true in Hx.
  assert (has_directed N x y) as Hd. { apply (netinv_parent N x y HI). by exists nd. }
  rewrite H1, find_edge_mark. destruct (find_edge E (directed_edge x y)) as [pos|] eqn:Hf.
  2: { by apply get_directed_edge_none in Hf. }
  apply find_edge_some in Hf as (a & pre & post & HE & <- & Hs & _). apply edge_same_spec in Hs as (A1 & A2 & A3 & A4). cbn in A1, A2, A3, A4.
  assert ((mark out <$> E) !! length pre = Some (mark out a)) as Hl.
  { rewrite HE, list_lookup_fmap, list_lookup_middle; done. }
  unfold vat at 1. rewrite Hl. cbn [mbind outcome_bind]. cbn [mark e_ordered].
  assert (epair a = (x, y)) as Hp by (unfold epair; by rewrite A1, A2).
  rewrite bool_decide_false by (by rewrite Hp). eexists. split; [done|]. cbn [fst snd]. split_and!.
  - cbn [fst]. cbn. set (a' := mkEdge _ _ _ _ _ _). assert (a' = mark (out ++ [(x, y)]) a) as ->.
    { unfold a', mark. rewrite bool_decide_true; [done|]. rewrite Hp. apply elem_of_app. right. left. }
    assert (NoDup (epair <$> E)) as Hnd' by (rewrite <-directed_pairs_all; done).
    rewrite HE in Hnd' |- *. rewrite fmap_app in Hnd'. rewrite !fmap_app. rewrite !fmap_cons in *.
    replace (length pre) with (length (mark out <$> pre) + 0) by (rewrite fmap_length; lia). rewrite insert_app_r. cbn.
    rewrite <-Permutation_middle in Hnd'. rewrite Hp in Hnd'. apply NoDup_cons in Hnd' as [Hni _]. rewrite elem_of_app in Hni.
    assert (forall e, e ∈ pre \/ e ∈ post -> mark out e = mark (out ++ [(x, y)]) e) as Hm.
    { intros e He. unfold mark. f_equal. apply bool_decide_ext. rewrite elem_of_app, elem_of_list_singleton. split; [auto|]. intros [?|Hc]; [done|].
      exfalso. apply Hni. destruct He as [He|He]; [left|right]; apply elem_of_list_fmap; by exists e. }
    f_equal; [|f_equal]; apply list_fmap_ext; intros i e He; apply Hm; [left|right]; by eapply elem_of_list_lookup_2.
  - cbn [snd]. rewrite fmap_app, H2. cbn. unfold epair. cbn. by rewrite A1, A2.
  - cbn [snd]. apply Forall_app. split; [done|]. constructor; [|done]. done.
Qed.

Lemma inner_loop y nd ks out st :
  nt_nodes N !! y = Some nd -> (forall k, k ∈ ks -> k < length t) -> NoDup ks ->
  (forall x, (x, y) ∉ out) -> ord_state out st ->
  exists st', mfor ks (inner y nd) st = Ok st' /\ ord_state (out ++ row_pairs t (nd_parents nd) y ks) st'.
Proof.
  intros Hy Hks Hndk Hno Hst.
  apply (mfor_inv (fun dn st => ord_state (out ++ row_pairs t (nd_parents nd) y dn) st)).
  - by rewrite app_nil_r.
  - intros dn k rest s0 Hl Hs. destruct (lookup_lt_is_Some_2 t k) as [x Hx]. { apply Hks. rewrite Hl. apply elem_of_app. right. left. }
    destruct (inner_step y nd k x _ s0 Hy Hx Hs) as (s1 & Hs1 & Ho).
    + rewrite elem_of_app. intros [?|Hin]; [by eapply Hno|]. apply elem_of_row_pairs in Hin as (k' & x' & Hk' & Hx' & _ & [= ->]).
      assert (k' = k) as ->. { eapply NoDup_lookup; [apply t_NoDup|done|done]. }
      rewrite Hl in Hndk. apply NoDup_app in Hndk as (_ & Hdis & _). apply (Hdis k Hk'). left.
    + exists s1. split; [done|]. rewrite <-app_assoc in Ho. unfold row_pairs in *. by rewrite omap_app.
Qed.

(** The parents recorded for node [y]. *)
Definition par (y : nat) : list nat := match nt_nodes N !! y with Some nd => nd_parents nd | None => [] end.
Definition row (j : nat) : list (nat * nat) := match t !! j with Some y => row_pairs t (par y) y (reverse (seq 0 j)) | None => [] end.
Definition rows (j : nat) : list (nat * nat) := concat (row <$> seq 0 j).

Lemma row_snd j p : p ∈ row j -> exists k x y, p = (x, y) /\ t !! j = Some y /\ t !! k = Some x /\ k < j /\ has_directed N x y.
Proof.
  unfold row. destruct (t !! j) as [y|] eqn:Hy; [|by intros ?%elem_of_nil]. intros (k & x & Hk & Hx & Hp & ->)%elem_of_row_pairs.
  rewrite elem_of_reverse, elem_of_seq in Hk. exists k, x, y. split_and!; try done; [lia|].
  apply (netinv_parent N x y HI). unfold par in Hp. destruct (nt_nodes N !! y) as [nd|] eqn:E; [|by apply elem_of_nil in Hp]. by exists nd.
Qed.
Lemma rows_S j : rows (S j) = rows j ++ row j.
Proof. unfold rows. rewrite seq_S, fmap_app, concat_app. cbn. by rewrite app_nil_r. Qed.
Lemma elem_of_rows j p : p ∈ rows j <-> exists i, i < j /\ p ∈ row i.
Proof.
  induction j as [|j IH].
  - split; [by intros ?%elem_of_nil|intros (i & ? & _); lia].
  - rewrite rows_S, elem_of_app, IH. split.
    + intros [(i & ? & ?)|?]; [exists i|exists j]; split; auto; lia.
    + intros (i & Hi & Hp). destruct (decide (i = j)) as [->|]; [by right|left]. exists i. split; [lia|done].
Qed.

Lemma order_loop (N1 : network) :
  nt_nodes N1 = nt_nodes N -> nt_edges N1 = nt_edges N -> (forall e, e ∈ E -> e_ordered e = false) ->
  exists st, mfor (seq 0 (length t)) (fun j st =>
    y ← vat t j;
    ndy ← find_node N1 y;
    if bool_decide (nd_parents ndy = []) then Ok st else mfor (reverse (seq 0 j)) (inner y ndy) st) (nt_edges N1, []) = Ok st /\
    ord_state (rows (length t)) st.
Proof.
  intros HN1 HE1 Hflag.
  destruct (mfor_inv (fun (dn : list nat) st => ord_state (rows (length dn)) st) (seq 0 (length t)) (fun j st =>
    y ← vat t j;
    ndy ← find_node N1 y;
    if bool_decide (nd_parents ndy = []) then Ok st else mfor (reverse (seq 0 j)) (inner y ndy) st) (nt_edges N1, [])) as (st & Hst & Ho).
  - split_and!; [|done|constructor]. cbn [fst]. rewrite HE1. rewrite <-(list_fmap_id E) at 1. apply list_fmap_ext. intros i e He.
    unfold mark. rewrite bool_decide_false by apply not_elem_of_nil. apply elem_of_list_lookup_2, Hflag in He. destruct e; cbn in *. by rewrite He.
  - intros dn j rest st Hl Hst.
    assert (j = length dn /\ j < length t) as [-> Hj].
    { assert (seq 0 (length t) !! length dn = Some j) as Hlk by (rewrite Hl; apply list_lookup_middle; done).
      pose proof (lookup_lt_Some _ _ _ Hlk) as Hlt. rewrite seq_length in Hlt. apply lookup_seq in Hlk as [-> ?]. done. }
    destruct (lookup_lt_is_Some_2 t _ Hj) as [y Hy]. assert (vat t (length dn) = Ok y) as -> by (unfold vat; by rewrite Hy). cbn [mbind outcome_bind].
    assert (y < length (nt_nodes N)) as Hyn.
    { destruct Ht as [Hperm _]. assert (y ∈ seq 0 (length (nt_nodes N))) as Hin by (rewrite <-Hperm; by eapply elem_of_list_lookup_2). apply elem_of_seq in Hin. lia. }
    destruct (lookup_lt_is_Some_2 _ _ Hyn) as [nd Hnd']. unfold find_node. rewrite HN1, Hnd'. cbn [mbind outcome_bind].
    rewrite app_length. cbn [length]. rewrite Nat.add_1_r, rows_S.
    assert (row (length dn) = row_pairs t (nd_parents nd) y (reverse (seq 0 (length dn)))) as Hrow.
    { unfold row, par. by rewrite Hy, Hnd'. }
    rewrite Hrow. case_bool_decide as Hemp.
    + exists st. split; [done|]. assert (row_pairs t (nd_parents nd) y (reverse (seq 0 (length dn))) = []) as ->; [|by rewrite app_nil_r].
      destruct (row_pairs _ _ _ _) as [|p l] eqn:Er; [done|]. exfalso.
      assert (p ∈ p :: l) as Hp by left. rewrite <-Er in Hp. apply elem_of_row_pairs in Hp as (k & x & _ & _ & Hx & _). rewrite Hemp in Hx. by apply elem_of_nil in Hx.
    + apply inner_loop; [done| | | |done].
      * intros k Hk. rewrite elem_of_reverse, elem_of_seq in Hk. lia.
      * rewrite reverse_Permutation. apply NoDup_seq.
      * intros x Hin. apply elem_of_rows in Hin as (i & Hi & Hr). apply row_snd in Hr as (k & x' & y' & [= -> ->] & Hy' & _).
        assert (i = length dn); [|lia]. eapply NoDup_lookup; [apply t_NoDup|done|done].
  - exists st. split; [done|]. by rewrite seq_length in Ho.
Qed.

Lemma StronglySorted_app_2 {A} (R : A -> A -> Prop) l1 l2 :
  StronglySorted R l1 -> StronglySorted R l2 -> (forall x y, x ∈ l1 -> y ∈ l2 -> R x y) -> StronglySorted R (l1 ++ l2).
Proof.
  induction 1 as [|x l1 Hs IH Hf]; intros H2 Hc; [done|]. cbn. constructor.
  - apply IH; [done|]. intros a b Ha. apply Hc. by right.
  - apply Forall_app. split; [done|]. apply Forall_forall. intros y Hy. apply Hc; [left|done].
Qed.
Lemma rev_seq_sorted j : StronglySorted gt (reverse (seq 0 j)).
Proof.
  induction j as [|j IH]; [constructor|]. rewrite seq_S, reverse_app. cbn. constructor; [done|].
  apply Forall_forall. intros k Hk. rewrite elem_of_reverse, elem_of_seq in Hk. lia.
Qed.
Lemma row_sorted j : StronglySorted (edge_before t) (row j).
Proof.
  unfold row. destruct (t !! j) as [y|] eqn:Hy; [|constructor]. generalize (rev_seq_sorted j). generalize (reverse (seq 0 j)). intros ks.
  induction 1 as [|k ks Hs IH Hf]; [constructor|]. unfold row_pairs. cbn [omap list_omap]. fold (row_pairs t (par y) y ks).
  destruct (t !! k) as [x|] eqn:Hk; [|done]. case_bool_decide; [|done]. constructor; [done|].
  apply Forall_forall. intros p (k' & x' & Hk' & Hx' & _ & ->)%elem_of_row_pairs. rewrite Forall_forall in Hf. apply Hf in Hk'.
  exists k, j, k', j. cbn. split_and!; try done. right. lia.
Qed.
Lemma rows_sorted j : StronglySorted (edge_before t) (rows j).
Proof.
  induction j as [|j IH]; [constructor|]. rewrite rows_S. apply StronglySorted_app_2; [done|apply row_sorted|].
  intros p q (i & Hi & Hp)%elem_of_rows Hq. apply row_snd in Hp as (k1 & x1 & y1 & -> & ? & ? & ? & _).
  apply row_snd in Hq as (k2 & x2 & y2 & -> & ? & ? & ? & _). exists k1, i, k2, j. cbn. split_and!; try done. by left.
Qed.
Lemma edge_before_irrefl p : ~ edge_before t p p.
Proof.
  intros (k1 & j1 & k2 & j2 & H1 & H2 & H3 & H4 & Hlt).
  assert (k1 = k2) by (eapply NoDup_lookup; [apply t_NoDup|done|done]). assert (j1 = j2) by (eapply NoDup_lookup; [apply t_NoDup|done|done]). lia.
Qed.
Lemma sorted_nodup {A} (R : A -> A -> Prop) l : (forall x, ~ R x x) -> StronglySorted R l -> NoDup l.
Proof.
  intros Hirr. induction 1 as [|x l Hs IH Hf]; [apply NoDup_nil_2|]. apply NoDup_cons. split; [|done].
  intros Hx. rewrite Forall_forall in Hf. by apply (Hirr x), Hf.
Qed.
Lemma rows_perm : rows (length t) ≡ₚ directed_pairs E.
Proof.
  apply NoDup_Permutation; [|done|].
  - eapply sorted_nodup; [apply edge_before_irrefl|apply rows_sorted].
  - intros [x y]. rewrite <-has_directed_pairs, elem_of_rows. split.
    + intros (i & Hi & Hr). apply row_snd in Hr as (k & x' & y' & [= -> ->] & _ & _ & _ & Hd). done.
    + intros Hd. destruct (has_directed_bound _ _ _ HI Hd) as [Hx Hy]. destruct Ht as [Hperm Hord].
      assert (forall z, z < length (nt_nodes N) -> exists i, t !! i = Some z) as Hpos.
      { intros z Hz. apply elem_of_list_lookup_1. rewrite Hperm. apply elem_of_seq. lia. }
      destruct (Hpos x Hx) as [k Hk], (Hpos y Hy) as [j Hj]. pose proof (Hord _ _ _ _ Hk Hj Hd) as Hkj.
      exists j. split; [by eapply lookup_lt_Some|]. unfold row. rewrite Hj. apply elem_of_row_pairs. exists k, x. split_and!; try done.
      * rewrite elem_of_reverse, elem_of_seq. lia.
      * apply (netinv_parent N x y HI) in Hd as (nd & Hnd' & Hin). unfold par. by rewrite Hnd'.
Qed.
End order.

Theorem order_edge_spec N :
  netinv N -> no_dup_directed N -> nt_topo N = [] ->
  (forall e, e ∈ nt_edges N -> e_ep1 e = Tail /\ e_ep2 e = Arrow /\ e_ordered e = false) ->
  exists N' l t, order_edge N = Ok (N', l) /\ topological (has_directed N) (length (nt_nodes N)) t /\
    epair <$> l ≡ₚ epair <$> nt_edges N /\
    (forall e, e ∈ l -> e_ep1 e = Tail /\ e_ep2 e = Arrow) /\
    StronglySorted (edge_before t) (epair <$> l) /\
    nt_nodes N' = nt_nodes N /\ nt_topo N' = t /\
    nt_edges N' = (fun e => mkEdge (e_n1 e) (e_n2 e) (e_ep1 e) (e_ep2 e) true (e_label e)) <$> nt_edges N.
Proof.
  intros HI Hnd Htopo Hall. destruct (get_topo_ord_fresh N HI Htopo) as (N1 & t & HN1 & HT1 & HE1 & Hn1 & Ht).
  assert (Forall (fun e => e_ep1 e = Tail /\ e_ep2 e = Arrow) (nt_edges N)) as Hdir.
  { apply Forall_forall. intros e He. destruct (Hall e He) as (? & ? & _). done. }
  destruct (order_loop N HI Hnd Hdir t Ht N1 Hn1 HE1) as (st & Hst & H1 & H2 & H3). { intros e He. by destruct (Hall e He) as (_ & _ & ?). }
  unfold order_edge. rewrite HN1. cbn [mbind outcome_bind fst snd]. cbn [fst snd] in Hst. rewrite Hst. cbn [mbind outcome_bind set_edges nt_edges].
  pose proof (rows_perm N HI Hnd Hdir t Ht) as Hp. rewrite (directed_pairs_all _ Hdir) in Hp.
  rewrite bool_decide_false.
  2: { intros Hne. apply Hne. rewrite H1, fmap_length. apply Permutation_length in Hp. rewrite <-H2, !fmap_length in Hp. done. }
  exists (set_edges N1 (fst st)), (snd st), t. split_and!; try done.
  - by rewrite H2.
  - intros e He. rewrite Forall_forall in H3. by apply H3.
  - rewrite H2. by apply rows_sorted.
  - cbn. rewrite H1. apply list_fmap_ext. intros i e He. unfold mark. rewrite bool_decide_true; [done|].
    rewrite Hp. apply elem_of_list_fmap. exists e. split; [done|]. by eapply elem_of_list_lookup_2.
Qed.

(** A second call with the flags left by the first one exits. *)
Theorem order_edge_twice N :
  netinv N -> no_dup_directed N -> nt_topo N = [] -> nt_edges N <> [] ->
  (forall e, e ∈ nt_edges N -> e_ep1 e = Tail /\ e_ep2 e = Arrow /\ e_ordered e = false) ->
  exists N' l, order_edge N = Ok (N', l) /\ order_edge N' = Err Exit1.
Proof.
  intros HI Hnd Htopo Hne Hall. destruct (order_edge_spec N HI Hnd Htopo Hall) as (N' & l & t & Ho & Ht & Hp & _ & _ & Hn & Ht' & He).
  exists N', l. split; [done|]. unfold order_edge, get_topo_ord.
  assert (t <> []) as Htne.
  { intros ->. destruct (nt_edges N) as [|e es] eqn:E; [done|]. destruct Ht as [Hperm _]. apply Permutation_length in Hperm. rewrite seq_length in Hperm.
    pose proof (ni_edges _ HI) as Hw. rewrite E in Hw. inversion Hw as [|? ? Hwe]; subst. destruct Hwe as (? & _). cbn in *. lia. }
  rewrite bool_decide_false by congruence. cbn [mbind outcome_bind fst snd]. rewrite Ht'.
  assert (forall e, e ∈ nt_edges N' -> e_ordered e = true) as Hflag.
  { intros e Hin. rewrite He in Hin. apply elem_of_list_fmap in Hin as (e' & -> & _). done. }
  assert (forall x y, has_directed N' x y <-> has_directed N x y) as Hhd.
  { intros x y. unfold has_directed. rewrite He. split.
    - intros (e & Hin & ?). apply elem_of_list_fmap in Hin as (e' & -> & ?). by exists e'.
    - intros (e & Hin & ?). eexists. split; [apply elem_of_list_fmap; by exists e|done]. }
  match goal with |- context [mfor ?l0 ?b ?s] => destruct (mfor_inv (fun _ st => st = s) l0 b s eq_refl) as (s' & -> & ->) end.
  - intros dn j rest st Hl ->. assert (j ∈ seq 0 (length t)) as Hj by (rewrite Hl; apply elem_of_app; right; left). apply elem_of_seq in Hj.
    destruct (lookup_lt_is_Some_2 t j) as [y Hy]; [lia|]. assert (vat t j = Ok y) as -> by (unfold vat; by rewrite Hy). cbn [mbind outcome_bind].
    destruct (lookup_lt_is_Some_2 (nt_nodes N') y) as [nd Hnd'].
    { rewrite Hn. destruct Ht as [Hperm _]. assert (y ∈ seq 0 (length (nt_nodes N))) as Hin by (rewrite <-Hperm; by eapply elem_of_list_lookup_2). apply elem_of_seq in Hin. lia. }
    rewrite (find_node_ok _ _ _ Hnd'). cbn [mbind outcome_bind]. eexists. split; [|reflexivity]. case_bool_decide; [done|].
    match goal with |- mfor ?l0 ?b ?s = _ => destruct (mfor_inv (fun _ st => st = s) l0 b s eq_refl) as (s' & -> & ->) end; [|done].
    intros dn' k rest' st' Hl' ->. assert (k ∈ reverse (seq 0 j)) as Hk by (rewrite Hl'; apply elem_of_app; right; left). rewrite elem_of_reverse, elem_of_seq in Hk.
    destruct (lookup_lt_is_Some_2 t k) as [x Hx]; [lia|]. assert (vat t k = Ok x) as -> by (unfold vat; by rewrite Hx). cbn [mbind outcome_bind]. eexists. split; [|reflexivity].
    case_bool_decide as Hpar; [|done]. cbn [fst].
    destruct (find_edge (nt_edges N') (directed_edge x y)) as [pos|] eqn:Hf.
    2: { exfalso. apply (get_directed_edge_none N' x y) in Hf. apply Hf. apply Hhd. apply (netinv_parent N x y HI). rewrite Hn in Hnd'. by exists nd. }
    apply find_edge_some in Hf as (a & pre & post & HE & <- & _). assert (vat (nt_edges N') (length pre) = Ok a) as -> by (unfold vat; by rewrite HE, list_lookup_middle). cbn [mbind outcome_bind].
    rewrite Hflag; [done|]. rewrite HE. apply elem_of_app. right. left.
  - cbn [mbind outcome_bind fst snd set_edges nt_edges]. rewrite bool_decide_true; [done|]. cbn. rewrite He, fmap_length. destruct (nt_edges N); cbn; [done|lia].
Qed.
