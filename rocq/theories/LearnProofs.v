(** Tables built from counters and tables learned from data. *)
From Coq Require Import Field QArith.
From Verif Require Import LearnModel LearnSpec NetProofs2 StructProofs CountProofs TableProofs.
Local Open Scope nat_scope.

Lemma netinv_ok N : netinv N -> Forall (fun d => 0 < d) (domain_sizes N) -> net_ok N.
Proof.
  intros HN Hd. split; [apply HN| |done]. intros x Hx. apply (ni_acyclic _ HN x).
  revert Hx. generalize x at 1 3. intros y Hx. induction Hx as [y z H|y z w H _ IH]; [apply tc_once|eapply tc_l; [|exact IH]]; by apply netinv_child.
Qed.
Lemma lex_index_mod d ds c cs : positive ds -> in_range ds cs -> lex_index (d :: ds) (c :: cs) mod prod_list ds = lex_index ds cs.
Proof.
  intros Hp Hr. cbn [lex_index]. pose proof (prod_list_pos _ Hp). rewrite Nat.add_comm, Nat.mod_add by lia. apply Nat.mod_small. by apply lex_index_lt.
Qed.
Lemma lex_agree dom vs (a b : asg) : (forall v, 0 < dom v) -> valid dom a -> valid dom b ->
  lex_index (dom <$> vs) (a <$> vs) = lex_index (dom <$> vs) (b <$> vs) <-> Forall (fun v => a v = b v) vs.
Proof.
  intros Hd Ha Hb. split.
  - intros He. apply lex_index_inj in He; [|by apply valid_in_range..]. clear -He. induction vs as [|v vs IH]; constructor; cbn in He; [congruence|]. apply IH. congruence.
  - intros Hf. f_equal. induction Hf as [|v vs Hv _ IH]; [done|]. cbn. by rewrite Hv, IH.
Qed.
(** A loop that increments one cell of each of two arrays. *)
Lemma bump_ok l k : k < length l -> exists n, l !! k = Some n /\ bump l k = Ok (<[k := S n]> l).
Proof. intros H. destruct (lookup_lt_is_Some_2 _ _ H) as [n Hn]. exists n. split; [done|]. unfold bump. rewrite (vget_ok _ _ _ Hn). cbn [mbind outcome_bind]. by apply vset_ok. Qed.
Lemma count_loop n (step : nat -> list nat * list nat -> outcome (list nat * list nat)) (f g : nat -> nat) A B :
  (forall j st, j < n -> length (fst st) = A -> length (snd st) = B ->
     f j < A /\ g j < B /\ step j st = (s ← bump (fst st) (f j); m ← bump (snd st) (g j); Ok (s, m))) ->
  exists s m, mfor (seq 0 n) step (replicate A 0, replicate B 0) = Ok (s, m) /\
    (forall k, k < A -> s !! k = Some (length (filter (fun j => f j = k) (seq 0 n)))) /\
    (forall k, k < B -> m !! k = Some (length (filter (fun j => g j = k) (seq 0 n)))).
Proof.
  intros H.
  destruct (mfor_inv (fun (done : list nat) st => length (fst st) = A /\ length (snd st) = B /\
    (forall k, k < A -> fst st !! k = Some (length (filter (fun j => f j = k) done))) /\
    (forall k, k < B -> snd st !! k = Some (length (filter (fun j => g j = k) done)))) (seq 0 n) step (replicate A 0, replicate B 0)) as ([s m] & Hs & Hinv).
  - cbn. rewrite !replicate_length. split_and!; try done; intros k Hk; by apply lookup_replicate_2.
  - intros done j rest [s m] E (L1 & L2 & I1 & I2). cbn [fst snd] in *. assert (j < n) as Hj by (assert (j ∈ seq 0 n) as Hj by (rewrite E; set_solver); apply elem_of_seq in Hj; lia).
    destruct (H j (s, m) Hj L1 L2) as (Hf & Hg & ->). cbn [fst snd].
    destruct (bump_ok s (f j)) as (x & Hx & ->); [lia|]. destruct (bump_ok m (g j)) as (y & Hy & ->); [lia|]. cbn [mbind outcome_bind]. eexists. split; [reflexivity|]. cbn [fst snd]. rewrite !insert_length. split_and!; try done.
    + intros k Hk. rewrite filter_app, app_length, filter_cons, filter_nil. destruct (decide (f j = k)) as [<-|Hne].
      * rewrite list_lookup_insert by lia. rewrite I1 in Hx by done. injection Hx as <-. cbn. f_equal. lia.
      * rewrite list_lookup_insert_ne by done. rewrite I1 by done. cbn. f_equal. lia.
    + intros k Hk. rewrite filter_app, app_length, filter_cons, filter_nil. destruct (decide (g j = k)) as [<-|Hne].
      * rewrite list_lookup_insert by lia. rewrite I2 in Hy by done. injection Hy as <-. cbn. f_equal. lia.
      * rewrite list_lookup_insert_ne by done. rewrite I2 by done. cbn. f_equal. lia.
  - exists s, m. split; [done|]. apply Hinv.
Qed.
Lemma mcollect_total {I A} (l : list I) (body : I -> outcome A) e : (forall i, i ∈ l -> (exists x, body i = Ok x) \/ body i = Err e) ->
  (exists i, i ∈ l /\ body i = Err e) -> mcollect l body = Err e.
Proof.
  induction l as [|i l IH]; intros H (j & Hj & He); [by apply elem_of_nil in Hj|]. cbn.
  destruct (H i) as [[x Hx]|Hx]; [left| |by rewrite Hx]. rewrite Hx. cbn. apply elem_of_cons in Hj as [->|Hj]; [congruence|].
  rewrite IH; [done| |by exists j]. intros; apply H; by right.
Qed.

Lemma filter_ext_in {A} (P Q : A -> Prop) `{forall x, Decision (P x)} `{forall x, Decision (Q x)} (l : list A) :
  (forall x, x ∈ l -> P x <-> Q x) -> filter P l = filter Q l.
Proof.
  induction l as [|x l IH]; intros Hx; [done|]. rewrite !filter_cons. rewrite IH by (intros; apply Hx; by right). specialize (Hx x ltac:(left)).
  destruct (decide (P x)), (decide (Q x)); tauto.
Qed.
(** The value of each variable in a row. *)
Definition row (cols : list (list nat)) (j : nat) : asg := fun v => default 0 (entry cols j v).
Lemma occurrences_lex dom cols rows vs a : (forall v, 0 < dom v) -> valid dom a -> (forall j, j < rows -> valid dom (row cols j)) ->
  (forall j v, j < rows -> v ∈ vs -> is_Some (entry cols j v)) ->
  length (filter (fun j => lex_index (dom <$> vs) (row cols j <$> vs) = lex_index (dom <$> vs) (a <$> vs)) (seq 0 rows)) = occurrences cols rows vs a.
Proof.
  intros Hd Ha Hr Hs. unfold occurrences. f_equal. apply filter_ext_in. intros j Hj. apply elem_of_seq in Hj. rewrite lex_agree; [|done|apply Hr; lia|done].
  unfold agrees. rewrite !Forall_forall. unfold row. split; intros H v Hv; specialize (H v Hv); destruct (Hs j v) as [y Hy]; try lia; try done; rewrite Hy in *; cbn in *; congruence.
Qed.
Lemma occurrences_upd cols rows ps a x y : x ∉ ps -> occurrences cols rows ps (upd a x y) = occurrences cols rows ps a.
Proof.
  intros Hx. unfold occurrences. f_equal. apply filter_ext_in. intros j _. unfold agrees. rewrite !Forall_forall. split; intros H v Hv; specialize (H v Hv); rewrite upd_other in *; try done; by intros ->.
Qed.
Lemma occurrences_sum cols rows ps a x d : x ∉ ps -> (forall j, j < rows -> exists y, entry cols j x = Some y /\ y < d) ->
  sum_list_with (fun y => occurrences cols rows (x :: ps) (upd a x y)) (seq 0 d) = occurrences cols rows ps a.
Proof.
  intros Hx Hj. unfold occurrences. assert (forall j, j ∈ seq 0 rows -> exists y, entry cols j x = Some y /\ y < d) as H by (intros j Hj'; apply elem_of_seq in Hj'; apply Hj; lia). clear Hj.
  assert (forall j y, agrees cols (x :: ps) (upd a x y) j <-> entry cols j x = Some y /\ agrees cols ps a j) as Hag.
  { intros j y. unfold agrees. rewrite Forall_cons, upd_same. f_equiv. rewrite !Forall_forall. split; intros H' v Hv; specialize (H' v Hv); rewrite upd_other in *; try done; by intros ->. }
  induction (seq 0 rows) as [|j l IH].
  - cbn. induction (seq 0 d); cbn; [done|]. lia.
  - rewrite filter_cons. destruct (H j) as (y0 & Hy0 & Hlt); [left|].
    assert (forall y, length (filter (agrees cols (x :: ps) (upd a x y)) (j :: l)) = (if decide (y = y0) then (if decide (agrees cols ps a j) then 1 else 0) else 0) + length (filter (agrees cols (x :: ps) (upd a x y)) l)) as Hc.
    { intros y. rewrite filter_cons. destruct (decide (agrees cols (x :: ps) (upd a x y) j)) as [Hy|Hy]; rewrite Hag in Hy.
      - destruct Hy as [Hy1 Hy2]. rewrite decide_True by congruence. by rewrite decide_True.
      - destruct (decide (y = y0)) as [->|]; [|done]. rewrite decide_False; [done|]. tauto. }
    assert (forall (f g h : nat -> nat) m, (forall y, f y = g y + h y) -> sum_list_with f m = sum_list_with g m + sum_list_with h m) as Hadd.
    { intros f g h m Hf. induction m as [|z m IHm]; cbn; [done|]. rewrite Hf, IHm. lia. }
    rewrite (Hadd _ _ _ _ Hc), IH by (intros; apply H; by right).
    assert (forall s n c, s <= y0 < s + n -> sum_list_with (fun y => if decide (y = y0) then c else 0) (seq s n) = c) as Hsel.
    { intros s0 n c. revert s0. induction n as [|n IHn]; intros s0 Hs; [lia|]. cbn. destruct (decide (s0 = y0)) as [->|Hne].
      - assert (forall s, y0 < s -> forall n, sum_list_with (fun y => if decide (y = y0) then c else 0) (seq s n) = 0) as ->; [|lia|lia].
        intros s1 Hs1 m. revert s1 Hs1. induction m as [|m IHm]; intros s1 Hs1; cbn; [done|]. rewrite decide_False by lia. rewrite IHm; lia.
      - rewrite IHn by lia. done. }
    rewrite Hsel by lia. destruct (decide (agrees cols ps a j)); done.
Qed.

Section net.
Context (N : network) (HN : netinv N) (Hdoms : Forall (fun d => 0 < d) (domain_sizes N)).
Notation dom := (net_dom N).
Set Default Proof Using "All".
Lemma dpos v : 0 < dom v.
Proof. apply net_dom_pos. by apply netinv_ok. Qed.
Lemma parents_in x nd : nt_nodes N !! x = Some nd -> forall p, p ∈ nd_parents nd -> p < net_size N /\ p <> x /\ child_rel N p x.
Proof.
  intros Hx p Hp. assert (has_directed N p x) as Hd by (apply netinv_parent; [done|]; by exists nd). split_and!.
  - by apply (has_directed_bound N p x HN) in Hd as [? _].
  - intros ->. apply (ni_acyclic _ HN x). by apply tc_once.
  - by apply netinv_child.
Qed.
Lemma family_nodup x nd : nt_nodes N !! x = Some nd -> NoDup (x :: nd_parents nd).
Proof.
  intros Hx. constructor; [intros Hp; by apply (parents_in x nd Hx) in Hp as (_ & ? & _)|].
  destruct (ni_parents _ HN x nd Hx) as [Hs _]. clear Hx. induction Hs as [|y l _ IH Hf]; constructor; [|done]. intros Hy. rewrite Forall_forall in Hf. specialize (Hf y Hy). lia.
Qed.
Lemma dom_node x nd : nt_nodes N !! x = Some nd -> dom x = nd_dom nd.
Proof. intros Hx. unfold net_dom, dom_of, domain_sizes. by rewrite list_lookup_fmap, Hx. Qed.
Lemma empty_table_ok x nd : nt_nodes N !! x = Some nd -> empty_node_table N x = Ok (TableProofs.fresh dom (x :: nd_parents nd)).
Proof.
  intros Hx. unfold empty_node_table, find_node. rewrite Hx. cbn [mbind outcome_bind]. case_bool_decide as Hp.
  - rewrite Hp. unfold TableProofs.fresh. cbn [fmap list_fmap length strides]. rewrite configs_length. cbn [prod_list foldr]. rewrite <-(dom_node x nd Hx), Nat.mul_1_r. done.
  - unfold construct_var_dims_and_cum_levels. rewrite (mcollect_ok _ _ dom).
    + cbn [mbind outcome_bind]. set (vs := x :: nd_parents nd). replace (length vs) with (length (dom <$> vs)) at 1 by apply fmap_length.
      rewrite (cum_and_size (dom <$> vs) (fun cum n => Ok (dom <$> vs, cum, n))) by done. done.
    + intros v Hv. assert (v < net_size N) as Hlt by (apply elem_of_cons in Hv as [->|Hv]; [by eapply lookup_lt_Some|by eapply parents_in]).
      unfold node_dim, net_dom, dom_of. destruct (domain_sizes N !! v) eqn:E; [done|]. apply lookup_ge_None_1 in E. unfold domain_sizes in E. rewrite fmap_length in E. unfold net_size in Hlt. lia.
Qed.
Notation ftab x nd := (TableProofs.fresh dom (x :: nd_parents nd)).
Lemma ftab_wf x nd : nt_nodes N !! x = Some nd -> TableSpec.wf dom (ftab x nd).
Proof. intros Hx. apply wf_fresh; [apply dpos|]. by eapply family_nodup. Qed.
(** Filling the table slot by slot. *)
Lemma fill_ok t (body : nat -> outcome Qc) (f : asg -> Qc) : TableSpec.wf dom t -> pt_vars t <> [] ->
  (forall a, valid dom a -> body (lex_index (pt_dims t) (a <$> pt_vars t)) = Ok (f a)) ->
  exists pots, mcollect (seq 0 (pt_size t)) body = Ok pots /\ TableSpec.wf dom (set_pots t pots) /\ forall a, valid dom a -> tval (set_pots t pots) a = f a.
Proof.
  intros Ht _ Hf.
  assert (forall k, k ∈ seq 0 (pt_size t) -> exists q, body k = Ok q) as H.
  { intros k Hk. apply elem_of_seq in Hk. destruct (slot_asg dom dpos t k Ht) as (a & Ha & <- & _); [lia|]. eauto. }
  assert (exists pots, mcollect (seq 0 (pt_size t)) body = Ok pots) as [pots Hp].
  { clear -H. induction (seq 0 (pt_size t)) as [|k l IH]; [by exists []|]. cbn. destruct (H k) as [q ->]; [left|]. destruct IH as [ps ->]; [intros; apply H; by right|]. by exists (q :: ps). }
  destruct (mcollect_inv _ _ _ Hp) as [Hl Hall]. rewrite seq_length in Hl. exists pots. split; [done|]. split; [by apply wf_set_pots; [apply dpos|..]|].
  intros a Ha. unfold tval. cbn [set_pots pt_pots pt_dims pt_vars]. pose proof (lex_index_lt_size dom dpos t a Ht Ha) as Hlt.
  destruct (lookup_lt_is_Some_2 pots (lex_index (pt_dims t) (a <$> pt_vars t))) as [q Hq]; [lia|]. rewrite Hq. cbn.
  assert (seq 0 (pt_size t) !! lex_index (pt_dims t) (a <$> pt_vars t) = Some (lex_index (pt_dims t) (a <$> pt_vars t))) as Hk by (apply lookup_seq; lia).
  specialize (Hall _ _ q Hk Hq). rewrite (Hf a Ha) in Hall. congruence.
Qed.
Lemma fill_err t (body : nat -> outcome Qc) e : TableSpec.wf dom t ->
  (forall a, valid dom a -> (exists q, body (lex_index (pt_dims t) (a <$> pt_vars t)) = Ok q) \/ body (lex_index (pt_dims t) (a <$> pt_vars t)) = Err e) ->
  (exists a, valid dom a /\ body (lex_index (pt_dims t) (a <$> pt_vars t)) = Err e) ->
  mcollect (seq 0 (pt_size t)) body = Err e.
Proof.
  intros Ht H (a & Ha & He). apply mcollect_total.
  - intros k Hk. apply elem_of_seq in Hk. destruct (slot_asg dom dpos t k Ht) as (b & Hb & <- & _); [lia|]. by apply H.
  - eexists. split; [|exact He]. apply elem_of_seq. pose proof (lex_index_lt_size dom dpos t a Ht Ha). lia.
Qed.

(** ** Tables from counters *)
(** The configuration of the parents [ps] in an assignment. *)
Lemma cins_sorted ps (a : asg) u : StronglySorted lt (u ++ ps) ->
  foldl (fun c p => cins (p, a p) c) ((fun p => (p, a p)) <$> u) ps = (fun p => (p, a p)) <$> (u ++ ps).
Proof.
  revert u. induction ps as [|p ps IH]; intros u Hs; cbn; [by rewrite app_nil_r|].
  replace (u ++ p :: ps) with ((u ++ [p]) ++ ps) in * by by rewrite <-app_assoc. rewrite <-IH by done. f_equal. rewrite fmap_app. cbn.
  assert (forall q, q ∈ u -> q < p) as Hlt.
  { intros q Hq. apply elem_of_list_split in Hq as (l1 & l2 & ->). clear -Hs. induction l1 as [|z l1 IH]; cbn in Hs; inversion Hs as [|? ? H1 H2]; subst; [|by apply IH]. rewrite Forall_forall in H2. apply H2. set_solver. }
  clear -Hlt. induction u as [|q u IH]; cbn; [done|]. rewrite bool_decide_false; [|unfold pair_lt; cbn; specialize (Hlt q ltac:(left)); lia].
  rewrite bool_decide_false; [|specialize (Hlt q ltac:(left)); intros [= ? _]; lia]. f_equal. apply IH. intros; apply Hlt. by right.
Qed.
Lemma parent_config_loop t x ps (a : asg) : TableSpec.wf dom t -> pt_vars t = x :: ps -> StronglySorted lt ps ->
  mfor (seq 1 (pt_nv t - 1)) (fun j u => v ← vget (pt_vars t) j; z ← vget (a <$> pt_vars t) j; Ok (cins (v, z) u)) [] = Ok ((fun p => (p, a p)) <$> ps).
Proof.
  intros Ht Hv Hs. rewrite (wf_nv _ _ Ht), Hv. cbn [length]. replace (S (length ps) - 1) with (length ps) by lia.
  transitivity (Ok (foldl (fun c p => cins (p, a p) c) [] ps) : outcome config); [|f_equal; by apply (cins_sorted ps a [])].
  rewrite <-fmap_S_seq, mfor_map. clear Hs Ht Hv.
  enough (forall u c, mfor (seq (length u) (length ps)) (fun i s => v ← vget (x :: u ++ ps) (S i); z ← vget (a <$> x :: u ++ ps) (S i); Ok (cins (v, z) s)) c = Ok (foldl (fun c p => cins (p, a p) c) c ps)) as H by exact (H [] []).
  induction ps as [|p ps IH]; intros u c; [done|]. cbn [length seq mfor].
  rewrite (vget_ok (x :: u ++ p :: ps) (S (length u)) p) by (cbn; by apply list_lookup_middle). cbn [mbind outcome_bind].
  rewrite (vget_ok (a <$> x :: u ++ p :: ps) (S (length u)) (a p)) by (rewrite list_lookup_fmap, lookup_cons_ne_0 by done; cbn [pred]; rewrite list_lookup_middle by done; done). cbn [mbind outcome_bind foldl].
  specialize (IH (u ++ [p]) (cins (p, a p) c)). rewrite app_length, Nat.add_1_r in IH. cbn [length] in IH. rewrite <-app_assoc in IH. exact IH.
Qed.

Lemma node_table_ok x nd c p : nt_nodes N !! x = Some nd ->
  (forall a, valid dom a -> get_probability nd c (a x) ((fun v => (v, a v)) <$> nd_parents nd) = Ok (p a)) ->
  exists t, node_table N x c = Ok t /\ is_cpt N x (nd_parents nd) p t.
Proof.
  intros Hx Hp. unfold node_table, find_node. rewrite Hx. cbn [mbind outcome_bind]. rewrite (empty_table_ok x nd Hx). cbn [mbind outcome_bind].
  pose proof (ftab_wf x nd Hx) as Hw. set (t := ftab x nd) in *. assert (pt_vars t = x :: nd_parents nd) as Hv by done. case_bool_decide as Hnil.
  - destruct (fill_ok t (fun i => get_probability nd c i []) p Hw) as (pots & -> & Hw' & Ht); [by rewrite Hv| |].
    + intros a Ha. specialize (Hp a Ha). rewrite Hnil in Hp. rewrite (wf_dims _ _ Hw), Hv, Hnil. cbn [fmap list_fmap lex_index prod_list foldr]. rewrite Nat.mul_1_r, Nat.add_0_r. exact Hp.
    + cbn [mbind outcome_bind]. eexists. split; [done|]. split_and!; [done|done|exact Ht].
  - edestruct (fill_ok t (fun i => cfg ← get_config t i; x0 ← vget cfg 0; u ← mfor (seq 1 (pt_nv t - 1)) (fun j u => v ← vget (pt_vars t) j; z ← vget cfg j; Ok (cins (v, z) u)) []; get_probability nd c x0 u) p Hw) as (pots & -> & Hw' & Ht); [by rewrite Hv| |].
    + intros a Ha. rewrite (get_config_spec dom dpos t a Hw Ha). cbn [mbind outcome_bind]. rewrite (vget_ok _ 0 (a x)) by (by rewrite Hv). cbn [mbind outcome_bind].
      rewrite (parent_config_loop t x (nd_parents nd) a Hw Hv) by (by apply (ni_parents _ HN x nd)). cbn [mbind outcome_bind]. by apply Hp.
    + cbn [mbind outcome_bind]. eexists. split; [done|]. split_and!; [done|done|exact Ht].
Qed.
Lemma is_cpt_family x nd f t : nt_nodes N !! x = Some nd -> is_cpt N x (nd_parents nd) f t -> table_of_family N t.
Proof.
  intros Hx (Hw & Hv & _). split; [done|]. rewrite Hv. split; [done|]. exists x. split; [by eapply lookup_lt_Some|]. intros v Hvin. apply elem_of_cons in Hvin as [->|Hp]; [by left|]. right. by eapply parents_in.
Qed.

(** ** Learning *)
Section data.
Context (D : columns) (HD : complete N D) (root : option nat) (coin : nat -> nat) (Hroot : root = None \/ root = Some (co_vars D)) (Hcoin : forall j, coin j < dom (co_vars D)).
Notation cols := (with_column D (coin <$> seq 0 (co_rows D))).
Notation rows := (co_rows D).
Lemma entry_in v j : v < co_vars D -> j < rows -> exists y, entry cols j v = Some y /\ y < dom v /\ cell D v j = Ok y.
Proof.
  intros Hv Hj. destruct HD as (Hl & _ & Hc). destruct (lookup_lt_is_Some_2 (co_cols D) v) as [col Hcol]; [lia|]. destruct (Hc v col Hcol) as [Hlen Hall].
  destruct (lookup_lt_is_Some_2 col j) as [y Hy]; [lia|]. exists y. unfold entry, with_column. rewrite lookup_app_l by lia. rewrite Hcol. cbn. split_and!; [done| |].
  - rewrite Forall_forall in Hall. apply Hall. by eapply elem_of_list_lookup_2.
  - unfold cell. rewrite (vget_ok _ _ _ Hcol). cbn [mbind outcome_bind]. by apply vget_ok.
Qed.
Lemma entry_root j : j < rows -> entry cols j (co_vars D) = Some (coin j).
Proof.
  intros Hj. destruct HD as (Hl & _ & _). unfold entry, with_column. rewrite lookup_app_r by lia. rewrite Hl, Nat.sub_diag. cbn. rewrite list_lookup_fmap, lookup_seq_lt by done. done.
Qed.
Lemma row_valid j : j < rows -> valid dom (row cols j).
Proof.
  intros Hj v. unfold row. destruct (decide (v < co_vars D)) as [Hv|Hv]; [destruct (entry_in v j Hv Hj) as (y & -> & Hy & _); exact Hy|].
  destruct (decide (v = co_vars D)) as [->|Hne]; [rewrite entry_root by done; apply Hcoin|].
  unfold entry, with_column. rewrite lookup_ge_None_2; [cbn; apply dpos|]. rewrite app_length. cbn. destruct HD as (Hl & _ & _). lia.
Qed.
(** Either the parents are variables of the data, or the only parent is ROOT. *)
Definition plain_or_root (ps : list nat) : Prop := (forall p, p ∈ ps -> p < co_vars D) \/ root = Some (co_vars D) /\ ps = [co_vars D].
Lemma entry_some x ps j v : x < co_vars D -> plain_or_root ps -> j < rows -> v ∈ x :: ps -> is_Some (entry cols j v).
Proof.
  intros Hx Hps Hj Hv. assert (v < co_vars D \/ v = co_vars D) as [Hlt| ->].
  { apply elem_of_cons in Hv as [->|Hv]; [by left|]. destruct Hps as [H|[_ ->]]; [left; by apply H|]. right. by apply elem_of_list_singleton in Hv. }
  - destruct (entry_in v j Hlt Hj) as (y & -> & _). by eexists.
  - rewrite entry_root by done. by eexists.
Qed.
Lemma count_row_ok x nd j st : nt_nodes N !! x = Some nd -> x < co_vars D -> plain_or_root (nd_parents nd) -> j < rows ->
  count_row D root coin (ftab x nd) j st =
  (s ← bump (fst st) (lex_index (dom <$> x :: nd_parents nd) (row cols j <$> x :: nd_parents nd));
   m ← bump (snd st) (lex_index (dom <$> nd_parents nd) (row cols j <$> nd_parents nd)); Ok (s, m)).
Proof.
  intros Hx Hxv Hps Hj. pose proof (ftab_wf x nd Hx) as Hw. set (t := ftab x nd) in *. assert (pt_vars t = x :: nd_parents nd) as Hv by done.
  assert (forall v, v < co_vars D -> cell D v j = Ok (row cols j v)) as Hcell.
  { intros v Hlt. destruct (entry_in v j Hlt Hj) as (y & Hy & _ & ->). unfold row. by rewrite Hy. }
  unfold count_row. rewrite (wf_nv _ _ Hw), Hv. cbn [length]. destruct (nd_parents nd) as [|p ps] eqn:Eps.
  - rewrite bool_decide_true by done. change (vget [x] 0) with (Ok x). cbn [mbind outcome_bind]. rewrite Hcell by done. cbn [fmap list_fmap lex_index prod_list foldr]. rewrite Nat.mul_1_r, Nat.add_0_r. done.
  - rewrite bool_decide_false by (cbn; lia). change (vget (x :: p :: ps) 1) with (Ok p). cbn [mbind outcome_bind].
    assert ((if bool_decide (Some p = root) then v ← vget (x :: p :: ps) 0; x0 ← cell D v j; Ok [x0; coin j]
           else mcollect (seq 0 (S (length (p :: ps)))) (fun k => v ← vget (x :: p :: ps) k; cell D v j)) = Ok (row cols j <$> x :: p :: ps)) as ->.
    { destruct Hps as [Hps|[Hr [= -> ->]]].
      - rewrite bool_decide_false by (intros E; specialize (Hps p ltac:(left)); destruct Hroot as [->| ->]; [done|]; injection E as ->; lia).
        transitivity (mcollect (x :: p :: ps) (fun v => cell D v j)).
        + clear. change (S (length (p :: ps))) with (length (x :: p :: ps)). generalize (x :: p :: ps). intros l.
          enough (forall u, mcollect (seq (length u) (length l)) (fun k => v ← vget (u ++ l) k; cell D v j) = mcollect l (fun v => cell D v j)) as H by exact (H []).
          induction l as [|v l IH]; intros u; [done|]. cbn [length seq mcollect]. rewrite (vget_ok (u ++ v :: l) (length u) v) by (by apply list_lookup_middle). cbn [mbind outcome_bind].
          specialize (IH (u ++ [v])). rewrite app_length, Nat.add_1_r, <-app_assoc in IH. cbn [app] in IH. by rewrite IH.
        + apply mcollect_ok. intros v Hin. apply Hcell. apply elem_of_cons in Hin as [->|Hin]; [done|by apply Hps].
      - rewrite bool_decide_true by (by rewrite Hr). change (vget [x; co_vars D] 0) with (Ok x). cbn [mbind outcome_bind]. rewrite Hcell by done. cbn [mbind outcome_bind fmap list_fmap]. assert (row cols j (co_vars D) = coin j) as -> by (unfold row; by rewrite entry_root). done. }
    cbn [mbind outcome_bind]. rewrite <-Hv, (get_index_ok dom dpos t (row cols j) Hw). cbn [mbind outcome_bind]. rewrite (wf_cum _ _ Hw), (wf_dims _ _ Hw), Hv.
    change (dom <$> x :: p :: ps) with (dom x :: (dom <$> p :: ps)). change (row cols j <$> x :: p :: ps) with (row cols j x :: (row cols j <$> p :: ps)).
    change (vget (strides (dom x :: (dom <$> p :: ps))) 0) with (Ok (prod_list (dom <$> p :: ps))). cbn [mbind outcome_bind].
    unfold imod. pose proof (prod_list_pos (dom <$> p :: ps) (dims_positive dom dpos _)). rewrite bool_decide_false by lia. cbn [mbind outcome_bind].
    rewrite lex_index_mod; [done|apply (dims_positive dom dpos)|]. apply (valid_in_range dom dpos); by apply row_valid.
Qed.
Context (alpha : Z).
Notation den x ps a := (qn (occurrences cols rows ps a) + qz alpha * qn (dom x))%Qc.
Lemma learn_node_body x nd : nt_nodes N !! x = Some nd -> x < co_vars D -> plain_or_root (nd_parents nd) ->
  exists body, learn_node N D alpha root coin x = (pots ← mcollect (seq 0 (pt_size (ftab x nd))) body; Ok (set_pots (ftab x nd) pots)) /\
  forall a, valid dom a -> body (lex_index (pt_dims (ftab x nd)) (a <$> pt_vars (ftab x nd))) = qdiv (qn (occurrences cols rows (x :: nd_parents nd) a) + qz alpha)%Qc (den x (nd_parents nd) a).
Proof.
  intros Hx Hxv Hps. unfold learn_node. rewrite (empty_table_ok x nd Hx). cbn [mbind outcome_bind].
  pose proof (ftab_wf x nd Hx) as Hw. set (t := ftab x nd) in *. assert (pt_vars t = x :: nd_parents nd) as Hv by done.
  assert (vget (pt_cum t) 0 = Ok (prod_list (dom <$> nd_parents nd))) as -> by done. cbn [mbind outcome_bind].
  destruct (count_loop rows (count_row D root coin t) (fun j => lex_index (dom <$> x :: nd_parents nd) (row cols j <$> x :: nd_parents nd)) (fun j => lex_index (dom <$> nd_parents nd) (row cols j <$> nd_parents nd)) (pt_size t) (prod_list (dom <$> nd_parents nd))) as (s & m & -> & Hs & Hm).
  { intros j st Hj _ _. split_and!.
    - change (dom <$> x :: nd_parents nd) with (pt_dims t). rewrite <-Hv. apply (lex_index_lt_size dom dpos); [done|by apply row_valid].
    - apply lex_index_lt. apply (valid_in_range dom dpos); by apply row_valid.
    - by apply count_row_ok. }
  cbn [mbind outcome_bind fst snd]. eexists. split; [reflexivity|]. intros a Ha. cbn beta.
  rewrite (vget_ok s _ (occurrences cols rows (x :: nd_parents nd) a)).
  2:{ rewrite Hs; [|by apply (lex_index_lt_size dom dpos)]. f_equal. apply (occurrences_lex dom); [apply dpos|done|apply row_valid|]. intros; by eapply entry_some. }
  cbn [mbind outcome_bind].
  assert ((if bool_decide (pt_nv t = 1) then vget m 0 else i2 ← imod (lex_index (pt_dims t) (a <$> pt_vars t)) (prod_list (dom <$> nd_parents nd)); vget m i2) = Ok (occurrences cols rows (nd_parents nd) a)) as ->.
  { assert (m !! lex_index (dom <$> nd_parents nd) (a <$> nd_parents nd) = Some (occurrences cols rows (nd_parents nd) a)) as Hmo.
    { rewrite Hm; [|apply lex_index_lt; by apply (valid_in_range dom dpos)]. f_equal. apply (occurrences_lex dom); [apply dpos|done|apply row_valid|]. intros; eapply entry_some; try done. by right. }
    rewrite (wf_nv _ _ Hw), Hv. case_bool_decide as Hnv.
    - cbn in Hnv. destruct (nd_parents nd); [|done]. by apply vget_ok.
    - unfold imod. pose proof (prod_list_pos (dom <$> nd_parents nd) (dims_positive dom dpos _)). rewrite bool_decide_false by lia. cbn [mbind outcome_bind]. rewrite (wf_dims _ _ Hw), Hv. cbn [fmap list_fmap].
      change (list_fmap _ _ dom (nd_parents nd)) with (dom <$> nd_parents nd). change (list_fmap _ _ a (nd_parents nd)) with (a <$> nd_parents nd). rewrite lex_index_mod; [by apply vget_ok|apply (dims_positive dom dpos)|by apply (valid_in_range dom dpos)]. }
  cbn [mbind outcome_bind]. change (vget (pt_dims t) 0) with (Ok (dom x)). done.
Qed.
Lemma learn_node_ok x nd : nt_nodes N !! x = Some nd -> x < co_vars D -> plain_or_root (nd_parents nd) -> (forall a, valid dom a -> den x (nd_parents nd) a <> 0%Qc) ->
  exists t, learn_node N D alpha root coin x = Ok t /\ is_cpt N x (nd_parents nd) (smoothed N cols rows alpha x (nd_parents nd)) t.
Proof.
  intros Hx Hxv Hps Hd. destruct (learn_node_body x nd Hx Hxv Hps) as (body & -> & Hb). pose proof (ftab_wf x nd Hx) as Hw.
  destruct (fill_ok (ftab x nd) body (smoothed N cols rows alpha x (nd_parents nd)) Hw) as (pots & -> & Hw' & Ht); [done| |].
  - intros a Ha. rewrite Hb by done. rewrite qdiv_ok by by apply Hd. done.
  - cbn [mbind outcome_bind]. eexists. split; [done|]. split_and!; [done|done|exact Ht].
Qed.
Lemma learn_node_err x nd a : nt_nodes N !! x = Some nd -> x < co_vars D -> plain_or_root (nd_parents nd) -> valid dom a -> den x (nd_parents nd) a = 0%Qc ->
  learn_node N D alpha root coin x = Err DivZero.
Proof.
  intros Hx Hxv Hps Ha Hd. destruct (learn_node_body x nd Hx Hxv Hps) as (body & -> & Hb). pose proof (ftab_wf x nd Hx) as Hw.
  rewrite (fill_err (ftab x nd) body DivZero Hw); [done| |].
  - intros b Hb'. rewrite Hb by done. unfold qdiv. case_bool_decide; [by right|left; by eexists].
  - exists a. split; [done|]. rewrite Hb by done. unfold qdiv. by rewrite bool_decide_true.
Qed.
Lemma smoothed_sum x ps a : x < co_vars D -> x ∉ ps -> den x ps a <> 0%Qc ->
  qsum (seq 0 (dom x)) (fun y => smoothed N cols rows alpha x ps (upd a x y)) = 1%Qc.
Proof.
  intros Hx Hps Hd. unfold smoothed. rewrite (qsum_ext _ _ (fun y => (qn (occurrences cols rows (x :: ps) (upd a x y)) + qz alpha) / den x ps a)%Qc) by (intros; by rewrite (occurrences_upd _ _ ps)).
  rewrite qsum_div, qsum_add, qsum_qn, qsum_const, seq_length, occurrences_sum; [by field|done|]. intros j Hj. destruct (entry_in x j Hx Hj) as (y & Hy & Hlt & _). by exists y.
Qed.
Lemma smoothed_pos x ps a : (0 < alpha)%Z -> (0 < smoothed N cols rows alpha x ps a)%Qc /\ den x ps a <> 0%Qc.
Proof.
  intros Hal. assert (0 < qz alpha)%Qc as H1 by (rewrite <-qz_0; by apply (proj1 (qz_lt 0 alpha))).
  assert (0 < den x ps a)%Qc as Hd.
  { apply Qc_add_pos_r; [apply qn_nonneg|]. rewrite <-(Qcmult_0_l (qn (dom x))). apply Qcmult_lt_compat_r; [|done]. unfold qn. rewrite <-qz_0. apply (proj1 (qz_lt 0 _)). pose proof (dpos x). lia. }
  split; [|by apply Qc_pos_ne]. apply Qc_div_pos; [|done]. apply Qc_add_pos_r; [apply qn_nonneg|done].
Qed.
End data.
End net.
