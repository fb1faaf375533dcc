(** Further proofs about the table operations: reduction, tail reorganisation,
    normalisation, look-ups and the general products. *)
From Verif Require Export TableProofs.
Local Open Scope Qc_scope.

(** ** Selecting the configurations with a given value *)
Lemma filter_bind {A B} (P : B -> Prop) `{forall x, Decision (P x)} (l : list A) (f : A -> list B) :
  filter P (l ≫= f) = l ≫= (fun x => filter P (f x)).
Proof.
  induction l as [|x l IH]; [done|]. cbn [mbind list_bind]. by rewrite filter_app, IH.
Qed.
Lemma filter_fmap {A B} (P : B -> Prop) `{forall x, Decision (P x)} (l : list A) (f : A -> B) :
  filter P (f <$> l) = f <$> filter (fun x => P (f x)) l.
Proof.
  induction l as [|x l IH]; [done|]. cbn [fmap list_fmap]. rewrite !filter_cons, IH.
  destruct (decide (P (f x))); done.
Qed.
Lemma filter_all {A} (P : A -> Prop) `{forall x, Decision (P x)} (l : list A) :
  (forall x, x ∈ l -> P x) -> filter P l = l.
Proof.
  induction l as [|x l IH]; intros HP; [done|]. rewrite filter_cons, decide_True by (apply HP; by left).
  f_equal. apply IH. intros y Hy. apply HP. by right.
Qed.
Lemma filter_none {A} (P : A -> Prop) `{forall x, Decision (P x)} (l : list A) :
  (forall x, x ∈ l -> ~ P x) -> filter P l = [].
Proof.
  induction l as [|x l IH]; intros HP; [done|]. rewrite filter_cons, decide_False by (apply HP; by left).
  apply IH. intros y Hy. apply HP. by right.
Qed.

Lemma filter_iff_in {A} (P Q : A -> Prop) `{forall x, Decision (P x)} `{forall x, Decision (Q x)} (l : list A) :
  (forall x, x ∈ l -> P x <-> Q x) -> filter P l = filter Q l.
Proof.
  induction l as [|x l IH]; intros HPQ; [done|]. rewrite !filter_cons.
  rewrite IH by (intros y Hy; apply HPQ; by right).
  destruct (HPQ x) as [H1 H2]; [by left|].
  destruct (decide (P x)), (decide (Q x)); tauto || done.
Qed.

(** Insert a value at position [n]. *)
Definition put (n x : nat) (c : list nat) : list nat := take n c ++ x :: drop n c.

Lemma filter_seq_bind x s d (L : list (list nat)) :
  (s <= x < s + d)%nat ->
  (seq s d ≫= (fun c => filter (fun cfg => cfg !! 0%nat = Some x) (cons c <$> L))) = cons x <$> L.
Proof.
  revert s; induction d as [|d IH]; intros s Hx; [lia|].
  cbn [seq mbind list_bind]. destruct (decide (s = x)) as [->|Hne].
  - rewrite filter_all.
    + transitivity ((cons x <$> L) ++ ([] : list (list nat))); [|apply app_nil_r]. f_equal.
      assert (forall l : list nat, (forall y, y ∈ l -> y ≠ x) ->
        (l ≫= (fun c => filter (fun cfg => cfg !! 0%nat = Some x) (cons c <$> L))) = []) as Hgen.
      { induction l as [|y l IHl]; intros Hy; [done|]. cbn [mbind list_bind].
        rewrite IHl by (intros z Hz; apply Hy; by right). rewrite filter_none; [done|].
        intros c Hc. apply elem_of_list_fmap in Hc as (c0 & -> & _). cbn. intros [= ->].
        eapply Hy; [by left|done]. }
      apply Hgen. intros y Hy. apply elem_of_seq in Hy. lia.
    + intros c Hc. by apply elem_of_list_fmap in Hc as (c0 & -> & _).
  - rewrite filter_none.
    + apply IH. lia.
    + intros c Hc. apply elem_of_list_fmap in Hc as (c0 & -> & _). cbn. congruence.
Qed.

Lemma configs_select d1 d d2 x :
  (x < d)%nat ->
  filter (fun cfg => cfg !! length d1 = Some x) (configs (d1 ++ d :: d2))
  = put (length d1) x <$> configs (d1 ++ d2).
Proof.
  intros Hx. induction d1 as [|e d1 IH].
  - cbn [app configs length]. rewrite filter_bind, filter_seq_bind by lia.
    apply list_fmap_ext. intros ? c _. done.
  - cbn [app configs length]. rewrite filter_bind.
    generalize (seq 0 e); intros l. induction l as [|c l IHl]; [done|].
    cbn [mbind list_bind]. rewrite IHl, fmap_app, filter_fmap. f_equal.
    assert (filter (fun c0 => (c :: c0) !! S (length d1) = Some x) (configs (d1 ++ d :: d2))
      = filter (fun cfg => cfg !! length d1 = Some x) (configs (d1 ++ d :: d2))) as ->.
    { apply list_filter_iff. done. }
    rewrite IH, <-!list_fmap_compose. apply list_fmap_ext. done.
Qed.

Lemma configs_select_none d1 d d2 x :
  (d <= x)%nat -> filter (fun cfg => cfg !! length d1 = Some x) (configs (d1 ++ d :: d2)) = [].
Proof.
  intros Hx. apply filter_none. intros cfg Hc Hl. apply elem_of_configs in Hc.
  assert ((d1 ++ d :: d2) !! length d1 = Some d) as Hd by (by rewrite lookup_app_r, Nat.sub_diag).
  pose proof (Forall2_lookup_lr _ _ _ _ _ _ Hc Hl Hd). lia.
Qed.

(** The compacting loop of TableReductionPost. *)
Lemma compress_loop (vidx : list nat) (pots : list Qc) n m value :
  length vidx = n -> length pots = n ->
  (length (filter (fun p : nat * Qc => p.1 = value) (zip vidx pots)) <= m)%nat ->
  mfor (seq 0 n) (fun i (st : nat * list Qc) =>
        let '(j, np) := st in
        vi ← vget vidx i;
        if bool_decide (vi = value) then
          x ← vget pots i; np' ← vset np j x; Ok (S j, np')
        else Ok (j, np)) (0%nat, replicate m 0)
  = let sel := snd <$> filter (fun p : nat * Qc => p.1 = value) (zip vidx pots) in
    Ok (length sel, sel ++ replicate (m - length sel) 0).
Proof.
  intros Hv Hp Hm.
  set (sel := fun k => snd <$> filter (fun p : nat * Qc => p.1 = value) (take k (zip vidx pots))).
  assert (length (zip vidx pots) = n) as Hz by (rewrite zip_with_length; lia).
  set (P := fun (dn : list nat) (st : nat * list Qc) =>
     st = (length (sel (length dn)), sel (length dn) ++ replicate (m - length (sel (length dn))) 0)).
  destruct (mfor_inv P (seq 0 n) (fun i (st : nat * list Qc) =>
        let '(j, np) := st in
        vi ← vget vidx i;
        if bool_decide (vi = value) then
          x ← vget pots i; np' ← vset np j x; Ok (S j, np')
        else Ok (j, np)) (0%nat, replicate m 0)) as (s & -> & HP).
  - unfold P, sel. cbn. by rewrite Nat.sub_0_r.
  - intros dn i rest s0 Hl HP.
    assert (i = length dn /\ length dn < n)%nat as [-> Hlt].
    { assert (seq 0 n !! length dn = Some i) as Hlk by (rewrite Hl, lookup_app_r, Nat.sub_diag; done).
      apply lookup_seq in Hlk. lia. }
    rewrite HP. clear HP s0.
    destruct (lookup_lt_is_Some_2 vidx (length dn)) as [v Hvi]; [lia|].
    destruct (lookup_lt_is_Some_2 pots (length dn)) as [x Hx]; [lia|].
    rewrite (vget_ok _ _ _ Hvi). cbn [mbind outcome_bind].
    assert (zip vidx pots !! length dn = Some (v, x)) as Hzip.
    { rewrite lookup_zip_with, Hvi. cbn. by rewrite Hx. }
    assert (sel (S (length dn)) = sel (length dn) ++ (if bool_decide (v = value) then [x] else [])) as Hsel.
    { unfold sel. rewrite (take_S_r _ _ _ Hzip), filter_app, fmap_app. f_equal.
      rewrite filter_cons. cbn. case_bool_decide; [by rewrite decide_True|by rewrite decide_False]. }
    unfold P. rewrite app_length. cbn [length]. rewrite Nat.add_1_r.
    case_bool_decide as Heq.
    + rewrite (vget_ok _ _ _ Hx). cbn [mbind outcome_bind].
      assert (length (sel (S (length dn))) <= m)%nat as Hle.
      { etransitivity; [|exact Hm]. unfold sel. rewrite fmap_length.
        rewrite <-(take_drop (S (length dn)) (zip vidx pots)) at 2. rewrite filter_app, app_length. lia. }
      rewrite Hsel, app_length in Hle. cbn in Hle.
      rewrite vset_ok by (rewrite app_length, replicate_length; lia). cbn [mbind outcome_bind].
      eexists; split; [done|]. rewrite Hsel, app_length. cbn [length]. f_equal; [lia|].
      replace (m - length (sel (length dn)))%nat with (S (m - (length (sel (length dn)) + 1)))%nat by lia.
      cbn [replicate]. rewrite insert_app_r_alt, Nat.sub_diag by lia. cbn. by rewrite <-app_assoc.
    + eexists; split; [done|]. by rewrite Hsel, app_nil_r.
  - rewrite HP. unfold sel. rewrite seq_length. rewrite take_ge by lia. done.
Qed.

Lemma without_split l1 v l2 : NoDup (l1 ++ v :: l2) -> without v (l1 ++ v :: l2) = l1 ++ l2.
Proof.
  intros Hnd. apply NoDup_app in Hnd as (H1 & Hd & H2). apply NoDup_cons in H2 as [Hv H2].
  unfold without. rewrite filter_app, filter_cons, decide_False by tauto. f_equal; apply filter_all.
  - intros x Hx ->. apply (Hd v Hx). by left.
  - intros x Hx ->. done.
Qed.

Lemma fmap_put (a : asg) l1 v l2 x :
  NoDup (l1 ++ v :: l2) ->
  put (length l1) x (a <$> (l1 ++ l2)) = upd a v x <$> (l1 ++ v :: l2).
Proof.
  intros Hnd. apply NoDup_app in Hnd as (H1 & Hd & H2). apply NoDup_cons in H2 as [Hv H2].
  unfold put. rewrite fmap_app, fmap_app, fmap_cons.
  rewrite take_app_alt by (by rewrite fmap_length). rewrite drop_app_alt by (by rewrite fmap_length).
  rewrite upd_same. f_equal; [|f_equal]; apply list_fmap_ext; intros ? w Hw; symmetry; apply upd_other;
    intros ->; apply elem_of_list_lookup_2 in Hw.
  - apply (Hd v Hw). by left.
  - done.
Qed.

Definition asg_of_list (l : list nat) : asg := fun v => default 0%nat (l !! v).

Lemma collect_evidence vs (evidence : list nat) (g : nat -> outcome nat) s n :
  (forall v, v ∈ vs -> (v < length evidence)%nat) ->
  n = length vs ->
  (forall i v, vs !! i = Some v -> g (s + i)%nat = vget evidence v) ->
  mcollect (seq s n) g = Ok (asg_of_list evidence <$> vs).
Proof.
  intros Hlt -> Hg. revert s Hg; induction vs as [|v vs IH]; intros s Hg; [done|].
  cbn [length seq mcollect]. rewrite <-(Nat.add_0_r s) at 1. rewrite (Hg 0%nat v) by done.
  destruct (lookup_lt_is_Some_2 evidence v) as [x Hx]; [apply Hlt; by left|].
  rewrite (vget_ok _ _ _ Hx). cbn [mbind outcome_bind]. rewrite IH.
  - cbn. unfold asg_of_list at 2. by rewrite Hx.
  - intros w Hw. apply Hlt. by right.
  - intros i w Hi. replace (S s + i)%nat with (s + S i)%nat by lia. by apply Hg.
Qed.

Section tables2.
Context (dom : nat -> nat) (dom_pos : forall v, (0 < dom v)%nat).
Set Default Proof Using "All".
Notation wf := (wf dom).
Notation valid := (valid dom).
Notation sumv := (sumv dom).

(** The table entries as a function of the configuration. *)
Lemma pots_as_map T : wf T ->
  pt_pots T = (fun cfg => default 0 (pt_pots T !! lex_index (pt_dims T) cfg)) <$> configs (pt_dims T).
Proof.
  intros HT. apply list_eq. intros k. rewrite list_lookup_fmap.
  destruct (configs (pt_dims T) !! k) as [cfg|] eqn:E; cbn.
  - pose proof (lookup_lt_Some _ _ _ E) as Hk. rewrite <-(wf_pots _ _ HT) in Hk.
    apply configs_lookup in E as [_ ->]. apply lookup_lt_is_Some in Hk as [x Hx]. by rewrite Hx.
  - apply lookup_ge_None in E. apply lookup_ge_None. by rewrite (wf_pots _ _ HT).
Qed.

Lemma table_reduction_spec T v x :
  wf T -> v ∈ pt_vars T -> (x < dom v)%nat ->
  exists T', table_reduction T v x = Ok T' /\ wf T' /\ pt_vars T' = without v (pt_vars T) /\
    forall a, valid a -> tval T' a = tval T (upd a v x).
Proof.
  intros HT Hv Hx. unfold table_reduction.
  destruct (get_variable_index_in dom dom_pos T v HT Hv) as (loc & -> & Hloc & Hlt). cbn [mbind outcome_bind].
  assert (exists l1 l2, pt_vars T = l1 ++ v :: l2 /\ length l1 = loc) as (l1 & l2 & Hvars & Hl1).
  { exists (take loc (pt_vars T)), (drop (S loc) (pt_vars T)).
    split; [symmetry; by apply take_drop_middle|].
    apply take_length_le. apply lookup_lt_Some in Hloc. lia. }
  assert (NoDup (l1 ++ v :: l2)) as Hnd by (rewrite <-Hvars; apply HT).
  assert (pt_dims T = (dom <$> l1) ++ dom v :: (dom <$> l2)) as Hdims.
  { by rewrite (wf_dims _ _ HT), Hvars, fmap_app, fmap_cons. }
  assert (length (dom <$> l1) = loc) as Hdl by (by rewrite fmap_length).
  (* the values of the evidence variable, slot by slot *)
  set (nthv := fun cfg : list nat => default 0%nat (cfg !! loc)).
  assert (mcollect (seq 0 (pt_size T)) (reduction_main T loc) = Ok (nthv <$> configs (pt_dims T))) as ->.
  { rewrite (wf_size _ _ HT).
    rewrite (mcollect_ok _ _ (fun k => default 0%nat (nthv <$> configs (pt_dims T) !! k))).
    - f_equal. apply list_eq. intros k. rewrite !list_lookup_fmap.
      destruct (decide (k < length (configs (pt_dims T)))%nat) as [Hk|Hk].
      + rewrite lookup_seq_lt by done. cbn. apply lookup_lt_is_Some in Hk as [c Hc]. by rewrite Hc.
      + rewrite !lookup_ge_None_2; [done|lia|rewrite seq_length; lia].
    - intros k Hk. apply elem_of_seq in Hk. rewrite <-(wf_size _ _ HT) in Hk.
      destruct (slot_asg dom dom_pos T k HT) as (a & Ha & Hi & Hc); [lia|].
      unfold reduction_main. rewrite Hc. cbn [mbind outcome_bind].
      assert ((a <$> pt_vars T) !! loc = Some (a v)) as Hav by (by rewrite list_lookup_fmap, Hloc).
      rewrite (vget_ok _ _ _ Hav).
      assert (configs (pt_dims T) !! k = Some (a <$> pt_vars T)) as ->.
      { apply configs_lookup. split; [|done]. rewrite (wf_dims _ _ HT). by apply valid_in_range. }
      unfold nthv. cbn. by rewrite Hav. }
  cbn [mbind outcome_bind]. unfold reduction_post.
  rewrite (vget_ok (pt_dims T) loc (dom v)).
  2: { rewrite Hdims, lookup_app_r, Hdl, Nat.sub_diag by lia. done. }
  cbn [mbind outcome_bind]. unfold idiv at 1. rewrite (bool_decide_false (dom v = 0%nat)) by (pose proof (dom_pos v); lia).
  cbn [mbind outcome_bind].
  set (F := fun cfg => default 0 (pt_pots T !! lex_index (pt_dims T) cfg)).
  assert (snd <$> filter (fun p : nat * Qc => p.1 = x) (zip (nthv <$> configs (pt_dims T)) (pt_pots T))
     = (fun c => F (put loc x c)) <$> configs ((dom <$> l1) ++ (dom <$> l2))) as Hsel.
  { rewrite (pots_as_map T HT) at 1. fold F.
    assert (zip (nthv <$> configs (pt_dims T)) (F <$> configs (pt_dims T))
      = (fun c => (nthv c, F c)) <$> configs (pt_dims T)) as ->.
    { generalize (configs (pt_dims T)); intros L. induction L as [|c L IH]; [done|]. cbn. by rewrite <-IH. }
    rewrite filter_fmap, <-list_fmap_compose. cbn [fst].
    assert (filter (fun c => nthv c = x) (configs (pt_dims T))
        = filter (fun c => c !! loc = Some x) (configs (pt_dims T))) as ->.
    { apply filter_iff_in. intros c Hc. apply elem_of_configs in Hc. unfold nthv.
      assert (loc < length c)%nat as Hlc.
      { rewrite (in_range_length _ _ Hc), (vars_dims_length dom dom_pos) by done. by rewrite <-(wf_nv _ _ HT). }
      apply lookup_lt_is_Some in Hlc as [y Hy]. rewrite Hy. cbn. split; congruence. }
    pose proof (configs_select (dom <$> l1) (dom v) (dom <$> l2) x Hx) as Hcs. rewrite Hdl in Hcs. rewrite Hdims, Hcs.
    rewrite <-list_fmap_compose. done. }
  assert (pt_size T / dom v = length (configs ((dom <$> l1) ++ (dom <$> l2))))%nat as Hns.
  { rewrite (wf_size _ _ HT), Hdims, !configs_length.
    assert (forall l1 d l2, prod_list (l1 ++ d :: l2) = prod_list (l1 ++ l2) * d)%nat as Hp.
    { clear. induction l1 as [|e l1 IH]; intros d l2; cbn; [lia|].
      change (foldr Nat.mul 1%nat (l1 ++ d :: l2)) with (prod_list (l1 ++ d :: l2)). rewrite IH.
      unfold prod_list. lia. }
    rewrite Hp, Nat.div_mul; [done|]. pose proof (dom_pos v). lia. }
  rewrite compress_loop.
  2: { by rewrite fmap_length, (wf_size _ _ HT). }
  2: { by rewrite (wf_pots _ _ HT), (wf_size _ _ HT). }
  2: { rewrite <-(fmap_length snd), Hsel, fmap_length, Hns. done. }
  rewrite Hsel. cbn [mbind outcome_bind snd].
  rewrite fmap_length, Hns, Nat.sub_diag. cbn [replicate]. rewrite app_nil_r.
  set (pots' := (fun c => F (put loc x c)) <$> configs ((dom <$> l1) ++ (dom <$> l2))).
  assert (without v (pt_vars T) = l1 ++ l2) as Hwo by (rewrite Hvars; by apply without_split).
  assert (pt_nv T - 1 = length (l1 ++ l2))%nat as Hnv.
  { rewrite (wf_nv _ _ HT), Hvars, !app_length. cbn. lia. }
  set (T' := mkPT (l1 ++ l2) pots' (dom <$> (l1 ++ l2)) (strides (dom <$> (l1 ++ l2))) (length (l1 ++ l2))
               (length (configs (dom <$> (l1 ++ l2))))).
  assert (wf T') as HT'.
  { constructor; try done.
    - cbn. apply NoDup_app in Hnd as (H1 & Hd & H2). apply NoDup_cons in H2 as [_ H2].
      apply NoDup_app. split_and!; [done| |done]. intros w Hw Hw2. apply (Hd w Hw). by right.
    - cbn. unfold pots'. by rewrite fmap_length, fmap_app. }
  exists T'. split_and!; [|done|by rewrite Hwo|].
  - rewrite Hnv. case_bool_decide as Hpos.
    + rewrite (wf_dims _ _ HT), (drop_var_spec dom dom_pos) by (try done; apply HT). cbn [mbind outcome_bind fst snd].
      rewrite Hwo. replace (length (l1 ++ l2)) with (length (dom <$> (l1 ++ l2))) at 1 by apply fmap_length.
      rewrite construct_cum_levels_spec.
      2: { intros E. apply (f_equal length) in E. rewrite fmap_length in E. cbn in E. lia. }
      cbn [mbind outcome_bind]. unfold T'. by rewrite fmap_app.
    + assert (l1 ++ l2 = []) as E by (apply length_zero_iff_nil; lia).
      unfold T'. rewrite E. cbn. done.
  - intros a Ha. unfold tval at 1. cbn [pt_pots pt_dims pt_vars T']. unfold pots'.
    rewrite list_lookup_fmap, <-fmap_app.
    assert (configs (dom <$> l1 ++ l2) !! lex_index (dom <$> l1 ++ l2) (a <$> l1 ++ l2) = Some (a <$> l1 ++ l2)) as ->.
    { apply configs_lookup. split; [|done]. by apply valid_in_range. }
    cbn [fmap option_fmap option_map default from_option]. unfold F, tval. rewrite <-Hl1.
    rewrite (fmap_put a l1 v l2 x) by done. by rewrite Hvars.
Qed.

(** *** Normalisation *)
Lemma denom_loop T a :
  wf T -> valid a ->
  mfor (seq 0 (pt_size T)) (fun i acc => x ← vget (pt_pots T) i; Ok (acc + x)) 0
  = Ok (sumv (pt_vars T) (tval T) a).
Proof.
  intros HT Ha.
  assert (forall l acc, (forall k, k ∈ l -> (k < pt_size T)%nat) ->
     mfor l (fun i acc => x ← vget (pt_pots T) i; Ok (acc + x)) acc
     = Ok (acc + qsum l (fun k => default 0 (pt_pots T !! k)))) as Hgen.
  { induction l as [|k l IH]; intros acc Hl; cbn [mfor].
    - rewrite qsum_nil. f_equal. ring.
    - destruct (lookup_lt_is_Some_2 (pt_pots T) k) as [x Hx].
      { rewrite (wf_pots _ _ HT), <-(wf_size _ _ HT). apply Hl. by left. }
      rewrite (vget_ok _ _ _ Hx). cbn [mbind outcome_bind].
      rewrite IH by (intros j Hj; apply Hl; by right).
      rewrite qsum_cons, Hx. cbn [default from_option]. unfold id. f_equal. ring. }
  rewrite Hgen by (intros k Hk; apply elem_of_seq in Hk; lia).
  f_equal. rewrite (qsum_slots dom dom_pos T a (tval T)); [ring|done|done|].
  intros b Hb _. by rewrite (tval_lookup dom dom_pos T b).
Qed.

Lemma size_pos T : wf T -> (0 < pt_size T)%nat.
Proof.
  intros HT. rewrite (wf_size _ _ HT), configs_length, (wf_dims _ _ HT).
  apply prod_list_pos. by apply dims_positive.
Qed.

Lemma table_normalize_spec T a0 :
  wf T -> valid a0 -> let Z := sumv (pt_vars T) (tval T) a0 in
  Z ≠ 0 ->
  exists T', table_normalize T = Ok T' /\ wf T' /\ pt_vars T' = pt_vars T /\
    forall a, valid a -> tval T' a = tval T a / Z.
Proof.
  intros HT Ha0 Z HZ. unfold table_normalize. rewrite (denom_loop T a0) by done. fold Z.
  cbn [mbind outcome_bind].
  rewrite (mfor_ext _ _ (fun k pots => x ← vget pots k; y ← Ok (x / Z); vset pots k y)).
  2: { intros k s0 _. destruct (vget s0 k); cbn; [|done]. by rewrite bool_decide_false. }
  rewrite (mfor_pointwise _ _ (fun _ x => x / Z)).
  - cbn [mbind outcome_bind]. eexists; split; [done|]. split_and!.
    + apply (wf_set_pots dom dom_pos); [done|]. rewrite imap_length, (wf_pots _ _ HT). symmetry; apply HT.
    + done.
    + intros a Ha. unfold tval at 1. cbn [pt_pots pt_dims pt_vars].
      rewrite list_lookup_imap, (tval_lookup dom dom_pos T a HT Ha). done.
  - done.
  - rewrite (wf_pots _ _ HT). symmetry. apply HT.
Qed.

Lemma table_normalize_zero T a0 :
  wf T -> valid a0 -> sumv (pt_vars T) (tval T) a0 = 0 -> table_normalize T = Err DivZero.
Proof.
  intros HT Ha0 HZ. unfold table_normalize. rewrite (denom_loop T a0), HZ by done.
  cbn [mbind outcome_bind]. pose proof (size_pos T HT) as Hpos.
  destruct (pt_size T) as [|n] eqn:E; [lia|]. cbn [seq mfor].
  destruct (lookup_lt_is_Some_2 (pt_pots T) 0%nat) as [x Hx].
  { rewrite (wf_pots _ _ HT), <-(wf_size _ _ HT). lia. }
  rewrite (vget_ok _ _ _ Hx). cbn [mbind outcome_bind]. by rewrite bool_decide_true.
Qed.

(** *** Look-ups *)
Lemma get_reduced_potential_spec T evidence :
  wf T -> (forall v, v ∈ pt_vars T -> (v < length evidence)%nat) ->
  pt_vars T ≠ [] -> valid (asg_of_list evidence) ->
  get_reduced_potential T evidence = Ok (tval T (asg_of_list evidence)).
Proof.
  intros HT Hlt Hne Hval. unfold get_reduced_potential. case_bool_decide as Hone.
  - rewrite (wf_nv _ _ HT) in Hone. destruct (pt_vars T) as [|v [|w vs]] eqn:E; [done| |cbn in Hone; lia].
    change (vget [v] 0) with (Ok v). cbn [mbind outcome_bind].
    destruct (lookup_lt_is_Some_2 evidence v) as [x Hx]; [apply Hlt; by left|].
    rewrite (vget_ok _ _ _ Hx). cbn [mbind outcome_bind].
    pose proof (tval_lookup dom dom_pos T _ HT Hval) as Hl. rewrite E in Hl.
    rewrite (wf_dims _ _ HT), E in Hl. cbn in Hl.
    unfold asg_of_list in Hl at 1. rewrite Hx in Hl. cbn in Hl.
    rewrite Nat.add_0_r, Nat.mul_1_r in Hl. by apply vget_ok.
  - rewrite (collect_evidence (pt_vars T) evidence); [|done|apply HT|].
    + cbn [mbind outcome_bind]. rewrite (get_index_ok dom dom_pos) by done. cbn [mbind outcome_bind].
      apply vget_ok. by apply (tval_lookup dom dom_pos).
    + intros i v Hi. cbn. by rewrite (vget_ok _ _ _ Hi).
Qed.

Lemma relative_index_spec T v vs (a : asg) :
  wf T -> pt_vars T = v :: vs ->
  get_relative_index T (a <$> vs) = Ok (lex_index (dom <$> vs) (a <$> vs)).
Proof.
  intros HT E. unfold get_relative_index.
  rewrite (wf_cum _ _ HT), (wf_dims _ _ HT), (wf_nv _ _ HT), E.
  cbn [length fmap list_fmap strides]. replace (S (length vs) - 1)%nat with (length vs) by lia.
  rewrite <-fmap_S_seq, mfor_map.
  rewrite (mfor_ext _ _ (fun i acc => c ← vget (a <$> vs) i; l ← vget (strides (dom <$> vs)) i; Ok (acc + c * l)%nat)).
  - replace (length vs) with (length (dom <$> vs)) by apply fmap_length.
    rewrite get_index_spec_gen; [done|]. by rewrite !fmap_length.
  - intros i s0 _. replace (S i - 1)%nat with i by lia. done.
Qed.

Lemma get_reduced_potentials_spec T v vs evidence rlen :
  wf T -> pt_vars T = v :: vs -> rlen = dom v ->
  (forall u, u ∈ vs -> (u < length evidence)%nat) -> valid (asg_of_list evidence) ->
  exists r, get_reduced_potentials T rlen evidence = Ok r /\ length r = dom v /\
    forall x, (x < dom v)%nat -> r !! x = Some (tval T (upd (asg_of_list evidence) v x)).
Proof.
  intros HT E -> Hlt Hval. set (a := asg_of_list evidence) in *.
  assert (NoDup (v :: vs)) as Hnd by (rewrite <-E; apply HT). apply NoDup_cons in Hnd as [Hv Hnd].
  assert (forall x, upd a v x <$> vs = a <$> vs) as Hupd.
  { intros x. apply list_fmap_ext. intros ? w Hw. apply upd_other. intros ->.
    apply Hv. by eapply elem_of_list_lookup_2. }
  assert (pt_dims T = dom v :: (dom <$> vs)) as Hdims by (by rewrite (wf_dims _ _ HT), E).
  assert (forall x, (x < dom v)%nat ->
     pt_pots T !! (lex_index (dom <$> vs) (a <$> vs) + x * prod_list (dom <$> vs))%nat
     = Some (tval T (upd a v x))) as Hslot.
  { intros x Hx. pose proof (tval_lookup dom dom_pos T (upd a v x) HT) as Hl.
    rewrite E, Hdims in Hl. cbn [fmap list_fmap lex_index] in Hl.
    rewrite upd_same, Hupd in Hl. rewrite Nat.add_comm. apply Hl. by apply valid_upd. }
  unfold get_reduced_potentials. case_bool_decide as Hone.
  - exists (pt_pots T). rewrite (wf_nv _ _ HT), E in Hone. destruct vs as [|u vs]; [|cbn in Hone; lia].
    split_and!; [done| |].
    + rewrite (wf_pots _ _ HT), configs_length, Hdims. cbn. lia.
    + intros x Hx. rewrite <-(Hslot x Hx). f_equal. cbn. lia.
  - rewrite (vget_ok (pt_cum T) 0%nat (prod_list (dom <$> vs))).
    2: { by rewrite (wf_cum _ _ HT), Hdims. }
    cbn [mbind outcome_bind].
    rewrite (collect_evidence vs evidence); [|done| |].
    2: { rewrite E. cbn. lia. }
    2: { intros i u Hi. rewrite E. change (vget (v :: vs) (1 + i)) with (vget vs i). by rewrite (vget_ok _ _ _ Hi). }
    cbn [mbind outcome_bind]. rewrite (relative_index_spec T v vs) by done. cbn [mbind outcome_bind].
    rewrite (vget_ok (pt_dims T) 0%nat (dom v)) by (by rewrite Hdims). cbn [mbind outcome_bind].
    replace (0%nat :: seq 1 (dom v - 1)) with (seq 0 (dom v)).
    2: { pose proof (dom_pos v). replace (dom v) with (S (dom v - 1)) at 1 by lia. done. }
    rewrite (mfor_gather _ _ (fun x => tval T (upd a v x))).
    + cbn [mbind outcome_bind]. eexists; split; [done|]. split; [by rewrite fmap_length, seq_length|].
      intros x Hx. rewrite list_lookup_fmap, lookup_seq_lt by done. done.
    + intros x Hx. apply vget_ok. by apply Hslot.
    + apply replicate_length.
Qed.

(** *** TableMarginalizationSimplified *)
Lemma table_marginalization_simplified_spec T v vs :
  wf T -> pt_vars T = v :: vs ->
  exists T', table_marginalization_simplified T = Ok T' /\ wf T' /\ pt_vars T' = [v] /\
    forall a, valid a -> tval T' a = sumv vs (tval T) a.
Proof.
  intros HT E. unfold table_marginalization_simplified.
  assert (NoDup (v :: vs)) as Hnd by (rewrite <-E; apply HT).
  assert (pt_dims T = dom v :: (dom <$> vs)) as Hdims by (by rewrite (wf_dims _ _ HT), E).
  case_bool_decide as Hone.
  - rewrite (wf_nv _ _ HT), E in Hone. destruct vs as [|u vs]; [|cbn in Hone; lia].
    exists T. done.
  - rewrite (vget_ok (pt_dims T) 0%nat (dom v)) by (by rewrite Hdims). cbn [mbind outcome_bind].
    rewrite (vget_ok (pt_vars T) 0%nat v) by (by rewrite E). cbn [mbind outcome_bind].
    pose proof (dom_pos v) as Hdv.
    replace (idiv (pt_size T) (dom v)) with (Ok (pt_size T / dom v)%nat)
      by (unfold idiv; by rewrite bool_decide_false by lia).
    cbn [mbind outcome_bind].
    set (p := prod_list (dom <$> vs)).
    assert (0 < p)%nat as Hp by (apply prod_list_pos; by apply dims_positive).
    assert (pt_size T / dom v = p)%nat as ->.
    { rewrite (wf_size _ _ HT), configs_length, Hdims. cbn. fold p.
      rewrite Nat.mul_comm, Nat.div_mul; [done|lia]. }
    set (tidx := (fun k => (k / p)%nat) <$> seq 0 (pt_size T)).
    assert (forall b, valid b -> tidx !! lex_index (pt_dims T) (b <$> pt_vars T) = Some (b v)) as Htv.
    { intros b Hb. pose proof (lex_index_lt_size dom dom_pos T b HT Hb) as Hlt.
      unfold tidx. rewrite list_lookup_fmap, lookup_seq_lt by done. cbn. f_equal.
      rewrite E, Hdims. cbn. fold p. rewrite Nat.add_comm, Nat.div_add by lia.
      rewrite Nat.div_small; [done|]. apply lex_index_lt. by apply valid_in_range. }
    rewrite (mfor_ext _ _ (fun k pots => j ← vget tidx k; x ← vget (pt_pots T) k; y ← vget pots j;
      vset pots j (y + x))).
    2: { intros k s0 Hk. apply elem_of_seq in Hk. unfold idiv. rewrite bool_decide_false by lia.
         rewrite (vget_ok tidx k (k / p)%nat); [done|].
         unfold tidx. rewrite list_lookup_fmap, lookup_seq_lt by lia. done. }
    destruct (mfor_scatter_add (pt_size T) (dom v) tidx (pt_pots T) (replicate (dom v) 0)) as (pots & Hok2 & Hpl & Hpv).
    + unfold tidx. by rewrite fmap_length, seq_length.
    + rewrite (wf_pots _ _ HT). symmetry; apply HT.
    + apply replicate_length.
    + intros k j Hj. pose proof (lookup_lt_Some _ _ _ Hj) as Hk. unfold tidx in Hk.
      rewrite fmap_length, seq_length in Hk.
      destruct (slot_asg dom dom_pos T k HT Hk) as (a & Ha & <- & _). rewrite Htv in Hj by done.
      injection Hj as <-. apply Ha.
    + rewrite Hok2. cbn [mbind outcome_bind]. eexists; split; [done|].
      assert (wf (mkPT [v] pots [dom v] [1%nat] 1%nat (dom v))) as HT'.
      { constructor; try done; cbn [pt_vars pt_pots pt_dims pt_size].
        - apply NoDup_singleton.
        - rewrite configs_length. cbn. lia.
        - rewrite configs_length, Hpl. cbn. lia. }
      split_and!; [done|done|]. intros a Ha.
      unfold tval at 1. cbn [pt_pots pt_dims pt_vars fmap list_fmap lex_index]. cbn [prod_list foldr].
      rewrite Nat.mul_1_r, Nat.add_0_r, Hpv by apply Ha. rewrite lookup_replicate_2 by apply Ha.
      cbn [default from_option]. unfold id.
      rewrite (qsum_slots dom dom_pos T a (fun b => if bool_decide (b <$> [v] = a <$> [v]) then tval T b else 0)); [|done|done|].
      * rewrite E. change (v :: vs) with ([v] ++ vs). rewrite (sumv_indicator dom dom_pos); [ring|apply tval_proper|done|done].
      * intros b Hb _. rewrite Htv by done. cbn.
        destruct (decide (b v = a v)) as [Eq|Eq].
        -- rewrite !bool_decide_true by congruence. by rewrite (tval_lookup dom dom_pos T b HT Hb).
        -- rewrite !bool_decide_false; [done|congruence|congruence].
Qed.
End tables2.
