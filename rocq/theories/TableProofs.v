(** Proofs about the table operations of TableModel.v. *)
From Verif Require Export TableSpec.
Local Open Scope Qc_scope.
Ltac Zify.zify_post_hook ::= idtac.

Lemma strides_length dims : length (strides dims) = length dims.
Proof. induction dims; cbn; lia. Qed.

Lemma lex_index_lt dims cfg : in_range dims cfg -> (lex_index dims cfg < prod_list dims)%nat.
Proof.
  revert cfg; induction dims as [|d ds IH]; intros cfg H; inversion H as [|c d' cs ds' Hc Hcs]; subst; cbn.
  - lia.
  - specialize (IH _ Hcs). fold (prod_list ds). nia.
Qed.

Lemma bind_seq_lookup {A} (l : list A) s d (f : nat -> A -> A) k x :
  (seq s d ≫= (fun c => f c <$> l)) !! k = Some x <->
  exists c j y, (s <= c < s + d)%nat /\ l !! j = Some y /\ x = f c y /\ k = ((c - s) * length l + j)%nat.
Proof.
  revert s k; induction d as [|d IH]; intros s k; cbn [seq mbind list_bind].
  - rewrite lookup_nil. split; [done|]. intros (c & j & y & Hc & _). lia.
  - rewrite lookup_app_Some, IH, list_lookup_fmap, fmap_length. split.
    + intros [H|[Hk (c & j & y & Hc & Hy & -> & Hj)]].
      * apply fmap_Some in H as (y & Hy & ->). exists s, k, y. split_and!; try done; lia.
      * exists c, j, y. split_and!; try done; try lia.
        replace (c - s)%nat with (S (c - S s)) by lia. cbn. lia.
    + intros (c & j & y & Hc & Hy & -> & ->).
      destruct (decide (c = s)) as [->|Hne].
      * left. rewrite Nat.sub_diag. cbn. by rewrite Hy.
      * right. split.
        { replace (c - s)%nat with (S (c - S s)) by lia. nia. }
        exists c, j, y. split_and!; try done; try lia.
        replace (c - s)%nat with (S (c - S s)) by lia. cbn. rewrite <-Nat.add_assoc. generalize ((c - S s) * length l)%nat. intros; lia.
Qed.

Lemma configs_lookup dims k cfg :
  configs dims !! k = Some cfg <-> in_range dims cfg /\ lex_index dims cfg = k.
Proof.
  revert k cfg; induction dims as [|d ds IH]; intros k cfg; cbn [configs].
  - unfold in_range. split.
    + destruct k; cbn; [intros [= <-]|done]. split; [constructor|done].
    + intros [H <-]. by inversion H.
  - rewrite bind_seq_lookup. split.
    + intros (c & j & y & Hc & Hy & -> & ->). apply IH in Hy as [Hy <-].
      split; [constructor; [lia|done]|]. cbn. rewrite Nat.sub_0_r, configs_length. done.
    + intros [H <-]. inversion H as [|c d' cs ds' Hc Hcs]; subst.
      exists c, (lex_index ds cs), cs. split_and!; try done; [lia|by apply IH|].
      cbn. rewrite Nat.sub_0_r, configs_length. done.
Qed.

Lemma lex_index_inj dims c1 c2 :
  in_range dims c1 -> in_range dims c2 -> lex_index dims c1 = lex_index dims c2 -> c1 = c2.
Proof.
  intros H1 H2 He.
  assert (configs dims !! lex_index dims c1 = Some c1) as E1 by by apply configs_lookup.
  assert (configs dims !! lex_index dims c1 = Some c2) as E2 by (rewrite He; by apply configs_lookup).
  congruence.
Qed.

Lemma seq_S_shift n s : seq s (S n) = s :: (S <$> seq s n).
Proof. cbn. by rewrite fmap_S_seq. Qed.

Lemma mfor_map {I J S} (g : I -> J) (l : list I) (body : J -> S -> outcome S) s :
  mfor (g <$> l) body s = mfor l (fun i => body (g i)) s.
Proof.
  revert s; induction l as [|i l IH]; intros s; cbn; [done|].
  destruct (body (g i) s); cbn; [apply IH|done].
Qed.
Lemma mcollect_map {I J A} (g : I -> J) (l : list I) (body : J -> outcome A) :
  mcollect (g <$> l) body = mcollect l (fun i => body (g i)).
Proof.
  induction l as [|i l IH]; cbn; [done|]. by rewrite IH.
Qed.
Lemma mfor_ext {I S} (l : list I) (b1 b2 : I -> S -> outcome S) s :
  (forall i s0, i ∈ l -> b1 i s0 = b2 i s0) -> mfor l b1 s = mfor l b2 s.
Proof.
  revert s; induction l as [|i l IH]; intros s H; cbn; [done|].
  rewrite H by left. destruct (b2 i s); cbn; [|done]. apply IH. intros j s1 Hj. apply H. by right.
Qed.
Lemma mcollect_ext {I A} (l : list I) (b1 b2 : I -> outcome A) :
  (forall i, i ∈ l -> b1 i = b2 i) -> mcollect l b1 = mcollect l b2.
Proof.
  induction l as [|i l IH]; intros H; cbn; [done|].
  rewrite H by left. rewrite IH; [done|]. intros j Hj. apply H. by right.
Qed.

(** ** Index arithmetic *)
Definition positive (dims : list nat) : Prop := Forall (fun d => (0 < d)%nat) dims.

Lemma prod_list_pos dims : positive dims -> (0 < prod_list dims)%nat.
Proof. induction 1; cbn; [lia|]. fold (prod_list l). nia. Qed.

Lemma config_loop_shift cum c idxs k :
  config_loop (c :: cum) (S <$> idxs) k = config_loop cum idxs k.
Proof.
  revert k; induction idxs as [|i idxs IH]; intros k; [done|].
  cbn [fmap list_fmap config_loop]. change (vget (c :: cum) (S i)) with (vget cum i).
  destruct (vget cum i) as [cl|e]; cbn [mbind outcome_bind]; [|done].
  destruct (idiv k cl) as [q|e]; cbn [mbind outcome_bind]; [|done].
  destruct (imod k cl) as [r|e]; cbn [mbind outcome_bind]; [|done].
  by rewrite IH.
Qed.

Lemma config_loop_spec dims cfg :
  positive dims -> in_range dims cfg ->
  config_loop (strides dims) (seq 0 (length dims)) (lex_index dims cfg) = Ok cfg.
Proof.
  intros Hpos Hr. revert Hpos.
  induction Hr as [|c d cs ds Hc Hcs IH]; intros Hpos; [done|].
  inversion Hpos as [|? ? Hd Hds]; subst.
  assert (0 < prod_list ds)%nat as Hp by by apply prod_list_pos.
  assert (lex_index ds cs < prod_list ds)%nat as Hl by by apply lex_index_lt.
  cbn [length strides]. rewrite seq_S_shift.
  cbn [config_loop lex_index].
  unfold vget at 1. cbn [lookup list_lookup mbind outcome_bind].
  unfold idiv at 1, imod at 1. rewrite bool_decide_false by lia. cbn [mbind outcome_bind].
  rewrite (Nat.add_comm (c * _)), Nat.div_add by lia. rewrite Nat.mod_add by lia.
  rewrite Nat.div_small, Nat.mod_small by done.
  rewrite config_loop_shift, IH by done. cbn. done.
Qed.

Lemma get_index_spec_gen dims cfg acc :
  length cfg = length dims ->
  mfor (seq 0 (length dims))
    (fun i acc => c ← vget cfg i; l ← vget (strides dims) i; Ok (acc + c * l)%nat) acc
  = Ok (acc + lex_index dims cfg)%nat.
Proof.
  revert cfg acc; induction dims as [|d ds IH]; intros cfg acc Hlen.
  - cbn. f_equal. lia.
  - destruct cfg as [|c cs]; [discriminate|]. cbn [length]. rewrite seq_S_shift.
    cbn [mfor strides lex_index]. change (vget (c :: cs) 0) with (Ok c).
    change (vget (prod_list ds :: strides ds) 0) with (Ok (prod_list ds)). cbn [mbind outcome_bind].
    rewrite mfor_map.
    rewrite (mfor_ext _ _ (fun i acc => c ← vget cs i; l ← vget (strides ds) i; Ok (acc + c * l)%nat)).
    + rewrite IH; [f_equal; lia|]. cbn in Hlen. lia.
    + intros i s0 _. done.
Qed.

Lemma get_index_spec dims cfg :
  length cfg = length dims ->
  get_index_nv cfg (length dims) (strides dims) = Ok (lex_index dims cfg).
Proof. intros H. unfold get_index_nv. by rewrite get_index_spec_gen. Qed.

(** ConstructCumLevels builds the strides. *)
Lemma construct_cum_levels_spec dims :
  dims ≠ [] -> construct_cum_levels (length dims) dims = Ok (strides dims).
Proof.
  intros Hne. unfold construct_cum_levels.
  destruct dims as [|d0 ds0] eqn:E; [done|]. rewrite <-E in *. clear Hne.
  rewrite bool_decide_false by (subst; cbn; lia).
  set (n := length dims). assert (0 < n)%nat as Hn by (subst; cbn; lia).
  rewrite vset_ok by (rewrite replicate_length; lia). cbn [mbind outcome_bind].
  set (P := fun (dn : list nat) (cum : list nat) =>
    length cum = n /\ forall i, (n - 1 - length dn <= i < n)%nat -> cum !! i = strides dims !! i).
  assert (forall i d, dims !! (i + 1)%nat = Some d -> forall c, strides dims !! (i + 1)%nat = Some c ->
     strides dims !! i = Some (c * d)%nat) as Hstep.
  { clear. induction dims as [|e ds IH]; intros i d Hd c Hc; [done|].
    destruct i as [|i]; cbn in *.
    - destruct ds as [|e' ds']; [done|]. cbn in *. simplify_eq. f_equal.
      fold (prod_list ds'). lia.
    - by apply IH. }
  assert (forall i, (i < n)%nat -> exists d, dims !! i = Some d) as Hdims.
  { intros i Hi. apply lookup_lt_is_Some. done. }
  assert (forall i, (i < n)%nat -> exists d, strides dims !! i = Some d) as Hstr.
  { intros i Hi. apply lookup_lt_is_Some. by rewrite strides_length. }
  destruct (mfor_inv P (reverse (seq 0 (n - 1)))
    (fun i cum => c ← vget cum (i + 1)%nat; d ← vget dims (i + 1)%nat; vset cum i (c * d)%nat)
    (<[(n - 1)%nat:=1%nat]> (replicate n 0%nat))) as (s' & -> & HP).
  - split; [by rewrite insert_length, replicate_length|]. intros i Hi. cbn in Hi.
    assert (i = n - 1)%nat as -> by lia.
    rewrite list_lookup_insert by (rewrite replicate_length; lia).
    subst n. clear -Hn. induction dims as [|e ds IH] using rev_ind; [cbn in Hn; lia|].
    rewrite app_length. cbn. replace (length ds + 1 - 1)%nat with (length ds) by lia.
    clear. induction ds as [|f ds IH]; [done|]. cbn. apply IH.
  - intros dn i rest s0 Hl [Hlen HP].
    assert (i = n - 1 - length dn - 1 /\ length dn < n - 1)%nat as [Hi Hdn].
    { assert (reverse (seq 0 (n - 1)) !! length dn = Some i) as Hlk.
      { rewrite Hl. by rewrite lookup_app_r, Nat.sub_diag. }
      assert (length dn < n - 1)%nat as Hlt.
      { apply lookup_lt_Some in Hlk. rewrite reverse_length, seq_length in Hlk. done. }
      rewrite reverse_lookup in Hlk by (rewrite seq_length; done).
      rewrite seq_length in Hlk. apply lookup_seq in Hlk. lia. }
    destruct (Hdims (i + 1)%nat) as [d Hd]; [lia|].
    destruct (Hstr (i + 1)%nat) as [c Hc]; [lia|].
    rewrite (vget_ok s0 (i + 1) c) by (rewrite HP by lia; done). cbn.
    rewrite (vget_ok dims (i + 1) d) by done. cbn.
    rewrite vset_ok by lia.
    eexists. split; [done|]. split; [by rewrite insert_length|].
    intros j Hj. rewrite app_length in Hj. cbn in Hj.
    destruct (decide (i = j)) as [<-|Hne].
    + rewrite list_lookup_insert by lia. symmetry. by apply Hstep.
    + rewrite list_lookup_insert_ne by done. apply HP. lia.
  - destruct HP as [Hlen HP]. f_equal. apply list_eq. intros i.
    destruct (decide (i < n)%nat) as [Hi|Hi].
    + apply HP. rewrite reverse_length, seq_length. lia.
    + rewrite !lookup_ge_None_2; [done| |lia]. rewrite strides_length. fold n. lia.
Qed.

Lemma construct_cum_levels_empty dims : construct_cum_levels 0 dims = Err OutOfBounds.
Proof. done. Qed.

Lemma strides_head dims c0 d0 :
  strides dims !! 0%nat = Some c0 -> dims !! 0%nat = Some d0 -> (c0 * d0)%nat = prod_list dims.
Proof. destruct dims; [done|]. cbn. intros [= <-] [= <-]. fold (prod_list dims). lia. Qed.

(** Pre-computation shared by the constructors: strides and size. *)
Lemma cum_and_size dims {B} (f : list nat -> nat -> outcome B) :
  dims ≠ [] ->
  (cum ← construct_cum_levels (length dims) dims; c0 ← vget cum 0; d0 ← vget dims 0; f cum (c0 * d0)%nat)
  = f (strides dims) (length (configs dims)).
Proof.
  intros Hne. rewrite construct_cum_levels_spec by done. cbn [mbind outcome_bind].
  destruct dims as [|d ds]; [done|]. cbn [strides vget lookup list_lookup mbind outcome_bind].
  rewrite configs_length. unfold vget. cbn. fold (prod_list ds). by rewrite Nat.mul_comm.
Qed.

Lemma in_range_length dims cfg : in_range dims cfg -> length cfg = length dims.
Proof. apply Forall2_length. Qed.

Lemma tval_dep T : dep_on (pt_vars T) (tval T).
Proof.
  intros a b Hab. unfold tval. assert (a <$> pt_vars T = b <$> pt_vars T) as ->; [|done].
  apply list_fmap_ext. intros ? v Hv. apply Hab. by eapply elem_of_list_lookup_2.
Qed.

Lemma tval_proper T : proper (tval T).
Proof. eapply dep_on_proper, tval_dep. Qed.

Lemma find_var_spec vars nv s n v i :
  (s + n <= length vars)%nat -> (s <= i < s + n)%nat ->
  vars !! i = Some v -> NoDup vars ->
  find_var vars nv (seq s n) v = Ok i.
Proof.
  intros Hlen Hi Hv Hnd. revert s Hlen Hi; induction n as [|n IH]; intros s Hlen Hi; [lia|].
  cbn [seq find_var]. destruct (lookup_lt_is_Some_2 vars s) as [w Hw]; [lia|].
  rewrite (vget_ok _ _ _ Hw). cbn. case_bool_decide as Hwv.
  - subst w. f_equal. eapply NoDup_lookup; eauto.
  - apply IH; [lia|]. assert (i ≠ s) by congruence. lia.
Qed.

Lemma find_var_absent vars nv s n v :
  (s + n <= length vars)%nat -> v ∉ vars -> find_var vars nv (seq s n) v = Ok nv.
Proof.
  revert s; induction n as [|n IH]; intros s Hlen Hv; [done|].
  cbn [seq find_var]. destruct (lookup_lt_is_Some_2 vars s) as [w Hw]; [lia|].
  rewrite (vget_ok _ _ _ Hw). cbn. rewrite bool_decide_false.
  - apply IH; [lia|done].
  - intros ->. apply Hv. by eapply elem_of_list_lookup_2.
Qed.

Definition locs_ok (vars ws locs : list nat) : Prop :=
  Forall2 (fun w l => vars !! l = Some w) ws locs.

Lemma project_config vars ws locs (a : asg) :
  locs_ok vars ws locs ->
  mcollect (seq 0 (length ws)) (fun l => loc ← vget locs l; vget (a <$> vars) loc) = Ok (a <$> ws).
Proof.
  intros Hok. induction Hok as [|w l ws locs Hw Hok IH]; [done|].
  cbn [length]. rewrite seq_S_shift. cbn [mcollect].
  change (vget (l :: locs) 0) with (Ok l). cbn [mbind outcome_bind].
  rewrite (vget_ok _ _ (a w)) by (rewrite list_lookup_fmap, Hw; done). cbn [mbind outcome_bind].
  rewrite mcollect_map. cbn.
  rewrite (mcollect_ext _ _ (fun l0 => loc ← vget locs l0; vget (a <$> vars) loc)) by done.
  rewrite IH. done.
Qed.

Lemma mfor_gather n (f : nat -> outcome Qc) (g : nat -> Qc) (init : list Qc) :
  (forall k, (k < n)%nat -> f k = Ok (g k)) -> length init = n ->
  mfor (seq 0 n) (fun k pots => x ← f k; vset pots k x) init = Ok (g <$> seq 0 n).
Proof.
  intros Hf Hlen.
  set (P := fun (dn : list nat) (pots : list Qc) =>
     length pots = n /\ forall k, (k < length dn)%nat -> pots !! k = Some (g k)).
  destruct (mfor_inv P (seq 0 n) (fun k pots => x ← f k; vset pots k x) init) as (s & -> & HP).
  - split; [done|]. intros k Hk. cbn in Hk. lia.
  - intros dn i rest s0 Hl [Hl0 HP].
    assert (i = length dn /\ length dn < n)%nat as [-> Hlt].
    { assert (seq 0 n !! length dn = Some i) as Hlk by (rewrite Hl, lookup_app_r, Nat.sub_diag; done).
      apply lookup_seq in Hlk. lia. }
    rewrite Hf by done. cbn. rewrite vset_ok by lia. eexists; split; [done|].
    split; [by rewrite insert_length|]. intros k Hk. rewrite app_length in Hk. cbn in Hk.
    destruct (decide (k = length dn)) as [->|Hne].
    + apply list_lookup_insert. lia.
    + rewrite list_lookup_insert_ne by done. apply HP. lia.
  - destruct HP as [Hl HP]. f_equal. apply list_eq. intros k.
    destruct (decide (k < n)%nat) as [Hk|Hk].
    + rewrite HP by (rewrite seq_length; done).
      rewrite list_lookup_fmap, lookup_seq_lt by done. done.
    + rewrite !lookup_ge_None_2; [done| |lia]. rewrite fmap_length, seq_length. lia.
Qed.

Lemma mfor_scatter n (tidx : list nat) (src init : list Qc) :
  length tidx = n -> length src = n -> length init = n ->
  (forall k j, tidx !! k = Some j -> (j < n)%nat) ->
  NoDup tidx ->
  exists pots, mfor (seq 0 n) (fun k pots => j ← vget tidx k; x ← vget src k; vset pots j x) init = Ok pots /\
    length pots = n /\ forall k j, tidx !! k = Some j -> pots !! j = src !! k.
Proof.
  intros Ht Hs Hi Hb Hnd.
  set (P := fun (dn : list nat) (pots : list Qc) =>
     length pots = n /\ forall k j, (k < length dn)%nat -> tidx !! k = Some j -> pots !! j = src !! k).
  destruct (mfor_inv P (seq 0 n) (fun k pots => j ← vget tidx k; x ← vget src k; vset pots j x) init) as (s & Hok & HP).
  - split; [done|]. intros k j Hk. cbn in Hk. lia.
  - intros dn i rest s0 Hl [Hl0 HP].
    assert (i = length dn /\ length dn < n)%nat as [-> Hlt].
    { assert (seq 0 n !! length dn = Some i) as Hlk by (rewrite Hl, lookup_app_r, Nat.sub_diag; done).
      apply lookup_seq in Hlk. lia. }
    destruct (lookup_lt_is_Some_2 tidx (length dn)) as [j Hj]; [lia|].
    destruct (lookup_lt_is_Some_2 src (length dn)) as [x Hx]; [lia|].
    rewrite (vget_ok _ _ _ Hj). cbn. rewrite (vget_ok _ _ _ Hx). cbn.
    rewrite vset_ok by (rewrite Hl0; by eapply Hb). eexists; split; [done|].
    split; [by rewrite insert_length|]. intros k j' Hk Hj'. rewrite app_length in Hk. cbn in Hk.
    destruct (decide (k = length dn)) as [->|Hne].
    + assert (j' = j) as -> by congruence. rewrite Hx. apply list_lookup_insert.
      rewrite Hl0. by eapply Hb.
    + rewrite list_lookup_insert_ne; [apply HP; [lia|done]|].
      intros ->. apply Hne. by eapply NoDup_lookup.
  - exists s. split; [done|]. destruct HP as [Hl HP]. split; [done|].
    intros k j Hj. apply HP; [|done]. rewrite seq_length. apply lookup_lt_Some in Hj. lia.
Qed.

Lemma prod_list_perm l1 l2 : l1 ≡ₚ l2 -> prod_list l1 = prod_list l2.
Proof. induction 1; cbn; repeat (fold (prod_list l)); unfold prod_list in *; lia. Qed.

Lemma mfor_pointwise n (f : nat -> Qc -> outcome Qc) (g : nat -> Qc -> Qc) (init : list Qc) :
  (forall k x, init !! k = Some x -> f k x = Ok (g k x)) -> length init = n ->
  mfor (seq 0 n) (fun k pots => x ← vget pots k; y ← f k x; vset pots k y) init
  = Ok (imap g init).
Proof.
  intros Hf Hlen.
  set (P := fun (dn : list nat) (pots : list Qc) =>
     length pots = n /\ forall k, pots !! k = if bool_decide (k < length dn)%nat then g k <$> init !! k else init !! k).
  destruct (mfor_inv P (seq 0 n) (fun k pots => x ← vget pots k; y ← f k x; vset pots k y) init) as (s & -> & HP).
  - split; [done|]. intros k. done.
  - intros dn i rest s0 Hl [Hl0 HP].
    assert (i = length dn /\ length dn < n)%nat as [-> Hlt].
    { assert (seq 0 n !! length dn = Some i) as Hlk by (rewrite Hl, lookup_app_r, Nat.sub_diag; done).
      apply lookup_seq in Hlk. lia. }
    destruct (lookup_lt_is_Some_2 init (length dn)) as [x Hx]; [lia|].
    assert (s0 !! length dn = Some x) as Hs.
    { rewrite HP. rewrite bool_decide_false by lia. done. }
    rewrite (vget_ok _ _ _ Hs). cbn. rewrite Hf by done. cbn.
    rewrite vset_ok by lia. eexists; split; [done|].
    split; [by rewrite insert_length|]. intros k. rewrite app_length. cbn.
    destruct (decide (k = length dn)) as [->|Hne].
    + rewrite list_lookup_insert by lia. rewrite bool_decide_true by lia. by rewrite Hx.
    + rewrite list_lookup_insert_ne by done. rewrite HP.
      destruct (decide (k < length dn)%nat).
      * by rewrite !bool_decide_true by lia.
      * by rewrite !bool_decide_false by lia.
  - destruct HP as [Hl HP]. f_equal. apply list_eq. intros k.
    rewrite HP, list_lookup_imap. rewrite seq_length. case_bool_decide; [done|].
    rewrite lookup_ge_None_2 by lia. done.
Qed.

Lemma mfor_scatter_add n m (tidx : list nat) (src init : list Qc) :
  length tidx = n -> length src = n -> length init = m ->
  (forall k j, tidx !! k = Some j -> (j < m)%nat) ->
  exists pots, mfor (seq 0 n) (fun k pots => j ← vget tidx k; x ← vget src k; y ← vget pots j;
      vset pots j (y + x)) init = Ok pots /\
    length pots = m /\ forall j, (j < m)%nat ->
      pots !! j = Some (default 0 (init !! j) + qsum (seq 0 n) (fun k =>
         if bool_decide (tidx !! k = Some j) then default 0 (src !! k) else 0)).
Proof.
  intros Ht Hs Hi Hb.
  set (P := fun (dn : list nat) (pots : list Qc) =>
     length pots = m /\ forall j, (j < m)%nat ->
      pots !! j = Some (default 0 (init !! j) + qsum dn (fun k =>
         if bool_decide (tidx !! k = Some j) then default 0 (src !! k) else 0))).
  destruct (mfor_inv P (seq 0 n) (fun k pots => j ← vget tidx k; x ← vget src k; y ← vget pots j;
      vset pots j (y + x)) init) as (s & Hok & HP).
  - split; [done|]. intros j Hj. destruct (lookup_lt_is_Some_2 init j) as [x Hx]; [lia|].
    rewrite Hx. cbn. f_equal. ring.
  - intros dn i rest s0 Hl [Hl0 HP].
    assert (i < n)%nat as Hin.
    { assert (i ∈ seq 0 n) as Hin by (rewrite Hl; set_solver). apply elem_of_seq in Hin. lia. }
    destruct (lookup_lt_is_Some_2 tidx i) as [j Hj]; [lia|].
    destruct (lookup_lt_is_Some_2 src i) as [x Hx]; [lia|].
    pose proof (Hb _ _ Hj) as Hjm.
    rewrite (vget_ok _ _ _ Hj). cbn. rewrite (vget_ok _ _ _ Hx). cbn.
    rewrite (vget_ok _ _ _ (HP j Hjm)). cbn. rewrite vset_ok by lia.
    eexists; split; [done|]. split; [by rewrite insert_length|].
    intros j' Hj'. rewrite qsum_app, qsum_cons, qsum_nil, Hx. cbn [default from_option id].
    destruct (decide (j' = j)) as [->|Hne].
    + rewrite list_lookup_insert by lia. rewrite (bool_decide_true (tidx !! i = _)) by done.
      f_equal. unfold id. ring.
    + rewrite list_lookup_insert_ne by done. rewrite HP by done.
      rewrite (bool_decide_false (tidx !! i = _)) by congruence. f_equal. ring.
  - exists s. done.
Qed.

Lemma qsum_list_index {A} (l : list A) (f : A -> Qc) (g : nat -> Qc) :
  (forall k x, l !! k = Some x -> g k = f x) ->
  qsum (seq 0 (length l)) g = qsum l f.
Proof.
  revert g; induction l as [|x l IH]; intros g H; [done|].
  cbn [length]. rewrite seq_S_shift, !qsum_cons, qsum_map. f_equal; [by apply H|].
  apply IH. intros k y Hk. by apply H.
Qed.

Definition without (v : nat) (l : list nat) : list nat := filter (fun w => w ≠ v) l.

Lemma without_notin v vars : v ∉ vars -> without v vars = vars.
Proof.
  intros Hw. induction vars as [|u vars IH]; [done|]. unfold without. rewrite filter_cons.
  apply not_elem_of_cons in Hw as [Huv Hw]. rewrite decide_True by done. f_equal. by apply IH.
Qed.

Lemma without_perm v vars : NoDup vars -> v ∈ vars -> vars ≡ₚ v :: without v vars.
Proof.
  induction vars as [|w vars IH]; intros Hnd Hv; [by apply elem_of_nil in Hv|].
  apply NoDup_cons in Hnd as [Hw Hnd]. unfold without. rewrite filter_cons.
  destruct (decide (w ≠ v)) as [Hne|Heq].
  - apply elem_of_cons in Hv as [->|Hv]; [done|].
    rewrite (IH Hnd Hv) at 1. apply perm_swap.
  - apply dec_stable in Heq. subst w. fold (without v vars). by rewrite without_notin.
Qed.

Lemma without_length v vars : NoDup vars -> v ∈ vars -> length (without v vars) = (length vars - 1)%nat.
Proof. intros Hnd Hv. rewrite (without_perm v vars) at 2 by done. cbn. lia. Qed.

(** ** Well-formed tables and assignments *)
Section tables.
Context (dom : nat -> nat) (dom_pos : forall v, (0 < dom v)%nat).
Set Default Proof Using "All".
Notation wf := (wf dom).
Notation valid := (valid dom).
Notation sumv := (sumv dom).

Lemma dims_positive vs : positive (dom <$> vs).
Proof. induction vs; constructor; auto. Qed.

Lemma valid_in_range a vs : valid a -> in_range (dom <$> vs) (a <$> vs).
Proof. intros Ha. induction vs; constructor; auto. Qed.

Definition zero_asg : asg := fun _ => 0%nat.
Lemma valid_zero : valid zero_asg.
Proof. intros v. apply dom_pos. Qed.

Lemma tval_lookup T a :
  wf T -> valid a -> pt_pots T !! lex_index (pt_dims T) (a <$> pt_vars T) = Some (tval T a).
Proof.
  intros HT Ha. unfold tval. destruct (pt_pots T !! _) eqn:E; [done|].
  apply lookup_ge_None_1 in E. rewrite (wf_pots _ _ HT), configs_length in E.
  pose proof (lex_index_lt (pt_dims T) (a <$> pt_vars T)) as Hlt.
  rewrite (wf_dims _ _ HT) in *. specialize (Hlt (valid_in_range a _ Ha)). lia.
Qed.

(** Every slot of a well-formed table belongs to a valid assignment. *)
Lemma slot_asg T k :
  wf T -> (k < pt_size T)%nat ->
  exists a, valid a /\ lex_index (pt_dims T) (a <$> pt_vars T) = k /\
            get_config T k = Ok (a <$> pt_vars T).
Proof.
  intros HT Hk. rewrite (wf_size _ _ HT) in Hk.
  apply lookup_lt_is_Some in Hk as [cfg Hcfg].
  apply configs_lookup in Hcfg as [Hr Hi].
  assert (upds zero_asg (pt_vars T) cfg <$> pt_vars T = cfg) as Hm.
  { apply upds_map; [apply HT|]. rewrite (in_range_length _ _ Hr), (wf_dims _ _ HT). apply fmap_length. }
  exists (upds zero_asg (pt_vars T) cfg). split_and!.
  - apply valid_upds; [apply valid_zero|]. by rewrite <-(wf_dims _ _ HT).
  - by rewrite Hm.
  - rewrite Hm. unfold get_config, get_config_nv.
    rewrite (wf_cum _ _ HT), (wf_nv _ _ HT), <-Hi.
    replace (length (pt_vars T)) with (length (pt_dims T)).
    + apply config_loop_spec; [|done]. rewrite (wf_dims _ _ HT). apply dims_positive.
    + rewrite (wf_dims _ _ HT). apply fmap_length.
Qed.

Lemma get_config_spec T a :
  wf T -> valid a -> get_config T (lex_index (pt_dims T) (a <$> pt_vars T)) = Ok (a <$> pt_vars T).
Proof.
  intros HT Ha. unfold get_config, get_config_nv. rewrite (wf_cum _ _ HT), (wf_nv _ _ HT).
  replace (length (pt_vars T)) with (length (pt_dims T)).
  - rewrite (wf_dims _ _ HT). apply config_loop_spec; [apply dims_positive|by apply valid_in_range].
  - rewrite (wf_dims _ _ HT). apply fmap_length.
Qed.

Lemma get_index_ok T a :
  wf T -> get_index T (a <$> pt_vars T) = Ok (lex_index (pt_dims T) (a <$> pt_vars T)).
Proof.
  intros HT. unfold get_index. rewrite (wf_cum _ _ HT), (wf_nv _ _ HT).
  assert (length (pt_vars T) = length (pt_dims T)) as Hlen.
  { rewrite (wf_dims _ _ HT). by rewrite fmap_length. }
  rewrite Hlen. apply get_index_spec. by rewrite fmap_length.
Qed.

Lemma lex_index_lt_size T a :
  wf T -> valid a -> (lex_index (pt_dims T) (a <$> pt_vars T) < pt_size T)%nat.
Proof.
  intros HT Ha. rewrite (wf_size _ _ HT), configs_length. apply lex_index_lt.
  rewrite (wf_dims _ _ HT). by apply valid_in_range.
Qed.

(** Two valid assignments that agree on the slot agree on the variables. *)
Lemma slot_inj T a b :
  wf T -> valid a -> valid b ->
  lex_index (pt_dims T) (a <$> pt_vars T) = lex_index (pt_dims T) (b <$> pt_vars T) ->
  forall v, v ∈ pt_vars T -> a v = b v.
Proof.
  intros HT Ha Hb He v Hv. rewrite (wf_dims _ _ HT) in He.
  apply lex_index_inj in He; [|by apply valid_in_range..].
  apply elem_of_list_lookup in Hv as [i Hi].
  assert ((a <$> pt_vars T) !! i = (b <$> pt_vars T) !! i) as Hl by by rewrite He.
  rewrite !list_lookup_fmap, Hi in Hl. cbn in Hl. congruence.
Qed.

(** *** Variable lookup *)
Lemma get_variable_index_in T v :
  wf T -> v ∈ pt_vars T ->
  exists i, get_variable_index T v = Ok i /\ pt_vars T !! i = Some v /\ (i < pt_nv T)%nat.
Proof.
  intros HT Hv. apply elem_of_list_lookup in Hv as [i Hi].
  pose proof (lookup_lt_Some _ _ _ Hi) as Hlt.
  exists i. split_and!; [|done|by rewrite (wf_nv _ _ HT)].
  apply find_var_spec; [by rewrite (wf_nv _ _ HT)|rewrite (wf_nv _ _ HT); lia|done|apply HT].
Qed.

Lemma get_variable_index_out T v :
  wf T -> v ∉ pt_vars T -> get_variable_index T v = Ok (pt_nv T).
Proof.
  intros HT Hv. apply find_var_absent; [by rewrite (wf_nv _ _ HT)|done].
Qed.

(** Locations of the variables [ws] among those of [T]. *)
Lemma collect_locs T ws (g : nat -> outcome nat) :
  wf T -> (forall w, w ∈ ws -> w ∈ pt_vars T) ->
  (forall i w, ws !! i = Some w -> g i = get_variable_index T w) ->
  exists locs, mcollect (seq 0 (length ws)) g = Ok locs /\ locs_ok (pt_vars T) ws locs.
Proof.
  intros HT. revert g; induction ws as [|w ws IH]; intros g Hsub Hg.
  - exists []. split; [done|constructor].
  - destruct (get_variable_index_in T w HT) as (i & Hi & Hlk & _); [apply Hsub; by left|].
    destruct (IH (fun j => g (S j))) as (locs & Hl & Hok).
    + intros u Hu. apply Hsub. by right.
    + intros j u Hj. by apply Hg.
    + exists (i :: locs). split; [|by constructor].
      cbn [length]. rewrite seq_S_shift. cbn [mcollect]. rewrite (Hg 0%nat w) by done.
      rewrite Hi. cbn [mbind outcome_bind]. rewrite mcollect_map, Hl. done.
Qed.

(** Projecting a configuration onto [ws]. *)
(** *** The generic index map: for each slot [k] of [T], the slot of the projection onto [ws]. *)
Lemma index_map T ws (main : nat -> outcome nat) :
  wf T ->
  (forall a, valid a -> main (lex_index (pt_dims T) (a <$> pt_vars T))
                        = Ok (lex_index (dom <$> ws) (a <$> ws))) ->
  exists tidx, mcollect (seq 0 (pt_size T)) main = Ok tidx /\
    length tidx = pt_size T /\
    forall a, valid a -> tidx !! lex_index (pt_dims T) (a <$> pt_vars T)
                         = Some (lex_index (dom <$> ws) (a <$> ws)).
Proof.
  intros HT Hmain.
  assert (exists tidx, mcollect (seq 0 (pt_size T)) main = Ok tidx) as [tidx Hok].
  { assert (forall l, (forall k, k ∈ l -> (k < pt_size T)%nat) ->
      exists tidx, mcollect l main = Ok tidx) as Hgen.
    { induction l as [|k l IH]; intros Hl; [by exists []|].
      destruct (slot_asg T k HT) as (a & Ha & Hk & _); [apply Hl; by left|].
      destruct IH as [ti Hti]; [intros j Hj; apply Hl; by right|].
      cbn. rewrite <-Hk, Hmain by done. cbn. rewrite Hti. cbn. eauto. }
    apply Hgen. intros k Hk. apply elem_of_seq in Hk. lia. }
  exists tidx. split; [done|].
  apply mcollect_inv in Hok as [Hlen Hall]. rewrite seq_length in Hlen. split; [done|].
  intros a Ha. set (k := lex_index _ _).
  assert (k < pt_size T)%nat as Hk by by apply lex_index_lt_size.
  destruct (lookup_lt_is_Some_2 tidx k) as [x Hx]; [lia|].
  rewrite Hx. f_equal. specialize (Hall k k x).
  rewrite lookup_seq_lt in Hall by done. specialize (Hall eq_refl Hx).
  subst k. rewrite Hmain in Hall by done. congruence.
Qed.

(** *** Extension (gather) *)
Lemma vars_dims_length T : wf T -> length (pt_dims T) = length (pt_vars T).
Proof. intros HT. by rewrite (wf_dims _ _ HT), fmap_length. Qed.

Lemma extension_pre_spec ws :
  ws ≠ [] ->
  extension_pre ws (dom <$> ws) =
  Ok (mkPT ws (replicate (length (configs (dom <$> ws))) 0) (dom <$> ws) (strides (dom <$> ws))
        (length ws) (length (configs (dom <$> ws)))).
Proof.
  intros Hne. unfold extension_pre.
  replace (length ws) with (length (dom <$> ws)) at 1 by apply fmap_length.
  rewrite (cum_and_size (dom <$> ws) (fun cum n =>
    Ok (mkPT ws (replicate n 0) (dom <$> ws) cum (length ws) n))).
  - done.
  - by destruct ws.
Qed.

Definition fresh (ws : list nat) : ptable :=
  mkPT ws (replicate (length (configs (dom <$> ws))) 0) (dom <$> ws) (strides (dom <$> ws))
        (length ws) (length (configs (dom <$> ws))).
Lemma wf_fresh ws : NoDup ws -> wf (fresh ws).
Proof. intros H. constructor; try done. cbn. apply replicate_length. Qed.

Lemma wf_set_pots T pots :
  wf T -> length pots = pt_size T ->
  wf (mkPT (pt_vars T) pots (pt_dims T) (pt_cum T) (pt_nv T) (pt_size T)).
Proof.
  intros HT Hlen. constructor; cbn; try apply HT. rewrite Hlen. apply HT.
Qed.

Lemma table_extension_spec T ws :
  wf T -> NoDup ws -> ws ≠ [] -> (forall v, v ∈ pt_vars T -> v ∈ ws) ->
  exists T', table_extension T ws (dom <$> ws) = Ok T' /\ wf T' /\ pt_vars T' = ws /\
    forall a, valid a -> tval T' a = tval T a.
Proof.
  intros HT Hnd Hne Hsub. unfold table_extension. rewrite extension_pre_spec by done.
  cbn [mbind outcome_bind]. fold (fresh ws).
  pose proof (wf_fresh ws Hnd) as HN. set (N := fresh ws) in *.
  destruct (collect_locs N (pt_vars T)
    (fun i => v ← vget (pt_vars T) i; get_variable_index N v)) as (locs & Hlocs & Hok); [done|done| |].
  { intros i w Hi. by rewrite (vget_ok _ _ _ Hi). }
  rewrite <-(wf_nv _ _ HT) in Hlocs. rewrite Hlocs. cbn [mbind outcome_bind].
  destruct (index_map N (pt_vars T) (extension_main N (pt_nv T) (pt_cum T) locs))
    as (tidx & Htidx & Htlen & Htval); [done| |].
  { intros a Ha. unfold extension_main. rewrite get_config_spec by done. cbn [mbind outcome_bind].
    rewrite (wf_nv _ _ HT), project_config by done. cbn [mbind outcome_bind].
    rewrite (wf_cum _ _ HT), <-(wf_dims _ _ HT), <-vars_dims_length by done.
    apply get_index_spec. by rewrite fmap_length, vars_dims_length. }
  rewrite Htidx. cbn [mbind outcome_bind]. unfold extension_post.
  set (g := fun k => default 0 (j ← tidx !! k; pt_pots T !! j)).
  rewrite (mfor_ext _ _ (fun k pots => x ← (j ← vget tidx k; vget (pt_pots T) j); vset pots k x)).
  2: { intros k s0 _. destruct (vget tidx k); cbn; [|done]. done. }
  rewrite (mfor_gather _ _ g).
  2: { intros k Hk. destruct (slot_asg N k HN Hk) as (a & Ha & <- & _).
       subst g. cbn beta. rewrite (vget_ok _ _ _ (Htval a Ha)). cbn [mbind outcome_bind].
       rewrite Htval by done. rewrite <-(wf_dims _ _ HT).
       rewrite (vget_ok _ _ _ (tval_lookup T a HT Ha)). cbn [mbind option_bind].
       by rewrite (tval_lookup T a HT Ha). }
  2: { subst N. cbn. apply replicate_length. }
  cbn [mbind outcome_bind]. eexists. split; [done|].
  assert (wf (mkPT (pt_vars N) (g <$> seq 0 (pt_size N)) (pt_dims N) (pt_cum N) (pt_nv N) (pt_size N))) as HN'.
  { apply wf_set_pots; [done|]. by rewrite fmap_length, seq_length. }
  split_and!; [done|done|]. intros a Ha.
  unfold tval at 1. cbn [pt_pots pt_dims pt_vars].
  rewrite list_lookup_fmap, lookup_seq_lt by (by apply lex_index_lt_size). cbn [fmap option_fmap option_map].
  cbn [default]. subst g. cbn beta. rewrite Nat.add_0_l, Htval by done. cbn [mbind option_bind].
  by rewrite <-(wf_dims _ _ HT), (tval_lookup T a HT Ha).
Qed.

(** *** Reorganisation (scatter along a bijection) *)
Lemma reorganize_core T N tidx :
  wf T -> wf N -> pt_vars T ≡ₚ pt_vars N ->
  length tidx = pt_size T ->
  (forall a, valid a -> tidx !! lex_index (pt_dims T) (a <$> pt_vars T)
                         = Some (lex_index (pt_dims N) (a <$> pt_vars N))) ->
  exists T', reorganization_post N T tidx = Ok T' /\ wf T' /\ pt_vars T' = pt_vars N /\
    forall a, valid a -> tval T' a = tval T a.
Proof.
  intros HT HN Hperm Hlen Htval.
  assert (pt_size T = pt_size N) as Hsize.
  { rewrite (wf_size _ _ HT), (wf_size _ _ HN), !configs_length, (wf_dims _ _ HT), (wf_dims _ _ HN).
    apply prod_list_perm. by apply fmap_Permutation. }
  assert (forall k j, tidx !! k = Some j -> exists a, valid a /\
     k = lex_index (pt_dims T) (a <$> pt_vars T) /\ j = lex_index (pt_dims N) (a <$> pt_vars N)) as Hall.
  { intros k j Hj. pose proof (lookup_lt_Some _ _ _ Hj) as Hk. rewrite Hlen in Hk.
    destruct (slot_asg T k HT Hk) as (a & Ha & <- & _). exists a. split_and!; [done|done|].
    rewrite Htval in Hj by done. congruence. }
  unfold reorganization_post.
  destruct (mfor_scatter (pt_size N) tidx (pt_pots T) (pt_pots N)) as (pots & Hok & Hpl & Hp).
  - lia.
  - rewrite (wf_pots _ _ HT), <-(wf_size _ _ HT). done.
  - rewrite (wf_pots _ _ HN), <-(wf_size _ _ HN). done.
  - intros k j Hj. destruct (Hall k j Hj) as (a & Ha & _ & ->). by apply lex_index_lt_size.
  - apply NoDup_alt. intros k1 k2 j H1 H2.
    destruct (Hall _ _ H1) as (a & Ha & -> & Ea). destruct (Hall _ _ H2) as (b & Hb & -> & Eb).
    f_equal. apply list_fmap_ext. intros ? v Hv.
    eapply (slot_inj N a b HN Ha Hb); [congruence|].
    rewrite <-Hperm. by eapply elem_of_list_lookup_2.
  - rewrite Hok. cbn [mbind outcome_bind]. eexists; split; [done|].
    split_and!; [by apply wf_set_pots|done|]. intros a Ha.
    unfold tval. cbn [pt_pots pt_dims pt_vars]. by rewrite (Hp _ _ (Htval a Ha)).
Qed.

Lemma table_reorganization_spec T R :
  wf T -> wf R -> pt_vars T ≡ₚ pt_vars R ->
  exists T', table_reorganization T R = Ok T' /\ wf T' /\ pt_vars T' = pt_vars R /\
    forall a, valid a -> tval T' a = tval T a.
Proof.
  intros HT HR Hperm. unfold table_reorganization.
  assert (pt_nv T = pt_nv R) as Hnv.
  { rewrite (wf_nv _ _ HT), (wf_nv _ _ HR). by apply Permutation_length. }
  assert (pt_size T = pt_size R) as Hsize.
  { rewrite (wf_size _ _ HT), (wf_size _ _ HR), !configs_length, (wf_dims _ _ HT), (wf_dims _ _ HR).
    apply prod_list_perm. by apply fmap_Permutation. }
  destruct (collect_locs T (pt_vars R) (fun i => if bool_decide (i < pt_nv T)%nat then
      v ← vget (pt_vars R) i; get_variable_index T v else Err OutOfBounds)) as (locs & Hl & Hok).
  - done.
  - intros w Hw. by rewrite Hperm.
  - intros i w Hi. rewrite bool_decide_true.
    + by rewrite (vget_ok _ _ _ Hi).
    + rewrite Hnv, (wf_nv _ _ HR). by eapply lookup_lt_Some.
  - rewrite <-(wf_nv _ _ HR) in Hl. rewrite Hl. cbn [mbind outcome_bind].
    destruct (index_map T (pt_vars R) (fun k => if bool_decide (k < pt_size T)%nat
       then reorganization_main R T locs k else Err OutOfBounds)) as (tidx & Hti & Htl & Htv); [done| |].
    { intros a Ha. rewrite bool_decide_true by (by apply lex_index_lt_size).
      unfold reorganization_main. rewrite get_config_spec by done. cbn [mbind outcome_bind].
      rewrite (wf_nv _ _ HR), project_config by done. cbn [mbind outcome_bind].
      rewrite get_index_ok by done. by rewrite (wf_dims _ _ HR). }
    rewrite <-Hsize. rewrite Hti. cbn [mbind outcome_bind].
    apply reorganize_core; try done. intros a Ha. rewrite (wf_dims _ _ HR). by apply Htv.
Qed.

(** *** Pointwise loops *)
Lemma mult_loop_spec T S :
  wf T -> wf S -> pt_vars T = pt_vars S ->
  exists T', mult_loop T S = Ok T' /\ wf T' /\ pt_vars T' = pt_vars T /\
    forall a, valid a -> tval T' a = tval T a * tval S a.
Proof.
  intros HT HS Hv. unfold mult_loop.
  set (g := fun k x => x * default 0 (pt_pots S !! k)).
  rewrite (mfor_ext _ _ (fun k pots => x ← vget pots k;
      y ← (y ← vget (pt_pots S) k; Ok (x * y)); vset pots k y)).
  2: { intros k s0 _. destruct (vget s0 k); cbn; [|done]. destruct (vget (pt_pots S) k); done. }
  assert (pt_dims T = pt_dims S) as Hd by (rewrite (wf_dims _ _ HT), (wf_dims _ _ HS); by f_equal).
  rewrite (mfor_pointwise _ _ g).
  - cbn [mbind outcome_bind]. eexists; split; [done|]. split_and!.
    + apply wf_set_pots; [done|]. rewrite imap_length, (wf_pots _ _ HT). symmetry; apply HT.
    + done.
    + intros a Ha. unfold tval at 1. cbn [pt_pots pt_dims pt_vars].
      rewrite list_lookup_imap, (tval_lookup T a HT Ha). cbn. unfold g.
      f_equal. unfold tval. by rewrite Hd, Hv.
  - intros k x Hk. apply lookup_lt_Some in Hk. rewrite (wf_pots _ _ HT), Hd, <-(wf_pots _ _ HS) in Hk.
    destruct (lookup_lt_is_Some_2 _ _ Hk) as [y Hy]. rewrite (vget_ok _ _ _ Hy). cbn.
    unfold g. by rewrite Hy.
  - rewrite (wf_pots _ _ HT). symmetry. apply HT.
Qed.

Lemma table_division_spec T S :
  wf T -> wf S -> pt_vars T = pt_vars S ->
  exists T', table_division T S = Ok T' /\ wf T' /\ pt_vars T' = pt_vars T /\
    forall a, valid a -> tval T' a = if bool_decide (tval S a = 0) then 0 else tval T a / tval S a.
Proof.
  intros HT HS Hv. unfold table_division.
  set (g := fun k x => let y := default 0 (pt_pots S !! k) in if bool_decide (y = 0) then 0 else x / y).
  assert (pt_dims T = pt_dims S) as Hd by (rewrite (wf_dims _ _ HT), (wf_dims _ _ HS); by f_equal).
  assert (length (pt_pots S) = pt_size T) as HlS.
  { by rewrite (wf_pots _ _ HS), (wf_size _ _ HT), Hd. }
  rewrite (mfor_ext _ _ (fun k pots => x ← vget pots k;
      y ← (y ← vget (pt_pots S) k; Ok (if bool_decide (y = 0) then 0 else x / y)); vset pots k y)).
  2: { intros k s0 Hk. apply elem_of_seq in Hk.
       destruct (lookup_lt_is_Some_2 (pt_pots S) k) as [y Hy]; [lia|].
       rewrite (vget_ok _ _ _ Hy). cbn. destruct (vget s0 k); done. }
  rewrite (mfor_pointwise _ _ g).
  - cbn [mbind outcome_bind]. eexists; split; [done|]. split_and!.
    + apply wf_set_pots; [done|]. rewrite imap_length, (wf_pots _ _ HT). symmetry; apply HT.
    + done.
    + intros a Ha. unfold tval at 1. cbn [pt_pots pt_dims pt_vars].
      rewrite list_lookup_imap, (tval_lookup T a HT Ha). cbn. unfold g.
      unfold tval. by rewrite Hd, Hv.
  - intros k x Hk. apply lookup_lt_Some in Hk.
    rewrite (wf_pots _ _ HT), <-(wf_size _ _ HT), <-HlS in Hk.
    destruct (lookup_lt_is_Some_2 _ _ Hk) as [y Hy]. rewrite (vget_ok _ _ _ Hy). cbn.
    unfold g. by rewrite Hy.
  - rewrite (wf_pots _ _ HT). symmetry. apply HT.
Qed.

(** TableMultiplication: the second scope must be contained in the first. *)
Lemma table_multiplication_spec T S :
  wf T -> wf S -> (forall v, v ∈ pt_vars S -> v ∈ pt_vars T) ->
  exists T', table_multiplication T S = Ok T' /\ wf T' /\ pt_vars T' = pt_vars T /\
    forall a, valid a -> tval T' a = tval T a * tval S a.
Proof.
  intros HT HS Hsub. unfold table_multiplication.
  assert (exists U, (if bool_decide (pt_nv S < pt_nv T)%nat
     then table_extension S (pt_vars T) (pt_dims T) else Ok S) = Ok U /\ wf U /\
     pt_vars U ≡ₚ pt_vars T /\ forall a, valid a -> tval U a = tval S a) as (U & -> & HU & Hperm & HUv).
  { case_bool_decide as Hlt.
    - rewrite (wf_dims _ _ HT).
      destruct (table_extension_spec S (pt_vars T)) as (U & HU & HwU & Hvars & Hval); try done.
      + apply HT.
      + intros E. rewrite (wf_nv _ _ HT), E in Hlt. cbn in Hlt. lia.
      + exists U. split_and!; try done. by rewrite Hvars.
    - exists S. split_and!; try done.
      apply submseteq_Permutation_length_le.
      + rewrite <-(wf_nv _ _ HT), <-(wf_nv _ _ HS). lia.
      + apply NoDup_submseteq; [apply HS|done]. }
  cbn [mbind outcome_bind].
  assert (exists V, (if bool_decide (pt_vars T ≠ pt_vars U) then table_reorganization U T else Ok U) = Ok V /\
     wf V /\ pt_vars T = pt_vars V /\ forall a, valid a -> tval V a = tval S a) as (V & -> & HV & Hvars & HVv).
  { case_bool_decide as Hne.
    - destruct (table_reorganization_spec U T) as (V & HVo & HwV & Hvars & Hval); try done.
      exists V. split_and!; try done. intros a Ha. rewrite Hval by done. by apply HUv.
    - exists U. split_and!; try done; by apply dec_stable in Hne. }
  cbn [mbind outcome_bind].
  destruct (mult_loop_spec T V) as (T' & Hok & HT' & Hv' & Hval); try done.
  exists T'. split_and!; try done. intros a Ha. rewrite Hval, HVv by done. done.
Qed.

(** *** Marginalisation (scatter-add) *)
(** Sum over the slots of a table = sum over the assignments of its variables. *)
Lemma qsum_slots T a (G : asg -> Qc) (g : nat -> Qc) :
  wf T -> valid a ->
  (forall b, valid b -> (forall v, v ∉ pt_vars T -> b v = a v) ->
     g (lex_index (pt_dims T) (b <$> pt_vars T)) = G b) ->
  qsum (seq 0 (pt_size T)) g = sumv (pt_vars T) G a.
Proof.
  intros HT Ha H. rewrite sumv_configs, (wf_size _ _ HT), <-(wf_dims _ _ HT).
  apply qsum_list_index. intros k cfg Hk. apply configs_lookup in Hk as [Hr <-].
  assert (upds a (pt_vars T) cfg <$> pt_vars T = cfg) as Hm.
  { apply upds_map; [apply HT|]. rewrite (in_range_length _ _ Hr). by apply vars_dims_length. }
  rewrite <-H.
  - by rewrite Hm.
  - apply valid_upds; [done|]. by rewrite <-(wf_dims _ _ HT).
  - intros v Hv. by apply upds_notin.
Qed.

Lemma sumv_indicator ws es F a :
  proper F -> NoDup (ws ++ es) -> valid a ->
  sumv (ws ++ es) (fun b => if bool_decide (b <$> ws = a <$> ws) then F b else 0) a = sumv es F a.
Proof.
  intros HF Hnd Ha. apply NoDup_app in Hnd as (Hnw & Hdisj & Hne).
  rewrite sumv_app.
  transitivity (sumv ws (fun b => if bool_decide (b <$> ws = a <$> ws) then sumv es F b else 0) a).
  - apply sumv_ext; [done|]. intros b Hb _.
    assert (forall es', (forall v, v ∈ es' -> v ∉ ws) -> forall c, c <$> ws = b <$> ws ->
      sumv es' (fun b => if bool_decide (b <$> ws = a <$> ws) then F b else 0) c
      = if bool_decide (b <$> ws = a <$> ws) then sumv es' F c else 0) as Hgen.
    { induction es' as [|v es' IH]; intros Hes c Hc; cbn [Sums.sumv].
      - by rewrite Hc.
      - transitivity (qsum (seq 0 (dom v)) (fun x =>
            if bool_decide (b <$> ws = a <$> ws) then sumv es' F (upd c v x) else 0)).
        + apply qsum_ext. intros x _. apply IH.
          * intros w Hw. apply Hes. by right.
          * rewrite <-Hc. apply list_fmap_ext. intros ? w Hw. apply upd_other.
            intros ->. eapply Hes; [by left|]. by eapply elem_of_list_lookup_2.
        + case_bool_decide; [done|]. by apply qsum_zero. }
    apply Hgen; [|done]. intros v Hv Hw. by apply (Hdisj v).
  - rewrite sumv_select; [|by apply sumv_proper|done|done].
    apply sumv_proper; [done|]. intros v.
    clear. revert a; induction ws as [|w ws IH]; intros a; [done|]. cbn.
    transitivity (upds (upd a w (a w)) ws (upd a w (a w) <$> ws) v).
    + f_equal. apply list_fmap_ext. intros ? u _. unfold upd. case_bool_decide; by subst.
    + rewrite IH. unfold upd. case_bool_decide; by subst.
Qed.

Lemma marginalization_body_spec T ws es :
  wf T -> pt_vars T ≡ₚ ws ++ es ->
  exists T', marginalization_body T (fresh ws) = Ok T' /\ wf T' /\ pt_vars T' = ws /\
    forall a, valid a -> tval T' a = sumv es (tval T) a.
Proof.
  intros HT Hperm. unfold marginalization_body. set (N := fresh ws).
  assert (NoDup (ws ++ es)) as Hnd by (rewrite <-Hperm; apply HT).
  assert (NoDup ws) as Hnw by (by apply NoDup_app in Hnd as (? & _)).
  pose proof (wf_fresh ws Hnw) as HN. fold N in HN.
  destruct (collect_locs T ws (fun i => v ← vget (pt_vars N) i; get_variable_index T v)) as (locs & Hl & Hok).
  { done. }
  { intros w Hw. rewrite Hperm. apply elem_of_app. by left. }
  { intros i w Hi. change (pt_vars N) with ws. by rewrite (vget_ok _ _ _ Hi). }
  change (pt_nv N) with (length ws). rewrite Hl. cbn [mbind outcome_bind].
  destruct (index_map T ws (marginalization_main N (pt_nv T) (pt_cum T) locs)) as (tidx & Hti & Htl & Htv); [done| |].
  { intros a Ha. unfold marginalization_main. fold (get_config T (lex_index (pt_dims T) (a <$> pt_vars T))).
    rewrite get_config_spec by done. cbn [mbind outcome_bind]. change (pt_nv N) with (length ws).
    rewrite project_config by done. cbn [mbind outcome_bind].
    change ws with (pt_vars N). rewrite get_index_ok by done. done. }
  rewrite Hti. cbn [mbind outcome_bind]. unfold marginalization_post.
  destruct (mfor_scatter_add (pt_size T) (pt_size N) tidx (pt_pots T) (pt_pots N)) as (pots & Hok2 & Hpl & Hp).
  - done.
  - rewrite (wf_pots _ _ HT). symmetry; apply HT.
  - rewrite (wf_pots _ _ HN). symmetry; apply HN.
  - intros k j Hj. pose proof (lookup_lt_Some _ _ _ Hj) as Hk. rewrite Htl in Hk.
    destruct (slot_asg T k HT Hk) as (a & Ha & <- & _). rewrite Htv in Hj by done. simplify_eq.
    by apply (lex_index_lt_size N a).
  - rewrite Hok2. cbn [mbind outcome_bind]. eexists; split; [done|].
    split_and!; [by apply wf_set_pots|done|]. intros a Ha.
    unfold tval at 1. cbn [pt_pots pt_dims pt_vars].
    rewrite Hp by (by apply lex_index_lt_size). cbn [default from_option]. unfold id.
    replace (default 0 (pt_pots N !! lex_index (pt_dims N) (a <$> pt_vars N))) with 0.
    2: { cbn. rewrite lookup_replicate_2; [done|].
         pose proof (lex_index_lt_size N a HN Ha) as H. done. }
    rewrite (qsum_slots T a (fun b => if bool_decide (b <$> ws = a <$> ws) then tval T b else 0)); [|done|done|].
    + rewrite (sumv_perm _ (pt_vars T) (ws ++ es)); [|  |apply HT|done].
      * rewrite sumv_indicator; [ring|apply tval_proper|done|done].
      * intros b c Hbc. replace (b <$> ws) with (c <$> ws) by (apply list_fmap_ext; auto).
        case_bool_decide; [|done]. by apply tval_proper.
    + intros b Hb Hba. rewrite Htv by done.
      destruct (decide (b <$> ws = a <$> ws)) as [E|E].
      * rewrite !bool_decide_true; [|done|]. { by rewrite (tval_lookup T b HT Hb). }
        by rewrite E.
      * rewrite !bool_decide_false; [done|done|]. intros [= Hli]. apply E.
        cbn in Hli. apply lex_index_inj in Hli; [done| |]; by apply valid_in_range.
Qed.

Lemma marginalization_pre_spec ws : marginalization_pre ws (dom <$> ws) = Ok (fresh ws).
Proof.
  unfold marginalization_pre. destruct (decide (ws = [])) as [->|Hne]; [done|].
  rewrite bool_decide_true by (destruct ws; [done|cbn; lia]).
  replace (length ws) with (length (dom <$> ws)) at 1 by apply fmap_length.
  rewrite (cum_and_size (dom <$> ws) (fun cum n =>
    Ok (mkPT ws (replicate n 0) (dom <$> ws) cum (length ws) n))); [done|by destruct ws].
Qed.

Lemma table_marginalization_spec T ws es :
  wf T -> pt_vars T ≡ₚ ws ++ es ->
  exists T', table_marginalization T ws (dom <$> ws) = Ok T' /\ wf T' /\ pt_vars T' = ws /\
    forall a, valid a -> tval T' a = sumv es (tval T) a.
Proof.
  intros HT Hp. unfold table_marginalization. rewrite marginalization_pre_spec. cbn [mbind outcome_bind].
  by apply marginalization_body_spec.
Qed.

(** Removing one variable. *)
Lemma drop_var_spec vars v :
  NoDup vars -> v ∈ vars ->
  drop_var vars (dom <$> vars) v = Ok (without v vars, dom <$> without v vars).
Proof.
  induction vars as [|w vars IH]; intros Hnd Hv; [by apply elem_of_nil in Hv|].
  apply NoDup_cons in Hnd as [Hw Hnd]. cbn [drop_var fmap list_fmap]. unfold without.
  rewrite filter_cons.
  case_bool_decide as Hwv.
  - subst w. rewrite decide_False by tauto.
    assert (filter (fun w => w ≠ v) vars = vars) as ->; [|done].
    clear -Hw. induction vars as [|u vars IH]; [done|]. rewrite filter_cons.
    apply not_elem_of_cons in Hw as [Huv Hw]. rewrite decide_True by done. by rewrite IH.
  - rewrite decide_True by done. apply elem_of_cons in Hv as [->|Hv]; [done|].
    rewrite IH by done. cbn. done.
Qed.

Lemma filter_zip v vars :
  filter (fun vd : nat * nat => fst vd ≠ v) (zip vars (dom <$> vars))
  = zip (without v vars) (dom <$> without v vars).
Proof.
  induction vars as [|w vars IH]; [done|]. unfold without. cbn [fmap list_fmap zip_with].
  rewrite !filter_cons. cbn [fst].
  destruct (decide (w ≠ v)); cbn [fmap list_fmap zip_with]; by rewrite IH.
Qed.

Lemma fmap_snd_zip vs : snd <$> zip vs (dom <$> vs) = dom <$> vs.
Proof. apply snd_zip. by rewrite fmap_length. Qed.
Lemma fmap_fst_zip vs : fst <$> zip vs (dom <$> vs) = vs.
Proof. apply fst_zip. by rewrite fmap_length. Qed.

Lemma without_nil_iff T v : wf T -> v ∈ pt_vars T -> (pt_nv T - 1 = 0)%nat -> without v (pt_vars T) = [].
Proof.
  intros HT Hv Hn. apply length_zero_iff_nil. rewrite without_length; [|apply HT|done].
  rewrite <-(wf_nv _ _ HT). done.
Qed.

Lemma marginalization_ext_pre_spec T v :
  wf T -> v ∈ pt_vars T -> marginalization_ext_pre T v = Ok (fresh (without v (pt_vars T))).
Proof.
  intros HT Hv. unfold marginalization_ext_pre.
  assert (0 < pt_nv T)%nat as Hpos.
  { rewrite (wf_nv _ _ HT). destruct (pt_vars T); [by apply elem_of_nil in Hv|cbn; lia]. }
  rewrite bool_decide_false by lia. case_bool_decide as Hz.
  - rewrite (without_nil_iff T v) by done. cbn. by rewrite Hz.
  - rewrite (wf_dims _ _ HT), drop_var_spec by (try done; apply HT). cbn [mbind outcome_bind].
    rewrite filter_zip, fmap_snd_zip. cbn [fst snd].
    set (ws := without v (pt_vars T)).
    assert (length ws = (pt_nv T - 1)%nat) as Hlen.
    { unfold ws. rewrite without_length; [|apply HT|done]. by rewrite (wf_nv _ _ HT). }
    rewrite <-Hlen. replace (length ws) with (length (dom <$> ws)) at 1 by apply fmap_length.
    rewrite (cum_and_size (dom <$> ws) (fun cum n =>
      Ok (mkPT ws (replicate n 0) (dom <$> ws) cum (length ws) n))); [done|].
    destruct ws; [cbn in Hlen; lia|done].
Qed.

Lemma marginalization_one_pre_spec T v :
  wf T -> v ∈ pt_vars T -> marginalization_one_pre T v = Ok (fresh (without v (pt_vars T))).
Proof.
  intros HT Hv. unfold marginalization_one_pre.
  assert (0 < pt_nv T)%nat as Hpos.
  { rewrite (wf_nv _ _ HT). destruct (pt_vars T); [by apply elem_of_nil in Hv|cbn; lia]. }
  rewrite bool_decide_false by lia. case_bool_decide as Hz.
  - rewrite (without_nil_iff T v) by done. cbn. by rewrite Hz.
  - rewrite (wf_dims _ _ HT), filter_zip, fmap_snd_zip, fmap_fst_zip.
    set (ws := without v (pt_vars T)).
    assert (length ws = (pt_nv T - 1)%nat) as Hlen.
    { unfold ws. rewrite without_length; [|apply HT|done]. by rewrite (wf_nv _ _ HT). }
    rewrite bool_decide_false.
    2: { rewrite zip_with_length, fmap_length, Hlen. lia. }
    rewrite <-Hlen. replace (length ws) with (length (dom <$> ws)) at 1 by apply fmap_length.
    rewrite (cum_and_size (dom <$> ws) (fun cum n =>
      Ok (mkPT ws (replicate n 0) (dom <$> ws) cum (length ws) n))); [done|].
    destruct ws; [cbn in Hlen; lia|done].
Qed.

Lemma table_marginalization_ext_spec T v :
  wf T -> v ∈ pt_vars T ->
  exists T', table_marginalization_ext T v = Ok T' /\ wf T' /\ pt_vars T' = without v (pt_vars T) /\
    forall a, valid a -> tval T' a = qsum (seq 0 (dom v)) (fun x => tval T (upd a v x)).
Proof.
  intros HT Hv. unfold table_marginalization_ext.
  rewrite marginalization_ext_pre_spec by done. cbn [mbind outcome_bind].
  apply (marginalization_body_spec T (without v (pt_vars T)) [v]); [done|].
  rewrite (without_perm v (pt_vars T)) at 1; [|apply HT|done]. apply Permutation_cons_append.
Qed.
Lemma table_marginalization_one_spec T v :
  wf T -> v ∈ pt_vars T ->
  exists T', table_marginalization_one T v = Ok T' /\ wf T' /\ pt_vars T' = without v (pt_vars T) /\
    forall a, valid a -> tval T' a = qsum (seq 0 (dom v)) (fun x => tval T (upd a v x)).
Proof.
  intros HT Hv. unfold table_marginalization_one.
  rewrite marginalization_one_pre_spec by done. cbn [mbind outcome_bind].
  apply (marginalization_body_spec T (without v (pt_vars T)) [v]); [done|].
  rewrite (without_perm v (pt_vars T)) at 1; [|apply HT|done]. apply Permutation_cons_append.
Qed.
End tables.
