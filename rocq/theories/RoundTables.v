(** Tables in exact and in rounded arithmetic, side by side. *)
From Coq Require Import Field QArith.
From Verif Require Import RoundModel RoundSpec ParProofs RoundProofs TableSpec TableProofs.
Local Open Scope Qc_scope.

Definition zeros (t : ptable) : Prop := forall i x, pt_pots t !! i = Some x -> x = 0.
Lemma seq_at n dn i rest : seq 0 n = dn ++ i :: rest -> (i = length dn /\ i < n)%nat.
Proof.
  intros E. assert (seq 0 n !! length dn = Some i) as H. { rewrite E, lookup_app_r, Nat.sub_diag by lia. done. }
  apply lookup_seq in H. cbn in H. lia.
Qed.
Section tables.
Context (dom : nat -> nat) (c : Qc) (rnd : Qc -> Qc) (Hr : rounds c rnd).
Notation apart := (apart c).
Notation wf := (wf dom).

(** The same shape. *)
Definition alike (t t' : ptable) : Prop := wf t /\ wf t' /\ pt_vars t' = pt_vars t.
Lemma alike_fields t t' : alike t t' ->
  pt_vars t' = pt_vars t /\ pt_dims t' = pt_dims t /\ pt_cum t' = pt_cum t /\ pt_nv t' = pt_nv t /\ pt_size t' = pt_size t /\
  length (pt_pots t) = pt_size t /\ length (pt_pots t') = pt_size t.
Proof using.
  intros (H & H' & Hv). assert (pt_dims t' = pt_dims t) as Hd by (by rewrite (wf_dims _ _ H), (wf_dims _ _ H'), Hv).
  rewrite (wf_cum _ _ H), (wf_cum _ _ H'), (wf_nv _ _ H), (wf_nv _ _ H'), (wf_size _ _ H), (wf_size _ _ H'), (wf_pots _ _ H), (wf_pots _ _ H'), Hd, Hv. done.
Qed.
Definition with_entries (t : ptable) (p : list Qc) : ptable := mkPT (pt_vars t) p (pt_dims t) (pt_cum t) (pt_nv t) (pt_size t).
Lemma alike_with t t' p p' : alike t t' -> length p = pt_size t -> length p' = pt_size t -> alike (with_entries t p) (with_entries t' p').
Proof using.
  intros A L L'. pose proof (alike_fields _ _ A) as (_ & _ & _ & _ & Hs & _). destruct A as (H & H' & Hv). rewrite <-Hs in L'.
  split_and!; [split; cbn; try apply H; by rewrite L, (wf_size _ _ H)|split; cbn; try apply H'; by rewrite L', (wf_size _ _ H')|done].
Qed.
Lemma get_config_alike t t' k : alike t t' -> get_config t' k = get_config t k.
Proof using. intros (H1 & H2 & H3 & H4 & H5 & _)%alike_fields. unfold get_config. by rewrite H3, H4. Qed.
Lemma get_index_alike t t' cfg : alike t t' -> get_index t' cfg = get_index t cfg.
Proof using. intros (H1 & H2 & H3 & H4 & H5 & _)%alike_fields. unfold get_index. by rewrite H3, H4. Qed.
Lemma variable_index_alike t t' v : alike t t' -> get_variable_index t' v = get_variable_index t v.
Proof using. intros (H1 & H2 & H3 & H4 & H5 & _)%alike_fields. unfold get_variable_index. by rewrite ?H1, ?H2, ?H3, ?H4. Qed.
Lemma marginalization_main_alike t t' nv cl locs k : alike t t' -> marginalization_main t' nv cl locs k = marginalization_main t nv cl locs k.
Proof using. intros H. pose proof (alike_fields _ _ H) as (H1 & H2 & H3 & H4 & H5 & _). unfold marginalization_main. rewrite H4. destruct (get_config_nv _ _ _); [|done]. cbn. destruct (mcollect _ _); [|done]. cbn. by apply get_index_alike. Qed.
Lemma extension_main_alike t t' nv cl locs k : alike t t' -> extension_main t' nv cl locs k = extension_main t nv cl locs k.
Proof using. intros H. unfold extension_main. by rewrite (get_config_alike t t' k H). Qed.
Lemma reduction_main_alike t t' loc i : alike t t' -> reduction_main t' loc i = reduction_main t loc i.
Proof using. intros H. unfold reduction_main. by rewrite (get_config_alike t t' i H). Qed.

(** The entries of [t'] are those of [t] times [s], up to [k] roundings. *)
Definition similar (s : Qc) (k : nat) (t t' : ptable) : Prop :=
  alike t t' /\ forall i x y, pt_pots t !! i = Some x -> pt_pots t' !! i = Some y -> apart k (s * x) y.
(** The same for some [s]. *)
Definition tnear (k : nat) (t t' : ptable) : Prop := exists s, 0 < s /\ similar s k t t'.
Lemma similar_weaken s j k t t' : (j <= k)%nat -> similar s j t t' -> similar s k t t'.
Proof using Hr. intros H [H1 H2]. split; [done|]. intros i x y Hx Hy. eapply apart_weaken; [done|exact H|by eapply H2]. Qed.
Lemma tnear_weaken j k t t' : (j <= k)%nat -> tnear j t t' -> tnear k t t'.
Proof using Hr. intros H (s & Hs & Ht). exists s. split; [done|by eapply similar_weaken]. Qed.
Lemma tnear_alike k t t' : tnear k t t' -> alike t t'.
Proof using. by intros (s & _ & ? & _). Qed.

Lemma table_zero_alike t t' : alike t t' -> orel (fun r r' => alike r r' /\ zeros r /\ zeros r' /\ pt_vars r = pt_vars t /\ pt_nv r = pt_nv t /\ pt_size r = pt_size t) (table_zero t) (table_zero t').
Proof using.
  intros A; pose proof (alike_fields _ _ A) as (H1 & H2 & H3 & H4 & H5 & H6 & H7). unfold table_zero. rewrite H5 at 1. eapply orel_bind.
  - apply (orel_mfor (fun dn p p' => length p = pt_size t /\ length p' = pt_size t /\ forall i x, (p !! i = Some x \/ p' !! i = Some x) -> (i < length dn)%nat -> x = 0)).
    + split_and!; [done|done|]. cbn. lia.
    + intros dn i rest p p' E (L1 & L2 & Hp). destruct (seq_at _ _ _ _ E) as [Hi Hlt]. eapply orel_mono; [|apply orel_vset_at; congruence].
      cbn. intros q q' (_ & -> & ->). rewrite !insert_length, app_length. split_and!; [done|done|]. intros j x Hx Hj. cbn in Hj.
      destruct (decide (j = i)) as [->|Hne].
      * destruct Hx as [Hx|Hx]; rewrite list_lookup_insert in Hx by lia; by simplify_eq.
      * rewrite !list_lookup_insert_ne in Hx by done. apply (Hp j x Hx). lia.
  - intros p p' (L1 & L2 & Hp). rewrite seq_length in Hp. split_and!; try done; [by apply alike_with| |].
    + intros i x Hx. cbn in Hx. apply (Hp i x); [by left|]. apply lookup_lt_Some in Hx. lia.
    + intros i x Hx. cbn in Hx. apply (Hp i x); [by right|]. apply lookup_lt_Some in Hx. lia.
Qed.

(** Scatter-add. *)
Lemma marginalization_post_near s k new new' old old' tidx : alike new new' -> zeros new -> zeros new' -> similar s k old old' ->
  orel (fun r r' => similar s (k + pt_size old) r r' /\ pt_vars r = pt_vars new /\ pt_size r = pt_size new) (marginalization_post new old tidx) (marginalization_post_r rnd new' old' tidx).
Proof using Hr.
  intros A; pose proof (alike_fields _ _ A) as (H1 & H2 & H3 & H4 & H5 & H6 & H7); intros Hz Hz' [B Hold]. pose proof (alike_fields _ _ B) as (_ & _ & _ & _ & G5 & G6 & G7). unfold marginalization_post, marginalization_post_r. rewrite G5. eapply orel_bind.
  - apply (orel_mfor (fun dn p p' => length p = pt_size new /\ length p' = pt_size new /\ forall i x y, p !! i = Some x -> p' !! i = Some y -> apart (k + length dn) (s * x) y)).
    + split_and!; [done|done|]. intros i x y Hx Hy. rewrite (Hz i x Hx), (Hz' i y Hy). replace (s * 0) with 0 by ring. apply (apart_refl c rnd Hr). apply Qcle_refl.
    + intros dn i rest p p' E (L1 & L2 & Hp). apply orel_same. intros j _. eapply orel_bind; [apply orel_vget_at; congruence|]. intros x x' [Hx Hx']. cbn beta.
      eapply orel_bind; [apply orel_vget_at; congruence|]. intros y y' [Hy Hy']. eapply orel_mono; [|apply orel_vset_at; congruence].
      cbn. intros q q' (Hj & -> & ->). rewrite !insert_length, app_length. split_and!; [done|done|]. cbn.
      replace (k + (length dn + 1))%nat with (S (k + length dn)) by lia. intros a u v Hu Hv. destruct (decide (a = j)) as [->|Hne].
      * rewrite list_lookup_insert in Hu, Hv by lia. simplify_eq. rewrite Qcmult_plus_distr_r. apply (apart_add c rnd Hr); [by eapply Hp|].
        eapply (apart_weaken c rnd Hr); [|by eapply Hold]. lia.
      * rewrite list_lookup_insert_ne in Hu, Hv by done. eapply (apart_weaken c rnd Hr); [|by eapply Hp]. lia.
  - intros p p' (L1 & L2 & Hp). rewrite seq_length in Hp. cbn. split_and!; [|done|done]. split; [by apply alike_with|]. cbn. exact Hp.
Qed.

(** Gather. *)
Lemma extension_post_near s k big big' small small' tidx : alike big big' -> similar s k small small' ->
  orel (fun r r' => similar s k r r' /\ pt_vars r = pt_vars big /\ pt_size r = pt_size big) (extension_post big small tidx) (extension_post big' small' tidx).
Proof using Hr.
  intros A; pose proof (alike_fields _ _ A) as (H1 & H2 & H3 & H4 & H5 & H6 & H7); intros [B Hsm]. pose proof (alike_fields _ _ B) as (_ & _ & _ & _ & G5 & G6 & G7). unfold extension_post. rewrite H5 at 1. eapply orel_bind.
  - apply (orel_mfor (fun dn p p' => length p = pt_size big /\ length p' = pt_size big /\ forall i x y, (i < length dn)%nat -> p !! i = Some x -> p' !! i = Some y -> apart k (s * x) y)).
    + split_and!; [done|done|]. cbn. lia.
    + intros dn i rest p p' E (L1 & L2 & Hp). destruct (seq_at _ _ _ _ E) as [Hi Hlt]. apply orel_same. intros j _. eapply orel_bind; [apply orel_vget_at; congruence|]. intros x x' [Hx Hx']. cbn beta.
      eapply orel_mono; [|apply orel_vset_at; congruence]. cbn. intros q q' (_ & -> & ->). rewrite !insert_length, app_length. split_and!; [done|done|]. cbn.
      intros a u v Ha Hu Hv. destruct (decide (a = i)) as [->|Hne].
      * rewrite list_lookup_insert in Hu, Hv by lia. simplify_eq. by eapply Hsm.
      * rewrite list_lookup_insert_ne in Hu, Hv by done. eapply Hp; [|done|done]. lia.
  - intros p p' (L1 & L2 & Hp). rewrite seq_length in Hp. cbn. split_and!; [|done|done]. split; [by apply alike_with|]. cbn. intros i x y Hx Hy. eapply Hp; [|done|done]. apply lookup_lt_Some in Hx. lia.
Qed.
Lemma reorganization_post_near s k new new' old old' tidx : alike new new' -> zeros new -> zeros new' -> similar s k old old' ->
  orel (fun r r' => similar s k r r' /\ pt_vars r = pt_vars new /\ pt_size r = pt_size new) (reorganization_post new old tidx) (reorganization_post new' old' tidx).
Proof using Hr.
  intros A; pose proof (alike_fields _ _ A) as (H1 & H2 & H3 & H4 & H5 & H6 & H7); intros Hz Hz' [B Hold]. pose proof (alike_fields _ _ B) as (_ & _ & _ & _ & G5 & G6 & G7). unfold reorganization_post. rewrite H5 at 1. eapply orel_bind.
  - apply (orel_mfor_plain (fun p p' => length p = pt_size new /\ length p' = pt_size new /\ forall i x y, p !! i = Some x -> p' !! i = Some y -> apart k (s * x) y)).
    + split_and!; [done|done|]. intros i x y Hx Hy. rewrite (Hz i x Hx), (Hz' i y Hy). replace (s * 0) with 0 by ring. apply (apart_refl c rnd Hr). apply Qcle_refl.
    + intros i p p' E (L1 & L2 & Hp). apply orel_same. intros j _. eapply orel_bind; [apply orel_vget_at; congruence|]. intros x x' [Hx Hx']. cbn beta.
      eapply orel_mono; [|apply orel_vset_at; congruence]. cbn. intros q q' (Hj & -> & ->). rewrite !insert_length. split_and!; [done|done|].
      intros a u v Hu Hv. destruct (decide (a = j)) as [->|Hne].
      * rewrite list_lookup_insert in Hu, Hv by lia. simplify_eq. by eapply Hold.
      * rewrite list_lookup_insert_ne in Hu, Hv by done. by eapply Hp.
  - intros p p' (L1 & L2 & Hp). cbn. split_and!; [|done|done]. split; [by apply alike_with|]. cbn. exact Hp.
Qed.
Lemma mult_loop_near s s' k k' t t' u u' : 0 < s -> similar s k t t' -> similar s' k' u u' -> pt_size u = pt_size t ->
  orel (fun r r' => similar (s * s') (S (k + k')) r r' /\ pt_vars r = pt_vars t /\ pt_size r = pt_size t) (mult_loop t u) (mult_loop_r rnd t' u').
Proof using Hr.
  intros Hs [A Ht] [B Hu] Hsz. pose proof (alike_fields _ _ A) as (H1 & H2 & H3 & H4 & H5 & H6 & H7). pose proof (alike_fields _ _ B) as (_ & _ & _ & _ & G5 & G6 & G7). unfold mult_loop, mult_loop_r. rewrite H5 at 1. eapply orel_bind.
  - apply (orel_mfor (fun dn p p' => length p = pt_size t /\ length p' = pt_size t /\
      forall i x y, p !! i = Some x -> p' !! i = Some y -> if decide (i < length dn)%nat then apart (S (k + k')) (s * s' * x) y else apart k (s * x) y)).
    + split_and!; [done|done|]. intros i x y Hx Hy. case_decide; [cbn in *; lia|]. by eapply Ht.
    + intros dn i rest p p' E (L1 & L2 & Hp). destruct (seq_at _ _ _ _ E) as [Hi Hlt]. eapply orel_bind; [apply orel_vget_at; congruence|]. intros x x' [Hx Hx']. cbn beta.
      eapply orel_bind; [apply orel_vget_at; congruence|]. intros y y' [Hy Hy']. eapply orel_mono; [|apply orel_vset_at; congruence].
      cbn. intros q q' (_ & -> & ->). rewrite !insert_length, app_length. split_and!; [done|done|]. cbn. intros a v w Hv Hw. destruct (decide (a = i)) as [->|Hne].
      * rewrite list_lookup_insert in Hv, Hw by lia. simplify_eq. rewrite decide_True by lia. replace (s * s' * (x * y)) with ((s * x) * (s' * y)) by ring.
        apply (apart_mul c rnd Hr); [|by eapply Hu]. specialize (Hp _ _ _ Hx Hx'). by rewrite decide_False in Hp by lia.
      * rewrite list_lookup_insert_ne in Hv, Hw by done. specialize (Hp _ _ _ Hv Hw). destruct (decide (a < length dn)%nat); [by rewrite decide_True by lia|by rewrite decide_False by lia].
  - intros p p' (L1 & L2 & Hp). rewrite seq_length in Hp. cbn. split_and!; [|done|done]. split; [by apply alike_with|]. cbn. intros i x y Hx Hy. specialize (Hp _ _ _ Hx Hy).
    rewrite decide_True in Hp; [done|]. apply lookup_lt_Some in Hx. lia.
Qed.

(** Normalisation: up to a scale one rounding more, and without scale about twice as many. *)
Lemma table_normalize_near s k t t' : 0 < s -> similar s k t t' ->
  orel (fun r r' => tnear (S k) r r' /\ similar 1 (S (k + (k + pt_size t))) r r' /\ pt_vars r = pt_vars t /\ pt_size r = pt_size t) (table_normalize t) (table_normalize_r rnd t').
Proof using Hr.
  intros Hs [A Ht]. pose proof (alike_fields _ _ A) as (H1 & H2 & H3 & H4 & H5 & H6 & H7). unfold table_normalize, table_normalize_r. rewrite H5 at 1.
  assert (s <> 0) as Hsz by (intros ->; by apply (Qclt_not_eq _ _ Hs)).
  eapply orel_bind with (R := fun X Y => apart (k + pt_size t) (s * X) Y).
  - eapply orel_mono; [|apply (orel_mfor (fun dn X Y => apart (k + length dn) (s * X) Y))].
    + cbn. intros X Y. by rewrite seq_length.
    + replace (s * 0) with 0 by ring. apply (apart_refl c rnd Hr). apply Qcle_refl.
    + intros dn i rest X Y E HX. eapply orel_bind; [apply orel_vget_at; congruence|]. intros x y [Hx Hy]. cbn. rewrite app_length. cbn.
      replace (k + (length dn + 1))%nat with (S (k + length dn)) by lia. rewrite Qcmult_plus_distr_r. apply (apart_add c rnd Hr); [done|].
      eapply (apart_weaken c rnd Hr); [|by eapply Ht]. lia.
  - intros X Y HXY. assert (X = 0 <-> Y = 0) as Hz.
    { rewrite <-(apart_zero c _ _ _ HXY). split; [intros ->; ring|]. intros [?|?]%Qcmult_integral; done. }
    rewrite H5 at 1. eapply orel_bind.
    + apply (orel_mfor (fun dn p p' => length p = pt_size t /\ length p' = pt_size t /\ (dn <> [] -> X <> 0) /\
        forall i x y, p !! i = Some x -> p' !! i = Some y -> if decide (i < length dn)%nat then apart (S k) (s * X / Y * x) y /\ apart (S (k + (k + pt_size t))) x y else apart k (s * x) y)).
      * split_and!; [done|done|done|]. intros i x y Hx Hy. case_decide; [cbn in *; lia|]. by eapply Ht.
      * intros dn i rest p p' E (L1 & L2 & _ & Hp). destruct (seq_at _ _ _ _ E) as [Hi Hlt]. eapply orel_bind; [apply orel_vget_at; congruence|]. intros x y [Hx Hy]. cbn beta.
        destruct (decide (X = 0)) as [HX|HX]; [rewrite !bool_decide_true; [done|by apply Hz|done]|]. assert (Y <> 0) as HY by (by rewrite <-Hz). rewrite !bool_decide_false by done.
        eapply orel_mono; [|apply orel_vset_at; congruence]. cbn. intros q q' (_ & -> & ->). rewrite !insert_length, app_length. split_and!; [done|done|done|]. cbn. intros a v w Hv Hw. destruct (decide (a = i)) as [->|Hne].
        -- rewrite list_lookup_insert in Hv, Hw by lia. simplify_eq. rewrite decide_True by lia. specialize (Hp _ _ _ Hx Hy). rewrite decide_False in Hp by lia. split.
           ++ replace (s * X / Y * (x / X)) with (/ Y * (s * x)) by (by field). apply (apart_rnd c rnd Hr). replace (y / Y) with (/ Y * y) by (by field).
              apply within_scale; [|done]. apply Qc_inv_nn. by apply HXY.
           ++ replace (x / X) with ((s * x) / (s * X)) by (field; done). apply (apart_div c rnd Hr); [|done|done]. intros [?|?]%Qcmult_integral; done.
        -- rewrite list_lookup_insert_ne in Hv, Hw by done. specialize (Hp _ _ _ Hv Hw). destruct (decide (a < length dn)%nat); [by rewrite decide_True by lia|by rewrite decide_False by lia].
    + intros p p' (L1 & L2 & Hnz & Hp). rewrite seq_length in Hp. assert (alike (with_entries t p) (with_entries t' p')) as A' by (by apply alike_with).
      assert (forall i x y, p !! i = Some x -> p' !! i = Some y -> apart (S k) (s * X / Y * x) y /\ apart (S (k + (k + pt_size t))) x y) as Hq.
      { intros i x y Hx Hy. specialize (Hp _ _ _ Hx Hy). rewrite decide_True in Hp; [done|]. apply lookup_lt_Some in Hx. lia. }
      cbn. split_and!; [|split; [done|]|done|done].
      * destruct (decide (X = 0)) as [HX|HX].
        -- exists 1. split; [done|]. split; [done|]. cbn. intros i x y Hx Hy. exfalso. apply Hnz; [|done]. apply lookup_lt_Some in Hx. rewrite L1 in Hx. destruct (pt_size t); [lia|done].
        -- assert (Y <> 0) as HY by (by rewrite <-Hz). exists (s * X / Y). split.
           ++ destruct HXY as (G1 & G2 & _). apply Qc_nn_pos; [unfold Qcdiv; apply Qcmul_nn; [done|by apply Qc_inv_nn]|].
              intros G. apply HX. assert (s * X / Y * Y / s = 0) as G' by (rewrite G; field; done). by replace (s * X / Y * Y / s) with X in G' by (by field).
           ++ split; [done|]. cbn. intros i x y Hx Hy. by apply (Hq i x y).
      * cbn. intros i x y Hx Hy. replace (1 * x) with x by ring. by apply (Hq i x y).
Qed.
(** [TableMarginalization] onto one variable. *)
Lemma table_marginalization_near s k t t' ws : (forall v, 0 < dom v)%nat -> NoDup ws -> similar s k t t' ->
  orel (fun r r' => similar s (k + pt_size t) r r' /\ pt_vars r = ws) (table_marginalization t ws (dom <$> ws)) (table_marginalization_r rnd t' ws (dom <$> ws)).
Proof using Hr.
  intros dom_pos Hnd Hsim. pose proof Hsim as [A _]. pose proof (alike_fields _ _ A) as (H1 & H2 & H3 & H4 & H5 & H6 & H7).
  unfold table_marginalization, table_marginalization_r. rewrite marginalization_pre_spec by done. cbn [mbind outcome_bind].
  assert (alike (TableProofs.fresh dom ws) (TableProofs.fresh dom ws)) as F by (pose proof (wf_fresh dom dom_pos ws Hnd); by split_and!).
  assert (zeros (TableProofs.fresh dom ws)) as Z. { intros i x Hx. cbn in Hx. by apply lookup_replicate in Hx as [-> _]. }
  unfold marginalization_body, marginalization_body_r. rewrite H3, H4, H5.
  rewrite (mcollect_ext _ (fun i => v ← vget (pt_vars (TableProofs.fresh dom ws)) i; get_variable_index t' v) (fun i => v ← vget (pt_vars (TableProofs.fresh dom ws)) i; get_variable_index t v)).
  2: { intros i _. destruct (vget _ _); [|done]. cbn. by apply variable_index_alike. }
  apply orel_same. intros locs _. apply orel_same. intros tidx _.
  eapply orel_mono; [|by apply (marginalization_post_near s k _ _ t t' tidx F Z Z)]. cbn. tauto.
Qed.
End tables.
