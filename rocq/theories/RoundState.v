(** One step of message passing in exact and in rounded arithmetic, side by side. *)
From Coq Require Import Field QArith.
From Verif Require Import RoundModel RoundSpec ParProofs PassProofs EvidenceProofs RoundProofs RoundTables TableSpec TableProofs.
Local Open Scope Qc_scope.

Lemma orel_mcollect_at {I I' A A'} (R : nat -> A -> A' -> Prop) (l : list I) (l' : list I') f f' : length l = length l' ->
  (forall k i i', l !! k = Some i -> l' !! k = Some i' -> orel (R k) (f i) (f' i')) ->
  orel (fun x x' => length x = length l /\ length x' = length l /\ forall k a a', x !! k = Some a -> x' !! k = Some a' -> R k a a') (mcollect l f) (mcollect l' f').
Proof.
  revert R l'. induction l as [|i l IH]; intros R [|i' l'] Hl Hf; try done; cbn [mcollect]. injection Hl as Hl. eapply orel_bind; [by apply (Hf 0%nat)|].
  intros a a' Ha. eapply orel_bind; [apply (IH (fun k => R (S k))); [done|intros k x x' Hx Hx'; by apply (Hf (S k))]|]. intros b b' (H1 & H2 & H3). cbn. split_and!; [by f_equal|by f_equal|].
  intros [|k] x x' Hx Hx'; cbn in *; [by simplify_eq|by eapply H3].
Qed.
Lemma finite_choice (P : nat -> Qc -> Prop) n : (forall j, (j < n)%nat -> exists s, P j s) -> exists f, forall j, (j < n)%nat -> P j (f j).
Proof.
  induction n as [|n IH]; intros H; [exists (fun _ => 0); lia|]. destruct IH as [f Hf]; [intros j Hj; apply H; lia|]. destruct (H n) as [s Hs]; [lia|].
  exists (fun j => if decide (j = n) then s else f j). intros j Hj. destruct (decide (j = n)) as [->|]; [done|]. apply Hf. lia.
Qed.
Lemma sizes_eq (l l' : list ptable) : length l = length l' -> (forall k a a', l !! k = Some a -> l' !! k = Some a' -> pt_size a' = pt_size a) -> pt_size <$> l' = pt_size <$> l.
Proof.
  intros Hl H. apply list_eq. intros k. rewrite !list_lookup_fmap. destruct (l !! k) as [a|] eqn:E.
  - destruct (lookup_lt_is_Some_2 l' k) as [a' E']; [rewrite <-Hl; by eapply lookup_lt_Some|]. rewrite E'. cbn. f_equal. by eapply H.
  - apply lookup_ge_None in E. rewrite Hl in E. apply lookup_ge_None in E. by rewrite E.
Qed.
Lemma partner {A A'} (l : list A) (l' : list A') k x : length l = length l' -> l !! k = Some x -> exists x', l' !! k = Some x'.
Proof. intros Hl Hx. apply lookup_lt_is_Some_2. rewrite <-Hl. by eapply lookup_lt_Some. Qed.
Lemma vget_bind_eq {A A' B} (l : list A) (l' : list A') (f : A -> outcome B) (f' : A' -> outcome B) j : length l = length l' ->
  (forall a a', l !! j = Some a -> l' !! j = Some a' -> f' a' = f a) -> vget l' j ≫= f' = vget l j ≫= f.
Proof.
  intros Hl H. apply orel_eq. eapply orel_bind; [by apply orel_vget_at|]. intros a' a [Ha' Ha]. rewrite (H a a') by done. apply orel_refl.
Qed.

Section state.
Context (dom : nat -> nat) (c : Qc) (rnd : Qc -> Qc) (Hr : rounds c rnd).
Notation apart := (apart c).
Notation similar := (similar dom c).
Notation tnear := (tnear dom c).
Notation alike := (alike dom).

(** Two states of the tables: the table at [x] is [k x] roundings away, up to a scale, and no table
    has more than [M] entries. *)
Definition srel (M : nat) (k : tnode -> nat) (st st' : tabs) : Prop :=
  length (t_c st) = length (t_c st') /\ length (t_s st) = length (t_s st') /\
  forall x t t', tabof st x = Some t -> tabof st' x = Some t' -> tnear (k x) t t' /\ (pt_size t <= M)%nat.
Lemma srel_weaken M k k' st st' : (forall x, k x <= k' x)%nat -> srel M k st st' -> srel M k' st st'.
Proof using Hr. intros Hk (H1 & H2 & H). split_and!; [done|done|]. intros x t t' Ht Ht'. destruct (H x t t' Ht Ht'). split; [eapply (tnear_weaken dom c rnd Hr); [apply Hk|done]|done]. Qed.
Lemma set_tabs_rel M k st st' nodes : forall ts ts', length ts = length ts' -> srel M k st st' ->
  (forall j x t t', nodes !! j = Some x -> ts !! j = Some t -> ts' !! j = Some t' -> tnear (k x) t t' /\ (pt_size t <= M)%nat) ->
  orel (srel M k) (set_tabs st (zip nodes ts)) (set_tabs st' (zip nodes ts')).
Proof using.
  revert st st'. induction nodes as [|x nodes IH]; intros st st' ts ts' Hl Hst H; [done|]. destruct ts as [|t ts], ts' as [|t' ts']; [done|done|done|]. injection Hl as Hl. unfold set_tabs. cbn [zip zip_with mfor fst snd].
  eapply orel_bind with (R := srel M k).
  - destruct (H 0%nat x t t') as [Hn Hs]; [done|done|done|]. destruct Hst as (H1 & H2 & H3).
    destruct x as [i|i]; cbn [set_tab]; (eapply orel_bind; [by apply orel_vset_at|]); intros l l' (Hi & -> & ->); cbn; (split_and!; [cbn; rewrite ?insert_length; done|cbn; rewrite ?insert_length; done|]);
      intros [j|j] a a' Ha Ha'; cbn in Ha, Ha'; try (by apply (H3 (TC j))); try (by apply (H3 (TS j))).
    + destruct (decide (i = j)) as [->|Hne]; [rewrite list_lookup_insert in Ha, Ha' by lia; by simplify_eq|]. rewrite list_lookup_insert_ne in Ha, Ha' by done. by apply (H3 (TC j)).
    + destruct (decide (i = j)) as [->|Hne]; [rewrite list_lookup_insert in Ha, Ha' by lia; by simplify_eq|]. rewrite list_lookup_insert_ne in Ha, Ha' by done. by apply (H3 (TS j)).
  - intros s s' Hs. apply IH; [done|done|]. intros j y a a' Hy Ha Ha'. by apply (H (S j) y).
Qed.
(** Reading a table. *)
Lemma get_c_rel M k st st' i : srel M k st st' -> orel (fun t t' => tnear (k (TC i)) t t' /\ (pt_size t <= M)%nat) (vget (t_c st) i) (vget (t_c st') i).
Proof using. intros (H1 & _ & H). eapply orel_mono; [|by apply orel_vget_at]. cbn. intros t t' [Ht Ht']. by apply (H (TC i)). Qed.
Lemma get_s_rel M k st st' i : srel M k st st' -> orel (fun t t' => tnear (k (TS i)) t t' /\ (pt_size t <= M)%nat) (vget (t_s st) i) (vget (t_s st') i).
Proof using. intros (_ & H1 & H). eapply orel_mono; [|by apply orel_vget_at]. cbn. intros t t' [Ht Ht']. by apply (H (TS i)). Qed.

(** The tables of a list, each so many roundings away. *)
Definition row (k : nat -> nat) (l l' : list ptable) : Prop :=
  length l = length l' /\ forall j t t', l !! j = Some t -> l' !! j = Some t' -> tnear (k j) t t'.
Lemma row_scales k l l' : row k l l' -> exists f, forall j t t', l !! j = Some t -> l' !! j = Some t' -> 0 < f j /\ similar (f j) (k j) t t'.
Proof using.
  intros [Hl H]. destruct (finite_choice (fun j s => forall t t', l !! j = Some t -> l' !! j = Some t' -> 0 < s /\ similar s (k j) t t') (length l)) as [f Hf].
  - intros j Hj. destruct (lookup_lt_is_Some_2 l j Hj) as [t Ht]. destruct (partner l l' j t Hl Ht) as [t' Ht']. destruct (H j t t' Ht Ht') as (s & Hs & Hsim). exists s.
    intros u u' Hu Hu'. by simplify_eq.
  - exists f. intros j t t' Ht Ht'. apply Hf; [by eapply lookup_lt_Some|done|done].
Qed.
Lemma row_alike k l l' j t t' : row k l l' -> l !! j = Some t -> l' !! j = Some t' -> alike t t'.
Proof using. intros [_ H] Ht Ht'. eapply tnear_alike. by eapply H. Qed.
Lemma row_sizes k l l' : row k l l' -> pt_size <$> l' = pt_size <$> l.
Proof using. intros H. apply sizes_eq; [apply H|]. intros j t t' Ht Ht'. apply (alike_fields dom t t'). by eapply row_alike. Qed.
Lemma shape_pots k l l' sizes : row k l l' -> pt_size <$> l = sizes -> shape2 sizes (pt_pots <$> l) /\ shape2 sizes (pt_pots <$> l').
Proof using.
  intros H <-. pose proof H as [Hl _]. split; apply list_eq; intros j; rewrite !list_lookup_fmap.
  - destruct (l !! j) as [t|] eqn:E; [|done]. cbn. destruct (partner l l' j t Hl E) as [t' E']. pose proof (alike_fields dom t t' (row_alike _ _ _ _ _ _ H E E')) as (_ & _ & _ & _ & _ & ? & _). by f_equal.
  - destruct (l' !! j) as [t'|] eqn:E'; [|].
    + destruct (partner l' l j t' (eq_sym Hl) E') as [t E]. rewrite E. cbn. pose proof (alike_fields dom t t' (row_alike _ _ _ _ _ _ H E E')) as (_ & _ & _ & _ & _ & _ & ?). by f_equal.
    + apply lookup_ge_None in E'. rewrite <-Hl in E'. apply lookup_ge_None in E'. by rewrite E'.
Qed.
(** Tables with new entries. *)
Lemma rebuilt (k k' : nat -> nat) (f : nat -> Qc) sizes l l' p p' : row k l l' -> pt_size <$> l = sizes -> (forall j, (j < length l)%nat -> 0 < f j) -> shape2 sizes p -> shape2 sizes p' ->
  (forall j i r r' y y', p !! j = Some r -> p' !! j = Some r' -> r !! i = Some y -> r' !! i = Some y' -> apart (k' j) (f j * y) y') ->
  row k' (zip_with with_pots l p) (zip_with with_pots l' p') /\ forall j t u, l !! j = Some t -> zip_with with_pots l p !! j = Some u -> pt_size u = pt_size t /\ pt_vars u = pt_vars t.
Proof using.
  intros H Hs Hf S1 S2 Hc. pose proof H as [Hl _].
  assert (length p = length l) as Lp by (apply (f_equal length) in S1; rewrite fmap_length in S1; rewrite S1, <-Hs; by rewrite fmap_length).
  assert (length p' = length l) as Lp' by (apply (f_equal length) in S2; rewrite fmap_length in S2; rewrite S2, <-Hs; by rewrite fmap_length).
  split; [split|].
  - rewrite !zip_with_length. lia.
  - intros j u u' Hu Hu'. apply lookup_zip_with_Some in Hu as (t & r & -> & Ht & Hrw), Hu' as (t' & r' & -> & Ht' & Hrw'). exists (f j). split; [apply Hf; by eapply lookup_lt_Some|].
    pose proof (row_alike _ _ _ _ _ _ H Ht Ht') as A. split.
    + apply alike_with; [done| |].
      * pose proof (shape2_inv _ _ _ _ S1 Hrw) as E. rewrite <-Hs, list_lookup_fmap, Ht in E. by injection E.
      * pose proof (shape2_inv _ _ _ _ S2 Hrw') as E. rewrite <-Hs, list_lookup_fmap, Ht in E. by injection E.
    + cbn. intros i x y Hx Hy. by eapply Hc.
  - intros j t u Ht Hu. apply lookup_zip_with_Some in Hu as (t2 & r & -> & Ht2 & _). by simplify_eq.
Qed.

(** The division loop. *)
Lemma divide_level_rel ks kt seps seps' tmp tmp' : row ks seps seps' -> row kt tmp tmp' -> pt_size <$> tmp = pt_size <$> seps ->
  orel (fun p p' => row (fun j => S (kt j + ks j)) (zip_with with_pots seps p) (zip_with with_pots seps' p') /\
    forall j t u, seps !! j = Some t -> zip_with with_pots seps p !! j = Some u -> pt_size u = pt_size t /\ pt_vars u = pt_vars t) (divide_level seps tmp) (divide_level_r rnd seps' tmp').
Proof using Hr.
  intros Hs Ht Hsz. destruct (row_scales _ _ _ Hs) as [f Hf]. destruct (row_scales _ _ _ Ht) as [g Hg]. pose proof Hs as [Ls _]. pose proof Ht as [Lt _].
  assert (length tmp = length seps) as Lts by (apply (f_equal length) in Hsz; by rewrite !fmap_length in Hsz).
  unfold divide_level, divide_level_r. rewrite (row_sizes _ _ _ Ht). destruct (shape_pots _ _ _ (pt_size <$> tmp) Hs) as [S1 S2]; [done|].
  eapply orel_mono; [|apply (orel_par2 _ (pt_size <$> tmp) (fun j k y y' => apart (S (kt j + ks j)) (g j / f j * y) y')); [apply in_order_valid|done|done| |]].
  - intros p p' (P1 & P2 & Hp). apply (rebuilt ks _ (fun j => g j / f j) (pt_size <$> tmp)); try done. intros j Hj. destruct (lookup_lt_is_Some_2 seps j Hj) as [t E]. destruct (partner _ _ _ _ Ls E) as [t' E'].
    destruct (lookup_lt_is_Some_2 tmp j) as [u F]; [lia|]. destruct (partner _ _ _ _ Lt F) as [u' F']. destruct (Hf j t t' E E') as [Hfj _]. destruct (Hg j u u' F F') as [Hgj _].
    unfold Qcdiv. replace 0 with (0 * / f j) by ring. apply Qcmult_lt_compat_r; [|done]. apply Qc_nn_pos; [apply Qc_inv_nn; by apply Qclt_le_weak|].
    intros Hz. assert (f j * / f j = 1) as H1 by (apply Qcmult_inv_r; intros Hz'; rewrite Hz' in Hfj; by apply (Qclt_not_eq _ _ Hfj)). rewrite Hz in H1. by replace (f j * 0) with 0 in H1 by ring.
  - intros j k _ _. eapply orel_bind; [by apply orel_vget_at|]. intros t t' [E E']. pose proof (alike_fields dom t t' (row_alike _ _ _ _ _ _ Hs E E')) as (_ & _ & _ & _ & _ & L1 & L2).
    eapply orel_bind; [apply orel_vget_at; congruence|]. intros y y' _. eapply orel_bind; [by apply orel_vget_at|]. intros u u' [F F'].
    pose proof (alike_fields dom u u' (row_alike _ _ _ _ _ _ Ht F F')) as (_ & _ & _ & _ & _ & L3 & L4). eapply orel_bind; [apply orel_vget_at; congruence|]. done.
  - intros j k r r' _ _ y y' _ _ _ _ E E'.
    apply bind_ok in E as (t & E1%vget_inv & E), E' as (t' & E1'%vget_inv & E'). apply bind_ok in E as (b & E2%vget_inv & E), E' as (b' & E2'%vget_inv & E').
    apply bind_ok in E as (u & E3%vget_inv & E), E' as (u' & E3'%vget_inv & E'). apply bind_ok in E as (a & E4%vget_inv & E), E' as (a' & E4'%vget_inv & E').
    injection E as <-. injection E' as <-. destruct (Hf j t t' E1 E1') as [Hfj [_ Hb]]. destruct (Hg j u u' E3 E3') as [Hgj [_ Ha]]. specialize (Hb _ _ _ E2 E2'). specialize (Ha _ _ _ E4 E4').
    assert (f j <> 0) as Hfz by (intros Hz; rewrite Hz in Hfj; by apply (Qclt_not_eq _ _ Hfj)).
    destruct (decide (b = 0)) as [->|Hbz].
    + assert (b' = 0) as ->. { apply (apart_zero c _ _ _ Hb). ring. } rewrite !bool_decide_true by done. replace (g j / f j * 0) with 0 by ring. apply (apart_refl c rnd Hr). apply Qcle_refl.
    + assert (b' <> 0) as Hbz'. { intros Hz. apply (apart_zero c _ _ _ Hb) in Hz. by apply Qcmult_integral in Hz as [?|?]. }
      rewrite !bool_decide_false by done. replace (g j / f j * (a / b)) with ((g j * a) / (f j * b)) by (field; done). apply (apart_div c rnd Hr); [|done|done]. intros [?|?]%Qcmult_integral; done.
Qed.
(** The multiplication loop and the normalisations after it. *)
Lemma multiply_level_rel M (kc kt : nat -> nat) k sch tag st st' vec clqs clqs' tmp tmp' : valid_scheduler sch -> srel M k st st' -> row kc clqs clqs' -> row kt tmp tmp' -> pt_size <$> tmp = pt_size <$> clqs ->
  (forall j i t, vec !! j = Some i -> clqs !! j = Some t -> (kc j + kt j + 2 <= k (TC i))%nat /\ (pt_size t <= M)%nat) ->
  orel (srel M k) (multiply_level sch tag st vec clqs tmp) (multiply_level_r rnd sch tag st' vec clqs' tmp').
Proof using Hr.
  intros Hsch Hst Hs Ht Hsz Hk. destruct (row_scales _ _ _ Hs) as [f Hf]. destruct (row_scales _ _ _ Ht) as [g Hg]. pose proof Hs as [Ls _]. pose proof Ht as [Lt _].
  assert (length tmp = length clqs) as Lts by (apply (f_equal length) in Hsz; by rewrite !fmap_length in Hsz).
  unfold multiply_level, multiply_level_r. rewrite (row_sizes _ _ _ Ht). destruct (shape_pots _ _ _ (pt_size <$> tmp) Hs) as [S1 S2]; [done|].
  eapply orel_bind; [apply (orel_par2 _ (pt_size <$> tmp) (fun j k y y' => apart (S (kc j + kt j)) (f j * g j * y) y')); [apply Hsch|done|done| |]|].
  - intros j i x x'. eapply orel_bind; [by apply orel_vget_at|]. intros u u' [F F'].
    pose proof (alike_fields dom u u' (row_alike _ _ _ _ _ _ Ht F F')) as (_ & _ & _ & _ & _ & L3 & L4). eapply orel_bind; [apply orel_vget_at; congruence|]. done.
  - intros j i r r' x x' y y' Hrw Hrw' Hx Hx' E E'. apply bind_ok in E as (u & E3%vget_inv & E), E' as (u' & E3'%vget_inv & E'). apply bind_ok in E as (a & E4%vget_inv & E), E' as (a' & E4'%vget_inv & E').
    injection E as <-. injection E' as <-. rewrite list_lookup_fmap in Hrw, Hrw'. destruct (clqs !! j) as [t|] eqn:E1; [|done]. destruct (clqs' !! j) as [t'|] eqn:E1'; [|done]. injection Hrw as <-. injection Hrw' as <-.
    destruct (Hf j t t' E1 E1') as [_ [_ Hb]]. destruct (Hg j u u' E3 E3') as [_ [_ Ha]]. specialize (Hb _ _ _ Hx Hx'). specialize (Ha _ _ _ E4 E4').
    replace (f j * g j * (x * a)) with ((f j * x) * (g j * a)) by ring. by apply (apart_mul c rnd Hr).
  - intros p p' (P1 & P2 & Hp). destruct (rebuilt kc (fun j => S (kc j + kt j)) (fun j => f j * g j) (pt_size <$> tmp) clqs clqs' p p' Hs (eq_sym Hsz)) as [Hrow Hsame]; [|done|done|done|].
    { intros j Hj. destruct (lookup_lt_is_Some_2 clqs j Hj) as [t E]. destruct (partner _ _ _ _ Ls E) as [t' E'].
      destruct (lookup_lt_is_Some_2 tmp j) as [u F]; [lia|]. destruct (partner _ _ _ _ Lt F) as [u' F']. destruct (Hf j t t' E E') as [Hfj _]. destruct (Hg j u u' F F') as [Hgj _].
      replace 0 with (0 * g j) by ring. by apply Qcmult_lt_compat_r. }
    pose proof Hrow as [Lz Hrow']. assert (length p = length clqs) as Lp by (apply (f_equal length) in P1; rewrite !fmap_length in P1; lia).
    eapply orel_bind; [apply (orel_mcollect_at (fun j r r' => tnear (kc j + kt j + 2) r r' /\ forall t, clqs !! j = Some t -> pt_size r = pt_size t)); [exact Lz|]|].
    + intros j t t' E E'. destruct (Hrow' j t t' E E') as (s & Hpos & Hsim). eapply orel_mono; [|by apply (table_normalize_near dom c rnd Hr s)]. cbn. intros r r' (Hn & _ & _ & Hsize). split.
      * by replace (kc j + kt j + 2)%nat with (S (S (kc j + kt j))) by lia.
      * intros t0 Ht0. rewrite Hsize. by apply (Hsame j t0 t).
    + intros n n' (N1 & N2 & Hn). apply set_tabs_rel; [congruence|done|]. intros j x r r' Hx Hrj Hrj'. rewrite list_lookup_fmap in Hx. destruct (vec !! j) as [i|] eqn:Hv; [|done]. injection Hx as <-.
      destruct (Hn j r r' Hrj Hrj') as [Hnear Hsize]. assert (j < length clqs)%nat as Hj by (apply lookup_lt_Some in Hrj; rewrite N1, zip_with_length in Hrj; lia).
      destruct (lookup_lt_is_Some_2 clqs j Hj) as [t E]. destruct (Hk j i t Hv E) as [Hle HM]. split; [by eapply (tnear_weaken dom c rnd Hr)|]. by rewrite (Hsize t E).
Qed.
End state.
