(** Programs and their versions with checks, side by side. *)
From Verif Require Import IntModel ParProofs TableSpec TableProofs.
Local Open Scope nat_scope.

(** The checked version does the same, and [P] holds of the result if there is one. *)
Definition guarded {A} (P : A -> Prop) (o oi : outcome A) : Prop := oi = o /\ forall x, o = Ok x -> P x.
Lemma guarded_ok {A} (P : A -> Prop) x : P x -> guarded P (Ok x) (Ok x).
Proof. intros H. split; [done|]. by intros ? [= <-]. Qed.
Lemma guarded_err {A} (P : A -> Prop) e : guarded P (Err e) (Err e).
Proof. split; [done|]. done. Qed.
Lemma guarded_self {A} (P : A -> Prop) o : (forall x, o = Ok x -> P x) -> guarded P o o.
Proof. done. Qed.
Lemma guarded_weaken {A} (P Q : A -> Prop) o oi : (forall x, P x -> Q x) -> guarded P o oi -> guarded Q o oi.
Proof. intros H [E F]. split; [done|]. intros x Hx. apply H. by apply F. Qed.
Lemma guarded_bind {A B} (P : A -> Prop) (Q : B -> Prop) o oi f fi : guarded P o oi -> (forall x, o = Ok x -> P x -> guarded Q (f x) (fi x)) -> guarded Q (o ≫= f) (oi ≫= fi).
Proof.
  intros [-> HP] H. destruct o as [x|e]; cbn [mbind outcome_bind]; [|apply guarded_err]. apply H; [done|]. by apply HP.
Qed.
Lemma guarded_step {A B} (Q : B -> Prop) (o : outcome A) f fi : (forall x, o = Ok x -> guarded Q (f x) (fi x)) -> guarded Q (o ≫= f) (o ≫= fi).
Proof. intros H. apply (guarded_bind (fun _ => True)); [done|]. intros x Hx _. by apply H. Qed.
Lemma guarded_mfor {I S} (Inv : S -> Prop) (l : list I) f fi : forall s, Inv s -> (forall i s, i ∈ l -> Inv s -> guarded Inv (f i s) (fi i s)) ->
  guarded Inv (mfor l f s) (mfor l fi s).
Proof.
  induction l as [|i l IH]; intros s Hs H; [by apply guarded_ok|]. cbn [mfor]. apply (guarded_bind Inv).
  - apply H; [by left|done].
  - intros s' _ Hs'. apply IH; [done|]. intros j s'' Hj. apply H. by right.
Qed.
Lemma guarded_mcollect {I A} (P : nat -> A -> Prop) (l : list I) f fi : (forall k i, l !! k = Some i -> guarded (P k) (f i) (fi i)) ->
  guarded (fun xs => length xs = length l /\ forall k x, xs !! k = Some x -> P k x) (mcollect l f) (mcollect l fi).
Proof.
  revert P; induction l as [|i l IH]; intros P H.
  - cbn. apply guarded_ok. split; [done|]. intros k x Hk. by rewrite lookup_nil in Hk.
  - cbn [mcollect]. apply (guarded_bind (P 0)); [by apply H|]. intros x _ Hx.
    apply (guarded_bind (fun xs => length xs = length l /\ forall k y, xs !! k = Some y -> P (S k) y)).
    + apply (IH (fun k => P (S k))). intros k j Hj. by apply (H (S k)).
    + intros xs _ [Hl Hxs]. apply guarded_ok. split; [cbn; lia|]. intros [|k] y; [by intros [= <-]|apply Hxs].
Qed.
Lemma guarded_par_for {Me X} (Inv : Me -> Prop) (J : nat -> X -> Prop) es rd rdi wr wri (m : Me) : Inv m ->
  (forall s m, Inv m -> guarded (J s) (rd s m) (rdi s m)) ->
  (forall s x m, Inv m -> J s x -> guarded Inv (wr s x m) (wri s x m)) ->
  guarded Inv (par_for es rd wr m) (par_for es rdi wri m).
Proof.
  intros Hm Hrd Hwr. unfold par_for.
  apply (guarded_bind (fun st : Me * list (nat * X) => Inv (fst st) /\ forall s x, (s, x) ∈ snd st -> J s x)).
  - apply guarded_mfor. { split; [done|]. cbn. intros s x Hx. by apply elem_of_nil in Hx. }
    intros [s|s] [m0 st] _ [H1 H2]; cbn [fst snd] in *.
    + apply (guarded_bind (J s)); [by apply Hrd|]. intros x _ Hx. apply guarded_ok. split; [done|].
      cbn [snd]. intros s' x' [Heq|Hin]%elem_of_cons; [by injection Heq as -> ->|by apply H2].
    + destruct (list_find (fun p : nat * X => fst p = s) st) as [[k [s' x]]|] eqn:E; [|apply guarded_err].
      apply list_find_Some in E as (E & Hs & _). cbn in Hs. subst s'. cbn [snd].
      apply (guarded_bind Inv); [apply Hwr; [done|]; apply H2; by eapply elem_of_list_lookup_2|].
      intros m' _ Hm'. by apply guarded_ok.
  - intros [m' st] _ [H1 _]. by apply guarded_ok.
Qed.
Lemma guarded_par1 {X} (P : nat -> X -> Prop) es body bodyi (m : list X) : (forall s x, m !! s = Some x -> P s x) ->
  (forall s x, s < length m -> P s x -> guarded (P s) (body s x) (bodyi s x)) ->
  guarded (fun m' => length m' = length m /\ forall s x, m' !! s = Some x -> P s x) (par1 es body m) (par1 es bodyi m).
Proof.
  intros Hm Hb. unfold par1. apply (guarded_par_for _ P); [done| |].
  - intros s m' [Hl Hm']. apply guarded_step. intros x Hx%vget_inv. apply Hb; [|by apply Hm']. rewrite <-Hl. by eapply lookup_lt_Some.
  - intros s x m' [Hl Hm'] Hx. apply guarded_self. intros m'' [Hs ->]%vset_inv. split; [by rewrite insert_length|].
    intros s' y Hy. destruct (decide (s = s')) as [<-|Hne].
    + rewrite list_lookup_insert in Hy by done. by injection Hy as <-.
    + rewrite list_lookup_insert_ne in Hy by done. by apply Hm'.
Qed.
Lemma guarded_par1_fill {X} (P : nat -> X -> Prop) es n body bodyi : (forall s, s < n -> guarded (P s) (body s) (bodyi s)) ->
  guarded (fun xs : list X => length xs = n /\ forall s x, xs !! s = Some x -> P s x) (par1_fill es n body) (par1_fill es n bodyi).
Proof.
  intros Hb. unfold par1_fill.
  apply (guarded_bind (fun m => length m = n /\ forall s (x : option X), m !! s = Some x -> forall y, x = Some y -> P s y)).
  - eapply guarded_weaken; [|apply (guarded_par1 (fun s (x : option X) => forall y, x = Some y -> P s y))].
    + cbn. intros m [Hl Hm]. by rewrite replicate_length in Hl.
    + intros s x [-> _]%lookup_replicate y. done.
    + intros s x Hs _. rewrite replicate_length in Hs. apply (guarded_bind (P s)); [by apply Hb|]. intros y _ Hy. apply guarded_ok. by intros ? [= <-].
  - intros m _ [Hl Hm]. rewrite <-Hl. apply (guarded_mcollect P). intros k x Hk. apply guarded_self. intros y Hy.
    apply (Hm k x Hk). destruct x; cbn in Hy; [by injection Hy as ->|done].
Qed.
Lemma guarded_par2_fill {X} es sizes (body bodyi : nat -> nat -> outcome X) : (forall j k n, sizes !! j = Some n -> k < n -> bodyi j k = body j k) ->
  par2_fill es sizes bodyi = par2_fill es sizes body.
Proof.
  intros Hb. unfold par2_fill. f_equal. unfold par2.
  apply (guarded_par_for (fun m : list (list (option X)) => length <$> m = sizes) (fun _ _ => True)).
  - unfold ParModel.fresh. rewrite <-list_fmap_compose. rewrite <-(list_fmap_id sizes) at 2. apply list_fmap_ext. intros i n _. cbn. apply replicate_length.
  - intros s m Hm. apply guarded_step. intros [j k] _. apply guarded_step. intros row Hr%vget_inv. apply guarded_step. intros x Hx%vget_inv.
    cbn [fst snd] in *. rewrite (Hb j k (length row)); [by apply guarded_self|rewrite <-Hm, list_lookup_fmap, Hr; done|by eapply lookup_lt_Some].
  - intros s x m Hm _. apply guarded_self. intros m' H.
    apply bind_ok in H as ([j k] & _ & H). apply bind_ok in H as (row & Hr%vget_inv & H). apply bind_ok in H as (row' & [_ ->]%vset_inv & H).
    apply vset_inv in H as [_ ->]. cbn [fst snd] in *. rewrite list_fmap_insert, insert_length, Hm. apply list_insert_id. rewrite <-Hm, list_lookup_fmap, Hr. done.
Qed.

Section limited.
Context (M : nat).
Lemma imul_ok {B} a b (f : nat -> outcome B) : a * b <= M -> (imul M a b ≫= f) = f (a * b).
Proof. intros H. unfold imul. by rewrite bool_decide_true. Qed.
Lemma iadd_ok {B} a b (f : nat -> outcome B) : a + b <= M -> (iadd M a b ≫= f) = f (a + b).
Proof. intros H. unfold iadd. by rewrite bool_decide_true. Qed.
Lemma index_within cfg cum l : forall acc j, mfor l (fun i acc => c ← vget cfg i; l ← vget cum i; Ok (acc + c * l)) acc = Ok j ->
  acc <= j /\ (j <= M -> mfor l (fun i acc => c ← vget cfg i; l ← vget cum i; p ← imul M c l; iadd M acc p) acc = Ok j).
Proof.
  induction l as [|i l IH]; intros acc j H; cbn [mfor] in *.
  - injection H as ->. done.
  - apply bind_ok in H as (a & Ha & H). apply bind_ok in Ha as (c & Hc & Ha). apply bind_ok in Ha as (s & Hs & [= <-]).
    apply IH in H as [H1 H2]. split; [lia|]. intros Hj. rewrite Hc. cbn [mbind outcome_bind]. rewrite Hs. cbn [mbind outcome_bind].
    rewrite imul_ok by lia. rewrite iadd_ok by lia. by apply H2.
Qed.
Lemma get_index_within cfg nv cum j : get_index_nv cfg nv cum = Ok j -> j <= M -> get_index_nv_i M cfg nv cum = Ok j.
Proof. intros H. by apply (index_within cfg cum (seq 0 nv) 0 j). Qed.

Lemma prod_drop dims i d : positive dims -> dims !! i = Some d -> d * prod_list (drop (S i) dims) = prod_list (drop i dims).
Proof. intros Hp Hi. by rewrite (drop_S dims d i Hi). Qed.
Lemma prod_drop_le dims i : positive dims -> prod_list (drop i dims) <= prod_list dims.
Proof.
  revert dims; induction i as [|i IH]; intros dims Hp; [by rewrite drop_0|]. destruct dims as [|d ds]; [done|]. cbn [drop].
  inversion Hp; subst. etransitivity; [by apply IH|]. cbn. fold (prod_list ds). pose proof (prod_list_pos ds). nia.
Qed.
Lemma cum_levels_within nv dims : positive dims -> prod_list dims <= M -> construct_cum_levels_i M nv dims = construct_cum_levels nv dims.
Proof.
  intros Hp HM. unfold construct_cum_levels_i, construct_cum_levels. case_bool_decide as Hn; [done|].
  apply (guarded_step (fun _ => True)). intros c0 [Hc0 ->]%vset_inv.
  eapply (guarded_weaken (fun cum : list nat => forall j c, cum !! j = Some c -> c <= prod_list (drop (S j) dims))); [done|].
  apply guarded_mfor.
  - intros j c Hj. pose proof (prod_list_pos (drop (S j) dims)) as Hpos.
    assert (0 < prod_list (drop (S j) dims)). { apply Hpos. by apply Forall_drop. }
    destruct (decide (nv - 1 = j)) as [<-|Hne].
    + rewrite list_lookup_insert in Hj by done. injection Hj as <-. lia.
    + rewrite list_lookup_insert_ne in Hj by done. apply lookup_replicate in Hj as [-> _]. lia.
  - intros i cum _ Hcum. apply guarded_step. intros c Hc%vget_inv. apply guarded_step. intros d Hd%vget_inv.
    assert (c * d <= prod_list (drop (S i) dims)) as Hcd.
    { apply Hcum in Hc. rewrite Nat.add_1_r in *. pose proof (prod_drop dims (S i) d Hp Hd). nia. }
    rewrite imul_ok by (pose proof (prod_drop_le dims (S i) Hp); lia). apply guarded_self. intros cum' [Hl ->]%vset_inv.
    intros j x Hj. destruct (decide (i = j)) as [<-|Hne].
    + rewrite list_lookup_insert in Hj by done. by injection Hj as <-.
    + rewrite list_lookup_insert_ne in Hj by done. by apply Hcum.
Qed.
Lemma final_sum_within sizes : foldl Nat.add 0 sizes <= M -> final_sum_i M sizes = Ok (foldl Nat.add 0 sizes).
Proof.
  unfold final_sum_i. generalize 0 as a. induction sizes as [|n l IH]; intros a H; [done|]. cbn [foldl mfor] in *.
  assert (forall l a, a <= foldl Nat.add a l) as Hm.
  { clear. induction l as [|x l IH]; intros a; cbn; [lia|]. pose proof (IH (a + x)). lia. }
  rewrite iadd_ok; [by apply IH|]. pose proof (Hm l (a + n)). lia.
Qed.
End limited.
