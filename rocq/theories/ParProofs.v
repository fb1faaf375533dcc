(** Parallel loops whose iterations own disjoint cells do not depend on the schedule. *)
From Verif Require Export ParModel.
Local Open Scope nat_scope.

(** Same successful results. *)
Definition okeq {A} (m1 m2 : outcome A) : Prop := forall r, m1 = Ok r <-> m2 = Ok r.
Lemma okeq_refl {A} (m : outcome A) : okeq m m.
Proof. done. Qed.
Lemma okeq_sym {A} (m1 m2 : outcome A) : okeq m1 m2 -> okeq m2 m1.
Proof. intros H r. by rewrite (H r). Qed.
Lemma okeq_trans {A} (m1 m2 m3 : outcome A) : okeq m1 m2 -> okeq m2 m3 -> okeq m1 m3.
Proof. intros H1 H2 r. by rewrite (H1 r). Qed.
Lemma okeq_bind {A B} (m1 m2 : outcome A) (f1 f2 : A -> outcome B) :
  okeq m1 m2 -> (forall x, m1 = Ok x -> okeq (f1 x) (f2 x)) -> okeq (m1 ≫= f1) (m2 ≫= f2).
Proof.
  intros Hm Hf r. rewrite !bind_ok. split.
  - intros (x & Hx & Hr). exists x. split; [by apply Hm|by apply (Hf x)].
  - intros (x & Hx & Hr). exists x. apply Hm in Hx. split; [done|by apply (Hf x)].
Qed.
Lemma okeq_bind_r {A B} (m : outcome A) (f1 f2 : A -> outcome B) :
  (forall x, m = Ok x -> okeq (f1 x) (f2 x)) -> okeq (m ≫= f1) (m ≫= f2).
Proof. intros. by apply okeq_bind. Qed.

Lemma mcollect_lookup {I A} (l : list I) (body : I -> outcome A) xs :
  mcollect l body = Ok xs <-> length xs = length l /\ forall k i, l !! k = Some i -> exists x, xs !! k = Some x /\ body i = Ok x.
Proof.
  split.
  - intros H. apply mcollect_inv in H as [Hl H]. split; [done|]. intros k i Hk.
    destruct (lookup_lt_is_Some_2 xs k) as [x Hx]; [rewrite Hl; by eapply lookup_lt_Some|]. eauto.
  - revert xs. induction l as [|i l IH]; intros [|x xs] [Hl H]; try done. cbn.
    destruct (H 0 i eq_refl) as (y & [= <-] & ->). cbn. rewrite (IH xs); [done|]. split; [by injection Hl|]. intros k j Hk. by apply (H (S k) j).
Qed.
Lemma mcollect_okeq {I A} (l : list I) (f g : I -> outcome A) : (forall i, i ∈ l -> okeq (f i) (g i)) -> okeq (mcollect l f) (mcollect l g).
Proof.
  intros H r. rewrite !mcollect_lookup. split; intros [Hl Hk]; (split; [done|]); intros k i Hi; destruct (Hk k i Hi) as (x & ? & ?);
    exists x; (split; [done|]); apply (H i); try done; by eapply elem_of_list_lookup_2.
Qed.

(** ** The general statement *)
Section par.
Context {M X C : Type} (n : nat) (es : list event) (rd : nat -> M -> outcome X) (wr : nat -> X -> M -> outcome M).
Context (shape : M -> Prop) (cell : nat -> M -> option C) (inj : X -> C) (m0 : M).
Context (Hes : valid_schedule n es) (Hm0 : shape m0).
Context (Hrd : forall s m, s < n -> shape m -> cell s m = cell s m0 -> rd s m = rd s m0).
Context (Hwr : forall s x m, s < n -> shape m -> exists m', wr s x m = Ok m' /\ shape m' /\ cell s m' = Some (inj x) /\
  forall s', s' < n -> s' <> s -> cell s' m' = cell s' m).
Context (Hext : forall m m', shape m -> shape m' -> (forall s, s < n -> cell s m = cell s m') -> m = m').

Lemma event_bound e : e ∈ es -> exists s, s < n /\ (e = Rd s \/ e = Wr s).
Proof using All.
  destruct Hes as [Hp _]. rewrite Hp. rewrite elem_of_app, !elem_of_list_fmap. intros [(s & -> & Hs)|(s & -> & Hs)]; apply elem_of_seq in Hs; exists s; (split; [lia|tauto]).
Qed.
Lemma nodup_events : NoDup es.
Proof using All.
  destruct Hes as [Hp _]. rewrite Hp. apply NoDup_app. split_and!.
  - apply NoDup_fmap_2; [by intros ?? [= ->]|apply NoDup_seq].
  - intros e H1 H2. apply elem_of_list_fmap in H1 as (? & -> & _). by apply elem_of_list_fmap in H2 as (? & ? & _).
  - apply NoDup_fmap_2; [by intros ?? [= ->]|apply NoDup_seq].
Qed.
Lemma events_all s : s < n -> Rd s ∈ es /\ Wr s ∈ es.
Proof using All.
  intros Hs. destruct Hes as [Hp _]. rewrite Hp, !elem_of_app, !elem_of_list_fmap.
  split; [left|right]; exists s; rewrite elem_of_seq; (split; [done|lia]).
Qed.

Definition pinv (dn : list event) (st : M * list (nat * X)) : Prop :=
  shape (fst st) /\
  (forall s, s < n -> Rd s ∈ dn -> exists i x, list_find (fun p => fst p = s) (snd st) = Some (i, (s, x)) /\ rd s m0 = Ok x) /\
  (forall s, s < n -> Wr s ∉ dn -> cell s (fst st) = cell s m0) /\
  (forall s, s < n -> Wr s ∈ dn -> exists x, rd s m0 = Ok x /\ cell s (fst st) = Some (inj x)).

Lemma par_step dn e rest st st' :
  es = dn ++ e :: rest -> pinv dn st ->
  (match e with
    | Rd s => x ← rd s (fst st); Ok (fst st, (s, x) :: snd st)
    | Wr s => match list_find (fun p => fst p = s) (snd st) with
              | Some (_, p) => m' ← wr s (snd p) (fst st); Ok (m', snd st)
              | None => Err Uninit
              end
    end) = Ok st' -> pinv (dn ++ [e]) st'.
Proof using All.
  intros Hsplit (Hsh & H1 & H2 & H3) Hstep.
  assert (e ∉ dn) as Hnew. { pose proof nodup_events as Hnd. rewrite Hsplit in Hnd. apply NoDup_app in Hnd as (_ & Hd & _). intros Hin. apply (Hd _ Hin). left. }
  destruct (event_bound e) as (s & Hs & He). { rewrite Hsplit. apply elem_of_app. right. left. }
  assert (Wr s ∉ dn) as HnW.
  { destruct He as [->| ->]; [|done]. intros Hin. destruct Hes as [_ Hord]. apply elem_of_list_lookup in Hin as [j Hj].
    assert (length dn < j); [|apply lookup_lt_Some in Hj; lia].
    apply (Hord s (length dn) j); rewrite Hsplit; [by rewrite lookup_app_r, Nat.sub_diag|by apply lookup_app_l_Some]. }
  destruct He as [->| ->].
  - apply bind_ok in Hstep as (x & Hx & [= <-]). assert (rd s m0 = Ok x) as Hx0. { rewrite <-Hx. symmetry. apply Hrd; [done|done|]. by apply H2. }
    split_and!; cbn [fst snd]; [done| | |].
    + intros s' Hs' Hin. destruct (decide (s = s')) as [<-|Hne].
      * exists 0, x. split; [|done]. apply list_find_Some. split_and!; [done|done|]. intros; lia.
      * apply elem_of_app in Hin as [Hin|Hin]; [|apply elem_of_list_singleton in Hin; congruence].
        destruct (H1 s' Hs' Hin) as (i & y & Hf & Hy). exists (S i), y. split; [|done].
        cbn. rewrite decide_False by done. by rewrite Hf.
    + intros s' Hs' Hnin. apply H2; [done|]. intros Hin. apply Hnin. apply elem_of_app. by left.
    + intros s' Hs' Hin. apply elem_of_app in Hin as [Hin|Hin]; [by apply H3|by apply elem_of_list_singleton in Hin].
  - assert (Rd s ∈ dn) as HR.
    { destruct (events_all s Hs) as [Hin _]. apply elem_of_list_lookup in Hin as [i Hi]. destruct Hes as [_ Hord].
      assert (i < length dn) as Hlt. { apply (Hord s i (length dn)); [done|]. rewrite Hsplit. by rewrite lookup_app_r, Nat.sub_diag. }
      rewrite Hsplit, lookup_app_l in Hi by done. by eapply elem_of_list_lookup_2. }
    destruct (H1 s Hs HR) as (i & x & Hf & Hx). rewrite Hf in Hstep. cbn [snd] in Hstep.
    destruct (Hwr s x (fst st) Hs Hsh) as (m' & Hm' & Hsh' & Hc & Hoth). rewrite Hm' in Hstep. cbn in Hstep. injection Hstep as <-.
    split_and!; cbn [fst snd]; [done| | |].
    + intros s' Hs' Hin. apply H1; [done|]. apply elem_of_app in Hin as [Hin|Hin]; [done|by apply elem_of_list_singleton in Hin].
    + intros s' Hs' Hnin. assert (s' <> s) as Hne. { intros ->. apply Hnin. apply elem_of_app. right. left. }
      rewrite Hoth by done. apply H2; [done|]. intros Hin. apply Hnin. apply elem_of_app. by left.
    + intros s' Hs' Hin. destruct (decide (s' = s)) as [->|Hne]; [by exists x|].
      rewrite Hoth by done. apply H3; [done|]. apply elem_of_app in Hin as [Hin|Hin]; [done|]. apply elem_of_list_singleton in Hin. congruence.
Qed.

Lemma par_progress dn e rest st :
  (forall s, s < n -> exists x, rd s m0 = Ok x) -> es = dn ++ e :: rest -> pinv dn st ->
  exists st', (match e with
    | Rd s => x ← rd s (fst st); Ok (fst st, (s, x) :: snd st)
    | Wr s => match list_find (fun p => fst p = s) (snd st) with
              | Some (_, p) => m' ← wr s (snd p) (fst st); Ok (m', snd st)
              | None => Err Uninit
              end
    end) = Ok st'.
Proof using All.
  intros Hall Hsplit (Hsh & H1 & H2 & H3).
  assert (e ∉ dn) as Hnew. { pose proof nodup_events as Hnd. rewrite Hsplit in Hnd. apply NoDup_app in Hnd as (_ & Hd & _). intros Hin. apply (Hd _ Hin). left. }
  destruct (event_bound e) as (s & Hs & He). { rewrite Hsplit. apply elem_of_app. right. left. }
  destruct He as [->| ->].
  - assert (Wr s ∉ dn) as HnW.
    { intros Hin. destruct Hes as [_ Hord]. apply elem_of_list_lookup in Hin as [j Hj].
      assert (length dn < j); [|apply lookup_lt_Some in Hj; lia].
      apply (Hord s (length dn) j); rewrite Hsplit; [by rewrite lookup_app_r, Nat.sub_diag|by apply lookup_app_l_Some]. }
    destruct (Hall s Hs) as [x Hx]. rewrite (Hrd s (fst st)) by (try done; by apply H2). rewrite Hx. cbn. eauto.
  - assert (Rd s ∈ dn) as HR.
    { destruct (events_all s Hs) as [Hin _]. apply elem_of_list_lookup in Hin as [i Hi]. destruct Hes as [_ Hord].
      assert (i < length dn) as Hlt. { apply (Hord s i (length dn)); [done|]. rewrite Hsplit. by rewrite lookup_app_r, Nat.sub_diag. }
      rewrite Hsplit, lookup_app_l in Hi by done. by eapply elem_of_list_lookup_2. }
    destruct (H1 s Hs HR) as (i & x & Hf & Hx). rewrite Hf. cbn [snd].
    destruct (Hwr s x (fst st) Hs Hsh) as (m' & Hm' & _). rewrite Hm'. cbn. eauto.
Qed.

Lemma pinv_init : pinv [] (m0, []).
Proof using All. split_and!; cbn; [done| |done|]; intros s _ Hin; by apply elem_of_nil in Hin. Qed.

Lemma par_run dn rest st st' : es = dn ++ rest -> pinv dn st ->
  mfor rest (fun e (st : M * list (nat * X)) =>
    match e with
    | Rd s => x ← rd s (fst st); Ok (fst st, (s, x) :: snd st)
    | Wr s => match list_find (fun p => fst p = s) (snd st) with
              | Some (_, p) => m' ← wr s (snd p) (fst st); Ok (m', snd st)
              | None => Err Uninit
              end
    end) st = Ok st' -> pinv es st'.
Proof using All.
  revert dn st. induction rest as [|e rest IH]; intros dn st Hsplit Hp Hrun.
  - rewrite app_nil_r in Hsplit. subst. by injection Hrun as <-.
  - cbn in Hrun. apply bind_ok in Hrun as (st1 & H1 & H2). pose proof (par_step _ _ _ _ _ Hsplit Hp H1) as Hp1.
    apply (IH (dn ++ [e]) st1); [by rewrite <-app_assoc|done|done].
Qed.
Lemma par_run_ok dn rest st : (forall s, s < n -> exists x, rd s m0 = Ok x) -> es = dn ++ rest -> pinv dn st ->
  exists st', mfor rest (fun e (st : M * list (nat * X)) =>
    match e with
    | Rd s => x ← rd s (fst st); Ok (fst st, (s, x) :: snd st)
    | Wr s => match list_find (fun p => fst p = s) (snd st) with
              | Some (_, p) => m' ← wr s (snd p) (fst st); Ok (m', snd st)
              | None => Err Uninit
              end
    end) st = Ok st'.
Proof using All.
  intros Hall. revert dn st. induction rest as [|e rest IH]; intros dn st Hsplit Hp.
  - cbn. eauto.
  - destruct (par_progress _ _ _ _ Hall Hsplit Hp) as [st1 H1]. pose proof (par_step _ _ _ _ _ Hsplit Hp H1) as Hp1.
    destruct (IH (dn ++ [e]) st1) as [st2 H2]; [by rewrite <-app_assoc|done|]. exists st2. cbn [mfor]. rewrite H1. exact H2.
Qed.

(** The loop succeeds iff every iteration would succeed on the initial memory, and then every
    cell holds that iteration's result. *)
Theorem par_for_spec m' :
  par_for es rd wr m0 = Ok m' <-> shape m' /\ forall s, s < n -> exists x, rd s m0 = Ok x /\ cell s m' = Some (inj x).
Proof using All.
  assert (forall m'', par_for es rd wr m0 = Ok m'' -> shape m'' /\ forall s, s < n -> exists x, rd s m0 = Ok x /\ cell s m'' = Some (inj x)) as Hfw.
  { intros m'' H. unfold par_for in H. apply bind_ok in H as (st & Hrun & [= <-]).
    apply (par_run [] es (m0, []) st) in Hrun; [|done|apply pinv_init]. destruct Hrun as (Hsh & _ & _ & H3). split; [done|].
    intros s Hs. apply H3; [done|]. by apply events_all. }
  split; [apply Hfw|]. intros [Hsh Hall].
  destruct (par_run_ok [] es (m0, [])) as [st Hst]; [|done|apply pinv_init|].
  { intros s Hs. destruct (Hall s Hs) as (x & ? & _). eauto. }
  assert (par_for es rd wr m0 = Ok (fst st)) as Hpf by (unfold par_for; by rewrite Hst).
  rewrite Hpf. f_equal. destruct (Hfw _ Hpf) as [Hsh' Hall']. apply Hext; [done|done|]. intros s Hs.
  destruct (Hall s Hs) as (x & H1 & ->). destruct (Hall' s Hs) as (y & H2 & ->). rewrite H1 in H2. by injection H2 as ->.
Qed.
End par.

(** ** One-dimensional loops *)
Lemma par1_spec {X} n es (body : nat -> X -> outcome X) (m : list X) :
  valid_schedule n es -> length m = n ->
  okeq (par1 es body m) (mcollect (seq 0 n) (fun s => x ← vget m s; body s x)).
Proof.
  intros Hes Hlen r. unfold par1.
  rewrite (par_for_spec n es _ _ (fun m' => length m' = n) (fun s m' => m' !! s) id m Hes Hlen).
  - rewrite mcollect_lookup, seq_length. split; intros [Hl Hk]; (split; [done|]).
    + intros k i Hi. apply lookup_seq in Hi as [-> Hk']. destruct (Hk k Hk') as (x & H1 & H2). exists x. done.
    + intros s Hs. destruct (Hk s s) as (x & H1 & H2); [by apply lookup_seq|]. exists x. done.
  - intros s m' Hs Hm' Heq. unfold vget. by rewrite Heq.
  - intros s x m' Hs Hm'. exists (<[s:=x]> m'). split_and!.
    + apply vset_ok. lia.
    + by rewrite insert_length.
    + apply list_lookup_insert. lia.
    + intros s' Hs' Hne. by apply list_lookup_insert_ne.
  - intros m1 m2 H1 H2 H. apply list_eq_same_length with n; [done|done|]. intros i x y Hi Hx Hy. specialize (H i Hi). rewrite Hx, Hy in H. by injection H.
Qed.
Lemma thaw_some {X} (l : list X) : mcollect (Some <$> l) thaw = Ok l.
Proof. induction l as [|x l IH]; [done|]. cbn. by rewrite IH. Qed.
Lemma mcollect_some {I X} (l : list I) (body : I -> outcome X) :
  mcollect l (fun i => x ← body i; Ok (Some x) : outcome (option X)) = (xs ← mcollect l body; Ok (Some <$> (xs : list X)) : outcome (list (option X))).
Proof. induction l as [|i l IH]; [done|]. cbn. destruct (body i); [|done]. cbn. rewrite IH. by destruct (mcollect l body). Qed.
Lemma mcollect_ext {I A} (l : list I) (f g : I -> outcome A) : (forall i, i ∈ l -> f i = g i) -> mcollect l f = mcollect l g.
Proof. induction l as [|i l IH]; intros H; [done|]. cbn. rewrite H by left. rewrite IH; [done|]. intros j Hj. apply H. by right. Qed.
Lemma par1_fill_spec {X} n es (body : nat -> outcome X) :
  valid_schedule n es -> okeq (par1_fill es n body) (mcollect (seq 0 n) body).
Proof.
  intros Hes r. unfold par1_fill.
  assert (okeq (par1 es (fun s _ => x ← body s; Ok (Some x) : outcome (option X)) (replicate n (None : option X))) (xs ← mcollect (seq 0 n) body; Ok (Some <$> (xs : list X)) : outcome (list (option X)))) as H.
  { eapply okeq_trans; [apply (par1_spec n); [done|apply replicate_length]|]. rewrite <-mcollect_some.
    rewrite (mcollect_ext _ _ (fun i => x ← body i; Ok (Some x) : outcome (option X))); [apply okeq_refl|]. intros i Hi. apply elem_of_seq in Hi.
    rewrite (vget_ok _ _ None); [done|]. apply lookup_replicate_2. lia. }
  transitivity ((m ← (xs ← mcollect (seq 0 n) body; Ok (Some <$> (xs : list X)) : outcome (list (option X))); mcollect m thaw) = Ok r).
  - apply okeq_bind; [exact H|]. intros; apply okeq_refl.
  - destruct (mcollect (seq 0 n) body) as [xs|e]; cbn; [|done]. by rewrite thaw_some.
Qed.

(** ** Two-dimensional index *)
Fixpoint row_start (sizes : list nat) (j : nat) : nat :=
  match sizes, j with
  | n :: sizes', S j' => n + row_start sizes' j'
  | _, _ => 0
  end.
Definition total (sizes : list nat) : nat := foldr Nat.add 0 sizes.
Lemma cum_sums_gen sizes acc t : foldl (fun st n => (fst st ++ [snd st], snd st + n)) (acc, t) sizes
  = (acc ++ ((fun j => t + row_start sizes j) <$> seq 0 (length sizes)), t + total sizes).
Proof.
  revert acc t. induction sizes as [|n sizes IH]; intros acc t; cbn; [by rewrite app_nil_r, Nat.add_0_r|].
  rewrite IH. cbn. f_equal; [|unfold total; lia]. rewrite <-app_assoc. f_equal. cbn. rewrite Nat.add_0_r. f_equal.
  rewrite <-fmap_S_seq, <-list_fmap_compose. apply list_fmap_ext. intros i j _. cbn. lia.
Qed.
Lemma cum_sums_eq sizes : cum_sums sizes = (row_start sizes <$> seq 0 (length sizes), total sizes).
Proof. unfold cum_sums. by rewrite cum_sums_gen. Qed.
Lemma row_start_mono sizes i j : i <= j -> row_start sizes i <= row_start sizes j.
Proof. revert i j. induction sizes as [|n sizes IH]; intros [|i] [|j] H; cbn; try lia. specialize (IH i j). lia. Qed.
Lemma row_start_next sizes j n : sizes !! j = Some n -> row_start sizes (S j) = row_start sizes j + n.
Proof.
  revert j. induction sizes as [|m sizes IH]; intros [|j] H; cbn in *; [done|done| |].
  - injection H as ->. destruct sizes; cbn; lia.
  - rewrite <-Nat.add_assoc, <-IH by done. done.
Qed.
Lemma row_start_end sizes : row_start sizes (length sizes) = total sizes.
Proof. induction sizes as [|n sizes IH]; cbn; [done|]. by rewrite IH. Qed.
Lemma row_start_le_total sizes j n : sizes !! j = Some n -> row_start sizes j + n <= total sizes.
Proof.
  intros H. rewrite <-row_start_end, <-(row_start_next _ _ _ H). apply row_start_mono. by apply lookup_lt_Some in H.
Qed.
Lemma scan_rows_spec (sizes : list nat) s m : m <= length sizes -> s < row_start sizes m ->
  exists j n, scan_rows (row_start sizes <$> seq 0 (length sizes)) s m = Ok j /\ sizes !! j = Some n /\ row_start sizes j <= s /\ s < row_start sizes j + n.
Proof.
  induction m as [|m IH]; intros Hm Hs; [destruct sizes; cbn in Hs; lia|]. cbn.
  rewrite (vget_ok _ _ (row_start sizes m)). 2: { rewrite list_lookup_fmap, lookup_seq_lt by lia. done. }
  cbn. case_bool_decide as Hc; [|apply IH; lia]. destruct (lookup_lt_is_Some_2 sizes m) as [n Hn]; [lia|].
  exists m, n. split_and!; [done|done|done|]. by rewrite (row_start_next _ _ _ Hn) in Hs.
Qed.
Lemma compute_2d_spec sizes s : s < total sizes ->
  exists j k n, compute_2d_index s (length sizes) (fst (cum_sums sizes)) = Ok (j, k) /\ sizes !! j = Some n /\ k < n /\ s = row_start sizes j + k.
Proof.
  intros Hs. rewrite cum_sums_eq. cbn [fst]. unfold compute_2d_index.
  destruct (scan_rows_spec sizes s (length sizes)) as (j & n & Hj & Hn & H1 & H2); [done|by rewrite row_start_end|].
  exists j, (s - row_start sizes j), n. rewrite Hj. cbn. rewrite (vget_ok _ _ (row_start sizes j)).
  2: { rewrite list_lookup_fmap, lookup_seq_lt; [done|]. by eapply lookup_lt_Some. }
  cbn. split_and!; [done|done|lia|lia].
Qed.
Lemma row_start_inj sizes j j' n n' k k' : sizes !! j = Some n -> sizes !! j' = Some n' -> k < n -> k' < n' ->
  row_start sizes j + k = row_start sizes j' + k' -> j = j' /\ k = k'.
Proof.
  intros H1 H2 Hk Hk' Heq. assert (j = j') as ->; [|split; [done|lia]].
  destruct (decide (j < j')) as [Hlt|Hge].
  - pose proof (row_start_mono sizes (S j) j' Hlt) as Hm. rewrite (row_start_next _ _ _ H1) in Hm. lia.
  - destruct (decide (j' < j)) as [Hlt|]; [|lia].
    pose proof (row_start_mono sizes (S j') j Hlt) as Hm. rewrite (row_start_next _ _ _ H2) in Hm. lia.
Qed.
Lemma compute_2d_inv sizes j k n : sizes !! j = Some n -> k < n ->
  compute_2d_index (row_start sizes j + k) (length sizes) (fst (cum_sums sizes)) = Ok (j, k).
Proof.
  intros Hj Hk. destruct (compute_2d_spec sizes (row_start sizes j + k)) as (j' & k' & n' & Hc & Hj' & Hk' & Heq).
  { pose proof (row_start_le_total _ _ _ Hj). lia. }
  destruct (row_start_inj sizes j j' n n' k k') as [<- <-]; done.
Qed.

(** ** Flattened loops *)
Definition shape2 {X} (sizes : list nat) (m : list (list X)) : Prop := length <$> m = sizes.
Lemma shape2_lookup {X} sizes (m : list (list X)) j n : shape2 sizes m -> sizes !! j = Some n -> exists row, m !! j = Some row /\ length row = n.
Proof. intros <- H. rewrite list_lookup_fmap in H. destruct (m !! j) as [row|]; [|done]. injection H as <-. eauto. Qed.
Lemma shape2_inv {X} sizes (m : list (list X)) j row : shape2 sizes m -> m !! j = Some row -> sizes !! j = Some (length row).
Proof. intros <- H. by rewrite list_lookup_fmap, H. Qed.

Lemma par2_spec {X} sizes es (body : nat -> nat -> X -> outcome X) (m : list (list X)) :
  valid_schedule (snd (cum_sums sizes)) es -> shape2 sizes m ->
  okeq (par2 es sizes body m)
    (mcollect (seq 0 (length sizes)) (fun j => row ← vget m j; mcollect (seq 0 (length row)) (fun k => x ← vget row k; body j k x))).
Proof.
  intros Hes Hsh r. rewrite cum_sums_eq in Hes. cbn [snd] in Hes. unfold par2.
  set (cell := fun s (m' : list (list X)) => '(j, k) ← match compute_2d_index s (length sizes) (fst (cum_sums sizes)) with Ok jk => Some jk | Err _ => None end;
     row ← m' !! j; (row : list X) !! k).
  assert (forall m' j k n, sizes !! j = Some n -> k < n -> cell (row_start sizes j + k) m' = (m' !! j ≫= (fun row => row !! k))) as Hcell.
  { intros m' j k n Hj Hk. unfold cell. by rewrite (compute_2d_inv _ _ _ _ Hj Hk). }
  rewrite (par_for_spec (total sizes) es _ _ (shape2 sizes) cell id m Hes Hsh).
  - rewrite mcollect_lookup, seq_length. split.
    + intros [Hs Hk]. split. { unfold shape2 in Hs. by rewrite <-Hs, fmap_length. }
      intros j i Hi. apply lookup_seq in Hi as [-> Hj]. cbn in *.
      destruct (lookup_lt_is_Some_2 sizes j Hj) as [n Hn].
      destruct (shape2_lookup _ _ _ _ Hs Hn) as (row & Hrow & Hlr). destruct (shape2_lookup _ _ _ _ Hsh Hn) as (row0 & Hrow0 & Hlr0).
      exists row. split; [done|]. rewrite (vget_ok _ _ _ Hrow0). cbn. apply mcollect_lookup. rewrite seq_length. split; [lia|].
      intros k i Hi. apply lookup_seq in Hi as [-> Hkl]. cbn in *.
      destruct (Hk (row_start sizes j + k)) as (x & Hx & Hc); [pose proof (row_start_le_total _ _ _ Hn); lia|].
      rewrite (Hcell _ _ _ n) in Hc by (done || lia). rewrite Hrow in Hc. cbn in Hc. exists x. split; [done|].
      rewrite (compute_2d_inv _ _ _ n) in Hx by (done || lia). cbn [mbind outcome_bind fst snd] in Hx. by rewrite (vget_ok _ _ _ Hrow0) in Hx.
    + intros [Hl Hj].
      assert (shape2 sizes r) as Hs.
      { apply list_eq_same_length with (length sizes); [done|by rewrite fmap_length|]. intros j a b Hlt Ha Hb.
        destruct (Hj j j) as (row & Hrow & Hb2); [by apply lookup_seq|]. destruct (shape2_lookup _ _ _ _ Hsh Hb) as (row0 & Hrow0 & Hlr0).
        rewrite (vget_ok _ _ _ Hrow0) in Hb2. cbn in Hb2. apply mcollect_lookup in Hb2 as [Hb2 _]. rewrite seq_length in Hb2.
        rewrite list_lookup_fmap, Hrow in Ha. injection Ha as <-. lia. }
      split; [done|]. intros s Hlt. destruct (compute_2d_spec sizes s Hlt) as (j & k & n & Hc & Hn & Hk & ->).
      destruct (Hj j j) as (row & Hrow & Hb2); [apply lookup_seq; cbn; split; [done|by eapply lookup_lt_Some]|].
      destruct (shape2_lookup _ _ _ _ Hsh Hn) as (row0 & Hrow0 & Hlr0). rewrite (vget_ok _ _ _ Hrow0) in Hb2. cbn in Hb2.
      apply mcollect_lookup in Hb2 as [Hb2 Hb3]. rewrite seq_length in Hb2. destruct (Hb3 k k) as (x & Hx & Hbx); [apply lookup_seq; cbn; split; [done|lia]|].
      exists x. rewrite Hc. cbn [mbind outcome_bind fst snd]. rewrite (vget_ok _ _ _ Hrow0). cbn [mbind outcome_bind]. split; [exact Hbx|].
      rewrite (Hcell _ _ _ n) by done. by rewrite Hrow.
  - intros s m' Hlt Hs' Heq. destruct (compute_2d_spec sizes s Hlt) as (j & k & n & Hc & Hn & Hk & ->). rewrite Hc. cbn [mbind outcome_bind fst snd].
    rewrite !(Hcell _ _ _ n) in Heq by done. destruct (shape2_lookup _ _ _ _ Hsh Hn) as (row0 & Hrow0 & Hlr0). destruct (shape2_lookup _ _ _ _ Hs' Hn) as (row & Hrow & Hlr).
    rewrite Hrow, Hrow0 in Heq. cbn in Heq. rewrite (vget_ok _ _ _ Hrow), (vget_ok _ _ _ Hrow0). cbn [mbind outcome_bind]. unfold vget. by rewrite Heq.
  - intros s x m' Hlt Hs'. destruct (compute_2d_spec sizes s Hlt) as (j & k & n & Hc & Hn & Hk & ->). rewrite Hc. cbn [mbind outcome_bind fst snd].
    destruct (shape2_lookup _ _ _ _ Hs' Hn) as (row & Hrow & Hlr). rewrite (vget_ok _ _ _ Hrow). cbn [mbind outcome_bind].
    rewrite vset_ok by lia. cbn [mbind outcome_bind]. rewrite vset_ok by (by eapply lookup_lt_Some).
    exists (<[j:=<[k:=x]> row]> m'). split_and!; [done| | |].
    + unfold shape2. rewrite list_fmap_insert, insert_length, Hlr, Hs'. by apply list_insert_id.
    + rewrite (Hcell _ _ _ n) by done. rewrite list_lookup_insert by (by eapply lookup_lt_Some). cbn. apply list_lookup_insert. lia.
    + intros s' Hlt' Hne. destruct (compute_2d_spec sizes s' Hlt') as (j' & k' & n' & Hc' & Hn' & Hk' & ->). rewrite !(Hcell _ _ _ n') by done.
      destruct (decide (j = j')) as [<-|Hjj]; [|by rewrite list_lookup_insert_ne].
      rewrite list_lookup_insert by (by eapply lookup_lt_Some). rewrite Hrow. cbn. apply list_lookup_insert_ne. intros ->. done.
  - intros m1 m2 H1 H2 H. apply list_eq. intros j. destruct (sizes !! j) as [n|] eqn:Hn.
    + destruct (shape2_lookup _ _ _ _ H1 Hn) as (row1 & Hrow1 & Hl1). destruct (shape2_lookup _ _ _ _ H2 Hn) as (row2 & Hrow2 & Hl2). rewrite Hrow1, Hrow2. f_equal.
      apply list_eq_same_length with n; [done|done|]. intros k x y Hk Hx Hy. specialize (H (row_start sizes j + k)).
      rewrite !(Hcell _ _ _ n) in H by done. rewrite Hrow1, Hrow2 in H. cbn in H. rewrite Hx, Hy in H.
      assert (Some x = Some y) as Heq by (apply H; pose proof (row_start_le_total _ _ _ Hn); lia). by injection Heq.
    + apply lookup_ge_None in Hn. rewrite !lookup_ge_None_2; [done| |].
      * rewrite <-H2, fmap_length in Hn. done.
      * rewrite <-H1, fmap_length in Hn. done.
Qed.

Lemma par2_fill_spec {X} sizes es (body : nat -> nat -> outcome X) :
  valid_schedule (snd (cum_sums sizes)) es ->
  okeq (par2_fill es sizes body)
    (mcollect (seq 0 (length sizes)) (fun j => mcollect (seq 0 (default 0 (sizes !! j))) (fun k => body j k))).
Proof.
  intros Hes r. unfold par2_fill.
  assert (shape2 sizes (fresh sizes : list (list (option X)))) as Hsh.
  { unfold shape2, fresh. rewrite <-list_fmap_compose. rewrite <-(list_fmap_id sizes) at 2. apply list_fmap_ext. intros i x _. cbn. apply replicate_length. }
  assert (okeq (par2 es sizes (fun j k _ => x ← body j k; Ok (Some x) : outcome (option X)) (fresh sizes))
     (xs ← mcollect (seq 0 (length sizes)) (fun j => mcollect (seq 0 (default 0 (sizes !! j))) (fun k => body j k)); Ok ((fun row : list X => Some <$> row) <$> (xs : list (list X))) : outcome (list (list (option X))))) as H.
  { eapply okeq_trans; [by apply par2_spec|].
    assert (forall l : list nat, (forall j, j ∈ l -> j < length sizes) ->
      okeq (mcollect l (fun j => row ← vget (fresh sizes : list (list (option X))) j; mcollect (seq 0 (length row)) (fun k => x ← vget row k; y ← body j k; Ok (Some y) : outcome (option X))))
           (xs ← mcollect l (fun j => mcollect (seq 0 (default 0 (sizes !! j))) (fun k => body j k)); Ok ((fun row : list X => Some <$> row) <$> (xs : list (list X))) : outcome (list (list (option X))))) as Hl.
    { intros l. induction l as [|j l IH]; intros Hin; [apply okeq_refl|]. cbn.
      destruct (lookup_lt_is_Some_2 sizes j) as [n Hn]; [apply Hin; left|]. rewrite Hn. cbn.
      rewrite (vget_ok (fresh sizes : list (list (option X))) j (replicate n None)) by (unfold fresh; by rewrite list_lookup_fmap, Hn). cbn. rewrite replicate_length.
      rewrite (mcollect_ext _ _ (fun k => x ← body j k; Ok (Some x) : outcome (option X))).
      2: { intros k Hk. apply elem_of_seq in Hk. rewrite (vget_ok _ _ None); [done|]. apply lookup_replicate_2. lia. }
      rewrite mcollect_some. destruct (mcollect (seq 0 n) (fun k => body j k)) as [xs|e]; cbn; [|apply okeq_refl].
      eapply okeq_trans; [eapply okeq_bind; [apply IH; intros; apply Hin; by right|intros; apply okeq_refl]|].
      clear IH. destruct (mcollect l (fun j => mcollect (seq 0 (default 0 (sizes !! j))) (fun k => body j k))); cbn; apply okeq_refl. }
    apply Hl. intros j Hj. apply elem_of_seq in Hj. lia. }
  transitivity ((m ← (xs ← mcollect (seq 0 (length sizes)) (fun j => mcollect (seq 0 (default 0 (sizes !! j))) (fun k => body j k)); Ok ((fun row : list X => Some <$> row) <$> (xs : list (list X))) : outcome (list (list (option X)))); thaw_rows m) = Ok r).
  - apply okeq_bind; [exact H|]. intros; apply okeq_refl.
  - destruct (mcollect (seq 0 (length sizes)) _) as [xs|e]; cbn; [|done]. unfold thaw_rows.
    assert (mcollect ((fun row : list X => Some <$> row) <$> xs) (fun row => mcollect row thaw) = Ok xs) as ->; [|done].
    clear. induction xs as [|x xs IH]; [done|]. cbn [fmap list_fmap mcollect]. rewrite thaw_some. cbn [mbind outcome_bind]. by rewrite IH.
Qed.

(** ** Any two schedules give the same result, whatever the memory *)
Lemma mfor_reach {I S} (P : S -> Prop) (l : list I) (body : I -> S -> outcome S) s s' e :
  mfor l body s = Ok s' -> P s -> (forall i x y, P x -> body i x = Ok y -> P y) -> e ∈ l -> exists s1 s2, P s1 /\ body e s1 = Ok s2.
Proof.
  revert s. induction l as [|i l IH]; intros s Hrun Hs Hp He; [by apply elem_of_nil in He|].
  cbn in Hrun. apply bind_ok in Hrun as (s1 & H1 & H2). apply elem_of_cons in He as [->|He]; [eauto|].
  apply (IH s1); eauto.
Qed.
Lemma schedule_reads n es s : valid_schedule n es -> s < n -> Rd s ∈ es.
Proof. intros [Hp _] Hs. rewrite Hp, elem_of_app, elem_of_list_fmap. left. exists s. by rewrite elem_of_seq; auto with lia. Qed.
Lemma par_for_reads {M X} (P : M -> Prop) n es (rd : nat -> M -> outcome X) (wr : nat -> X -> M -> outcome M) m0 m' :
  valid_schedule n es -> P m0 -> (forall s x m m', P m -> wr s x m = Ok m' -> P m') -> par_for es rd wr m0 = Ok m' ->
  forall s, s < n -> exists m x, P m /\ rd s m = Ok x.
Proof.
  intros Hes H0 Hw Hrun s Hs. unfold par_for in Hrun. apply bind_ok in Hrun as (st & Hrun & _).
  destruct (mfor_reach (fun st => P (fst st)) _ _ _ _ (Rd s) Hrun H0) as (s1 & s2 & H1 & H2).
  - intros [t|t] x y Hx Hy; cbn in Hy.
    + apply bind_ok in Hy as (? & _ & [= <-]). done.
    + destruct (list_find _ _) as [[? p]|]; [|done]. apply bind_ok in Hy as (? & Hy & [= <-]). cbn. by apply (Hw _ _ _ _ Hx Hy).
  - by apply (schedule_reads n).
  - cbn in H2. apply bind_ok in H2 as (x & Hx & _). eauto.
Qed.
Lemma par_for_okeq {M X C} n es es' (rd : nat -> M -> outcome X) (wr : nat -> X -> M -> outcome M)
  (shape : M -> Prop) (cell : nat -> M -> option C) (inj : X -> C) m0 :
  valid_schedule n es -> valid_schedule n es' -> shape m0 ->
  (forall s m, s < n -> shape m -> cell s m = cell s m0 -> rd s m = rd s m0) ->
  (forall s x m, s < n -> shape m -> exists m', wr s x m = Ok m' /\ shape m' /\ cell s m' = Some (inj x) /\
     forall t, t < n -> t <> s -> cell t m' = cell t m) ->
  (forall m m', shape m -> shape m' -> (forall s, s < n -> cell s m = cell s m') -> m = m') ->
  okeq (par_for es rd wr m0) (par_for es' rd wr m0).
Proof.
  intros H1 H2 H3 H4 H5 H6 r.
  rewrite (par_for_spec n es rd wr shape cell inj m0) by done. by rewrite (par_for_spec n es' rd wr shape cell inj m0).
Qed.

Lemma par1_okeq {X} n es es' (body : nat -> X -> outcome X) (m : list X) :
  valid_schedule n es -> valid_schedule n es' -> okeq (par1 es body m) (par1 es' body m).
Proof.
  intros Hes Hes'. destruct (decide (n <= length m)) as [Hn|Hn].
  - apply (par_for_okeq n _ _ _ _ (fun m' => length m' = length m /\ drop n m' = drop n m) (fun s m => m !! s) id); try done.
    + intros s m' Hs [Hl _] Hc. unfold vget. by rewrite Hc.
    + intros s x m' Hs [Hl Hd]. exists (<[s:=x]> m'). split_and!.
      * apply vset_ok. lia.
      * by rewrite insert_length.
      * rewrite drop_insert_gt by lia. done.
      * apply list_lookup_insert. lia.
      * intros t _ Ht. by apply list_lookup_insert_ne.
    + intros m1 m2 [Hl1 Hd1] [Hl2 Hd2] Heq. rewrite <-(take_drop n m1), <-(take_drop n m2), Hd1, Hd2. f_equal.
      apply list_eq. intros i. destruct (decide (i < n)) as [Hi|Hi].
      * rewrite !lookup_take by done. by apply Heq.
      * rewrite !lookup_take_ge by lia. done.
  - assert (forall es0, valid_schedule n es0 -> forall r, par1 es0 body m <> Ok r) as Hno.
    { intros es0 H0 r Hr. destruct (par_for_reads (X := X) (fun m' : list X => length m' = length m) n es0 (fun s m => x ← vget m s; body s x) (fun s y m => vset m s y) m r H0 eq_refl) with (s := length m) as (m' & x & Hl & Hx).
      - intros s x m1 m2 Hl Hw. apply vset_inv in Hw as [_ ->]. by rewrite insert_length.
      - exact Hr.
      - lia.
      - apply bind_ok in Hx as (y & Hy & _). apply vget_inv in Hy. apply lookup_lt_Some in Hy. lia. }
    intros r. split; intros Hr; by apply Hno in Hr.
Qed.

Lemma par2_okeq {X} sizes es es' (body : nat -> nat -> X -> outcome X) (m : list (list X)) :
  valid_schedule (snd (cum_sums sizes)) es -> valid_schedule (snd (cum_sums sizes)) es' ->
  okeq (par2 es sizes body m) (par2 es' sizes body m).
Proof.
  intros Hes Hes'. rewrite cum_sums_eq in Hes, Hes'. cbn [snd] in Hes, Hes'. unfold par2.
  set (lens := fun m' : list (list X) => length <$> m' = length <$> m).
  assert (forall m' j, lens m' -> length <$> m' !! j = length <$> m !! j) as Hlen.
  { intros m' j Hm'. unfold lens in Hm'. by rewrite <-!list_lookup_fmap, Hm'. }
  assert (forall m' j row row', lens m' -> m' !! j = Some row -> length row' = length row -> lens (<[j := row']> m')) as Hins.
  { intros m' j row row' Hm' Hrow Hl. unfold lens. rewrite list_fmap_insert, Hl, list_insert_id; [done|]. by rewrite list_lookup_fmap, Hrow. }
  destruct (decide (Forall (fun j => default 0 (sizes !! j) <= default 0 (length <$> m !! j)) (seq 0 (length sizes)))) as [Hall|Hex].
  - assert (forall j n, sizes !! j = Some n -> n <= default 0 (length <$> m !! j)) as Hfit.
    { intros j n Hj. rewrite Forall_forall in Hall. specialize (Hall j). rewrite Hj in Hall. apply Hall. apply elem_of_seq. apply lookup_lt_Some in Hj. lia. }
    clear Hall.
    set (cell := fun s (m' : list (list X)) => '(j, k) ← match compute_2d_index s (length sizes) (fst (cum_sums sizes)) with Ok jk => Some jk | Err _ => None end;
       row ← m' !! j; (row : list X) !! k).
    assert (forall m' j k n, sizes !! j = Some n -> k < n -> cell (row_start sizes j + k) m' = (m' !! j ≫= (fun row => row !! k))) as Hcell.
    { intros m' j k n Hj Hk. unfold cell. by rewrite (compute_2d_inv _ _ _ _ Hj Hk). }
    assert (forall m' j k n, lens m' -> sizes !! j = Some n -> k < n -> exists row, m' !! j = Some row /\ k < length row) as Hrow.
    { intros m' j k n Hm' Hj Hk. specialize (Hfit _ _ Hj). rewrite <-(Hlen m' j Hm') in Hfit. destruct (m' !! j) as [row|]; [|cbn in Hfit; lia].
      exists row. cbn in Hfit. split; [done|lia]. }
    apply (par_for_okeq (total sizes) _ _ _ _ (fun m' => lens m' /\ forall j k, k >= default 0 (sizes !! j) -> m' !! j ≫= (fun row => row !! k) = m !! j ≫= (fun row => row !! k)) cell id); try done.
    + intros s m' Hlt [Hm' _] Heq. destruct (compute_2d_spec sizes s Hlt) as (j & k & n & Hc & Hn & Hk & ->). rewrite Hc. cbn [mbind outcome_bind fst snd].
      rewrite !(Hcell _ _ _ n) in Heq by done. destruct (Hrow m' j k n) as (row & Hr & Hkr); [done..|]. destruct (Hrow m j k n) as (row0 & Hr0 & Hkr0); [done..|].
      rewrite Hr, Hr0 in Heq. cbn in Heq. rewrite (vget_ok _ _ _ Hr), (vget_ok _ _ _ Hr0). cbn [mbind outcome_bind]. unfold vget. by rewrite Heq.
    + intros s x m' Hlt [Hm' Hout]. destruct (compute_2d_spec sizes s Hlt) as (j & k & n & Hc & Hn & Hk & ->). rewrite Hc. cbn [mbind outcome_bind fst snd].
      destruct (Hrow m' j k n) as (row & Hr & Hkr); [done..|]. rewrite (vget_ok _ _ _ Hr). cbn [mbind outcome_bind].
      rewrite vset_ok by lia. cbn [mbind outcome_bind]. rewrite vset_ok by (by eapply lookup_lt_Some).
      exists (<[j:=<[k:=x]> row]> m'). split_and!; [done| | | |].
      * apply (Hins _ _ row); [done|done|]. by rewrite insert_length.
      * intros j' k' Hk'. rewrite <-(Hout j' k' Hk'). destruct (decide (j = j')) as [<-|Hjj]; [|by rewrite list_lookup_insert_ne].
        rewrite list_lookup_insert by (by eapply lookup_lt_Some). rewrite Hr. cbn. apply list_lookup_insert_ne. rewrite Hn in Hk'. cbn in Hk'. lia.
      * rewrite (Hcell _ _ _ n) by done. rewrite list_lookup_insert by (by eapply lookup_lt_Some). cbn. by apply list_lookup_insert.
      * intros s' Hlt' Hne. destruct (compute_2d_spec sizes s' Hlt') as (j' & k' & n' & Hc' & Hn' & Hk' & ->). rewrite !(Hcell _ _ _ n') by done.
        destruct (decide (j = j')) as [<-|Hjj]; [|by rewrite list_lookup_insert_ne].
        rewrite list_lookup_insert by (by eapply lookup_lt_Some). rewrite Hr. cbn. apply list_lookup_insert_ne. intros ->. done.
    + intros m1 m2 [H1 O1] [H2 O2] H. assert (forall j k, m1 !! j ≫= (fun row => row !! k) = m2 !! j ≫= (fun row => row !! k)) as Hjk.
      { intros j k. destruct (decide (k < default 0 (sizes !! j))) as [Hk|Hk]; [|rewrite O1, O2 by lia; done].
        destruct (sizes !! j) as [n|] eqn:Hn; [|cbn in Hk; lia]. cbn in Hk. rewrite <-!(Hcell _ _ _ n) by done. apply H.
        pose proof (row_start_le_total _ _ _ Hn). lia. }
      apply list_eq. intros j. pose proof (Hlen m1 j H1) as L1. pose proof (Hlen m2 j H2) as L2. rewrite <-L2 in L1. specialize (Hjk j).
      destruct (m1 !! j) as [r1|], (m2 !! j) as [r2|]; try done. f_equal. apply list_eq. intros k. apply (Hjk k).
  - assert (exists j n, sizes !! j = Some n /\ default 0 (length <$> m !! j) < n) as (j & n & Hj & Hn).
    { apply not_Forall_Exists in Hex; [|intros ?; apply _]. apply Exists_exists in Hex as (j & Hj & Hlt). apply elem_of_seq in Hj.
      destruct (lookup_lt_is_Some_2 sizes j) as [n Hn]; [lia|]. exists j, n. split; [done|]. apply Nat.nle_gt. intros Hle. apply Hlt. cbv beta. by rewrite Hn. }
    assert (forall es0, valid_schedule (total sizes) es0 -> forall r, par2 es0 sizes body m <> Ok r) as Hno.
    { intros es0 H0 r Hr. unfold par2 in Hr.
      assert (forall s (y : X) m1 m2, lens m1 -> (jk ← compute_2d_index s (length sizes) (fst (cum_sums sizes));
                  row ← vget m1 (fst jk); row' ← vset row (snd jk) y; vset m1 (fst jk) row') = Ok m2 -> lens m2) as Hkeep.
      { intros s x m1 m2 Hl Hw. apply bind_ok in Hw as (jk & _ & Hw). apply bind_ok in Hw as (row & Hrow & Hw). apply bind_ok in Hw as (row' & Hrow' & Hw).
        apply vget_inv in Hrow. apply vset_inv in Hrow' as [_ ->]. apply vset_inv in Hw as [_ ->]. apply (Hins _ _ row); [done|done|by rewrite insert_length]. }
      destruct (par_for_reads lens (total sizes) es0 _ _ m r H0 eq_refl Hkeep Hr (row_start sizes j + default 0 (length <$> m !! j))) as (m' & x & Hl & Hx).
      - pose proof (row_start_le_total _ _ _ Hj). lia.
      - rewrite (compute_2d_inv _ _ _ n Hj Hn) in Hx. cbn [mbind outcome_bind fst snd] in Hx. apply bind_ok in Hx as (row & Hrow & Hx).
        apply bind_ok in Hx as (y & Hy & _). apply vget_inv in Hrow. apply vget_inv in Hy. apply lookup_lt_Some in Hy.
        pose proof (Hlen m' j Hl) as HL. rewrite Hrow in HL. rewrite <-HL in Hy. cbn in Hy. lia. }
    intros r. split; intros Hr; exfalso; [apply (Hno es Hes r Hr)|apply (Hno es' Hes' r Hr)].
Qed.
Lemma par1_fill_okeq {X} n es es' (body body' : nat -> outcome X) :
  valid_schedule n es -> valid_schedule n es' -> (forall k, okeq (body k) (body' k)) -> okeq (par1_fill es n body) (par1_fill es' n body').
Proof.
  intros H1 H2 Hb. eapply okeq_trans; [by apply par1_fill_spec|]. eapply okeq_trans; [|apply okeq_sym; by apply par1_fill_spec]. by apply mcollect_okeq.
Qed.
Lemma par2_fill_okeq {X} sizes es es' (body : nat -> nat -> outcome X) :
  valid_schedule (snd (cum_sums sizes)) es -> valid_schedule (snd (cum_sums sizes)) es' -> okeq (par2_fill es sizes body) (par2_fill es' sizes body).
Proof.
  intros H1 H2. eapply okeq_trans; [by apply par2_fill_spec|]. by apply okeq_sym, par2_fill_spec.
Qed.
