(** All edges at one depth, for any schedule. *)
From Verif Require Import PCModel PCSpec ChoiceProofs UtilProofs NetProofs PCProofs.
Local Open Scope nat_scope.

Lemma key_of e : pe_n1 e < pe_n2 e -> sep_key e = pe_pair e.
Proof. intros H. unfold sep_key. by rewrite bool_decide_false by lia. Qed.
Lemma filter_push (f : nat -> bool) (batch : list nat) : snd <$> filter (fun bp => fst bp = true) (zip (f <$> batch) batch) = filter (fun i => f i = true) batch.
Proof. induction batch as [|i b IH]; [done|]. cbn [fmap list_fmap zip]. rewrite !filter_cons. cbn [fst]. destruct (f i); cbn [fmap list_fmap snd]; [rewrite decide_True, decide_True by done; cbn [fmap list_fmap snd]; by rewrite IH|by rewrite !decide_False by done]. Qed.
Lemma sum_filter (f : nat -> nat) l : sum_list (f <$> filter (fun i => bool_decide (f i <> 0) = true) l) = sum_list (f <$> l).
Proof. induction l as [|i l IH]; [done|]. rewrite filter_cons. case_decide as H; rewrite ?fmap_cons; cbn [sum_list id foldr]; rewrite bool_decide_eq_true in H; change (sum_list_with id) with sum_list; lia. Qed.
Lemma sum_pred (f : nat -> nat) l : Forall (fun i => 0 < f i) l -> sum_list ((fun i => f i - 1) <$> l) + length l = sum_list (f <$> l).
Proof. induction 1 as [|i l Hi _ IH]; cbn in *; lia. Qed.

Lemma list_filter_iff' {A} (R Q : A -> Prop) `{!forall x, Decision (R x)} `{!forall x, Decision (Q x)} (l : list A) : (forall x, x ∈ l -> R x <-> Q x) -> filter R l = filter Q l.
Proof. induction l as [|x l IH]; intros HQ; [done|]. rewrite !filter_cons. rewrite IH by (intros; apply HQ; by right). specialize (HQ x ltac:(left)). repeat case_decide; tauto. Qed.
Lemma list_fmap_ext' {A B} (f h : A -> B) (l : list A) : (forall x, x ∈ l -> f x = h x) -> f <$> l = h <$> l.
Proof. induction l as [|x l IH]; intros H; [done|]. cbn. f_equal; [apply H; left|apply IH; intros; apply H; by right]. Qed.

Lemma batches_mono tst adj c g sch fuel fuel' t stack es sep r : fuel <= fuel' -> batches tst fuel adj c g sch t stack es sep = Ok r -> batches tst fuel' adj c g sch t stack es sep = Ok r.
Proof.
  revert fuel' t stack es sep. induction fuel as [|fuel IH]; intros fuel' t stack es sep Hle H.
  - destruct stack; cbn in H; [by destruct fuel'|done].
  - destruct fuel' as [|fuel']; [lia|]. destruct stack as [|u stack]; [done|]. cbn [batches] in *. destruct (run_batch _ _ _ _ _ _ _ _) as [[[es1 sep1] push]|]; [|done]. cbn [mbind outcome_bind] in *. apply IH; [lia|done].
Qed.

Section level.
Context (tst : nat -> nat -> list nat -> nat -> outcome ci_result) (adj : adjs) (c g : nat).
(** The edges, their verdicts and the map before the level. *)
Context (P : list (nat * nat)) (v : nat -> option (list nat)) (sep0 : sepmap).
Context (HP : NoDup P) (Hlt : forall i p, P !! i = Some p -> fst p < snd p).
Definition pend (m : nat) (e : pedge) (i : nat) (p : nat * nat) : Prop :=
  exists e', finishes tst adj c g m (check_edge tst adj c g e) e' (v i) /\ pe_pair e' = p /\ pe_remove e' = bool_decide (is_Some (v i)).
Definition inv (f : nat -> nat) (es : list pedge) (sep : sepmap) : Prop :=
  pe_pair <$> es = P /\
  (forall i e p, es !! i = Some e -> P !! i = Some p ->
     match f i with
     | O => pe_remove e = bool_decide (is_Some (v i)) /\ sep !! p = v i
     | S m => pend (S m) e i p /\ sep !! p = None
     end) /\
  (forall k, k ∉ P -> sep !! k = sep0 !! k).
Set Default Proof Using "All".
Lemma inv_ext f f' es sep : (forall i, i < length P -> f i = f' i) -> inv f es sep -> inv f' es sep.
Proof. intros He (H1 & H2 & H3). split_and!; [done| |done]. intros i e p Hi Hp. rewrite <-He by (by eapply lookup_lt_Some). by apply H2. Qed.
Lemma step_ok f es sep i : i < length P -> 0 < f i -> inv f es sep ->
  exists e e' ins, es !! i = Some e /\ check_edge tst adj c g e = Ok (e', bool_decide (f i - 1 <> 0), ins) /\
    inv (fun j => if decide (j = i) then f j - 1 else f j) (<[i:=e']> es) (match ins with Some s => sep_insert (sep_key e) s sep | None => sep end).
Proof.
  intros Hi Hf (H1 & H2 & H3). assert (length es = length P) as Hlen by (by rewrite <-H1, fmap_length). destruct (lookup_lt_is_Some_2 es i) as [e He]; [lia|]. destruct (lookup_lt_is_Some_2 P i Hi) as [p Hp].
  assert (pe_pair e = p) as Hep. { rewrite <-H1, list_lookup_fmap, He in Hp. cbn in Hp. congruence. }
  assert (forall e', pe_pair e' = p -> pe_pair <$> <[i:=e']> es = P) as Hpairs. { intros e' He'. rewrite list_fmap_insert, H1, He'. by apply list_insert_id. }
  pose proof (H2 i e p He Hp) as Hcase. destruct (f i) as [|m] eqn:Efi; [lia|]. destruct Hcase as [(e1 & Hfin & Hp1 & Hr1) Hnone].
  assert (forall j, j <> i -> forall q, P !! j = Some q -> q <> p) as Hne. { intros j Hj q Hq ->. apply Hj. by eapply NoDup_lookup. }
  inversion Hfin as [e2 ins2 Hm Hce Hee Hii|m' e2 e3 ins3 Hpe Hfin' Hm Hce Hee Hii]; subst.
  - exists e, e1, (v i). split_and!; [done|by rewrite <-Hce, bool_decide_false by lia|]. split_and!.
    + by apply Hpairs.
    + intros j ej q Hj Hq. destruct (decide (j = i)) as [->|Hji].
      * rewrite list_lookup_insert in Hj by lia. injection Hj as <-. rewrite Efi. cbn. split; [done|]. rewrite key_of by exact (Hlt i _ Hp). rewrite Hp in Hq. injection Hq as <-.
        destruct (v i) as [s|]; [|done]. unfold sep_insert. rewrite Hnone. apply lookup_insert.
      * rewrite list_lookup_insert_ne in Hj by done. specialize (H2 j ej q Hj Hq). rewrite key_of by exact (Hlt i _ Hp).
        assert (match v i with Some s => sep_insert (pe_pair e) s sep | None => sep end !! q = sep !! q) as ->. { destruct (v i) as [s|]; [|done]. unfold sep_insert. rewrite Hnone. apply lookup_insert_ne. intros Heq. by eapply Hne. }
        done.
    + intros k Hk. rewrite <-H3 by done. rewrite key_of by exact (Hlt i _ Hp). destruct (v i) as [s|]; [|done]. unfold sep_insert. rewrite Hnone. apply lookup_insert_ne. intros <-. apply Hk. by eapply elem_of_list_lookup_2.
  - assert (m <> 0) as Hm0 by (inversion Hfin'; lia). exists e, e2, None. split_and!; [done|by rewrite <-Hce, bool_decide_true by lia|]. split_and!.
    + apply Hpairs. congruence.
    + intros j ej q Hj Hq. destruct (decide (j = i)) as [->|Hji].
      * rewrite list_lookup_insert in Hj by lia. injection Hj as <-. rewrite Hp in Hq. injection Hq as <-. rewrite Efi. cbn. rewrite Nat.sub_0_r. destruct m as [|m]; [lia|]. split; [|done]. by exists e1.
      * rewrite list_lookup_insert_ne in Hj by done. by apply H2.
    + done.
Qed.
Definition dec_on (l : list nat) (f : nat -> nat) (j : nat) : nat := if decide (j ∈ l) then f j - 1 else f j.
Lemma batch_ok f es sep order batch : order ≡ₚ seq 0 (length batch) -> NoDup batch -> Forall (fun i => i < length P /\ 0 < f i) batch -> inv f es sep ->
  exists es' sep', run_batch tst adj c g order batch es sep = Ok (es', sep', (fun i => bool_decide (f i - 1 <> 0)) <$> batch) /\ inv (dec_on batch f) es' sep'.
Proof.
  intros Ho Hnd Hb HJ. unfold run_batch.
  set (Q := fun (dn : list nat) (st : list pedge * sepmap * list bool) => let '(es, sep, push) := st in
    inv (dec_on (omap (fun p => batch !! p) dn) f) es sep /\ length push = length batch /\ forall p i, p ∈ dn -> batch !! p = Some i -> push !! p = Some (bool_decide (f i - 1 <> 0))).
  match goal with |- context [mfor order ?b ?s0] => destruct (mfor_inv Q order b s0) as ([[es' sep'] push'] & -> & HJ' & Hl' & Hp') end.
  - split_and!; [|apply replicate_length|intros p i Hp; by apply elem_of_nil in Hp]. eapply inv_ext; [|exact HJ]. intros i _. unfold dec_on. case_decide as H; [by apply elem_of_nil in H|done].
  - intros dn p rest [[es1 sep1] push1] Hor (HJ1 & Hl1 & Hp1).
    assert (p < length batch) as Hp. { assert (p ∈ order) as H by (rewrite Hor; apply elem_of_app; right; left). rewrite Ho in H. apply elem_of_seq in H. lia. }
    assert (p ∉ dn) as Hpn. { assert (NoDup order) as H by (rewrite Ho; apply NoDup_seq). rewrite Hor in H. apply NoDup_app in H as (_ & H & _). intros Hin. apply (H p Hin). left. }
    destruct (lookup_lt_is_Some_2 batch p Hp) as [i Hi]. rewrite (vget_ok batch p i Hi). cbn [mbind outcome_bind]. pose proof Hb as Hb'. rewrite Forall_lookup in Hb'. destruct (Hb' p i Hi) as [Hip Hfi].
    assert (i ∉ omap (fun p => batch !! p) dn) as Hin. { intros Hin. apply elem_of_list_omap in Hin as (q & Hq & Hqi). apply Hpn. by rewrite (NoDup_lookup batch p q i Hnd Hi Hqi). }
    assert (dec_on (omap (fun p => batch !! p) dn) f i = f i) as Efi by (unfold dec_on; by rewrite decide_False).
    destruct (step_ok _ es1 sep1 i Hip ltac:(by rewrite Efi) HJ1) as (e & e' & ins & He & Hce & HJ2). rewrite (vget_ok es1 i e He). cbn [mbind outcome_bind]. rewrite Hce. cbn [mbind outcome_bind]. rewrite Efi.
    rewrite (vset_ok es1) by (by eapply lookup_lt_Some). cbn [mbind outcome_bind]. rewrite (vset_ok push1) by lia. cbn [mbind outcome_bind]. eexists. split; [done|]. split_and!.
    + eapply inv_ext; [|exact HJ2]. intros j _. cbn beta. unfold dec_on. rewrite omap_app. cbn [omap list_omap]. rewrite Hi. destruct (decide (j = i)) as [->|Hji].
      * rewrite (decide_False (P := i ∈ omap _ dn)) by done. rewrite decide_True; [done|]. apply elem_of_app. right. left.
      * destruct (decide (j ∈ omap (fun p => batch !! p) dn)) as [H|H].
        -- rewrite decide_True; [done|]. apply elem_of_app. by left.
        -- rewrite decide_False; [done|]. rewrite elem_of_app, elem_of_list_singleton. tauto.
    + by rewrite insert_length.
    + intros q j Hq Hj. apply elem_of_app in Hq as [Hq|Hq%elem_of_list_singleton].
      * rewrite list_lookup_insert_ne by (intros ->; done). by apply Hp1.
      * subst q. rewrite Hi in Hj. injection Hj as <-. apply list_lookup_insert. lia.
  - assert (push' = (fun i => bool_decide (f i - 1 <> 0)) <$> batch) as ->.
    { apply list_eq. intros p. rewrite list_lookup_fmap. destruct (decide (p < length batch)) as [H|H].
      - destruct (lookup_lt_is_Some_2 batch p H) as [i Hi]. rewrite Hi. cbn. apply Hp'; [|done]. rewrite Ho. apply elem_of_seq. lia.
      - rewrite (lookup_ge_None_2 batch) by lia. apply lookup_ge_None_2. lia. }
    eexists _, _. split; [done|]. eapply inv_ext; [|exact HJ']. intros j _. unfold dec_on.
    assert (j ∈ omap (fun p => batch !! p) order <-> j ∈ batch) as Hio. { rewrite Ho. rewrite elem_of_list_omap, elem_of_list_lookup. split; [intros (p & _ & H); by exists p|intros [p H]; exists p; split; [|done]; apply elem_of_seq; apply lookup_lt_Some in H; lia]. }
    destruct (decide (j ∈ omap _ order)) as [H|H]; destruct (decide (j ∈ batch)) as [H'|H']; tauto.
Qed.
Lemma batches_ok sch : (forall t k, sch t k ≡ₚ seq 0 k) -> forall fuel t f stack es sep, NoDup stack -> (forall i, i < length P -> 0 < f i -> i ∈ stack) -> Forall (fun i => i < length P /\ 0 < f i) stack ->
  sum_list (f <$> stack) <= fuel -> inv f es sep -> exists es' sep', batches tst fuel adj c g sch t stack es sep = Ok (es', sep') /\ inv (fun _ => 0) es' sep'.
Proof.
  intros Hs. induction fuel as [|fuel IH]; intros t f stack es sep Hnd Hall Hst Hfuel HJ.
  - destruct stack as [|i stack]; [|inversion_clear Hst as [|? ? [_ Hi] _]; cbn in Hfuel; lia]. exists es, sep. split; [done|]. eapply inv_ext; [|exact HJ]. intros i Hi. destruct (f i) eqn:E; [done|]. exfalso. assert (i ∈ []) as H by (apply Hall; [done|lia]). by apply elem_of_nil in H.
  - destruct (decide (stack = [])) as [->|Hne].
    { exists es, sep. split; [done|]. eapply inv_ext; [|exact HJ]. intros i Hi. destruct (f i) eqn:E; [done|]. exfalso. assert (i ∈ []) as H by (apply Hall; [done|lia]). by apply elem_of_nil in H. }
    assert (exists u l, stack = u :: l) as (u & l & Hul) by (destruct stack; [done|eauto]). cbn [batches]. rewrite Hul. rewrite <-Hul. clear u l Hul.
    set (size := Nat.min 128 (length stack)). set (batch := take size stack). set (rest := drop size stack). assert (stack = batch ++ rest) as Hsplit by (symmetry; apply take_drop). assert (length batch = size) as Hlb by (unfold batch; rewrite take_length; unfold size; lia).
    assert (0 < size) as Hpos by (unfold size; destruct stack; [done|cbn [length]; lia]). rewrite Hsplit in Hnd, Hst. apply NoDup_app in Hnd as (Hnb & Hdis & Hnr). apply Forall_app in Hst as [Hb Hr].
    destruct (batch_ok f es sep (sch t size) batch) as (es1 & sep1 & -> & HJ1); [by rewrite Hlb|done|done|done|]. cbn [mbind outcome_bind]. rewrite filter_push.
    assert (filter (fun i => bool_decide (f i - 1 <> 0) = true) batch = filter (fun i => bool_decide (dec_on batch f i <> 0) = true) batch) as ->.
    { apply list_filter_iff'. intros i Hi. unfold dec_on. by rewrite decide_True. }
    apply (IH (S t) (dec_on batch f)); [| | | |done].
    + apply NoDup_app. split_and!; [by apply NoDup_filter| |done]. intros i Hi. apply elem_of_list_filter in Hi as [_ Hi]. by apply Hdis.
    + intros i Hi Hf. destruct (decide (i ∈ batch)) as [H|H].
      * apply elem_of_app. left. apply elem_of_list_filter. split; [|done]. apply bool_decide_eq_true. lia.
      * unfold dec_on in Hf. rewrite decide_False in Hf by done. specialize (Hall i Hi Hf). rewrite Hsplit in Hall. apply elem_of_app in Hall as [|]; [done|]. apply elem_of_app. by right.
    + apply Forall_app. split.
      * apply Forall_forall. intros i Hi. apply elem_of_list_filter in Hi as [Hn Hi]. apply bool_decide_eq_true in Hn. rewrite Forall_forall in Hb. split; [by apply Hb|lia].
      * apply Forall_forall. intros i Hi. rewrite Forall_forall in Hr. unfold dec_on. rewrite decide_False; [by apply Hr|]. intros H. by apply (Hdis i).
    + rewrite fmap_app, sum_list_with_app. rewrite sum_filter. rewrite Hsplit, fmap_app, sum_list_with_app in Hfuel.
      assert (dec_on batch f <$> batch = (fun i => f i - 1) <$> batch) as ->. { apply list_fmap_ext'. intros i Hi. unfold dec_on. by rewrite decide_True. }
      assert (dec_on batch f <$> rest = f <$> rest) as ->. { apply list_fmap_ext'. intros i Hi. unfold dec_on. rewrite decide_False; [done|]. intros H. by apply (Hdis i). }
      pose proof (sum_pred f batch ltac:(eapply Forall_impl; [exact Hb|]; naive_solver)). lia.
Qed.
End level.
