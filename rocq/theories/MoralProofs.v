(** Adjacency matrices as relations, and moralisation. *)
From Verif Require Import JTModel GraphSpec UtilSpec ChoiceProofs UtilProofs NetProofs NetProofs2.
Local Open Scope nat_scope.

(** ** Reading and writing a matrix *)
Section mat.
Context (n : nat).
Lemma sq_row m i : square_matrix n m -> i < n -> exists row, m !! i = Some row /\ length row = n.
Proof.
  intros [Hl Hr] Hi. destruct (lookup_lt_is_Some_2 m i) as [row Hrow]; [lia|]. exists row. split; [done|]. apply Hr. by eapply elem_of_list_lookup_2.
Qed.
Lemma rel_bound m i j : square_matrix n m -> matrix_rel m i j -> i < n /\ j < n.
Proof.
  intros [Hl Hr] (row & H1 & H2). split; [rewrite <-Hl; by eapply lookup_lt_Some|]. rewrite <-(Hr row); [by eapply lookup_lt_Some|by eapply elem_of_list_lookup_2].
Qed.
Lemma mget_spec m i j : square_matrix n m -> i < n -> j < n -> exists x, mget m i j = Ok x /\ (x = 1 <-> matrix_rel m i j).
Proof.
  intros Hsq Hi Hj. destruct (sq_row m i Hsq Hi) as (row & Hrow & Hl). destruct (lookup_lt_is_Some_2 row j) as [x Hx]; [lia|].
  exists x. unfold mget. rewrite (vget_ok _ _ _ Hrow). cbn. split; [by apply vget_ok|]. split.
  - intros ->. by exists row.
  - intros (row' & H1 & H2). congruence.
Qed.
Lemma mset_spec m i j x : square_matrix n m -> i < n -> j < n -> exists m', mset m i j x = Ok m' /\ square_matrix n m' /\
  forall a b, matrix_rel m' a b <-> (a = i /\ b = j /\ x = 1) \/ (~ (a = i /\ b = j) /\ matrix_rel m a b).
Proof.
  intros Hsq Hi Hj. destruct (sq_row m i Hsq Hi) as (row & Hrow & Hl). exists (<[i := <[j := x]> row]> m).
  unfold mset. rewrite (vget_ok _ _ _ Hrow). cbn. rewrite vset_ok by lia. cbn. destruct Hsq as [Hlm Hr]. rewrite vset_ok by lia. split; [done|]. split.
  { split; [by rewrite insert_length|]. intros r Hin. apply elem_of_list_lookup in Hin as [k Hk]. destruct (decide (i = k)) as [<-|Hne].
    - rewrite list_lookup_insert in Hk by lia. injection Hk as <-. by rewrite insert_length.
    - rewrite list_lookup_insert_ne in Hk by done. apply Hr. by eapply elem_of_list_lookup_2. }
  intros a b. unfold matrix_rel. destruct (decide (i = a)) as [<-|Hne].
  - rewrite list_lookup_insert by lia. destruct (decide (j = b)) as [<-|Hnb].
    + split.
      * intros (r & [= <-] & Hb). rewrite list_lookup_insert in Hb by lia. injection Hb as ->. by left.
      * intros [(_ & _ & ->)|[H _]]; [|tauto]. eexists. split; [done|]. by rewrite list_lookup_insert by lia.
    + split.
      * intros (r & [= <-] & Hb). rewrite list_lookup_insert_ne in Hb by done. right. split; [naive_solver|]. by exists row.
      * intros [(_ & ? & _)|[_ (r & H1 & H2)]]; [congruence|]. eexists. split; [done|]. rewrite list_lookup_insert_ne by done. congruence.
  - rewrite list_lookup_insert_ne by done. split.
    + intros (r & H1 & H2). right. split; [naive_solver|]. by exists r.
    + intros [(-> & _)|[_ H]]; [done|done].
Qed.
Lemma mset2_one m i j : square_matrix n m -> i < n -> j < n -> exists m', (m1 ← mset m i j 1; mset m1 j i 1) = Ok m' /\ square_matrix n m' /\
  forall a b, matrix_rel m' a b <-> (a = i /\ b = j) \/ (a = j /\ b = i) \/ matrix_rel m a b.
Proof.
  intros Hsq Hi Hj. destruct (mset_spec m i j 1 Hsq Hi Hj) as (m1 & -> & Hsq1 & H1). cbn.
  destruct (mset_spec m1 j i 1 Hsq1 Hj Hi) as (m2 & -> & Hsq2 & H2). exists m2. split; [done|]. split; [done|].
  intros a b. rewrite H2, H1. destruct (decide (a = i)), (decide (b = j)), (decide (a = j)), (decide (b = i)); naive_solver.
Qed.
Lemma mset2_zero m i j : square_matrix n m -> i < n -> j < n -> exists m', (m1 ← mset m i j 0; mset m1 j i 0) = Ok m' /\ square_matrix n m' /\
  forall a b, matrix_rel m' a b <-> ~ (a = i /\ b = j) /\ ~ (a = j /\ b = i) /\ matrix_rel m a b.
Proof.
  intros Hsq Hi Hj. destruct (mset_spec m i j 0 Hsq Hi Hj) as (m1 & -> & Hsq1 & H1). cbn.
  destruct (mset_spec m1 j i 0 Hsq1 Hj Hi) as (m2 & -> & Hsq2 & H2). exists m2. split; [done|]. split; [done|].
  intros a b. rewrite H2, H1. naive_solver.
Qed.
End mat.

Lemma ssorted_app {A} (R : A -> A -> Prop) l1 l2 :
  StronglySorted R l1 -> StronglySorted R l2 -> (forall x y, x ∈ l1 -> y ∈ l2 -> R x y) -> StronglySorted R (l1 ++ l2).
Proof.
  induction 1 as [|x l1 Hs IH Hf]; intros H2 Hc; [done|]. cbn. constructor.
  - apply IH; [done|]. intros a b Ha. apply Hc. by right.
  - apply Forall_app. split; [done|]. apply Forall_forall. intros y Hy. apply Hc; [left|done].
Qed.
(** Collecting indices that pass a test. *)
Lemma collect_sorted n (P : nat -> Prop) (body : nat -> list nat -> outcome (list nat)) :
  (forall j acc, j < n -> (body j acc = Ok (acc ++ [j]) /\ P j) \/ (body j acc = Ok acc /\ ~ P j)) ->
  exists ps, mfor (seq 0 n) body [] = Ok ps /\ StronglySorted lt ps /\ forall j, j ∈ ps <-> j < n /\ P j.
Proof.
  intros H. induction n as [|n IH].
  - exists []. split_and!; [done|constructor|]. intros j. rewrite elem_of_nil. split; [done|lia].
  - destruct IH as (ps & H1 & H2 & H3); [intros; apply H; lia|]. rewrite seq_S, mfor_app, H1. cbn [mbind outcome_bind Nat.add mfor].
    destruct (H n ps) as [[Hb Hp]|[Hb Hp]]; [lia| |]; rewrite Hb; cbn [mbind outcome_bind].
    + exists (ps ++ [n]). split_and!; [done| |].
      * apply ssorted_app; [done|repeat constructor|]. intros x y Hx ->%elem_of_list_singleton. apply H3 in Hx as [Hx _]. exact Hx.
      * intros j. rewrite elem_of_app, H3, elem_of_list_singleton. split; [intros [[? ?]| ->]; split; auto; lia|].
        intros [Hj Hpj]. destruct (decide (j = n)) as [->|]; [by right|left]. split; [lia|done].
    + exists ps. split_and!; [done|done|]. intros j. rewrite H3. split; [intros [? ?]; split; auto; lia|].
      intros [Hj Hpj]. destruct (decide (j = n)) as [->|]; [done|]. split; [lia|done].
Qed.

(** ** Moralisation *)
Lemma moral_parents_spec n m i : square_matrix n m -> i < n ->
  exists ps, moral_parents m n i = Ok ps /\ StronglySorted lt ps /\ forall j, j ∈ ps <-> j < n /\ (i <> j /\ matrix_rel m j i).
Proof.
  intros Hsq Hi. apply collect_sorted. intros j acc Hj. destruct (decide (i = j)) as [->|Hne].
  - right. rewrite bool_decide_true by done. split; [done|naive_solver].
  - rewrite bool_decide_false by done. destruct (mget_spec n m j i Hsq Hj Hi) as (x & -> & Hx). cbn.
    destruct (decide (x = 1)) as [H1|H1]; [rewrite bool_decide_true by done; left|rewrite bool_decide_false by done; right]; naive_solver.
Qed.
Lemma neighbours_spec n m i : square_matrix n m -> i < n ->
  exists ps, neighbours m n i = Ok ps /\ StronglySorted lt ps /\ forall j, j ∈ ps <-> j < n /\ matrix_rel m i j.
Proof.
  intros Hsq Hi. apply collect_sorted. intros j acc Hj. destruct (mget_spec n m i j Hsq Hi Hj) as (x & -> & Hx). cbn.
  destruct (decide (x = 1)) as [H1|H1]; [rewrite bool_decide_true by done; left|rewrite bool_decide_false by done; right]; naive_solver.
Qed.

Lemma combs2_length a : length (combs a 0 2) <= a * a.
Proof.
  destruct (choice_combs_meaning a 2) as (Hm & Hnd & _).
  set (all := seq 0 a ≫= (fun i => (fun j => [i; j]) <$> seq 0 a)).
  assert (length all = a * a) as <-.
  { unfold all. assert (forall l : list nat, length (l ≫= (fun i => (fun j => [i; j]) <$> seq 0 a)) = length l * a) as Hl.
    { induction l as [|x l IH]; [done|]. change ((x :: l) ≫= (fun i => (fun j => [i; j]) <$> seq 0 a)) with (((fun j => [x; j]) <$> seq 0 a) ++ (l ≫= (fun i => (fun j => [i; j]) <$> seq 0 a))).
      rewrite app_length, IH, fmap_length, seq_length. cbn. lia. }
    by rewrite Hl, seq_length. }
  apply submseteq_length, NoDup_submseteq; [done|]. intros c Hc. apply Hm in Hc as (Hl & _ & HF).
  destruct c as [|i [|j [|]]]; try done. rewrite !Forall_cons in HF. destruct HF as (Hi & Hj & _).
  apply elem_of_list_bind. exists i. split; [|apply elem_of_seq; lia]. apply elem_of_list_fmap. exists j. split; [done|apply elem_of_seq; lia].
Qed.

Definition zl (c : list nat) : list Z := Z.of_nat <$> c.
Definition zhead (C : list (list nat)) : list Z := match C with [] => [] | c :: _ => zl c end.
Lemma marry_loop_spec ps C : (forall c, c ∈ C -> exists i j, c = [i; j] /\ i < length ps /\ j < length ps) ->
  forall fuel g gl rest tm, length C <= fuel -> calls cgen_next (length C) g = Ok (gl, rest) ->
  tail ((zl <$> C) ++ [[]]) = rest ->
  exists tm', marry_loop fuel g (zhead C) ps tm = Ok tm' /\
    forall p, p ∈ tm' <-> p ∈ tm \/ exists i j a b, [i; j] ∈ C /\ ps !! i = Some a /\ ps !! j = Some b /\ p = (a, b).
Proof.
  induction C as [|c C IH]; intros HC fuel g gl rest tm Hf Hcalls Hrest.
  - exists tm. split. { by destruct fuel. }
    intros p. split; [by left|]. intros [?|(i & j & a & b & H & _)]; [done|by apply elem_of_nil in H].
  - destruct (HC c) as (i & j & -> & Hi & Hj); [left|]. cbn [length] in Hcalls, Hf. cbn [calls] in Hcalls.
    apply bind_ok in Hcalls as ([g1 ch1] & Hn & Hcalls). apply bind_ok in Hcalls as ([g2 rest2] & Hcalls & [= -> <-]). cbn [fst snd] in *.
    destruct fuel as [|fuel]; [lia|]. cbn [zhead]. unfold zl. cbn [fmap list_fmap].
    destruct (lookup_lt_is_Some_2 ps i Hi) as [a Ha]. destruct (lookup_lt_is_Some_2 ps j Hj) as [b Hb].
    cbn [tail fmap list_fmap app] in Hrest.
    assert (ch1 = zhead C /\ tail ((zl <$> C) ++ [[]]) = rest2) as [-> Ht].
    { destruct C as [|c' C]; cbn in Hrest |- *; injection Hrest as <- <-; done. }
    destruct (IH ltac:(intros; apply HC; by right) fuel g1 gl rest2 (cins (a, b) tm) ltac:(lia) Hcalls Ht) as (tm' & Hl & Htm).
    exists tm'. split.
    + assert (forall k x, ps !! k = Some x -> vatz ps (Z.of_nat k) = Ok x) as Hz.
      { intros k x Hk. unfold vatz. rewrite bool_decide_false by lia. rewrite Nat2Z.id. unfold vat. by rewrite Hk. }
      cbn [marry_loop]. rewrite bool_decide_false by done.
      change (vat [Z.of_nat i; Z.of_nat j] 0) with (Ok (Z.of_nat i)). change (vat [Z.of_nat i; Z.of_nat j] 1) with (Ok (Z.of_nat j)).
      cbn [mbind outcome_bind]. rewrite (Hz _ _ Ha). cbn [mbind outcome_bind]. rewrite (Hz _ _ Hb). cbn [mbind outcome_bind]. rewrite Hn. cbn [mbind outcome_bind fst snd]. exact Hl.
    + intros p. rewrite Htm, elem_of_cins. split.
      * intros [[->|H]|(i' & j' & a' & b' & H & H')]; [right|by left|right].
        -- exists i, j, a, b. split; [left|done].
        -- exists i', j', a', b'. split; [by right|done].
      * intros [H|(i' & j' & a' & b' & H & H1 & H2 & ->)]; [left; by right|]. apply elem_of_cons in H as [[= -> ->]|H].
        -- left; left. congruence.
        -- right. exists i', j', a', b'. done.
Qed.

Lemma sorted_pair (ps : list nat) a b : StronglySorted lt ps -> a ∈ ps -> b ∈ ps -> a < b ->
  exists i j, i < j /\ ps !! i = Some a /\ ps !! j = Some b.
Proof.
  induction 1 as [|x ps Hs IH Hx]; intros Ha Hb Hlt; [by apply elem_of_nil in Ha|]. rewrite Forall_forall in Hx.
  apply elem_of_cons in Ha as [->|Ha], Hb as [->|Hb]; [lia| | |].
  - apply elem_of_list_lookup in Hb as [j Hj]. exists 0, (S j). split_and!; [lia|done|done].
  - apply Hx in Ha. lia.
  - destruct (IH Ha Hb Hlt) as (i & j & ? & ? & ?). exists (S i), (S j). split_and!; [lia|done|done].
Qed.
Lemma sorted_lookup (ps : list nat) i j a b : StronglySorted lt ps -> ps !! i = Some a -> ps !! j = Some b -> i < j -> a < b.
Proof.
  intros Hs. revert i j. induction Hs as [|x ps Hs IH Hx]; intros i j Hi Hj Hlt; [done|]. rewrite Forall_forall in Hx.
  destruct j as [|j]; [lia|]. destruct i as [|i]; cbn in *; [injection Hi as ->; apply Hx; by eapply elem_of_list_lookup_2|]. apply (IH i j); auto with lia.
Qed.

Lemma marry_node_spec n m i tm : square_matrix n m -> i < n ->
  exists tm', marry_node m n i tm = Ok tm' /\
    forall p, p ∈ tm' <-> p ∈ tm \/ (fst p < snd p /\ fst p <> i /\ snd p <> i /\ matrix_rel m (fst p) i /\ matrix_rel m (snd p) i).
Proof.
  intros Hsq Hi. unfold marry_node. destruct (moral_parents_spec n m i Hsq Hi) as (ps & -> & Hs & Hps). cbn.
  assert (forall p : nat * nat, (exists a b, a < b /\ a ∈ ps /\ b ∈ ps /\ p = (a, b)) <-> (fst p < snd p /\ fst p <> i /\ snd p <> i /\ matrix_rel m (fst p) i /\ matrix_rel m (snd p) i)) as Hp.
  { intros [x y]. cbn. split.
    - intros (a & b & Hlt & Ha & Hb & [= -> ->]). apply Hps in Ha as (? & ? & ?). apply Hps in Hb as (? & ? & ?). split_and!; auto.
    - intros (Hlt & ? & ? & Hx & Hy). exists x, y. split_and!; [done| | |done]; apply Hps.
      + split; [by destruct (rel_bound n m _ _ Hsq Hx)|split; auto].
      + split; [by destruct (rel_bound n m _ _ Hsq Hy)|split; auto]. }
  case_bool_decide as Hlen.
  - exists tm. split; [done|]. intros p. rewrite <-Hp. split; [by left|]. intros [?|(a & b & Hlt & Ha & Hb & _)]; [done|exfalso].
    destruct (sorted_pair ps a b Hs Ha Hb Hlt) as (i0 & j0 & ? & _ & Hj). apply lookup_lt_Some in Hj. lia.
  - destruct (choice_enumeration (length ps) 2 ltac:(lia)) as (g & Hg & Hall). change (Z.of_nat 2) with 2%Z in Hg. rewrite Hg. cbn [mbind outcome_bind].
    set (C := combs (length ps) 0 2) in *. destruct (Hall (S (length C))) as (gl & Hcalls). cbn [calls] in Hcalls.
    apply bind_ok in Hcalls as ([g1 ch1] & Hn & Hcalls). apply bind_ok in Hcalls as ([g2 rest2] & Hcalls & Heq). injection Heq as -> Heq. cbn [fst snd] in *.
    rewrite Hn. cbn [mbind outcome_bind fst snd].
    assert ((fun k => match C !! k with Some c => Z.of_nat <$> c | None => [] end) <$> seq 0 (S (length C)) =
      (zl <$> C) ++ [[]]) as HL.
    { apply list_eq. intros k. rewrite list_lookup_fmap. destruct (decide (k < length C)) as [Hk|Hk].
      - rewrite lookup_seq_lt by lia. rewrite lookup_app_l by (by rewrite fmap_length). rewrite list_lookup_fmap. cbn.
        destruct (lookup_lt_is_Some_2 C k Hk) as [c ->]. done.
      - destruct (decide (k = length C)) as [->|Hne].
        + rewrite lookup_seq_lt by lia. cbn. rewrite lookup_ge_None_2 by lia. rewrite lookup_app_r by (by rewrite fmap_length). by rewrite fmap_length, Nat.sub_diag.
        + rewrite lookup_seq_ge by lia. rewrite lookup_ge_None_2; [done|]. rewrite app_length, fmap_length. cbn. lia. }
    rewrite <-cons_seq in HL. rewrite fmap_cons in HL.
    assert (ch1 = zhead C /\ tail ((zl <$> C) ++ [[]]) = rest2) as [-> Ht].
    { split; [rewrite Heq; by destruct C|]. rewrite <-HL. cbn [tail]. by rewrite H. }
    destruct (choice_combs_meaning (length ps) 2) as (Hm & _ & _). fold C in Hm.
    assert (forall c, c ∈ C -> exists i j, c = [i; j] /\ i < length ps /\ j < length ps) as HC.
    { intros c Hc. apply Hm in Hc as (Hl & _ & HF). destruct c as [|x [|y [|]]]; try done. rewrite !Forall_cons in HF. destruct HF as (? & ? & _). eauto. }
    destruct (marry_loop_spec ps C HC (length ps * length ps) g1 gl rest2 tm (combs2_length _) Hcalls Ht) as (tm' & Hl & Htm).
    exists tm'. split; [done|]. intros p. rewrite Htm, <-Hp. apply or_iff_compat_l. split.
    + intros (i0 & j0 & a & b & Hin & Ha & Hb & ->). exists a, b. apply Hm in Hin as (_ & Hss & _). inversion Hss as [|? ? _ HF]; subst. rewrite Forall_cons in HF. destruct HF as [Hlt _].
      split_and!; [exact (sorted_lookup ps i0 j0 a b Hs Ha Hb Hlt)|by eapply elem_of_list_lookup_2|by eapply elem_of_list_lookup_2|done].
    + intros (a & b & Hlt & Ha & Hb & ->). destruct (sorted_pair ps a b Hs Ha Hb Hlt) as (i0 & j0 & ? & Hi0 & Hj0).
      exists i0, j0, a, b. split_and!; [|done|done|done]. apply Hm. pose proof (lookup_lt_Some _ _ _ Hi0). pose proof (lookup_lt_Some _ _ _ Hj0).
      split_and!; [done| |]; [repeat constructor; done|]. by rewrite !Forall_cons.
Qed.

(** An invariant indexed by the loop counter. *)
Lemma mfor_seq_inv {S} (Q : nat -> S -> Prop) (body : nat -> S -> outcome S) s n x :
  Q s x -> (forall i y, s <= i < s + n -> Q i y -> exists z, body i y = Ok z /\ Q (i + 1) z) ->
  exists z, mfor (seq s n) body x = Ok z /\ Q (s + n) z.
Proof.
  revert s x. induction n as [|n IH]; intros s x Hx Hb; cbn [seq mfor].
  - exists x. by rewrite Nat.add_0_r.
  - destruct (Hb s x) as (y & -> & Hy); [lia|done|]. cbn [mbind outcome_bind]. rewrite Nat.add_1_r in Hy.
    destruct (IH (Datatypes.S s) y Hy) as (z & Hz & Hq); [intros i y' Hi; apply Hb; lia|]. exists z. split; [done|]. by replace (s + Datatypes.S n) with (Datatypes.S s + n) by lia.
Qed.

Lemma symmetrise_spec n m : square_matrix n m ->
  exists m', symmetrise m n = Ok m' /\ square_matrix n m' /\ forall a b, matrix_rel m' a b <-> matrix_rel m a b \/ matrix_rel m b a.
Proof.
  intros Hsq. unfold symmetrise.
  set (D := fun i j a b => a <> b /\ (Nat.max a b < i \/ (Nat.max a b = i /\ Nat.min a b < j))).
  set (Q := fun i j (m' : matrix) => square_matrix n m' /\ forall a b, matrix_rel m' a b <-> matrix_rel m a b \/ (D i j a b /\ matrix_rel m b a)).
  destruct (mfor_seq_inv (fun i m' => Q i 0 m') (fun i m => mfor (seq 0 i) (fun j m =>
    x ← mget m i j; y ← mget m j i;
    if bool_decide (x = 1) || bool_decide (y = 1) then m1 ← mset m i j 1; mset m1 j i 1 else Ok m) m) 0 n m) as (m' & -> & Hs & Hm').
  - split; [done|]. intros a b. unfold D. split; [by left|]. intros [?|[[? [?|[? ?]]] _]]; [done|lia|lia].
  - intros i y [_ Hi] Hy. cbn in Hi. destruct (mfor_seq_inv (fun j m' => Q i j m') (fun j m =>
      x ← mget m i j; y ← mget m j i;
      if bool_decide (x = 1) || bool_decide (y = 1) then m1 ← mset m i j 1; mset m1 j i 1 else Ok m) 0 i y Hy) as (z & Hz & Hq).
    + intros j y' [_ Hj] [Hs' Hrel]. cbn in Hj.
      destruct (mget_spec n y' i j Hs' ltac:(lia) ltac:(lia)) as (v & -> & Hv). cbn [mbind outcome_bind].
      destruct (mget_spec n y' j i Hs' ltac:(lia) ltac:(lia)) as (w & -> & Hw). cbn [mbind outcome_bind].
      assert (forall a b, D i (j + 1) a b <-> D i j a b \/ (a = i /\ b = j) \/ (a = j /\ b = i)) as HD by (intros a b; unfold D; lia).
      assert (~ D i j i j /\ ~ D i j j i) as [ND1 ND2] by (unfold D; lia).
      destruct (decide (v = 1 \/ w = 1)) as [Hone|Hnone].
      * replace (bool_decide (v = 1) || bool_decide (w = 1)) with true by (symmetry; apply orb_true_iff; rewrite !bool_decide_eq_true; done).
        destruct (mset2_one n y' i j Hs' ltac:(lia) ltac:(lia)) as (m2 & Hm2 & Hs2 & Hr2). exists m2. split; [done|]. split; [done|].
        intros a b. rewrite Hr2, Hrel, HD. pose proof (Hrel i j) as H1. pose proof (Hrel j i) as H2.
        assert (matrix_rel m i j \/ matrix_rel m j i) as Hor by tauto. split.
        -- intros [[-> ->]|[[-> ->]|?]]; tauto.
        -- intros [?|[[?|[[-> ->]|[-> ->]]] ?]]; tauto.
      * rewrite !bool_decide_false by tauto. cbn. exists y'. split; [done|]. split; [done|]. intros a b. rewrite Hrel, HD.
        pose proof (Hrel i j) as H1. pose proof (Hrel j i) as H2.
        assert (~ matrix_rel m i j /\ ~ matrix_rel m j i) as [N1 N2] by tauto. split; [tauto|].
        intros [?|[[?|[[-> ->]|[-> ->]]] ?]]; tauto.
    + exists z. split; [done|]. destruct Hq as [Hs' Hrel]. split; [done|]. intros a b. rewrite Hrel. cbn. apply or_iff_compat_l. unfold D. split; intros [? ?]; (split; [lia|done]).
  - exists m'. split; [done|]. split; [done|]. intros a b. rewrite Hm'. split; [tauto|]. intros [?|Hba]; [by left|].
    destruct (decide (a = b)) as [->|Hne]; [by left|right]. split; [|done]. apply (rel_bound n) in Hba; [|done]. unfold D. lia.
Qed.

Theorem moralize_spec n m : square_matrix n m ->
  exists mm, moralize m n = Ok mm /\ square_matrix n mm /\
    forall a b, matrix_rel mm a b <-> matrix_rel m a b \/ matrix_rel m b a \/
      exists c, a <> b /\ a <> c /\ b <> c /\ matrix_rel m a c /\ matrix_rel m b c.
Proof.
  intros Hsq. unfold moralize.
  destruct (mfor_seq_inv (fun i (tm : list (nat * nat)) => forall p, p ∈ tm <-> exists c, c < i /\ fst p < snd p /\ fst p <> c /\ snd p <> c /\ matrix_rel m (fst p) c /\ matrix_rel m (snd p) c)
     (marry_node m n) 0 n []) as (tm & -> & Htm).
  - intros p. rewrite elem_of_nil. split; [done|]. intros (c & ? & _). lia.
  - intros i tm [_ Hi] Htm. cbn in Hi. destruct (marry_node_spec n m i tm Hsq Hi) as (tm' & -> & Htm'). exists tm'. split; [done|].
    intros p. rewrite Htm', Htm. split.
    + intros [(c & ? & ?)|?]; [exists c|exists i]; (split; [lia|done]).
    + intros (c & Hc & H). destruct (decide (c = i)) as [->|]; [by right|left]. exists c. split; [lia|done].
  - cbn [mbind outcome_bind Nat.add] in *. destruct (symmetrise_spec n m Hsq) as (m1 & -> & Hs1 & Hr1). cbn [mbind outcome_bind].
    assert (forall l m0, (forall p, p ∈ l -> fst p < n /\ snd p < n) -> square_matrix n m0 ->
      exists mm, mfor l (fun p m => m1 ← mset m (fst p) (snd p) 1; mset m1 (snd p) (fst p) 1) m0 = Ok mm /\ square_matrix n mm /\
        forall a b, matrix_rel mm a b <-> matrix_rel m0 a b \/ (a, b) ∈ l \/ (b, a) ∈ l) as Hloop.
    { induction l as [|[x y] l IH]; intros m0 Hl Hs0; cbn [mfor].
      - exists m0. split; [done|]. split; [done|]. intros a b. rewrite !elem_of_nil. tauto.
      - destruct (Hl (x, y)) as [Hx Hy]; [left|]. cbn [fst snd] in *. destruct (mset2_one n m0 x y Hs0 Hx Hy) as (m2 & -> & Hs2 & Hr2). cbn [mbind outcome_bind].
        destruct (IH m2) as (mm & -> & Hs3 & Hr3); [intros; apply Hl; by right|done|]. exists mm. split; [done|]. split; [done|].
        intros a b. rewrite Hr3, Hr2, !elem_of_cons. split.
        + intros [[[-> ->]|[[-> ->]|?]]|[?|?]]; tauto.
        + intros [?|[[[= -> ->]|?]|[[= -> ->]|?]]]; tauto. }
    destruct (Hloop tm m1) as (mm & -> & Hsm & Hrm); [|done|].
    { intros p Hp. apply Htm in Hp as (c & _ & _ & _ & _ & H1 & H2). apply (rel_bound n) in H1, H2; tauto. }
    exists mm. split; [done|]. split; [done|]. intros a b. rewrite Hrm, Hr1, !Htm. cbn [fst snd]. split.
    + intros [[?|?]|[(c & _ & Hlt & ? & ? & ? & ?)|(c & _ & Hlt & ? & ? & ? & ?)]]; [tauto|tauto| |]; right; right; exists c; (split; [lia|done]).
    + intros [?|[?|(c & Hne & ? & ? & Hac & Hbc)]]; [tauto|tauto|]. right.
      pose proof (rel_bound n m _ _ Hsq Hac) as [_ Hc]. destruct (decide (a < b)); [left|right]; exists c; (split; [done|]); (split; [lia|done]).
Qed.
