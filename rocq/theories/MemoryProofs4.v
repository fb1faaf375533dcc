(** Building the tree, the queries, and giving everything back. *)
From Verif Require Import MemoryModel MemorySpec MemoryProofs MemoryProofs2 MemoryProofs3.

Lemma wp_collect2 {A B} (f : A -> prog B) (I : list A -> list B -> heap -> Prop) (l l0 : list A) bs0 h :
  I l0 bs0 h -> (forall a l1 bs h, a ∈ l -> I l1 bs h -> wp (f a) (fun b => I (l1 ++ [a]) (bs ++ [b])) h) ->
  wp (collect l f) (fun bs => I (l0 ++ l) (bs0 ++ bs)) h.
Proof.
  revert l0 bs0 h. induction l as [|a l IH]; intros l0 bs0 h H Hs; [cbn; by rewrite !app_nil_r|].
  cbn [collect]. eapply wp_bind; [apply Hs; [inm|exact H]|]. intros b h' H'. cbn beta in H'.
  eapply wp_bind; [apply (IH _ _ _ H')|].
  { intros a' l1 bs h1 Hi. apply Hs. inm. }
  intros bs h1 H1. cbn beta in H1. rewrite <-!(assoc_L (++)) in H1. exact H1.
Qed.

(** ** Candidates *)
Record cand := mkCand { c_sep : nat; c_one : nat; c_two : nat; c_weight : nat }.
Definition sep_obj (used : list nat) (x : cand) : nat * object := (c_sep x, OSeparator [PTo (c_one x); PTo (c_two x)] (bool_decide (c_sep x ∈ used))).
Definition sblock (used : list nat) (L : list cand) : list (nat * object) := sep_obj used <$> L.
Definition listing (L : list cand) : list (ptr * nat) := (fun x => (PTo (c_sep x), c_weight x)) <$> L.
Definition matches (cs : list nat) (ij : nat * nat) (x : cand) : Prop := cs !! fst ij = Some (c_one x) /\ cs !! snd ij = Some (c_two x).
Lemma pairs_in k i j : (i, j) ∈ pairs_below k <-> i < j < k.
Proof.
  unfold pairs_below. rewrite elem_of_list_bind. split.
  - intros (x & (y & [= -> ->] & Hy%elem_of_seq)%elem_of_list_fmap & Hx%elem_of_seq). lia.
  - intros H. exists i. split; [|apply elem_of_seq; lia]. apply elem_of_list_fmap. exists j. split; [done|]. apply elem_of_seq. lia.
Qed.
Lemma keys_in (cobjs : list (nat * object)) c : c ∈ cobjs.*1 -> exists o, (c, o) ∈ cobjs.
Proof. intros ([c' o] & -> & H)%elem_of_list_fmap. by exists o. Qed.
Lemma wp_candidates cobjs w m m' k h :
  own m' k h -> m' ≡ₚ cobjs ++ m ->
  wp (candidates (PTo <$> cobjs.*1) w)
    (fun r h' => exists L, r = listing L /\
       Forall2 (matches cobjs.*1) (filter (fun ij => w (fst ij) (snd ij) <> 0) (pairs_below (length cobjs.*1))) L /\
       own (sblock [] L ++ cobjs ++ m) k h') h.
Proof.
  intros H E. eapply own_perm in H; [|exact E]. clear E m'. unfold candidates. rewrite fmap_length.
  set (ps := filter _ (pairs_below (length cobjs.*1))).
  eapply wp_mono.
  - apply (wp_collect2 _ (fun l1 bs h => exists L, bs = listing L /\ Forall2 (matches cobjs.*1) l1 L /\ own (sblock [] L ++ cobjs ++ m) k h) ps [] []).
    + exists []. split_and!; [done|constructor|done].
    + intros [i j] l1 bs h1 Hij (L & -> & F & H1). cbn [fst snd].
      apply elem_of_list_filter in Hij as [_ Hij]. apply pairs_in in Hij.
      destruct (lookup_lt_is_Some_2 cobjs.*1 i) as [a Ha]; [lia|]. destruct (lookup_lt_is_Some_2 cobjs.*1 j) as [b Hb]; [lia|].
      eapply wp_bind; [eapply wp_at; [exact H1|by rewrite list_lookup_fmap, Ha]|]. intros ? h2 [-> H2].
      eapply wp_bind; [eapply wp_at; [exact H2|by rewrite list_lookup_fmap, Hb]|]. intros ? h3 [-> H3].
      destruct (keys_in cobjs a) as [oa Hoa]; [by eapply elem_of_list_lookup_2|].
      destruct (keys_in cobjs b) as [ob Hob]; [by eapply elem_of_list_lookup_2|].
      eapply wp_bind; [eapply wp_touch; [exact H3|apply elem_of_app; right; apply elem_of_app; left; exact Hoa]|]. intros [] h4 H4.
      eapply wp_bind; [eapply wp_touch; [exact H4|apply elem_of_app; right; apply elem_of_app; left; exact Hob]|]. intros [] h5 H5.
      step wp_new as (s & -> & H6); [exact H5|]. apply wp_ret.
      exists (L ++ [mkCand s a b (w i j)]). split_and!.
      * unfold listing. by rewrite fmap_app.
      * apply Forall2_app; [done|]. constructor; [|constructor]. split; cbn; done.
      * eapply own_perm; [exact H6|]. 
        replace (sblock [] (L ++ [mkCand s a b (w i j)])) with (sblock [] L ++ [(s, OSeparator [PTo a; PTo b] false)]); [perm|].
        unfold sblock. by rewrite fmap_app.
  - cbn. intros bs h1 (L & -> & F & H1). exists L. done.
Qed.

(** ** Prim's algorithm *)
Lemma wp_sep_of s n u m k h : own m k h -> (s, OSeparator n u) ∈ m -> wp (sep_of (PTo s)) (fun x h' => x = (n, u) /\ own m k h') h.
Proof. intros H Hi. unfold sep_of. step wp_deref as [-> H1]; [exact H|exact Hi|]. done. Qed.
Definition crossing (inside : list ptr) (x : cand) : Prop :=
  (PTo (c_one x) ∈ inside /\ PTo (c_two x) ∉ inside) \/ (PTo (c_one x) ∉ inside /\ PTo (c_two x) ∈ inside).
Lemma wp_heaviest inside used L0 L best wt m k h :
  own m k h -> (forall x, x ∈ L -> sep_obj used x ∈ m) -> L ⊆ L0 ->
  (best = PNull \/ exists x, x ∈ L0 /\ crossing inside x /\ best = PTo (c_sep x)) ->
  wp (heaviest inside (listing L) best wt)
    (fun p h' => own m k h' /\ ((p = PNull /\ best = PNull /\ forall x, x ∈ L -> ~ crossing inside x) \/ exists x, x ∈ L0 /\ crossing inside x /\ p = PTo (c_sep x))) h.
Proof.
  revert best wt h. induction L as [|x L IH]; intros best wt h H Hm S B.
  - cbn. split; [done|]. destruct B as [-> |B]; [left|by right]. split_and!; [done..|]. by intros x Hx%elem_of_nil.
  - assert (S' : L ⊆ L0) by (intros y Hy; apply S; inm).
    assert (Hm' : forall y, y ∈ L -> sep_obj used y ∈ m) by (intros y Hy; apply Hm; inm).
    assert (Hx : x ∈ L0) by (apply S; inm).
    cbn [listing fmap list_fmap heaviest]. fold (listing L).
    step wp_sep_of as [-> H1]; [exact H|apply (Hm x); inm|]. cbn [fst snd].
    eapply wp_bind; [eapply wp_at; [exact H1|reflexivity]|]. intros ? h2 [-> H2].
    eapply wp_bind; [eapply wp_at; [exact H2|reflexivity]|]. intros ? h3 [-> H3].
    destruct (_ || _) eqn:C.
    + assert (Cx : crossing inside x).
      { apply orb_true_iff in C as [C|C]; apply andb_true_iff in C as [C1 C2].
        - left. apply negb_true_iff in C2. apply bool_decide_eq_true in C1. by apply bool_decide_eq_false in C2.
        - right. apply negb_true_iff in C1. apply bool_decide_eq_true in C2. by apply bool_decide_eq_false in C1. }
      destruct (bool_decide (best = PNull) || _) eqn:D.
      * eapply wp_mono; [apply IH; [exact H3|exact Hm'|exact S'|right; by exists x]|].
        intros p h4 [H4 [(-> & [=] & _)|R]]. split; [done|by right].
      * assert (Hb : best <> PNull). { intros ->. by rewrite bool_decide_true in D. }
        eapply wp_mono; [apply IH; [exact H3|exact Hm'|exact S'|exact B]|].
        intros p h4 [H4 [(-> & -> & _)|R]]; [done|]. split; [done|by right].
    + assert (Cx : ~ crossing inside x).
      { apply orb_false_iff in C as [C1 C2]. intros [[P1 P2]|[P1 P2]].
        - by rewrite bool_decide_true, bool_decide_false in C1.
        - by rewrite bool_decide_false, bool_decide_true in C2. }
      eapply wp_mono; [apply IH; [exact H3|exact Hm'|exact S'|exact B]|].
      intros p h4 [H4 [(-> & -> & N)|R]]; (split; [done|]); [left|by right]. split_and!; [done..|].
      intros y [-> |Hy]%elem_of_cons; [done|by apply N].
Qed.
Lemma rtc_cross {A} (R : A -> A -> Prop) (P : A -> Prop) `{forall x, Decision (P x)} a b : rtc R a b -> P a -> ~ P b -> exists x y, R x y /\ P x /\ ~ P y.
Proof. intros Hr. induction Hr as [|a c b Hac Hcb IH]; intros Ha Hb; [done|]. destruct (decide (P c)); [by apply IH|]. by exists a, c. Qed.
Lemma sblock_used used L x :
  NoDup (c_sep <$> L) -> x ∈ L -> exists L1, sblock used L ≡ₚ sep_obj used x :: L1 /\ sblock (used ++ [c_sep x]) L ≡ₚ (c_sep x, OSeparator [PTo (c_one x); PTo (c_two x)] true) :: L1.
Proof.
  intros Hn Hx. apply elem_of_list_split in Hx as (l1 & l2 & ->). exists (sblock used (l1 ++ l2)). split.
  - unfold sblock. rewrite !fmap_app. cbn [fmap list_fmap]. symmetry. apply Permutation_middle.
  - unfold sblock. rewrite !fmap_app. cbn [fmap list_fmap]. rewrite <-Permutation_middle.
    rewrite fmap_app in Hn. cbn in Hn. rewrite <-Permutation_middle in Hn. apply NoDup_cons in Hn as [Hn _].
    assert (E0 : sep_obj (used ++ [c_sep x]) x = (c_sep x, OSeparator [PTo (c_one x); PTo (c_two x)] true)).
    { unfold sep_obj. rewrite bool_decide_true by (apply elem_of_app; right; inm). done. }
    rewrite E0. constructor.
    assert (E : forall l : list cand, (forall y, y ∈ l -> c_sep y <> c_sep x) -> sep_obj (used ++ [c_sep x]) <$> l = sep_obj used <$> l).
    { intros l Hl. apply list_fmap_ext. intros i y Hy. apply elem_of_list_lookup_2 in Hy. unfold sep_obj. do 2 f_equal.
      apply bool_decide_ext. rewrite elem_of_app, elem_of_list_singleton. specialize (Hl y Hy). naive_solver. }
    rewrite !E; [done| |]; intros y Hy Ey; apply Hn, elem_of_app; [right|left]; rewrite <-Ey; by apply elem_of_list_fmap_1.
Qed.
Lemma insert_new p l : p ∉ l -> insert_ptr p l = p :: l.
Proof. intros H. unfold insert_ptr. by rewrite bool_decide_false. Qed.
Lemma insert_old p l : p ∈ l -> insert_ptr p l = l.
Proof. intros H. unfold insert_ptr. by rewrite bool_decide_true. Qed.
Lemma wp_grow (cs : list nat) w L m k fuel inside ch h :
  NoDup cs -> NoDup (c_sep <$> L) ->
  Forall2 (matches cs) (filter (fun ij => w (fst ij) (snd ij) <> 0) (pairs_below (length cs))) L ->
  (forall i, i < length cs -> rtc (fun a b => a < length cs /\ b < length cs /\ w (min a b) (max a b) <> 0) 0 i) ->
  own (sblock ch L ++ m) k h ->
  NoDup inside -> (forall p, p ∈ inside -> p ∈ PTo <$> cs) -> (exists c, cs !! 0 = Some c /\ PTo c ∈ inside) ->
  NoDup ch -> (forall s, s ∈ ch -> s ∈ c_sep <$> L) -> (forall x, x ∈ L -> c_sep x ∈ ch -> PTo (c_one x) ∈ inside /\ PTo (c_two x) ∈ inside) ->
  length cs <= length inside + fuel ->
  wp (grow fuel (length cs) (listing L) inside (PTo <$> ch))
    (fun r h' => exists ch', r = PTo <$> ch' /\ NoDup ch' /\ (forall s, s ∈ ch' -> s ∈ c_sep <$> L) /\ own (sblock ch' L ++ m) k h') h.
Proof.
  intros Ncs NL F Lk. revert inside ch h. induction fuel as [|fuel IH]; intros inside ch h H Ni Si C0 Nch Sch Och Hf; cbn [grow].
  - case_bool_decide; [lia|]. apply wp_ret. by exists ch.
  - case_bool_decide as Hlt; [|apply wp_ret; by exists ch].
    assert (Cr : exists x, x ∈ L /\ crossing inside x).
    { assert (Out : exists c, c ∈ cs /\ PTo c ∉ inside).
      { destruct (decide (Forall (fun c => PTo c ∈ inside) cs)) as [A|A].
        - exfalso. assert (length (PTo <$> cs) <= length inside); [|rewrite fmap_length in *; lia].
          apply submseteq_length, NoDup_submseteq; [apply NoDup_fmap_2; [by intros ?? [=]|done]|].
          intros p (c & -> & Hc)%elem_of_list_fmap. rewrite Forall_forall in A. by apply A.
        - apply not_Forall_Exists in A; [|apply _]. apply Exists_exists in A as (c & Hc & Hp). by exists c. }
      destruct Out as (c & Hc & Hp). apply elem_of_list_lookup in Hc as (i & Hi). pose proof (lookup_lt_Some _ _ _ Hi) as Li.
      destruct C0 as (c0 & Hc0 & Hp0).
      destruct (rtc_cross _ (fun j => match cs !! j with Some c => bool_decide (PTo c ∈ inside) | None => false end = true) 0 i (Lk i Li)) as (a & b & (La & Lb & Hw) & Pa & Pb).
      - rewrite Hc0. by apply bool_decide_eq_true.
      - rewrite Hi. by rewrite bool_decide_false.
      - destruct (cs !! a) as [ca|] eqn:Ea; [|done]. apply bool_decide_eq_true in Pa.
        destruct (lookup_lt_is_Some_2 cs b Lb) as [cb Eb].
        assert (Pb' : PTo cb ∉ inside). { intros Q. apply Pb. rewrite Eb. by apply bool_decide_eq_true. }
        assert (Hab : a <> b). { intros ->. rewrite Ea in Eb. injection Eb as ->. done. }
        assert (Hin : (min a b, max a b) ∈ filter (fun ij => w (fst ij) (snd ij) <> 0) (pairs_below (length cs))).
        { apply elem_of_list_filter. split; [exact Hw|]. apply pairs_in. lia. }
        apply elem_of_list_lookup in Hin as (q & Hq). destruct (Forall2_lookup_l _ _ _ _ _ F Hq) as (x & Hx & M1 & M2). cbn [fst snd] in *.
        exists x. split; [by eapply elem_of_list_lookup_2|]. destruct (decide (a < b)).
        + rewrite Nat.min_l in M1 by lia. rewrite Nat.max_r in M2 by lia. left. replace (c_one x) with ca by congruence. by replace (c_two x) with cb by congruence.
        + rewrite Nat.min_r in M1 by lia. rewrite Nat.max_l in M2 by lia. right. replace (c_one x) with cb by congruence. by replace (c_two x) with ca by congruence. }
    eapply wp_bind; [eapply (wp_heaviest inside ch L L PNull 0); [exact H| |done|by left]|].
    { intros x Hx. apply elem_of_app. left. by apply elem_of_list_fmap_1. }
    intros p h1 [H1 [(-> & _ & N)|(x & Hx & Cx & ->)]].
    { exfalso. destruct Cr as (x & Hx & Cx). by apply (N x). }
    destruct (sblock_used ch L x NL Hx) as (L1 & E1 & E2).
    step wp_sep_of as [-> H2]; [exact H1|apply elem_of_app; left; by apply (elem_of_list_fmap_1 (sep_obj ch) L x)|]. cbn [fst snd].
    eapply wp_bind; [eapply (wp_assign _ (c_sep x) _ (L1 ++ m)); [exact H2|rewrite E1; apply Permutation_refl]|]. intros [] h3 H3.
    eapply wp_bind; [eapply wp_at; [exact H3|reflexivity]|]. intros ? h4 [-> H4].
    eapply wp_bind; [eapply wp_at; [exact H4|reflexivity]|]. intros ? h5 [-> H5].
    change ((PTo <$> ch) ++ [PTo (c_sep x)]) with ((PTo <$> ch) ++ (PTo <$> [c_sep x])). rewrite <-fmap_app.
    assert (Ends : PTo (c_one x) ∈ PTo <$> cs /\ PTo (c_two x) ∈ PTo <$> cs).
    { apply elem_of_list_lookup in Hx as (q & Hq). destruct (Forall2_lookup_r _ _ _ _ _ F Hq) as (ij & _ & M1 & M2).
      split; apply elem_of_list_fmap_1; by eapply elem_of_list_lookup_2. }
    assert (Nx : c_sep x ∉ ch). { intros Hc. destruct (Och x Hx Hc) as [O1 O2]. destruct Cx as [[]|[]]; done. }
    set (ins := insert_ptr (PTo (c_two x)) (insert_ptr (PTo (c_one x)) inside)).
    assert (Hins : (forall p, p ∈ ins <-> p = PTo (c_one x) \/ p = PTo (c_two x) \/ p ∈ inside) /\ NoDup ins /\ length ins = S (length inside)).
    { unfold ins. destruct Cx as [[C1 C2]|[C1 C2]].
      - rewrite (insert_old (PTo (c_one x))) by done. rewrite insert_new by done. split_and!; [|by constructor|done].
        intros p. rewrite elem_of_cons. naive_solver.
      - rewrite (insert_new (PTo (c_one x))) by done. rewrite insert_old by (apply elem_of_list_further; done). split_and!; [|by constructor|done].
        intros p. rewrite elem_of_cons. naive_solver. }
    destruct Hins as (I1 & I2 & I3). apply IH.
    + eapply own_perm; [exact H5|]. by rewrite E2.
    + exact I2.
    + intros p [-> |[-> |Hp]]%I1; [apply Ends..|by apply Si].
    + destruct C0 as (c0 & ? & ?). exists c0. split; [done|]. apply I1. auto.
    + apply NoDup_app. split_and!; [done| |apply NoDup_singleton]. intros s Hs ->%elem_of_list_singleton. done.
    + intros s [Hs| ->%elem_of_list_singleton]%elem_of_app; [by apply Sch|by apply elem_of_list_fmap_1].
    + intros y Hy [Hc|Hc%elem_of_list_singleton]%elem_of_app; rewrite !I1.
      * destruct (Och y Hy Hc). auto.
      * assert (y = x) as ->; [|auto].
        apply elem_of_list_lookup in Hx as (qx & Hqx). apply elem_of_list_lookup in Hy as (qy & Hqy).
        assert (qy = qx) as ->; [|congruence].
        eapply (NoDup_lookup _ _ _ (c_sep x) NL); rewrite list_lookup_fmap; [rewrite Hqy|rewrite Hqx]; cbn; congruence.
    + lia.
Qed.
