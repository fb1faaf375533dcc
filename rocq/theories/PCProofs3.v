(** The order-free result of a level and of the search. *)
From Verif Require Import PCModel PCSpec ChoiceProofs UtilProofs NetProofs PCProofs PCProofs2.
Local Open Scope nat_scope.

Notation pairs := (list (nat * nat)).
Definition nb (n : nat) (E : pairs) (x : nat) : list nat := filter (fun v => (x, v) ∈ E \/ (v, x) ∈ E) (seq 0 n).
Definition adj_of (n : nat) (E : pairs) : adjs := nb n E <$> seq 0 n.
Definition verdict (ind : nat -> nat -> list nat -> bool) (n : nat) (E : pairs) (c : nat) (p : nat * nat) : option (list nat) :=
  first_sep (ind (fst p) (snd p)) (choose (serase (snd p) (nb n E (fst p))) c ++ choose (serase (fst p) (nb n E (snd p))) c).
Definition level (ind : nat -> nat -> list nat -> bool) (n c : nat) (st : pairs * sepmap) : pairs * sepmap :=
  let (E, S) := st in
  (filter (fun p => verdict ind n E c p = None) E,
   foldr (fun p m => match verdict ind n E c p with Some s => <[p := s]> m | None => m end) S E).
Definition ok_state (n : nat) (E : pairs) (S : sepmap) : Prop :=
  NoDup E /\ (forall p, p ∈ E -> fst p < snd p /\ snd p < n) /\ forall p, p ∈ E -> S !! p = None.

Lemma filter_sorted (R : nat -> Prop) `{!forall x, Decision (R x)} l : StronglySorted lt l -> StronglySorted lt (filter R l).
Proof. induction 1 as [|x l Hs IH Hx]; [constructor|]. rewrite filter_cons. case_decide; [|done]. constructor; [done|]. apply Forall_forall. intros y [_ Hy]%elem_of_list_filter. rewrite Forall_forall in Hx. by apply Hx. Qed.
Lemma seq_sorted k n : StronglySorted lt (seq k n).
Proof. revert k. induction n as [|n IH]; intros k; cbn; constructor; [done|]. apply Forall_forall. intros x Hx. apply elem_of_seq in Hx. lia. Qed.
Lemma nb_sorted n E x : StronglySorted lt (nb n E x).
Proof. apply filter_sorted, seq_sorted. Qed.
Lemma elem_of_nb n E x v : v ∈ nb n E x <-> v < n /\ ((x, v) ∈ E \/ (v, x) ∈ E).
Proof. unfold nb. rewrite elem_of_list_filter, elem_of_seq. intuition lia. Qed.
Lemma nb_good n E x y : (forall p, p ∈ E -> fst p < snd p) -> StronglySorted lt (serase y (nb n E x)) /\ Forall (fun v => v < n /\ v <> x /\ v <> y) (serase y (nb n E x)).
Proof.
  intros HE. split; [apply serase_sorted, nb_sorted|]. apply Forall_forall. intros v Hv. apply elem_of_serase in Hv as [Hv Hne]. apply elem_of_nb in Hv as [H1 H2]. split_and!; [done| |done]. intros ->. destruct H2 as [H2|H2]; apply HE in H2; cbn in H2; lia.
Qed.
Lemma nb_good' n E x y : (forall p, p ∈ E -> fst p < snd p) -> StronglySorted lt (serase y (nb n E x)) /\ Forall (fun v => v < n /\ v <> y /\ v <> x) (serase y (nb n E x)).
Proof. intros HE. destruct (nb_good n E x y HE) as [H1 H2]. split; [done|]. eapply Forall_impl; [exact H2|]. naive_solver. Qed.
Lemma adj_of_lookup n E x : x < n -> adj_of n E !! x = Some (nb n E x).
Proof. intros H. unfold adj_of. by rewrite list_lookup_fmap, lookup_seq_lt. Qed.
Lemma adj_of_length n E : length (adj_of n E) = n.
Proof. unfold adj_of. by rewrite fmap_length, seq_length. Qed.
Lemma finite_choice (Q : nat -> nat -> Prop) N : (forall i, i < N -> exists m, Q i m) -> exists f, forall i, i < N -> Q i (f i).
Proof.
  induction N as [|N IH]; intros H; [exists (fun _ => 0); lia|]. destruct IH as [f Hf]; [intros; apply H; lia|]. destruct (H N) as [m Hm]; [lia|]. exists (fun i => if decide (i = N) then m else f i). intros i Hi. case_decide as E; [by subst|]. apply Hf. lia.
Qed.

(** *** Deleting the marked edges *)
Lemma erase_one n E x y : (forall p, p ∈ E -> fst p < snd p /\ snd p < n) -> x < y -> y < n ->
  (adj ← erase_adj x y (adj_of n E); erase_adj y x adj) = Ok (adj_of n (filter (fun p => p <> (x, y)) E)).
Proof.
  intros HE Hxy Hy. unfold erase_adj. rewrite (vget_ok (adj_of n E) x _ (adj_of_lookup n E x ltac:(lia))). cbn [mbind outcome_bind]. rewrite (vset_ok (adj_of n E)) by (rewrite adj_of_length; lia). cbn [mbind outcome_bind].
  rewrite (vget_ok (<[x:=_]> (adj_of n E)) y (nb n E y)) by (rewrite list_lookup_insert_ne by lia; by apply adj_of_lookup). cbn [mbind outcome_bind]. rewrite vset_ok by (rewrite insert_length, adj_of_length; lia). f_equal.
  apply list_eq. intros z. destruct (decide (z < n)) as [Hz|Hz].
  2:{ rewrite !lookup_ge_None_2; [done|rewrite adj_of_length; lia|rewrite !insert_length, adj_of_length; lia]. }
  rewrite (adj_of_lookup n (filter _ E)) by done. destruct (decide (z = y)) as [->|Hzy]; [|destruct (decide (z = x)) as [->|Hzx]].
  - rewrite list_lookup_insert by (rewrite insert_length, adj_of_length; lia). f_equal. apply lt_sorted_ext; [apply serase_sorted, nb_sorted|apply nb_sorted|]. intros v. rewrite elem_of_serase, !elem_of_nb, !elem_of_list_filter. split.
    + intros ((Hv & Hor) & Hne). split; [done|]. destruct Hor as [H|H]; [left|right]; (split; [|done]); [intros [= -> ->]; lia|intros [= ->]; lia].
    + intros (Hv & Hor). split; [tauto|]. intros ->. destruct Hor as [[_ H]|[H _]]; [apply HE in H; cbn in H; lia|done].
  - rewrite list_lookup_insert_ne by done. rewrite list_lookup_insert by (rewrite adj_of_length; lia). f_equal. apply lt_sorted_ext; [apply serase_sorted, nb_sorted|apply nb_sorted|]. intros v. rewrite elem_of_serase, !elem_of_nb, !elem_of_list_filter. split.
    + intros ((Hv & Hor) & Hne). split; [done|]. destruct Hor as [H|H]; [left|right]; (split; [|done]); [intros [= ->]; lia|intros [= -> ->]; lia].
    + intros (Hv & Hor). split; [tauto|]. intros ->. destruct Hor as [[H _]|[_ H]]; [done|apply HE in H; cbn in H; lia].
  - rewrite !list_lookup_insert_ne by done. rewrite adj_of_lookup by done. f_equal. apply lt_sorted_ext; [apply nb_sorted|apply nb_sorted|]. intros v. rewrite !elem_of_nb, !elem_of_list_filter. split.
    + intros (Hv & Hor). split; [done|]. destruct Hor as [H|H]; [left|right]; (split; [|done]); intros [= -> ->]; lia.
    + tauto.
Qed.
Lemma remove_marked_ok n es E : (forall p, p ∈ E -> fst p < snd p /\ snd p < n) -> (forall e, e ∈ es -> pe_n1 e < pe_n2 e /\ pe_n2 e < n) ->
  remove_marked es (adj_of n E) = Ok (filter (fun e => pe_remove e = false) es, adj_of n (filter (fun p => p ∉ pe_pair <$> filter (fun e => pe_remove e = true) es) E)).
Proof.
  intros HE Hes. unfold remove_marked.
  assert (forall es E, (forall p, p ∈ E -> fst p < snd p /\ snd p < n) -> (forall e, e ∈ es -> pe_n1 e < pe_n2 e /\ pe_n2 e < n) ->
    mfor es (fun e adj => if pe_remove e then adj ← erase_adj (pe_n1 e) (pe_n2 e) adj; erase_adj (pe_n2 e) (pe_n1 e) adj else Ok adj) (adj_of n E) = Ok (adj_of n (filter (fun p => p ∉ pe_pair <$> filter (fun e => pe_remove e = true) es) E))) as H.
  { clear. induction es as [|e es IH]; intros E HE Hes; cbn [mfor].
    - f_equal. f_equal. symmetry. induction E as [|p E IH]; [done|]. rewrite filter_cons. rewrite decide_True by apply not_elem_of_nil. f_equal. apply IH. intros; apply HE; by right.
    - rewrite filter_cons. destruct (pe_remove e) eqn:Er.
      + rewrite erase_one; [|done|apply Hes; left..]. cbn [mbind outcome_bind]. rewrite IH; [|intros p [_ Hp]%elem_of_list_filter; by apply HE|intros; apply Hes; by right]. rewrite decide_True by done. f_equal. f_equal. rewrite list_filter_filter. apply list_filter_iff'. intros p _. rewrite fmap_cons, not_elem_of_cons. unfold pe_pair at 2. tauto.
      + cbn [mbind outcome_bind]. rewrite IH; [|done|intros; apply Hes; by right]. by rewrite decide_False by done. }
  rewrite H by done. done.
Qed.
Lemma sep_fold (w : nat * nat -> option (list nat)) (E : pairs) (S : sepmap) p : NoDup E -> foldr (fun p m => match w p with Some s => <[p := s]> m | None => m end) S E !! p = (if decide (p ∈ E) then match w p with Some s => Some s | None => S !! p end else S !! p).
Proof.
  induction 1 as [|q E Hq HE IH]; cbn; [by rewrite decide_False by apply not_elem_of_nil|]. destruct (decide (p = q)) as [->|Hpq].
  - rewrite (decide_True (P := q ∈ q :: E)) by left. rewrite decide_False in IH by done. destruct (w q); [by rewrite lookup_insert|done].
  - transitivity (foldr (fun p m => match w p with Some s => <[p := s]> m | None => m end) S E !! p); [destruct (w q); [by rewrite lookup_insert_ne|done]|]. rewrite IH. destruct (decide (p ∈ E)) as [H|H], (decide (p ∈ q :: E)) as [H'|H']; try done; [exfalso; apply H'; by right|]. apply elem_of_cons in H' as [|]; done.
Qed.
Lemma level_ok ind n c E S : ok_state n E S -> ok_state n (fst (level ind n c (E, S))) (snd (level ind n c (E, S))).
Proof.
  intros (Hnd & HE & HS). cbn. split_and!; [by apply NoDup_filter|intros p [_ Hp]%elem_of_list_filter; by apply HE|]. intros p [Hv Hp]%elem_of_list_filter. rewrite sep_fold by done. rewrite decide_True by done. rewrite Hv. by apply HS.
Qed.
(** The marked edges are the edges with a separating set. *)
Lemma marked_filter (w : nat * nat -> option (list nat)) es E : NoDup E -> pe_pair <$> es = E -> (forall i e p, es !! i = Some e -> E !! i = Some p -> pe_remove e = bool_decide (is_Some (w p))) ->
  pe_pair <$> filter (fun e => pe_remove e = false) es = filter (fun p => w p = None) E /\ filter (fun p => p ∉ pe_pair <$> filter (fun e => pe_remove e = true) es) E = filter (fun p => w p = None) E.
Proof.
  intros Hnd HE Hr. split.
  - clear Hnd. subst E. induction es as [|e es IH]; [done|]. rewrite fmap_cons, !filter_cons. pose proof (Hr 0 e (pe_pair e) eq_refl eq_refl) as H0. rewrite H0. destruct (w (pe_pair e)) as [s|] eqn:Ew.
    + rewrite bool_decide_true by done. rewrite !decide_False by done. apply IH. intros i e' p Hi Hp. by apply (Hr (S i)).
    + rewrite bool_decide_false by (by intros [? ?]). rewrite !decide_True by done. rewrite fmap_cons. f_equal. apply IH. intros i e' p Hi Hp. by apply (Hr (S i)).
  - apply list_filter_iff'. intros p Hp. apply elem_of_list_lookup in Hp as [i Hi]. assert (exists e, es !! i = Some e /\ pe_pair e = p) as (e & He & Hep). { rewrite <-HE, list_lookup_fmap in Hi. destruct (es !! i) as [e|]; [|done]. cbn in Hi. exists e. split; [done|congruence]. }
    pose proof (Hr i e p He Hi) as Hre. split.
    + intros Hn. destruct (w p) as [s|] eqn:Ew; [|done]. exfalso. apply Hn. apply elem_of_list_fmap. exists e. split; [done|]. apply elem_of_list_filter. split; [|by eapply elem_of_list_lookup_2]. rewrite Hre. by apply bool_decide_true.
    + intros Hw Hin. apply elem_of_list_fmap in Hin as (e2 & -> & He2). apply elem_of_list_filter in He2 as [Hr2 He2]. apply elem_of_list_lookup in He2 as [j Hj]. assert (E !! j = Some (pe_pair e2)) as Hj2 by (by rewrite <-HE, list_lookup_fmap, Hj).
      rewrite (Hr j e2 _ Hj Hj2), Hw in Hr2. by rewrite bool_decide_false in Hr2 by (by intros [? ?]).
Qed.

Section search.
Context (tst : nat -> nat -> list nat -> nat -> outcome ci_result) (ind : nat -> nat -> list nat -> bool) (n gmax : nat) (Hdec : decides_apart tst ind n gmax).
Context (g : nat) (Hg : 0 < g <= gmax).
Lemma search_ok c sch es E S : 0 < c -> (forall t k, sch t k ≡ₚ seq 0 k) -> ok_state n E S -> pe_pair <$> es = E ->
  exists F es', let (E', S') := level ind n c (E, S) in
    (forall fuel, F <= fuel -> search_at_depth tst fuel c g sch es (adj_of n E) S = Ok (es', adj_of n E', S', bool_decide (Z.of_nat c < free_degree (adj_of n E'))%Z)) /\ pe_pair <$> es' = E'.
Proof using Hdec Hg.
  intros Hc Hs Hok HE. pose proof Hok as (Hnd & Hlt & HS). set (es1 := (fun e => with_process e PNo) <$> es). assert (pe_pair <$> es1 = E) as HE1 by (rewrite <-HE; unfold es1; rewrite <-list_fmap_compose; apply list_fmap_ext'; done).
  assert (length es1 = length E) as Hlen by (by rewrite <-HE1, fmap_length).
  set (w := verdict ind n E c). set (v := fun i => match E !! i with Some p => w p | None => None end).
  assert (forall i, i < length E -> exists m, 0 < m /\ forall e p, es1 !! i = Some e -> E !! i = Some p -> pend tst (adj_of n E) c g v m e i p) as Hm.
  { intros i Hi. destruct (lookup_lt_is_Some_2 E i Hi) as [p Hp]. destruct (lookup_lt_is_Some_2 es1 i) as [e He]; [lia|]. assert (pe_pair e = p) as Hep. { rewrite <-HE1, list_lookup_fmap, He in Hp. cbn in Hp. congruence. }
    assert (pe_process e = PNo) as Hpr. { unfold es1 in He. rewrite list_lookup_fmap in He. destruct (es !! i); [|done]. cbn in He. by injection He as <-. }
    destruct (Hlt p (elem_of_list_lookup_2 _ _ _ Hp)) as [H1 H2]. destruct p as [x y]. cbn in H1, H2.
    destruct (edge_handled tst ind n gmax Hdec (adj_of n E) c g Hc Hg x y ltac:(lia) H2 ltac:(lia) (nb n E x) (nb n E y) (adj_of_lookup n E x ltac:(lia)) (adj_of_lookup n E y H2) (nb_good n E x y (fun p Hp => proj1 (Hlt p Hp))) (nb_good' n E y x (fun p Hp => proj1 (Hlt p Hp))) e Hpr Hep) as (m & e' & Hfin & Hp' & Hr').
    exists m. split; [inversion Hfin; lia|]. intros e2 p2 He2 Hp2. rewrite He in He2. injection He2 as <-. rewrite Hp in Hp2. injection Hp2 as <-. exists e'. unfold v. rewrite Hp. done. }
  destruct (finite_choice _ _ Hm) as [f Hf]. set (F := sum_list (f <$> seq 0 (length E))).
  destruct (batches_ok tst (adj_of n E) c g E v S Hnd (fun i p Hp => proj1 (Hlt p (elem_of_list_lookup_2 _ _ _ Hp))) sch Hs F 0 f (seq 0 (length es1)) es1 S) as (es2 & S2 & Hb & HE2 & Hfin & Hkeep).
  - apply NoDup_seq.
  - intros i Hi _. apply elem_of_seq. lia.
  - apply Forall_forall. intros i Hi. apply elem_of_seq in Hi. split; [lia|]. apply Hf. lia.
  - by rewrite Hlen.
  - split_and!; [done| |done]. intros i e p He Hp. destruct (Hf i) as [Hpos Hpd]; [by eapply lookup_lt_Some|]. destruct (f i) as [|m]; [lia|]. split; [by apply Hpd|]. apply HS. by eapply elem_of_list_lookup_2.
  - destruct (marked_filter w es2 E Hnd HE2) as [H1 H2].
    { intros i e p He Hp. specialize (Hfin i e p He Hp) as [-> _]. unfold v. by rewrite Hp. }
    exists F, (filter (fun e => pe_remove e = false) es2). cbn [level]. fold w. split; [|done]. intros fuel Hfuel. apply (batches_mono _ _ _ _ _ _ fuel) in Hb; [|done]. unfold search_at_depth. fold es1. rewrite Hb. cbn [mbind outcome_bind]. rewrite remove_marked_ok; [|done|].
    + cbn [mbind outcome_bind]. rewrite H2. f_equal. f_equal. f_equal. apply map_eq. intros p. rewrite sep_fold by done. destruct (decide (p ∈ E)) as [Hp|Hp]; [|by apply Hkeep]. pose proof (HS p Hp) as HSp. apply elem_of_list_lookup in Hp as [i Hi].
      destruct (lookup_lt_is_Some_2 es2 i) as [e He]. { apply lookup_lt_Some in Hi. by rewrite <-HE2, fmap_length in Hi. } destruct (Hfin i e p He Hi) as [_ ->]. unfold v. rewrite Hi. destruct (w p); done.
    + intros e He. assert (pe_pair e ∈ E) as Hin by (rewrite <-HE2; by apply elem_of_list_fmap_1). apply Hlt in Hin. done.
Qed.
Lemma choose_zero A : choose A 0 = [[]].
Proof. unfold choose. by destruct (length A). Qed.
Lemma verdict_zero E p : verdict ind n E 0 p = if ind (fst p) (snd p) [] then Some [] else None.
Proof. unfold verdict. rewrite !choose_zero. cbn. by destruct (ind _ _ []). Qed.
Lemma level_zero_ok order E S : order ≡ₚ seq 0 (length E) -> ok_state n E S -> exists es2, let (E', S') := level ind n 0 (E, S) in
  level_zero tst order (new_pedge <$> E) S = Ok (es2, S') /\ pe_pair <$> es2 = E /\ forall i e p, es2 !! i = Some e -> E !! i = Some p -> pe_remove e = bool_decide (is_Some (verdict ind n E 0 p)).
Proof using Hdec Hg.
  intros Ho (Hnd & Hlt & HS). cbn [level]. unfold level_zero. set (w := verdict ind n E 0).
  set (Q := fun (dn : list nat) (st : list pedge * sepmap) => let '(es, sep) := st in pe_pair <$> es = E /\
    (forall i e p, es !! i = Some e -> E !! i = Some p -> if decide (i ∈ dn) then pe_remove e = bool_decide (is_Some (w p)) /\ sep !! p = w p else pe_remove e = false /\ sep !! p = None) /\ (forall k, k ∉ E -> sep !! k = S !! k)).
  match goal with |- context [mfor order ?b ?s0] => destruct (mfor_inv Q order b s0) as ([es2 sep2] & -> & HE2 & Hfin & Hkeep) end.
  - split_and!; [| |done].
    + rewrite <-list_fmap_compose. rewrite (list_fmap_ext' _ id); [apply list_fmap_id|]. by intros [x y] _.
    + intros i e p He Hp. rewrite decide_False by apply not_elem_of_nil. rewrite list_lookup_fmap, Hp in He. cbn in He. injection He as <-. split; [done|]. apply HS. by eapply elem_of_list_lookup_2.
  - intros dn i rest [es sep] Hor (HE1 & H1 & H2). assert (i < length E) as Hi. { assert (i ∈ order) as H by (rewrite Hor; apply elem_of_app; right; left). rewrite Ho in H. apply elem_of_seq in H. lia. }
    assert (i ∉ dn) as Hin. { assert (NoDup order) as H by (rewrite Ho; apply NoDup_seq). rewrite Hor in H. apply NoDup_app in H as (_ & H & _). intros Hin. apply (H i Hin). left. }
    assert (length es = length E) as Hlen by (by rewrite <-HE1, fmap_length). destruct (lookup_lt_is_Some_2 es i) as [e He]; [lia|]. destruct (lookup_lt_is_Some_2 E i Hi) as [p Hp]. assert (pe_pair e = p) as Hep. { rewrite <-HE1, list_lookup_fmap, He in Hp. cbn in Hp. congruence. }
    destruct (Hlt p (elem_of_list_lookup_2 _ _ _ Hp)) as [Hp1 Hp2]. destruct p as [x y]. cbn in Hp1, Hp2. injection Hep as Hx Hy.
    rewrite (vget_ok es i e He). cbn [mbind outcome_bind]. destruct Hdec as [Hz _]. destruct (Hz x y ltac:(lia) Hp2 ltac:(lia)) as [fi Hz']. rewrite Hx, Hy, Hz'. cbn [mbind outcome_bind ci_indep].
    pose proof (H1 i e (x, y) He Hp) as Hi1. rewrite decide_False in Hi1 by done. destruct Hi1 as [Hr1 Hn1]. assert (w (x, y) = if ind x y [] then Some [] else None) as Hw by apply verdict_zero.
    assert (forall es' sep', pe_pair <$> es' = E -> (forall j, j <> i -> es' !! j = es !! j) -> (forall k, k <> (x, y) -> sep' !! k = sep !! k) -> (forall e', es' !! i = Some e' -> pe_remove e' = bool_decide (is_Some (w (x, y)))) -> sep' !! (x, y) = w (x, y) -> Q (dn ++ [i]) (es', sep')) as HQ.
    { intros es' sep' Ha Hb Hc Hd He'. split_and!; [done| |].
      - intros j e' p' Hj Hp'. destruct (decide (j = i)) as [->|Hji].
        + rewrite decide_True by (apply elem_of_app; right; left). rewrite Hp in Hp'. injection Hp' as <-. split; [by apply Hd|done].
        + rewrite Hb in Hj by done. specialize (H1 j e' p' Hj Hp'). rewrite Hc by (intros ->; apply Hji; by eapply NoDup_lookup). destruct (decide (j ∈ dn)) as [H|H].
          * by rewrite decide_True by (apply elem_of_app; by left).
          * rewrite decide_False; [done|]. rewrite elem_of_app, elem_of_list_singleton. tauto.
      - intros k Hk. rewrite Hc; [by apply H2|]. intros ->. apply Hk. by eapply elem_of_list_lookup_2. }
    destruct (ind x y []) eqn:Eind.
    + rewrite (vset_ok es) by lia. cbn [mbind outcome_bind]. eexists. split; [done|]. apply HQ.
      * rewrite list_fmap_insert, HE1. apply list_insert_id. change (pe_pair (with_remove e true)) with (pe_pair e). unfold pe_pair. by rewrite Hx, Hy.
      * intros j Hj. by rewrite list_lookup_insert_ne.
      * intros k Hk. unfold sep_insert, pe_pair. rewrite Hx, Hy, Hn1. by apply lookup_insert_ne.
      * intros e' He'. rewrite list_lookup_insert in He' by lia. injection He' as <-. by rewrite Hw.
      * unfold sep_insert, pe_pair. rewrite Hx, Hy, Hn1, Hw. apply lookup_insert.
    + eexists. split; [done|]. apply HQ; try done; [|by rewrite Hw]. intros e' He'. rewrite He in He'. injection He' as <-. by rewrite Hr1, Hw.
  - exists es2. assert (forall i p, E !! i = Some p -> i ∈ order) as Hor. { intros i p Hi. rewrite Ho. apply elem_of_seq. apply lookup_lt_Some in Hi. lia. } split_and!; [|done|].
    + f_equal. f_equal. apply map_eq. intros p. rewrite sep_fold by done. destruct (decide (p ∈ E)) as [Hp|Hp]; [|by apply Hkeep]. pose proof (HS p Hp) as HSp. apply elem_of_list_lookup in Hp as [i Hi].
      destruct (lookup_lt_is_Some_2 es2 i) as [e He]. { apply lookup_lt_Some in Hi. by rewrite <-HE2, fmap_length in Hi. } specialize (Hfin i e p He Hi). rewrite decide_True in Hfin by (by eapply Hor). destruct Hfin as [_ ->]. fold w. destruct (w p); done.
    + intros i e p He Hp. specialize (Hfin i e p He Hp). rewrite decide_True in Hfin by (by eapply Hor). apply Hfin.
Qed.
End search.
