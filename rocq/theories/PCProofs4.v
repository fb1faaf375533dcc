(** The whole skeleton search and its relation to the specification. *)
From Verif Require Import PCModel PCSpec ChoiceProofs UtilProofs NetProofs PCProofs PCProofs2 PCProofs3.
Local Open Scope nat_scope.

(** The edges in the order of the complete graph. *)
Definition start_pairs (n : nat) : pairs := match complete_graph n with Ok l => omap id l | Err _ => [] end.
Fixpoint canon (ind : nat -> nat -> list nat -> bool) (n d : nat) : pairs * sepmap :=
  match d with O => (start_pairs n, ∅) | S d => level ind n d (canon ind n d) end.
Lemma start_ok n : exists l, complete_graph n = Ok l /\ mcollect l (fun p => match p with Some p => Ok (new_pedge p) | None => Err Uninit end) = Ok (new_pedge <$> start_pairs n) /\
  NoDup (start_pairs n) /\ forall x y, (x, y) ∈ start_pairs n <-> x < y /\ y < n.
Proof.
  destruct (complete_graph_any_schedule n (upper_pairs n) ltac:(done)) as (l & Hl & Hlen & H1 & H2). exists l. split; [done|]. unfold start_pairs. change (complete_graph n) with (complete_graph_visit n (upper_pairs n)). rewrite Hl.
  assert (exists E, l = Some <$> E) as [E ->].
  { clear -H2. induction l as [|o l IH] using rev_ind; [by exists []|]. destruct IH as [E ->].
    - intros k Hk. destruct (H2 k) as (i & j & Hi & Hj & Hlk & Hu); [rewrite app_length; lia|]. exists i, j. rewrite lookup_app_l in Hlk by done. split_and!; try done. intros k' Hk'. apply Hu. by apply lookup_app_l_Some.
    - destruct (H2 (length (Some <$> E))) as (i & j & _ & _ & Hlk & _); [rewrite app_length; cbn; lia|]. rewrite lookup_app_r, Nat.sub_diag in Hlk by lia. cbn in Hlk. injection Hlk as ->. exists (E ++ [(i, j)]). by rewrite fmap_app. }
  assert (omap id (Some <$> E) = E) as HE by (clear; induction E as [|p E IH]; cbn; [done|by f_equal]). rewrite HE. split_and!.
  - clear. induction E as [|p E IH]; [done|]. cbn [fmap list_fmap mcollect mbind outcome_bind]. change (list_fmap _ _ Some E) with (Some <$> E). rewrite IH. done.
  - apply NoDup_alt. intros i j p Hi Hj. destruct (H2 i) as (x & y & _ & _ & Hxy & Hu); [rewrite fmap_length; by eapply lookup_lt_Some|]. rewrite list_lookup_fmap, Hi in Hxy. cbn in Hxy. injection Hxy as ->. symmetry. apply Hu. by rewrite list_lookup_fmap, Hj.
  - intros x y. split.
    + intros Hin. apply elem_of_list_lookup in Hin as [k Hk]. destruct (H2 k) as (i & j & Hi & Hj & Hxy & _); [rewrite fmap_length; by eapply lookup_lt_Some|]. rewrite list_lookup_fmap, Hk in Hxy. cbn in Hxy. by injection Hxy as -> ->.
    + intros [Hx Hy]. specialize (H1 x y Hx Hy). rewrite list_lookup_fmap in H1. destruct (E !! edge_position n x y) as [q|] eqn:Eq; [|done]. cbn in H1. injection H1 as ->. by eapply elem_of_list_lookup_2.
Qed.
Lemma canon_ok ind n d : ok_state n (fst (canon ind n d)) (snd (canon ind n d)).
Proof.
  induction d as [|d IH].
  - cbn. destruct (start_ok n) as (_ & _ & _ & Hnd & Hin). split_and!; [done| |intros; apply lookup_empty]. intros [x y] H. by apply Hin in H.
  - cbn [canon]. destruct (canon ind n d) as [E S]. by apply level_ok.
Qed.
(** Once the degrees are small, deeper levels change nothing. *)
Lemma max_degree_ge adj row : row ∈ adj -> length row <= max_degree adj.
Proof.
  unfold max_degree. assert (forall adj m, m <= foldl (fun m (row : list nat) => if bool_decide (m < length row) then length row else m) m adj) as Hmono.
  { clear. induction adj as [|r adj IH]; intros m; cbn; [done|]. etransitivity; [|apply IH]. case_bool_decide; lia. }
  generalize 0. induction adj as [|r adj IH]; intros m Hin; [by apply elem_of_nil in Hin|]. cbn. apply elem_of_cons in Hin as [<-|Hin]; [|by apply IH]. etransitivity; [|apply Hmono]. case_bool_decide; lia.
Qed.
Lemma serase_length y l : NoDup l -> y ∈ l -> length (serase y l) = length l - 1.
Proof.
  intros Hnd Hy. assert (y :: serase y l ≡ₚ l) as Hp.
  { apply NoDup_Permutation; [|done|]; [constructor; [rewrite elem_of_serase; tauto|by apply NoDup_filter]|]. intros v. rewrite elem_of_cons, elem_of_serase. destruct (decide (v = y)) as [->|]; tauto. }
  apply Permutation_length in Hp. cbn in Hp. lia.
Qed.
Lemma level_stop ind n c E S : ok_state n E S -> ~ (Z.of_nat c <= free_degree (adj_of n E))%Z -> level ind n c (E, S) = (E, S).
Proof.
  intros (Hnd & Hlt & HS) Hst. assert (forall p, p ∈ E -> verdict ind n E c p = None) as Hv.
  { intros [x y] Hp. destruct (Hlt _ Hp) as [H1 H2]. cbn in H1, H2. unfold verdict. cbn [fst snd]. assert (forall a b, a < n -> b < n -> ((a, b) ∈ E \/ (b, a) ∈ E) -> length (serase b (nb n E a)) < c) as Hs.
    { intros a b Ha Hb Hab. rewrite serase_length; [|apply NoDup_filter, NoDup_seq|by apply elem_of_nb]. assert (nb n E a ∈ adj_of n E) as Hin by (eapply elem_of_list_lookup_2; by apply adj_of_lookup). pose proof (max_degree_ge _ _ Hin). unfold free_degree in Hst.
      assert (b ∈ nb n E a) as Hba by (by apply elem_of_nb). assert (0 < length (nb n E a)) by (destruct (nb n E a); [by apply elem_of_nil in Hba|cbn; lia]). lia. }
    rewrite !choose_none; [done|apply Hs; [done|lia|by right]|apply Hs; [lia|done|by left]]. }
  unfold level. f_equal.
  - clear -Hv. revert Hv. generalize (verdict ind n E c). clear. intros w. induction E as [|p E IH]; intros Hv; [done|]. rewrite filter_cons. rewrite decide_True by (apply Hv; left). f_equal. apply IH. intros; apply Hv; by right.
  - revert Hv. generalize (verdict ind n E c). clear. intros w. induction E as [|p E IH]; intros Hv; [done|]. cbn. rewrite Hv by left. apply IH. intros; apply Hv; by right.
Qed.
Lemma canon_stop ind n c d E S : canon ind n c = (E, S) -> ~ (Z.of_nat c <= free_degree (adj_of n E))%Z -> c <= d -> canon ind n d = (E, S).
Proof.
  intros Hc Hst. induction 1 as [|d Hd IH]; [done|]. cbn [canon]. rewrite IH. pose proof (canon_ok ind n d) as Hok. rewrite IH in Hok. apply level_stop; [done|]. lia.
Qed.
Section search.
Context (tst : nat -> nat -> list nat -> nat -> outcome ci_result) (ind : nat -> nat -> list nat -> bool) (n gmax : nat) (Hdec : decides_apart tst ind n gmax).
Context (g : nat) (Hg : 0 < g <= gmax) (sch : nat -> schedule) (Hsch : valid_sched sch).
Lemma levels_ok k : forall d es, 0 < d -> pe_pair <$> es = fst (canon ind n d) ->
  exists F es', (forall fuel, F <= fuel -> levels tst (seq d k) fuel g sch es (adj_of n (fst (canon ind n d))) (snd (canon ind n d)) = Ok (es', adj_of n (fst (canon ind n (d + k))), snd (canon ind n (d + k)))) /\ pe_pair <$> es' = fst (canon ind n (d + k)).
Proof using Hdec Hg Hsch.
  induction k as [|k IH]; intros d es Hd Hes.
  - exists 0, es. cbn [seq levels]. by rewrite Nat.add_0_r.
  - pose proof (canon_ok ind n d) as Hok. destruct (canon ind n d) as [E S] eqn:Ecan. cbn [fst snd] in *. destruct (search_ok tst ind n gmax Hdec g Hg d (sch d) es E S Hd (Hsch d) Hok Hes) as (F1 & es1 & HF1).
    assert (level ind n d (E, S) = canon ind n (1 + d)) as Hlev by (cbn [canon Nat.add]; by rewrite Ecan). rewrite Hlev in HF1. destruct (canon ind n (1 + d)) as [E' S'] eqn:Ecan'. destruct HF1 as [HF1 Hes1].
    destruct (decide (Z.of_nat d < free_degree (adj_of n E'))%Z) as [Hmore|Hstop].
    + specialize (IH (1 + d) es1 ltac:(lia)). rewrite Ecan' in IH. cbn [fst snd] in IH. destruct (IH Hes1) as (F2 & es2 & HF2 & Hes2). exists (F1 + F2), es2. replace (d + Datatypes.S k) with (1 + d + k) by lia. split; [|done]. intros fuel Hfuel. cbn [seq levels]. rewrite HF1 by lia. cbn [mbind outcome_bind]. rewrite bool_decide_true by done. apply HF2. lia.
    + exists F1, es1. rewrite (canon_stop ind n (1 + d) (d + Datatypes.S k) E' S' Ecan'); [|lia|lia]. cbn [fst snd]. split; [|done]. intros fuel Hfuel. cbn [seq levels]. rewrite HF1 by done. cbn [mbind outcome_bind]. by rewrite bool_decide_false by done.
Qed.
(** The outcome of the search does not depend on the schedule, the group size or the test function's other answers. *)
Lemma skeleton_search_ok depth : exists F es, (forall fuel, F <= fuel -> skeleton_search tst n depth fuel g sch = Ok (es, adj_of n (fst (canon ind n (Nat.max 1 depth))), snd (canon ind n (Nat.max 1 depth)))) /\ pe_pair <$> es = fst (canon ind n (Nat.max 1 depth)).
Proof using Hdec Hg Hsch.
  unfold skeleton_search. destruct (start_ok n) as (l & -> & Hcol & Hnd & Hin). cbn [mbind outcome_bind]. rewrite Hcol. cbn [mbind outcome_bind]. rewrite fmap_length.
  pose proof (canon_ok ind n 0) as Hok. cbn [canon fst snd] in Hok. destruct (level_zero_ok tst ind n gmax Hdec g Hg (sch 0 0 (length (start_pairs n))) (start_pairs n) (∅ : sepmap) (Hsch 0 0 _) Hok) as (es1 & H). destruct (level ind n 0 (start_pairs n, ∅)) as [E1 S1] eqn:E1eq. destruct H as (Hz & Hes1 & Hrem). rewrite Hz. cbn [mbind outcome_bind].
  assert ((fun i => serase i (seq 0 n)) <$> seq 0 n = adj_of n (start_pairs n)) as ->.
  { unfold adj_of. apply list_fmap_ext'. intros x Hx. apply elem_of_seq in Hx. apply lt_sorted_ext; [apply serase_sorted, seq_sorted|apply nb_sorted|]. intros v. rewrite elem_of_serase, elem_of_nb, elem_of_seq, !Hin. lia. }
  destruct (marked_filter (verdict ind n (start_pairs n) 0) es1 (start_pairs n) Hnd Hes1 Hrem) as [H1 H2].
  rewrite remove_marked_ok; [|intros [x y] Hp; by apply Hin in Hp|intros e He; assert (pe_pair e ∈ start_pairs n) as Hp by (rewrite <-Hes1; by apply elem_of_list_fmap_1); by apply Hin in Hp]. cbn [mbind outcome_bind]. rewrite H2.
  assert (canon ind n 1 = (E1, S1)) as Hcan by exact E1eq. assert (filter (fun p => verdict ind n (start_pairs n) 0 p = None) (start_pairs n) = E1) as HE1 by (cbn [level] in E1eq; congruence). rewrite HE1 in *.
  pose proof (levels_ok (depth - 1) 1 (filter (fun e => pe_remove e = false) es1) ltac:(lia)) as HL. rewrite Hcan in HL. cbn [fst snd] in HL. destruct (HL H1) as (F & es' & HF & Hes'). exists F, es'. replace (Nat.max 1 depth) with (1 + (depth - 1)) by lia. done.
Qed.
End search.

(** ** The specification *)
Lemma skeleton_range ind n d x y : stable_skeleton ind n d x y -> x < n /\ y < n /\ x <> y.
Proof. revert x y. induction d as [|d IH]; intros x y; cbn; [done|]. intros [H _]. by apply IH. Qed.
Lemma separated_sym ind (G : nat -> nat -> Prop) d x y : separated ind G d x y -> separated ind G d y x.
Proof. intros (S & Hs & Hl & Hi & Hor). exists S. rewrite Nat.min_comm, Nat.max_comm. split_and!; try done. tauto. Qed.
Lemma skeleton_sym ind n d x y : stable_skeleton ind n d x y -> stable_skeleton ind n d y x.
Proof. revert x y. induction d as [|d IH]; intros x y; cbn; [naive_solver|]. intros [H Hn]. split; [by apply IH|]. intros Hs. by apply Hn, separated_sym. Qed.
Lemma first_sep_some ind L s : first_sep ind L = Some s -> s ∈ L /\ ind s = true.
Proof. induction L as [|u L IH]; cbn; [done|]. destruct (ind u) eqn:E; [intros [= ->]; split; [left|done]|]. intros H. destruct (IH H). split; [by right|done]. Qed.
Lemma first_sep_none ind L : first_sep ind L = None -> forall s, s ∈ L -> ind s = false.
Proof. induction L as [|u L IH]; cbn; intros H s Hs; [by apply elem_of_nil in Hs|]. destruct (ind u) eqn:E; [done|]. apply elem_of_cons in Hs as [->|Hs]; [done|by apply IH]. Qed.
Lemma canon_skeleton ind n d x y : (x, y) ∈ fst (canon ind n d) <-> x < y /\ stable_skeleton ind n d x y.
Proof.
  revert x y. induction d as [|d IH]; intros x y.
  - cbn. destruct (start_ok n) as (_ & _ & _ & _ & Hin). rewrite Hin. lia.
  - cbn [canon stable_skeleton]. pose proof (canon_ok ind n d) as (Hnd & Hlt & _). destruct (canon ind n d) as [E S] eqn:Ecan. cbn [fst snd level] in *. rewrite elem_of_list_filter.
    assert (forall a v, a < n -> v ∈ nb n E a <-> stable_skeleton ind n d a v) as Hnb.
    { intros a v Ha. rewrite elem_of_nb, !IH. split.
      - intros [_ [[_ H]|[_ H]]]; [done|by apply skeleton_sym].
      - intros H. destruct (skeleton_range _ _ _ _ _ H) as (_ & Hv & Hne). split; [done|]. destruct (decide (a < v)); [by left|right; split; [lia|by apply skeleton_sym]]. }
    split.
    + intros [Hv Hin]. pose proof (Hlt _ Hin) as [H1 H2]. cbn in H1, H2. pose proof Hin as Hin'. apply IH in Hin' as [_ Hsk]. split_and!; [done|done|]. intros (s & Hs & Hl & Hi & Hor). rewrite Nat.min_l, Nat.max_r in Hi by lia. assert (ind x y s = false); [|congruence].
      apply (first_sep_none _ _ Hv). cbn [fst snd]. apply elem_of_app. destruct Hor as [Hor|Hor]; [left|right]; (apply elem_of_choose; [apply serase_sorted, nb_sorted|]); (split_and!; [done|done|]); intros v Hvs; apply elem_of_serase; rewrite Hnb by lia; by apply Hor.
    + intros (H1 & Hsk & Hn). assert ((x, y) ∈ E) as Hin by (by apply IH). split; [|done]. destruct (Hlt _ Hin) as [_ H2]. cbn in H2. destruct (verdict ind n E d (x, y)) as [s|] eqn:Ev; [|done]. exfalso. apply Hn. apply first_sep_some in Ev as [Hs Hi]. cbn [fst snd] in Hs, Hi.
      apply elem_of_app in Hs as [Hs|Hs]; apply elem_of_choose in Hs as (Hs & Hl & Hv); try (apply serase_sorted, nb_sorted); exists s; rewrite Nat.min_l, Nat.max_r by lia; split_and!; try done; [left|right]; intros v Hvs; specialize (Hv v Hvs); apply elem_of_serase in Hv; rewrite Hnb in Hv by lia; done.
Qed.
(** The map of separating sets. *)
Lemma canon_sepsets ind n d x y s : snd (canon ind n d) !! (x, y) = Some s -> x < y /\ y < n /\ exists k, k < d /\ stable_skeleton ind n k x y /\ ~ stable_skeleton ind n (S k) x y /\
  StronglySorted lt s /\ length s = k /\ ind x y s = true /\ ((forall v, v ∈ s -> stable_skeleton ind n k x v /\ v <> y) \/ (forall v, v ∈ s -> stable_skeleton ind n k y v /\ v <> x)).
Proof.
  induction d as [|d IH]; [done|]. cbn [canon]. pose proof (canon_ok ind n d) as (Hnd & Hlt & HS). assert (forall x y, (x, y) ∈ fst (canon ind n d) <-> x < y /\ stable_skeleton ind n d x y) as Hin by apply canon_skeleton. assert (forall x y, (x, y) ∈ fst (canon ind n (S d)) <-> x < y /\ stable_skeleton ind n (S d) x y) as Hin' by apply canon_skeleton. cbn [canon] in Hin'.
  destruct (canon ind n d) as [E S0] eqn:Ecan. cbn [fst snd level] in *. rewrite sep_fold by done. intros Hs.
  assert (S0 !! (x, y) = Some s -> x < y /\ y < n /\ exists k, k < S d /\ stable_skeleton ind n k x y /\ ~ stable_skeleton ind n (S k) x y /\
    StronglySorted lt s /\ length s = k /\ ind x y s = true /\ ((forall v, v ∈ s -> stable_skeleton ind n k x v /\ v <> y) \/ (forall v, v ∈ s -> stable_skeleton ind n k y v /\ v <> x))) as Hold.
  { intros H. destruct (IH H) as (H1 & H2 & k & Hk & Hrest). split_and!; [done|done|]. exists k. split; [lia|done]. }
  destruct (decide ((x, y) ∈ E)) as [He|He]; [|by apply Hold]. destruct (verdict ind n E d (x, y)) as [s'|] eqn:Ev; [|by apply Hold]. injection Hs as ->. destruct (Hlt _ He) as [H1 H2]. cbn in H1, H2. split_and!; [done|done|]. exists d. split; [lia|]. pose proof He as He'. apply Hin in He' as [_ Hsk]. split; [done|].
  split; [intros Hn; assert ((x, y) ∈ filter (fun p => verdict ind n E d p = None) E) as Hf by (by apply Hin'); apply elem_of_list_filter in Hf as [Hf _]; congruence|].
  assert (forall a v, a < n -> v ∈ nb n E a -> stable_skeleton ind n d a v) as Hnb. { intros a v Ha. rewrite elem_of_nb, !Hin. intros [_ [[_ H]|[_ H]]]; [done|by apply skeleton_sym]. }
  apply first_sep_some in Ev as [Hc Hi]. cbn [fst snd] in Hc, Hi. apply elem_of_app in Hc as [Hc|Hc]; apply elem_of_choose in Hc as (Hs & Hl & Hv); try (apply serase_sorted, nb_sorted); split_and!; try done; [left|right]; intros v Hvs; specialize (Hv v Hvs); apply elem_of_serase in Hv as [Hv Hne]; (split; [apply Hnb; [lia|done]|done]).
Qed.
Lemma canon_recorded ind n d x y : x < y -> y < n -> is_Some (snd (canon ind n d) !! (x, y)) <-> ~ stable_skeleton ind n d x y.
Proof.
  intros H1 H2. assert ((x, y) ∈ fst (canon ind n d) <-> stable_skeleton ind n d x y) as <- by (rewrite canon_skeleton; tauto). induction d as [|d IH].
  - cbn. destruct (start_ok n) as (_ & _ & _ & _ & Hin). rewrite Hin. split; [by intros [? ?]|tauto].
  - cbn [canon]. pose proof (canon_ok ind n d) as (Hnd & Hlt & HS). destruct (canon ind n d) as [E S0] eqn:Ecan. cbn [fst snd level] in *. rewrite sep_fold by done. rewrite elem_of_list_filter. destruct (decide ((x, y) ∈ E)) as [He|He].
    + destruct (verdict ind n E d (x, y)) eqn:Ev; [split; [by intros _ [? _]|done]|]. rewrite HS by done. split; [by intros [? ?]|tauto].
    + rewrite IH. tauto.
Qed.
