(** Loading evidence into the tree and normalising the cliques. *)
From Coq Require Import Field.
From Verif Require Import JTModel TableSpec TableProofs TableProofs2 TableProofs4 ParProofs SchedProofs PassProofs FlowProofs.
From Verif Require Import BeliefSpec BeliefProofs.
Local Open Scope Qc_scope.

Global Instance tnode_eq_dec : EqDecision tnode.
Proof. solve_decision. Defined.
Definition tabof (st : tabs) (x : tnode) : option ptable := match x with TC i => t_c st !! i | TS s => t_s st !! s end.
Lemma get_tab_ok st x t : tabof st x = Some t -> get_tab st x = Ok t.
Proof. destruct x; cbn; apply vget_ok. Qed.
Lemma set_tab_spec st x t : is_Some (tabof st x) -> exists st', set_tab st x t = Ok st' /\ length (t_c st') = length (t_c st) /\ length (t_s st') = length (t_s st) /\
  tabof st' x = Some t /\ forall y, y <> x -> tabof st' y = tabof st y.
Proof.
  intros [t0 Ht0]. destruct x as [i|s]; cbn in *; apply lookup_lt_Some in Ht0; rewrite vset_ok by done; cbn [mbind outcome_bind]; eexists; (split; [done|]); cbn; rewrite insert_length;
    (split; [done|]); (split; [done|]); (split; [by apply list_lookup_insert|]); intros [j|j] Hy; cbn; try done; apply list_lookup_insert_ne; congruence.
Qed.
Lemma set_tabs_spec nodes : forall ts st, length ts = length nodes -> NoDup nodes -> (forall x, x ∈ nodes -> is_Some (tabof st x)) ->
  exists st', set_tabs st (zip nodes ts) = Ok st' /\ length (t_c st') = length (t_c st) /\ length (t_s st') = length (t_s st) /\
    (forall x, x ∉ nodes -> tabof st' x = tabof st x) /\ (forall k x t, nodes !! k = Some x -> ts !! k = Some t -> tabof st' x = Some t).
Proof.
  induction nodes as [|x nodes IH]; intros [|t ts] st Hl Hnd Hb; try done; cbn [zip zip_with].
  { exists st. split_and!; try done. }
  apply NoDup_cons in Hnd as [Hx Hnd]. unfold set_tabs. cbn [mfor fst snd].
  destruct (set_tab_spec st x t) as (st1 & -> & L1 & L2 & S1 & S2); [apply Hb; left|]. cbn [mbind outcome_bind].
  destruct (IH ts st1) as (st' & Heq & H1 & H2 & H3 & H4); [by injection Hl|done| |].
  { intros y Hy. rewrite S2; [apply Hb; by right|]. intros ->. done. }
  unfold set_tabs in Heq. rewrite Heq. exists st'. split; [done|]. split; [lia|]. split; [lia|]. split.
  - intros y Hy. apply not_elem_of_cons in Hy as [Hyx Hy]. rewrite H3 by done. by apply S2.
  - intros [|k] y u Hk Hu; cbn in Hk, Hu; [|by apply (H4 k)]. injection Hk as ->. injection Hu as ->. by rewrite H3.
Qed.

Lemma nodup_fmap_filter {A B} (f : A -> B) (l : list A) (P : A -> Prop) `{forall x, Decision (P x)} : NoDup (f <$> l) -> NoDup (f <$> filter P l).
Proof.
  induction l as [|x l IH]; [done|]. cbn [fmap list_fmap]. intros [Hx Hnd]%NoDup_cons. rewrite filter_cons. destruct (decide (P x)); [|by apply IH].
  cbn [fmap list_fmap]. apply NoDup_cons. split; [|by apply IH]. intros Hin. apply Hx. apply elem_of_list_fmap in Hin as (y & -> & Hy). apply elem_of_list_filter in Hy as [_ Hy]. by apply elem_of_list_fmap_1.
Qed.
Section evidence.
Context (dom : nat -> nat) (dom_pos : forall v, (0 < dom v)%nat).
Notation wf := (TableSpec.wf dom).
Notation valid := (valid dom).
Notation sumv := (sumv dom).
Set Default Proof Using "All".

Lemma test_spec (mk : nat -> tnode) (ts : list ptable) index acc : Forall wf ts ->
  mfor (zip (seq 0 (length ts)) ts) (fun it (acc : list tnode) => loc ← get_variable_index (snd it) index;
      Ok (if bool_decide (loc < pt_nv (snd it))%nat then acc ++ [mk (fst it)] else acc)) acc
  = Ok (acc ++ (mk ∘ fst <$> filter (fun it : nat * ptable => index ∈ pt_vars (snd it)) (zip (seq 0 (length ts)) ts))).
Proof.
  intros Hwf. assert (forall it, it ∈ zip (seq 0 (length ts)) ts -> wf (snd it)) as Hw.
  { intros [i t] Hin. apply elem_of_zip_r in Hin. by apply (proj1 (Forall_forall _ _) Hwf). }
  revert Hw acc. generalize (zip (seq 0 (length ts)) ts). intros l. induction l as [|[i t] l IH]; intros Hw acc; cbn [mfor fst snd]; [by rewrite app_nil_r|].
  rewrite filter_cons. assert (wf t) as Ht by (apply (Hw (i, t)); left). destruct (decide (index ∈ pt_vars (i, t).2)) as [Hin|Hin]; cbn [snd] in Hin.
  - destruct (get_variable_index_in dom dom_pos t index Ht Hin) as (k & -> & _ & Hk). cbn [mbind outcome_bind]. rewrite bool_decide_true by done.
    rewrite IH by (intros it Hit; apply Hw; by right). cbn [fmap list_fmap compose fst]. by rewrite <-app_assoc.
  - rewrite (get_variable_index_out dom dom_pos t index Ht Hin). cbn [mbind outcome_bind]. rewrite bool_decide_false by lia. apply IH. intros it Hit. apply Hw. by right.
Qed.
Lemma test_elem (ts : list ptable) index i : i ∈ (fst <$> filter (fun it : nat * ptable => index ∈ pt_vars (snd it)) (zip (seq 0 (length ts)) ts)) <-> exists t, ts !! i = Some t /\ index ∈ pt_vars t.
Proof.
  rewrite elem_of_list_fmap. split.
  - intros ([j t] & -> & Hin). apply elem_of_list_filter in Hin as [Hv Hin]. apply elem_of_list_lookup in Hin as [k Hk]. apply lookup_zip_with_Some in Hk as (j' & t' & [= <- <-] & Hj & Ht).
    apply lookup_seq in Hj as [-> _]. exists t. done.
  - intros (t & Ht & Hv). exists (i, t). split; [done|]. apply elem_of_list_filter. split; [done|]. apply elem_of_list_lookup. exists i. apply lookup_zip_with_Some. exists i, t. split_and!; [done| |done].
    apply lookup_seq. split; [done|]. by eapply lookup_lt_Some.
Qed.
Lemma test_nodup (ts : list ptable) (P : nat * ptable -> Prop) `{forall x, Decision (P x)} : NoDup (fst <$> filter P (zip (seq 0 (length ts)) ts)).
Proof.
  apply nodup_fmap_filter. rewrite fst_zip by (rewrite seq_length; lia). apply NoDup_seq.
Qed.
Lemma tables_with_spec st index : Forall wf (t_c st) -> Forall wf (t_s st) ->
  exists nodes, tables_with st index = Ok nodes /\ NoDup nodes /\ forall x, x ∈ nodes <-> exists t, tabof st x = Some t /\ index ∈ pt_vars t.
Proof.
  intros Hc Hs. unfold tables_with. rewrite (test_spec TC (t_c st)) by done. cbn [mbind outcome_bind]. rewrite (test_spec TS (t_s st)) by done. eexists. split; [done|]. cbn [app].
  rewrite !list_fmap_compose. split.
  - apply NoDup_app. split_and!.
    + apply NoDup_fmap_2; [by intros ? ? [=]|]. apply test_nodup.
    + intros x Hx Hx'. apply elem_of_list_fmap in Hx as (i & -> & _), Hx' as (j & ? & _). done.
    + apply NoDup_fmap_2; [by intros ? ? [=]|]. apply test_nodup.
  - intros x. rewrite elem_of_app, !elem_of_list_fmap. setoid_rewrite test_elem. destruct x as [i|s]; cbn; split.
    + intros [(j & [= <-] & H)|(j & ? & _)]; done.
    + intros H. left. by exists i.
    + intros [(j & ? & _)|(j & [= <-] & H)]; done.
    + intros H. right. by exists s.
Qed.

(** The table with the evidence put in; an impossible value leaves nothing. *)
Definition reduced (v x : nat) (t t' : ptable) : Prop :=
  wf t' /\ pt_vars t' = without v (pt_vars t) /\
  forall a, valid a -> tval t' a = if bool_decide (x < dom v)%nat then tval t (upd a v x) else 0.
Lemma reduction_either t v x : wf t -> v ∈ pt_vars t -> exists t', table_reduction t v x = Ok t' /\ reduced v x t t'.
Proof.
  intros Ht Hv. destruct (decide (x < dom v)%nat) as [Hx|Hx].
  - destruct (table_reduction_spec dom dom_pos t v x Ht Hv Hx) as (t' & H & H1 & H2 & H3). exists t'. split; [done|]. split_and!; try done. intros a Ha. rewrite bool_decide_true by done. by apply H3.
  - destruct (table_reduction_out_of_range dom dom_pos t v x Ht Hv) as (t' & H & H1 & H2 & H3); [lia|]. exists t'. split; [done|]. split_and!; try done. intros a Ha. rewrite bool_decide_false by done. by apply H3.
Qed.
Lemma load_nodes_spec sch tag st nodes v x : valid_scheduler sch -> NoDup nodes ->
  (forall y, y ∈ nodes -> exists t, tabof st y = Some t /\ wf t /\ v ∈ pt_vars t) ->
  exists st', load_evidence_to_nodes sch tag st nodes v x = Ok st' /\ length (t_c st') = length (t_c st) /\ length (t_s st') = length (t_s st) /\
    (forall y, y ∉ nodes -> tabof st' y = tabof st y) /\ (forall y t, y ∈ nodes -> tabof st y = Some t -> exists t', tabof st' y = Some t' /\ reduced v x t t').
Proof.
  intros Hsch Hnd H. unfold load_evidence_to_nodes.
  destruct (mcollect_exists (fun k t => forall y, nodes !! k = Some y -> tabof st y = Some t /\ wf t /\ v ∈ pt_vars t) nodes (get_tab st)) as (ts & -> & Hl & Hts).
  { intros k y Hk. destruct (H y) as (t & Ht & Hw & Hv); [by eapply elem_of_list_lookup_2|]. exists t. split; [by apply get_tab_ok|]. intros y' Hy'. replace y' with y by congruence. done. }
  cbn [mbind outcome_bind].
  assert (forall k t, ts !! k = Some t -> wf t /\ v ∈ pt_vars t) as Hk.
  { intros k t Ht. pose proof (lookup_lt_Some _ _ _ Ht). destruct (lookup_lt_is_Some_2 nodes k) as [y Hy]; [lia|]. by destruct (Hts k t Ht y Hy) as (_ & ? & ?). }
  assert (exists locs, par1_fill (sch (tag ++ [0%nat]) (length ts)) (length ts) (fun k => t ← vget ts k; get_variable_index t v) = Ok locs /\ length locs = length ts /\
    forall k t, ts !! k = Some t -> exists loc, locs !! k = Some loc /\ get_variable_index t v = Ok loc) as (locs & -> & Hll & Hlocs).
  { destruct (mcollect_exists (fun k loc => forall t, ts !! k = Some t -> get_variable_index t v = Ok loc) (seq 0 (length ts)) (fun k => t ← vget ts k; get_variable_index t v)) as (locs & Hlo & Hll & Hlocs).
    - intros k i Hi. apply lookup_seq in Hi as [-> Hi]. cbn [Nat.add]. destruct (lookup_lt_is_Some_2 ts k Hi) as [t Ht]. rewrite (vget_ok _ _ _ Ht). cbn [mbind outcome_bind]. destruct (Hk k t Ht) as [Hw Hv].
      destruct (get_variable_index_in dom dom_pos t v Hw Hv) as (loc & Hloc & _). exists loc. split; [done|]. intros t' Ht'. replace t' with t by congruence. done.
    - rewrite seq_length in Hll. exists locs. split_and!; [|done|]. { by apply (par1_fill_spec (length ts) _ _ (Hsch _ _)). }
      intros k t Ht. pose proof (lookup_lt_Some _ _ _ Ht). destruct (lookup_lt_is_Some_2 locs k) as [loc Hloc]; [lia|]. exists loc. split; [done|]. by apply (Hlocs k loc Hloc). }
  cbn [mbind outcome_bind].
  destruct (par2_fill_exists (fun k vi => forall t loc, ts !! k = Some t -> locs !! k = Some loc -> exists t', reduction_post t v x vi loc = Ok t' /\ reduced v x t t') (pt_size <$> ts)
     (sch (tag ++ [1%nat]) (snd (cum_sums (pt_size <$> ts)))) (fun k i => t ← vget ts k; loc ← vget locs k; reduction_main t loc i)) as (vidx & -> & Hvl & Hvidx).
  { apply Hsch. }
  { intros j n Hj. rewrite list_lookup_fmap in Hj. destruct (ts !! j) as [t|] eqn:Ht; [|done]. injection Hj as <-. destruct (Hk j t Ht) as [Hw Hv].
    destruct (Hlocs j t Ht) as (loc & Hloc & Hgi). destruct (reduction_either t v x Hw Hv) as (t' & Hred & Hr). unfold table_reduction in Hred. rewrite Hgi in Hred. cbn [mbind outcome_bind] in Hred.
    destruct (mcollect (seq 0 (pt_size t)) (reduction_main t loc)) as [vi|] eqn:Hm; [|done]. cbn [mbind outcome_bind] in Hred. exists vi. split.
    - rewrite <-Hm. apply mcollect_ext. intros k _. rewrite (vget_ok _ _ _ Ht). cbn [mbind outcome_bind]. rewrite (vget_ok _ _ _ Hloc). done.
    - intros t2 loc2 Ht2 Hl2. replace t2 with t by congruence. replace loc2 with loc by congruence. by exists t'. }
  cbn [mbind outcome_bind]. rewrite fmap_length in Hvl.
  assert (exists ts', par1 (sch (tag ++ [2%nat]) (length ts)) (fun k t => vi ← vget vidx k; loc ← vget locs k; reduction_post t v x vi loc) ts = Ok ts' /\ length ts' = length ts /\
    forall k t, ts !! k = Some t -> exists t', ts' !! k = Some t' /\ reduced v x t t') as (ts' & -> & Hl' & Hts').
  { destruct (mcollect_exists (fun k t' => forall t, ts !! k = Some t -> reduced v x t t') (seq 0 (length ts)) (fun s => t ← vget ts s; vi ← vget vidx s; loc ← vget locs s; reduction_post t v x vi loc)) as (ts' & Hm & Hl' & Hts').
    - intros k i Hi. apply lookup_seq in Hi as [-> Hi]. cbn [Nat.add]. destruct (lookup_lt_is_Some_2 ts k Hi) as [t Ht]. destruct (Hlocs k t Ht) as (loc & Hloc & _).
      destruct (lookup_lt_is_Some_2 vidx k) as [vi Hvi]; [lia|]. destruct (Hvidx k vi Hvi t loc Ht Hloc) as (t' & Hp & Hr). exists t'. split.
      + rewrite (vget_ok _ _ _ Ht). cbn [mbind outcome_bind]. rewrite (vget_ok _ _ _ Hvi). cbn [mbind outcome_bind]. rewrite (vget_ok _ _ _ Hloc). done.
      + intros t2 Ht2. replace t2 with t by congruence. done.
    - rewrite seq_length in Hl'. exists ts'. split_and!; [|done|]. { by apply (par1_spec (length ts) _ _ ts (Hsch _ _) eq_refl). }
      intros k t Ht. pose proof (lookup_lt_Some _ _ _ Ht). destruct (lookup_lt_is_Some_2 ts' k) as [t' Ht']; [lia|]. exists t'. split; [done|]. by apply (Hts' k t' Ht'). }
  cbn [mbind outcome_bind].
  destruct (set_tabs_spec nodes ts' st) as (st' & -> & H1 & H2 & H3 & H4); [lia|done| |].
  { intros y Hy. destruct (H y Hy) as (t & -> & _). by eexists. }
  exists st'. split_and!; try done. intros y t Hy Ht. apply elem_of_list_lookup in Hy as [k Hy]. pose proof (lookup_lt_Some _ _ _ Hy). destruct (lookup_lt_is_Some_2 ts k) as [t2 Ht2]; [lia|].
  destruct (Hts k t2 Ht2 y Hy) as (Hty & _). replace t2 with t in * by congruence. destruct (Hts' k t Ht2) as (t' & Ht' & Hr). exists t'. split; [by eapply H4|done].
Qed.
End evidence.

Definition drop_all (E : list (nat * nat)) (l : list nat) : list nat := foldl (fun l e => without (fst e) l) l E.
Lemma drop_all_elem E l v : v ∈ drop_all E l <-> v ∈ l /\ v ∉ fst <$> E.
Proof.
  revert l. induction E as [|e E IH]; intros l; cbn [drop_all foldl fmap list_fmap].
  - split; [intros; split; [done|apply not_elem_of_nil]|by intros [? _]].
  - change (foldl (fun l e => without (fst e) l) (without e.1 l) E) with (drop_all E (without e.1 l)). rewrite IH. unfold without. rewrite elem_of_list_filter, not_elem_of_cons. naive_solver.
Qed.
Lemma drop_all_filter E l : drop_all E l = filter (fun v => v ∉ fst <$> E) l.
Proof.
  revert l. induction E as [|e E IH]; intros l.
  - cbn. induction l as [|x l IHl]; [done|]. rewrite filter_cons, decide_True; [by rewrite <-IHl|apply not_elem_of_nil].
  - change (drop_all (e :: E) l) with (drop_all E (without e.1 l)). rewrite IH. unfold without. rewrite list_filter_filter. apply list_filter_iff. intros x. cbn [fmap list_fmap]. rewrite not_elem_of_cons. naive_solver.
Qed.
(** What the joint weight becomes. *)
Definition absorb (dom : nat -> nat) (U : list nat) (v x : nat) (J : asg -> Qc) : asg -> Qc :=
  if bool_decide (v ∈ U /\ dom v <= x)%nat then fun _ => 0 else fun a => J (upd a v x).

Lemma rooted_without sc ss r v sn ls : rooted sc ss r sn ls -> rooted (fun i => without v (sc i)) (fun s => without v (ss s)) r sn ls.
Proof.
  revert sn. induction ls as [|l ls IH]; intros sn; [done|]. cbn [rooted]. intros (H1 & H2 & H3 & H4 & H5). split_and!; [done|done| | |by apply IH].
  - intros w. unfold without, scope_of in *. rewrite !elem_of_list_filter, elem_of_list_bind, H3, elem_of_list_bind. setoid_rewrite elem_of_list_filter. naive_solver.
  - intros w. unfold without. rewrite !elem_of_list_filter. naive_solver.
Qed.
Lemma upd_same_dep vs F a v x : dep_on vs F -> v ∉ vs -> F (upd a v x) = F a.
Proof. intros HF Hv. apply HF. intros w Hw. unfold upd. rewrite bool_decide_false; [done|]. intros ->. done. Qed.

Section ready.
Context (dom : nat -> nat) (dom_pos : forall v, (0 < dom v)%nat).
Notation wf := (TableSpec.wf dom).
Notation valid := (valid dom).
Notation sumv := (sumv dom).
Context (T : jtree) (r : nat) (Ls : list (list link)) (HT : tree_ok T r Ls).
Notation L := (concat Ls).
Record ready (sc ss : nat -> list nat) (U : list nat) (J : asg -> Qc) (st : tabs) : Prop := {
  rd_c : forall i, i ∈ seen r L -> exists C, t_c st !! i = Some C /\ wf C /\ pt_vars C = sc i;
  rd_s : forall l, l ∈ L -> exists S, t_s st !! l_sep l = Some S /\ wf S /\ pt_vars S = ss (l_sep l);
  rd_cs : seen r L ≡ₚ seq 0 (length (t_c st));
  rd_ss : l_sep <$> L ≡ₚ seq 0 (length (t_s st));
  rd_pos : forall i a, i ∈ seen r L -> valid a -> 0 <= ctab st i a;
  rd_one : (forall l a, l ∈ L -> valid a -> stab st (l_sep l) a = 1) \/ (exists i, i ∈ seen r L /\ forall a, valid a -> ctab st i a = 0);
  rd_prod : forall a, valid a -> qprod (seen r L) (fun i => ctab st i a) = J a;
  rd_tail : forall l, l ∈ L -> exists ws, sc (l_dn l) = ws ++ ss (l_sep l);
  rd_root : rooted sc ss r [r] L;
  rd_U : NoDup U;
  rd_cov : forall v, v ∈ U <-> v ∈ scope_of sc (seen r L);
  rd_dep : dep_on U J }.
Set Default Proof Using "All".

Definition updated (v x : nat) (t t' : ptable) : Prop :=
  wf t' /\ pt_vars t' = without v (pt_vars t) /\
  forall a, valid a -> tval t' a = if bool_decide (v ∈ pt_vars t /\ dom v <= x)%nat then 0 else tval t (upd a v x).
Lemma updated_same v x t : wf t -> v ∉ pt_vars t -> updated v x t t.
Proof.
  intros Hw Hv. split_and!; [done|by rewrite without_notin|]. intros a Ha. rewrite bool_decide_false by naive_solver. symmetry. eapply upd_same_dep; [apply tval_dep|done].
Qed.
Lemma updated_reduced v x t t' : v ∈ pt_vars t -> reduced dom v x t t' -> updated v x t t'.
Proof.
  intros Hv (H1 & H2 & H3). split_and!; [done|done|]. intros a Ha. rewrite (H3 a Ha). destruct (decide (x < dom v)%nat).
  - rewrite bool_decide_true by done. rewrite bool_decide_false; [done|]. intros [_ ?]. lia.
  - rewrite bool_decide_false by done. rewrite bool_decide_true; [done|]. split; [done|lia].
Qed.
Lemma scope_in_U sc ss U J st i v : ready sc ss U J st -> i ∈ seen r L -> v ∈ sc i -> v ∈ U.
Proof. intros H Hi Hv. apply (rd_cov _ _ _ _ _ H). apply elem_of_list_bind. by exists i. Qed.
Lemma sep_in_U sc ss U J st l v : ready sc ss U J st -> l ∈ L -> v ∈ ss (l_sep l) -> v ∈ U /\ v ∈ sc (l_dn l).
Proof.
  intros H Hl Hv. assert (v ∈ sc (l_dn l)) as Hv' by (destruct (rd_tail _ _ _ _ _ H l Hl) as [ws ->]; apply elem_of_app; by right).
  split; [|done]. eapply scope_in_U; [done| |done]. right. by apply elem_of_list_fmap_1.
Qed.
Lemma ready_wf sc ss U J st : ready sc ss U J st -> Forall wf (t_c st) /\ Forall wf (t_s st).
Proof.
  intros H. split; apply Forall_lookup_2; intros i t Ht.
  - assert (i ∈ seen r L) as Hi by (rewrite (rd_cs _ _ _ _ _ H); apply elem_of_seq; apply lookup_lt_Some in Ht; lia).
    destruct (rd_c _ _ _ _ _ H i Hi) as (C & HC & Hw & _). replace t with C by congruence. done.
  - assert (i ∈ l_sep <$> L) as Hi by (rewrite (rd_ss _ _ _ _ _ H); apply elem_of_seq; apply lookup_lt_Some in Ht; lia).
    apply elem_of_list_fmap in Hi as (l & -> & Hl). destruct (rd_s _ _ _ _ _ H l Hl) as (C & HC & Hw & _). replace t with C by congruence. done.
Qed.
Lemma ready_update sc ss U J st st' v x : ready sc ss U J st ->
  length (t_c st') = length (t_c st) -> length (t_s st') = length (t_s st) ->
  (forall y t, tabof st y = Some t -> exists t', tabof st' y = Some t' /\ updated v x t t') ->
  ready (fun i => without v (sc i)) (fun s => without v (ss s)) (without v U) (absorb dom U v x J) st'.
Proof.
  intros H Hlc Hls Hu.
  assert (forall i, i ∈ seen r L -> exists C C', t_c st !! i = Some C /\ t_c st' !! i = Some C' /\ wf C /\ pt_vars C = sc i /\ updated v x C C') as HC.
  { intros i Hi. destruct (rd_c _ _ _ _ _ H i Hi) as (C & HC & Hw & Hv). destruct (Hu (TC i) C HC) as (C' & HC' & Hup). by exists C, C'. }
  assert (forall l, l ∈ L -> exists S S', t_s st !! l_sep l = Some S /\ t_s st' !! l_sep l = Some S' /\ wf S /\ pt_vars S = ss (l_sep l) /\ updated v x S S') as HS.
  { intros l Hl. destruct (rd_s _ _ _ _ _ H l Hl) as (C & HC' & Hw & Hv). destruct (Hu (TS (l_sep l)) C HC') as (C' & HC'' & Hup). by exists C, C'. }
  assert (forall i a, i ∈ seen r L -> valid a -> v ∉ sc i -> ctab st' i a = ctab st i a) as Hc1.
  { intros i a Hi Ha Hv. destruct (HC i Hi) as (C & C' & E & E' & Hw & Hvs & _ & _ & Ht). rewrite (ctab_at _ _ _ _ E'), (ctab_at _ _ _ _ E), (Ht a Ha). rewrite bool_decide_false by (rewrite Hvs; naive_solver).
    eapply upd_same_dep; [apply tval_dep|by rewrite Hvs]. }
  assert (forall i a, i ∈ seen r L -> valid a -> v ∈ sc i -> (dom v <= x)%nat -> ctab st' i a = 0) as Hc2.
  { intros i a Hi Ha Hv Hx. destruct (HC i Hi) as (C & C' & E & E' & Hw & Hvs & _ & _ & Ht). rewrite (ctab_at _ _ _ _ E'), (Ht a Ha). rewrite bool_decide_true by (rewrite Hvs; naive_solver). done. }
  assert (forall i a, i ∈ seen r L -> valid a -> (x < dom v)%nat -> ctab st' i a = ctab st i (upd a v x)) as Hc3.
  { intros i a Hi Ha Hx. destruct (HC i Hi) as (C & C' & E & E' & Hw & Hvs & _ & _ & Ht). rewrite (ctab_at _ _ _ _ E'), (ctab_at _ _ _ _ E), (Ht a Ha). rewrite bool_decide_false; [done|]. intros [_ ?]. lia. }
  assert (forall a, valid a -> (x < dom v)%nat -> valid (upd a v x)) as Hvalid by (intros a Ha Hx; by apply valid_upd).
  assert (forall l a, l ∈ L -> valid a -> (v ∈ ss (l_sep l) -> x < dom v)%nat -> stab st' (l_sep l) a = stab st (l_sep l) (if bool_decide (v ∈ ss (l_sep l)) then upd a v x else a)) as Hs1.
  { intros l a Hl Ha Hx. destruct (HS l Hl) as (C & C' & E & E' & Hw & Hvs & _ & _ & Ht). rewrite (stab_at _ _ _ _ E'), (stab_at _ _ _ _ E), (Ht a Ha).
    rewrite bool_decide_false by (rewrite Hvs; intros [Hin ?]; apply Hx in Hin; lia). clear Ht. case_bool_decide as Hin; [done|]. eapply upd_same_dep; [apply tval_dep|by rewrite Hvs]. }
  split.
  - intros i Hi. destruct (HC i Hi) as (C & C' & E & E' & _ & Hvs & Hw & Hv & _). exists C'. split_and!; [done|done|]. by rewrite Hv, Hvs.
  - intros l Hl. destruct (HS l Hl) as (C & C' & E & E' & _ & Hvs & Hw & Hv & _). exists C'. split_and!; [done|done|]. by rewrite Hv, Hvs.
  - rewrite Hlc. apply H.
  - rewrite Hls. apply H.
  - intros i a Hi Ha. destruct (decide (v ∈ sc i)) as [Hv|Hv]; [|rewrite Hc1 by done; by apply (rd_pos _ _ _ _ _ H)]. destruct (decide (x < dom v)%nat) as [Hx|Hx].
    + rewrite Hc3 by done. apply (rd_pos _ _ _ _ _ H); auto.
    + rewrite Hc2 by (done || lia). apply Qcle_refl.
  - destruct (decide (v ∈ U /\ dom v <= x)%nat) as [[HvU Hx]|Hno].
    + right. apply (rd_cov _ _ _ _ _ H) in HvU. apply elem_of_list_bind in HvU as (i & Hv & Hi). exists i. split; [done|]. intros a Ha. by apply Hc2.
    + destruct (rd_one _ _ _ _ _ H) as [Hone|(i & Hi & Hz)].
      * left. intros l a Hl Ha. assert (v ∈ ss (l_sep l) -> x < dom v)%nat as Hx. { intros Hv. destruct (sep_in_U _ _ _ _ _ _ _ H Hl Hv) as [HvU _]. destruct (decide (x < dom v)%nat); [done|]. exfalso. apply Hno. split; [done|lia]. }
        rewrite Hs1 by done. apply Hone; [done|]. case_bool_decide; [|done]. apply Hvalid; auto.
      * right. exists i. split; [done|]. intros a Ha. destruct (decide (v ∈ sc i)) as [Hv|Hv]; [|rewrite Hc1 by done; by apply Hz].
        assert (x < dom v)%nat as Hx. { destruct (decide (x < dom v)%nat); [done|]. exfalso. apply Hno. split; [by eapply scope_in_U|lia]. } rewrite Hc3 by done. auto.
  - intros a Ha. unfold absorb. case_bool_decide as Hb.
    + destruct Hb as [HvU Hx]. apply (rd_cov _ _ _ _ _ H) in HvU. apply elem_of_list_bind in HvU as (i & Hv & Hi). eapply qprod_zero; [exact Hi|]. by apply Hc2.
    + destruct (decide (v ∈ U)) as [HvU|HvU].
      * assert (x < dom v)%nat as Hx. { destruct (decide (x < dom v)%nat); [done|]. exfalso. apply Hb. split; [done|lia]. }
        rewrite <-(rd_prod _ _ _ _ _ H) by auto. apply qprod_ext. intros i Hi. by apply Hc3.
      * rewrite (upd_same_dep U J a v x (rd_dep _ _ _ _ _ H) HvU), <-(rd_prod _ _ _ _ _ H) by done. apply qprod_ext. intros i Hi. apply Hc1; [done|done|]. intros Hv. apply HvU. by eapply scope_in_U.
  - intros l Hl. destruct (rd_tail _ _ _ _ _ H l Hl) as [ws ->]. exists (without v ws). unfold without. by rewrite filter_app.
  - apply rooted_without, H.
  - apply NoDup_filter, H.
  - intros w. unfold without. rewrite elem_of_list_filter, (rd_cov _ _ _ _ _ H). unfold scope_of. rewrite !elem_of_list_bind. setoid_rewrite elem_of_list_filter. naive_solver.
  - unfold absorb. case_bool_decide; [done|]. intros a b Hab. apply (rd_dep _ _ _ _ _ H). intros w Hw. unfold upd. case_bool_decide as Hwv; [done|]. apply Hab. apply elem_of_list_filter. split; [congruence|done].
Qed.
Lemma load_one_spec sch tag n sc ss U J st v x : valid_scheduler sch -> ready sc ss U J st -> (forall u, u ∈ U -> u < n)%nat ->
  exists st', (if bool_decide (n <= v)%nat then Ok st else nodes ← tables_with st v; load_evidence_to_nodes sch tag st nodes v x) = Ok st' /\
    ready (fun i => without v (sc i)) (fun s => without v (ss s)) (without v U) (absorb dom U v x J) st'.
Proof.
  intros Hsch H Hn. destruct (ready_wf _ _ _ _ _ H) as [Hwc Hws].
  assert (forall y t, tabof st y = Some t -> wf t /\ (v ∈ pt_vars t -> v ∈ U)) as Htab.
  { intros [i|s] t Ht; cbn in Ht.
    - assert (i ∈ seen r L) as Hi by (rewrite (rd_cs _ _ _ _ _ H); apply elem_of_seq; apply lookup_lt_Some in Ht; lia).
      destruct (rd_c _ _ _ _ _ H i Hi) as (C & HC & Hw & Hv). replace t with C by congruence. split; [done|]. rewrite Hv. by eapply scope_in_U.
    - assert (s ∈ l_sep <$> L) as Hi by (rewrite (rd_ss _ _ _ _ _ H); apply elem_of_seq; apply lookup_lt_Some in Ht; lia).
      apply elem_of_list_fmap in Hi as (l & -> & Hl). destruct (rd_s _ _ _ _ _ H l Hl) as (C & HC & Hw & Hv). replace t with C by congruence. split; [done|]. rewrite Hv. intros Hin. by eapply sep_in_U. }
  case_bool_decide as Hv.
  - exists st. split; [done|]. apply (ready_update sc ss U J st); [done|done|done|]. intros y t Ht. exists t. split; [done|]. destruct (Htab y t Ht) as [Hw HU]. apply updated_same; [done|]. intros Hin. specialize (Hn v (HU Hin)). lia.
  - destruct (tables_with_spec dom dom_pos st v Hwc Hws) as (nodes & -> & Hnd & Hnodes). cbn [mbind outcome_bind].
    destruct (load_nodes_spec dom dom_pos sch tag st nodes v x Hsch Hnd) as (st' & -> & H1 & H2 & H3 & H4).
    { intros y Hy. apply Hnodes in Hy as (t & Ht & Hvt). exists t. split_and!; [done|by apply (Htab y)|done]. }
    exists st'. split; [done|]. apply (ready_update sc ss U J st); [done|done|done|]. intros y t Ht. destruct (decide (v ∈ pt_vars t)) as [Hin|Hin].
    + destruct (H4 y t) as (t' & Ht' & Hr); [apply Hnodes; by exists t|done|]. exists t'. split; [done|]. by apply updated_reduced.
    + exists t. split; [|apply updated_same; [by apply (Htab y)|done]]. rewrite H3; [done|]. intros Hy. apply Hnodes in Hy as (t2 & Ht2 & Hv2). replace t2 with t in Hv2 by congruence. done.
Qed.

Fixpoint absorb_all (U : list nat) (J : asg -> Qc) (E : list (nat * nat)) : asg -> Qc :=
  match E with [] => J | (v, x) :: E' => absorb_all (without v U) (absorb dom U v x J) E' end.
Lemma load_evidence_ready sch tag n E : valid_scheduler sch -> forall sc ss U J st, ready sc ss U J st -> (forall u, u ∈ U -> u < n)%nat ->
  exists st', load_evidence sch tag n E st = Ok st' /\ ready (fun i => drop_all E (sc i)) (fun s => drop_all E (ss s)) (drop_all E U) (absorb_all U J E) st'.
Proof.
  intros Hsch. unfold load_evidence. generalize 0%nat. induction E as [|[v x] E IH]; intros k sc ss U J st H Hn; cbn [length seq zip zip_with mfor].
  - exists st. done.
  - destruct (load_one_spec sch (tag ++ [k]) n sc ss U J st v x Hsch H Hn) as (st1 & -> & H1). cbn [mbind outcome_bind].
    destruct (IH (S k) _ _ _ _ _ H1) as (st' & Hst' & H'). { intros u Hu. apply Hn. by apply elem_of_list_filter in Hu as [_ ?]. }
    exists st'. split; [exact Hst'|exact H'].
Qed.
Lemma absorb_dead U J v x : dead dom J -> (forall a, valid a -> v ∈ U \/ J (upd a v x) = J a) -> dead dom (absorb dom U v x J).
Proof.
  intros Hd Hi a Ha. unfold absorb. case_bool_decide as Hb; [done|]. destruct (Hi a Ha) as [Hv| ->]; [|by apply Hd]. apply Hd. apply valid_upd; [done|]. destruct (decide (x < dom v)%nat); [done|]. exfalso. apply Hb. split; [done|lia].
Qed.
Lemma absorb_dep U J v x : dep_on U J -> dep_on (without v U) (absorb dom U v x J).
Proof.
  intros HJ. unfold absorb. case_bool_decide; [done|]. intros a b Hab. apply HJ. intros w Hw. unfold upd. case_bool_decide as Hwv; [done|]. apply Hab. apply elem_of_list_filter. split; [congruence|done].
Qed.
Lemma absorb_all_dead E : forall U J, dep_on U J -> dead dom J -> dead dom (absorb_all U J E).
Proof.
  induction E as [|[v x] E IH]; intros U J HJ Hd; [done|]. cbn [absorb_all]. apply IH; [by apply absorb_dep|]. apply absorb_dead; [done|]. intros a _. destruct (decide (v ∈ U)) as [|Hv]; [by left|right]. by eapply upd_same_dep.
Qed.
(** An impossible value for a variable that is still free. *)
Lemma absorb_all_out E1 v x E2 U J : dep_on U J -> v ∈ U -> v ∉ fst <$> E1 -> (dom v <= x)%nat -> dead dom (absorb_all U J (E1 ++ (v, x) :: E2)).
Proof.
  revert U J. induction E1 as [|[w y] E1 IH]; intros U J HJ Hv Hn Hx; cbn [absorb_all app].
  - apply absorb_all_dead; [by apply absorb_dep|]. intros a Ha. unfold absorb. by rewrite bool_decide_true.
  - cbn [fmap list_fmap] in Hn. apply not_elem_of_cons in Hn as [Hne Hn]. apply IH; [by apply absorb_dep| |done|done]. apply elem_of_list_filter. done.
Qed.
Lemma absorb_all_in E : forall U J a, (forall v x, (v, x) ∈ E -> v ∈ U -> x < dom v)%nat -> absorb_all U J E a = J (foldr (fun e a => upd a (fst e) (snd e)) a E).
Proof.
  induction E as [|[v x] E IH]; intros U J a H; [done|]. cbn [absorb_all foldr fst snd]. rewrite IH.
  - unfold absorb. rewrite bool_decide_false; [done|]. intros [Hv Hx]. specialize (H v x ltac:(left) Hv). lia.
  - intros w y Hin Hw. apply elem_of_list_filter in Hw as [_ Hw]. apply H; [by right|done].
Qed.

Lemma normalise_spec sc ss U J st : ready sc ss U J st ->
  (exists cs, mcollect (t_c st) table_normalize = Ok cs /\
     let st' := mkTabs cs (t_s st) in
     good dom r Ls sc ss J st' /\ (forall i, i ∈ seen r L -> FlowProofs.total dom sc st' i) /\ (forall l a, l ∈ L -> valid a -> stab st' (l_sep l) a = 1) /\
     propto dom J (fun a => qprod (seen r L) (fun i => ctab st' i a))) \/
  (mcollect (t_c st) table_normalize = Err DivZero /\ dead dom J).
Proof.
  intros H. destruct (ready_wf _ _ _ _ _ H) as [Hwc Hws].
  assert (forall C, C ∈ t_c st -> wf C) as Hw by (intros C HC; by apply (proj1 (Forall_forall _ _) Hwc)).
  pose proof (valid_zero dom dom_pos) as Hz0.
  destruct (mcollect_or DivZero (fun C C' => wf C' /\ pt_vars C' = pt_vars C /\ sumv (pt_vars C) (tval C) zero_asg <> 0 /\ (forall a, valid a -> tval C' a = tval C a / sumv (pt_vars C) (tval C) zero_asg) /\
     (forall a, valid a -> sumv (pt_vars C) (tval C') a = 1)) (t_c st) table_normalize) as [(cs & -> & Hl & Hcs)|(-> & C & HC & HCe)].
  { intros C HC. specialize (Hw C HC). destruct (Qc_eq_dec (sumv (pt_vars C) (tval C) zero_asg) 0) as [Hz|Hz]; [right; by apply (table_normalize_zero dom dom_pos C zero_asg)|left].
    destruct (table_normalize_spec dom dom_pos C zero_asg Hw Hz0 Hz) as (C' & HC' & H1 & H2 & H3). exists C'. split_and!; try done.
    intros a Ha. rewrite <-H2. apply (normalized_sums_to_one dom dom_pos C C' (sumv (pt_vars C) (tval C) zero_asg)); try done. by apply (sumv_total_indep dom dom_pos). }
  - left. exists cs. split; [done|]. cbv zeta.
    set (Z := fun i => match t_c st !! i with Some C => sumv (pt_vars C) (tval C) zero_asg | None => 1 end).
    assert (forall i, i ∈ seen r L -> exists C C', t_c st !! i = Some C /\ cs !! i = Some C' /\ pt_vars C = sc i /\ wf C' /\ pt_vars C' = sc i /\ Z i <> 0 /\ (forall a, valid a -> tval C' a = tval C a / Z i) /\ (forall a, valid a -> sumv (sc i) (tval C') a = 1)) as HC.
    { intros i Hi. destruct (rd_c _ _ _ _ _ H i Hi) as (C & HC & _ & Hv). destruct (Hcs i C HC) as (C' & HC' & _ & H1 & H2 & H3 & H4 & H5). assert (Z i = sumv (pt_vars C) (tval C) zero_asg) as EZ by (unfold Z; by rewrite HC).
      exists C, C'. rewrite EZ, <-Hv. split_and!; done. }
    set (st' := mkTabs cs (t_s st)).
    assert (forall i a, i ∈ seen r L -> valid a -> ctab st' i a = ctab st i a / Z i) as Hct.
    { intros i a Hi Ha. destruct (HC i Hi) as (C & C' & E & E' & _ & _ & _ & _ & Ht & _). rewrite (ctab_at st' i C' a E'), (ctab_at st i C a E). by apply Ht. }
    assert (forall i, i ∈ seen r L -> 0 <= Z i) as HZpos.
    { intros i Hi. destruct (rd_c _ _ _ _ _ H i Hi) as (C & E & _). unfold Z. rewrite E. apply sumv_nonneg; [done|]. intros b Hb. rewrite <-(ctab_at st i C b E). by apply (rd_pos _ _ _ _ _ H). }
    assert (forall i, i ∈ seen r L -> Z i <> 0) as HZ by (intros i Hi; destruct (HC i Hi) as (C & C' & E & E' & _ & _ & _ & Hz & _); done).
    assert (forall l a, l ∈ L -> valid a -> stab st (l_sep l) a = 1) as Hone.
    { destruct (rd_one _ _ _ _ _ H) as [?|(i & Hi & Hz)]; [done|exfalso]. destruct (rd_c _ _ _ _ _ H i Hi) as (C & E & _). apply (HZ i Hi). unfold Z. rewrite E.
      rewrite (sumv_ext dom _ (tval C) (fun _ => 0 * 0)); [by rewrite sumv_scal, Qcmult_0_l|done|]. intros b Hb _. rewrite <-(ctab_at st i C b E), (Hz b Hb). ring. }
    split_and!.
    + split.
      * intros i Hi. destruct (HC i Hi) as (C & C' & E & E' & _ & Hw' & Hv' & _). exists C'. done.
      * intros l Hl'. apply (rd_s _ _ _ _ _ H l Hl').
      * change (length cs = length (seen r L)). rewrite Hl, (rd_cs _ _ _ _ _ H), seq_length. done.
      * intros i a Hi Ha. rewrite Hct by done. split; [apply Qc_div_nonneg; [by apply (rd_pos _ _ _ _ _ H)|auto]|]. intros HJ. apply Qc_div_nz; [|auto]. intros H0. apply HJ. rewrite <-(rd_prod _ _ _ _ _ H a Ha). by eapply qprod_zero.
      * intros l a Hl' Ha. change (stab st' (l_sep l) a) with (stab st (l_sep l) a). rewrite Hone by done. done.
    + intros i Hi a Ha. destruct (HC i Hi) as (C & C' & E & E' & _ & _ & _ & _ & _ & Hs). rewrite <-(Hs a Ha). apply sumv_ext; [done|]. intros b _ _. by apply (ctab_at st' i C' b).
    + intros l a Hl' Ha. by apply Hone.
    + exists (qprod (seen r L) Z). split.
      * intros H0. assert (0 < qprod (seen r L) Z) as Hp. { apply qprod_pos. intros i Hi. destruct (Qcle_lt_or_eq _ _ (HZpos i Hi)) as [?|He]; [done|]. by apply HZ in Hi. } rewrite H0 in Hp. by apply Qclt_not_eq in Hp.
      * intros a Ha. rewrite <-(rd_prod _ _ _ _ _ H a Ha), <-qprod_mul. apply qprod_ext. intros i Hi. rewrite Hct by done. rewrite Qcmult_div_r; [done|auto].
  - right. split; [done|]. apply elem_of_list_lookup in HC as [i HC]. assert (i ∈ seen r L) as Hi by (rewrite (rd_cs _ _ _ _ _ H); apply elem_of_seq; apply lookup_lt_Some in HC; lia).
    assert (wf C) as HwC by (apply Hw; by eapply elem_of_list_lookup_2). assert (sumv (pt_vars C) (tval C) zero_asg = 0) as Hz.
    { destruct (Qc_eq_dec (sumv (pt_vars C) (tval C) zero_asg) 0) as [|Hz]; [done|]. destruct (table_normalize_spec dom dom_pos C zero_asg HwC Hz0 Hz) as (C' & HC' & _). congruence. }
    intros a Ha. rewrite <-(rd_prod _ _ _ _ _ H a Ha). eapply qprod_zero; [exact Hi|]. rewrite (ctab_at _ _ _ _ HC).
    set (b := fun v => if bool_decide (v ∈ pt_vars C) then a v else 0%nat). assert (tval C a = tval C b) as ->.
    { apply tval_dep. intros v Hv. unfold b. by rewrite bool_decide_true. }
    apply (sumv_nonneg_zero dom (pt_vars C) (tval C) zero_asg); [done| |done|apply tval_proper|apply HwC| |].
    + intros c Hc. rewrite <-(ctab_at st i C c HC). by apply (rd_pos _ _ _ _ _ H).
    + intros v. unfold b. case_bool_decide; [apply Ha|apply dom_pos].
    + intros v Hv. unfold b, zero_asg. by rewrite bool_decide_false.
Qed.
Theorem propagate_spec sch E sc ss U J st : valid_scheduler sch -> ready sc ss U J st -> (forall u, u ∈ U -> u < length (jt_doms T))%nat ->
  let J' := absorb_all U J E in let U' := drop_all E U in let sc' := fun i => drop_all E (sc i) in
  (exists st', propagate sch T E st = Ok st' /\ good dom r Ls sc' (fun s => drop_all E (ss s)) J' st' /\ (forall i, i ∈ seen r L -> FlowProofs.total dom sc' st' i) /\
     (forall i, i ∈ seen r L -> propto dom (ctab st' i) (marg dom U' (sc' i) J')) /\ ~ dead dom J') \/
  (propagate sch T E st = Err DivZero /\ dead dom J').
Proof.
  intros Hsch H Hn. cbv zeta. unfold propagate. destruct (load_evidence_ready sch [0%nat] (length (jt_doms T)) E Hsch sc ss U J st H Hn) as (st1 & -> & H1). cbn [mbind outcome_bind].
  destruct (normalise_spec _ _ _ _ _ H1) as [(cs & -> & Hg & Ht & Ho & Hp)|(-> & Hd)]; [|right; done]. cbn [mbind outcome_bind].
  exact (message_passing dom dom_pos T r Ls HT _ _ _ _ (rd_tail _ _ _ _ _ H1) (rd_root _ _ _ _ _ H1) (rd_U _ _ _ _ _ H1) (rd_cov _ _ _ _ _ H1) sch [1%nat] [2%nat] _ Hsch Hg Ht (fun l a Hl Ha => or_introl (Ho l a Hl Ha)) Hp).
Qed.
End ready.
