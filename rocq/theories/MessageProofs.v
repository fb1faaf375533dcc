(** Single messages, and the order in which they are sent. *)
From Coq Require Import Field.
From Verif Require Import MessageModel TableSpec TableProofs TableProofs2 TableProofs4 ParProofs SchedProofs PassProofs.
From Verif Require Import BeliefSpec BeliefProofs FlowProofs EvidenceProofs CommuteProofs.
Local Open Scope Qc_scope.

(** ** Lists *)
Lemma mfor_flat {A I S} (l : list A) (f : A -> list I) (body : I -> S -> outcome S) s :
  mfor (l ≫= f) body s = mfor l (fun x s => mfor (f x) body s) s.
Proof.
  revert s. induction l as [|x l IH]; intros s; [done|]. rewrite bind_cons, mfor_app. cbn [mfor]. destruct (mfor (f x) body s); cbn [mbind outcome_bind]; [apply IH|done].
Qed.
Lemma mfor_over {A I S} (l : list A) (f : A -> I) (body : I -> S -> outcome S) s : mfor (f <$> l) body s = mfor l (fun x s => body (f x) s) s.
Proof. revert s. induction l as [|x l IH]; intros s; [done|]. rewrite fmap_cons. cbn [mfor]. destruct (body (f x) s); cbn [mbind outcome_bind]; [apply IH|done]. Qed.
Lemma mfor_same {I S} (l : list I) (b1 b2 : I -> S -> outcome S) s : (forall i s', i ∈ l -> b1 i s' = b2 i s') -> mfor l b1 s = mfor l b2 s.
Proof.
  revert s. induction l as [|x l IH]; intros s H; [done|]. cbn [mfor]. rewrite (H x s) by left. destruct (b2 x s); cbn [mbind outcome_bind]; [|done]. apply IH. intros i s' Hi. apply H. by right.
Qed.
Lemma bind_nodup {A B} (l : list A) (f : A -> list B) : NoDup l -> (forall x, x ∈ l -> NoDup (f x)) ->
  (forall x y z, x ∈ l -> y ∈ l -> z ∈ f x -> z ∈ f y -> x = y) -> NoDup (l ≫= f).
Proof.
  induction l as [|x l IH]; intros Hnd Hf Hd; [constructor|]. apply NoDup_cons in Hnd as [Hx Hnd]. rewrite bind_cons. apply NoDup_app. split_and!.
  - apply Hf. left.
  - intros z Hz Hz'. apply elem_of_list_bind in Hz' as (y & Hy & Hyl). assert (x = y) as <- by (apply (Hd x y z); [left|by right|done|done]). done.
  - apply IH; [done| |]; intros; [apply Hf; by right|]. eapply Hd; [by right|by right|done|done].
Qed.
Lemma bind_perm {A B} (l : list A) (f g : A -> list B) : (forall x, x ∈ l -> f x ≡ₚ g x) -> l ≫= f ≡ₚ l ≫= g.
Proof. induction l as [|x l IH]; intros H; [done|]. rewrite !bind_cons. rewrite (H x) by left. rewrite IH; [done|]. intros y Hy. apply H. by right. Qed.
Lemma bind_permuted {A B} (f : A -> list B) l l' : l ≡ₚ l' -> l ≫= f ≡ₚ l' ≫= f.
Proof. induction 1 as [|x l l' _ IH|x y l|l1 l2 l3 _ IH1 _ IH2]; [done|by rewrite !bind_cons, IH| |by rewrite IH1]. rewrite !bind_cons, !app_assoc. by rewrite (Permutation_app_comm (f x)). Qed.
Lemma bind_two {A B} (l : list A) (f g : A -> list B) : l ≫= (fun x => f x ++ g x) ≡ₚ (l ≫= f) ++ (l ≫= g).
Proof. induction l as [|x l IH]; [done|]. rewrite !bind_cons, IH. by solve_Permutation. Qed.
Lemma bind_over {A B C} (h : A -> B) (f : B -> list C) l : (h <$> l) ≫= f = l ≫= (fun x => f (h x)).
Proof. induction l as [|x l IH]; [done|]. rewrite fmap_cons, !bind_cons. by rewrite IH. Qed.
Lemma bind_single {A B} (f : A -> B) l : l ≫= (fun x => [f x]) = f <$> l.
Proof. induction l as [|x l IH]; [done|]. rewrite bind_cons, fmap_cons, IH. done. Qed.
(** Grouping the elements of a list by a key. *)
Lemma bind_group {A B} (key : A -> nat) (ks : list nat) (l : list A) (f : A -> list B) : NoDup ks -> (forall x, x ∈ l -> key x ∈ ks) ->
  ks ≫= (fun k => filter (fun x => key x = k) l ≫= f) ≡ₚ l ≫= f.
Proof.
  intros Hnd. induction l as [|x l IH]; intros H.
  - clear. induction ks as [|k ks IH]; [done|]. rewrite bind_cons. cbn. apply IH.
  - rewrite bind_cons, <-IH by (intros y Hy; apply H; by right). assert (key x ∈ ks) as Hx by (apply H; left). clear IH H.
    induction ks as [|k ks IH]; [by apply elem_of_nil in Hx|]. apply NoDup_cons in Hnd as [Hk Hnd]. rewrite !bind_cons, filter_cons. destruct (decide (key x = k)) as [<-|Hne].
    + rewrite bind_cons. assert (ks ≫= (fun k => filter (fun y => key y = k) (x :: l) ≫= f) = ks ≫= (fun k => filter (fun y => key y = k) l ≫= f)) as ->; [|by rewrite <-app_assoc].
      clear IH Hx Hnd. induction ks as [|k' ks IH]; [done|]. apply not_elem_of_cons in Hk as [Hk Hks]. rewrite !bind_cons, filter_cons. rewrite decide_False by done. by rewrite IH.
    + apply elem_of_cons in Hx as [?|Hx]; [done|]. rewrite IH by done. by solve_Permutation.
Qed.
Lemma sub_bind {A B} (f : A -> list B) l x : x ∈ l -> f x `sublist_of` l ≫= f.
Proof. intros (p & q & ->)%elem_of_list_split. rewrite bind_app, bind_cons. apply sublist_inserts_l, sublist_inserts_r. done. Qed.
Lemma sub2_bind {A B} (f : A -> list B) l x y u v : [x; y] `sublist_of` l -> u ∈ f x -> v ∈ f y -> [u; v] `sublist_of` l ≫= f.
Proof.
  intros (p & q & -> & Hx & Hy)%sub2_split Hu Hv. rewrite bind_app. apply sub2_app; apply elem_of_list_bind; [by exists x|by exists y].
Qed.
Lemma sub2_filter {A} (P : A -> Prop) `{forall x, Decision (P x)} x y l : [x; y] `sublist_of` l -> P x -> P y -> [x; y] `sublist_of` filter P l.
Proof.
  intros (p & q & -> & Hx & Hy)%sub2_split HPx HPy. rewrite filter_app. apply sub2_app; by apply elem_of_list_filter.
Qed.
Lemma sub2_either {A} (x y : A) l : x ∈ l -> y ∈ l -> x <> y -> [x; y] `sublist_of` l \/ [y; x] `sublist_of` l.
Proof.
  intros (p & q & ->)%elem_of_list_split Hy Hne. apply elem_of_app in Hy as [Hy|Hy].
  - right. apply sub2_app; [done|left].
  - apply elem_of_cons in Hy as [->|Hy]; [done|]. left. rewrite cons_middle, app_assoc. apply sub2_app; [apply elem_of_app; right; left|done].
Qed.
Lemma sub2_seq i j n : (i < j)%nat -> (j < n)%nat -> [i; j] `sublist_of` seq 0 n.
Proof.
  intros Hi Hj. replace n with (j + (n - j))%nat by lia. rewrite seq_app. apply sub2_app; apply elem_of_seq; lia.
Qed.

(** ** One message *)
Section one.
Context (dom : nat -> nat) (dom_pos : forall v, (0 < dom v)%nat).
Notation wf := (TableSpec.wf dom).
Notation valid := (valid dom).
Notation sumv := (sumv dom).
Set Default Proof Using "All".
Lemma table_same t t' : wf t -> wf t' -> pt_vars t = pt_vars t' -> (forall a, valid a -> tval t a = tval t' a) -> t = t'.
Proof.
  intros Ht Ht' Hv Ha. assert (pt_dims t = pt_dims t') as Hd by (rewrite (wf_dims _ _ Ht), (wf_dims _ _ Ht'), Hv; done).
  assert (pt_pots t = pt_pots t') as Hp.
  { apply list_eq. intros k. destruct (pt_pots t !! k) as [x|] eqn:E.
    - destruct (entry_of dom dom_pos t k x Ht E) as (a & Hva & Hl & Hx). rewrite <-Hx, (Ha a Hva). pose proof (tval_lookup dom dom_pos t' a Ht' Hva) as H. rewrite <-Hd, <-Hv, Hl in H. done.
    - symmetry. apply lookup_ge_None in E. apply lookup_ge_None. rewrite (wf_pots _ _ Ht) in E. by rewrite (wf_pots _ _ Ht'), <-Hd. }
  destruct t as [v p d c n s], t' as [v' p' d' c' n' s']. pose proof (wf_cum _ _ Ht) as C1. pose proof (wf_cum _ _ Ht') as C2. pose proof (wf_nv _ _ Ht) as N1. pose proof (wf_nv _ _ Ht') as N2. pose proof (wf_size _ _ Ht) as S1. pose proof (wf_size _ _ Ht') as S2.
  cbn in *. subst. done.
Qed.
Lemma sep_new_unique C S S1 S2 : sep_new dom C S S1 -> sep_new dom C S S2 -> S1 = S2.
Proof. intros (H1 & H2 & H3) (H4 & H5 & H6). apply table_same; [done|done|congruence|]. intros a Ha. by rewrite H3, H6. Qed.
Lemma clq_new_unique C S C1 C2 : clq_new dom C S C1 -> clq_new dom C S C2 -> C1 = C2.
Proof. intros (H1 & H2 & _ & H3 & _) (H4 & H5 & _ & H6 & _). apply table_same; [done|done|congruence|]. intros a Ha. by rewrite H3, H6. Qed.

Lemma update_separator_spec C S : wf C -> wf S -> (forall v, v ∈ pt_vars S -> v ∈ pt_vars C) -> exists S', update_separator S C = Ok S' /\ sep_new dom C S S'.
Proof.
  intros HC HS Hsub. unfold update_separator. set (es := filter (fun v => v ∉ pt_vars S) (pt_vars C)). pose proof (split_vars dom dom_pos C S HC HS Hsub) as Hp. fold es in Hp.
  assert (exists M, (if bool_decide (pt_nv C <> pt_nv S) then table_marginalization C (pt_vars S) (pt_dims S) else Ok C) = Ok M /\ wf M /\ pt_vars M ≡ₚ pt_vars S /\
    (pt_vars S = pt_vars C -> pt_vars M = pt_vars S) /\ forall a, valid a -> tval M a = sumv es (tval C) a) as (M & -> & HM & HvM & HvC & HtM).
  { case_bool_decide as Hnv.
    - destruct (table_marginalization_spec dom dom_pos C (pt_vars S) es HC Hp) as (M & HM & Hw & Hv & Ht). rewrite (wf_dims _ _ HS). exists M. split_and!; [done|done|by rewrite Hv|done|done].
    - exists C. assert (es = []) as He. { apply Permutation_length in Hp. rewrite app_length in Hp. rewrite (wf_nv _ _ HC), (wf_nv _ _ HS) in Hnv. destruct es; [done|cbn in Hp; lia]. }
      rewrite He in *. rewrite app_nil_r in Hp. done. }
  cbn [mbind outcome_bind].
  assert (exists M', (if bool_decide (pt_vars S <> pt_vars C) then table_reorganization M S else Ok M) = Ok M' /\ wf M' /\ pt_vars M' = pt_vars S /\
    forall a, valid a -> tval M' a = sumv es (tval C) a) as (M' & -> & HM' & HvM' & HtM').
  { case_bool_decide as Hv.
    - destruct (table_reorganization_spec dom dom_pos M S HM HS HvM) as (M' & HM' & Hw & Hv' & Ht). exists M'. split_and!; try done. intros a Ha. by rewrite Ht, HtM.
    - exists M. split_and!; [done|done|by apply HvC|done]. }
  cbn [mbind outcome_bind].
  destruct (table_division_spec dom dom_pos M' S HM' HS HvM') as (S' & -> & Hw & Hv & Ht). exists S'. split; [done|]. split_and!; [done|by rewrite Hv|].
  intros a Ha. rewrite (Ht a Ha). fold es. by rewrite (HtM' a Ha).
Qed.
Lemma update_clique_spec C S : wf C -> wf S -> (forall v, v ∈ pt_vars S -> v ∈ pt_vars C) ->
  (exists C', update_clique C S = Ok C' /\ clq_new dom C S C') \/ (update_clique C S = Err DivZero /\ mass dom C S = 0).
Proof.
  intros HC HS Hsub. unfold update_clique. destruct (table_multiplication_spec dom dom_pos C S HC HS Hsub) as (P & -> & HP & HvP & HtP). cbn [mbind outcome_bind].
  assert (valid zero_asg) as Hz by (intros v; apply dom_pos).
  assert (sumv (pt_vars P) (tval P) zero_asg = mass dom C S) as Hm. { unfold mass. rewrite HvP. apply sumv_ext; [intros v; apply dom_pos|]. intros b Hb _. by apply HtP. }
  destruct (Qc_eq_dec (mass dom C S) 0) as [H0|H0].
  - right. split; [|done]. apply (table_normalize_zero dom dom_pos P zero_asg); [done|done|by rewrite Hm].
  - left. destruct (table_normalize_spec dom dom_pos P zero_asg HP Hz) as (C' & HC' & Hw & Hv & Ht); [by rewrite Hm|]. exists C'. split; [done|]. rewrite Hm in Ht. split_and!; [done|by rewrite Hv|done| |].
    + intros a Ha. by rewrite (Ht a Ha), (HtP a Ha).
    + intros a Ha. rewrite <-HvP, <-Hv. apply (normalized_sums_to_one dom dom_pos P C' (mass dom C S)); try done. rewrite <-Hm. by apply (sumv_total_indep dom dom_pos).
Qed.
End one.

(** ** Steps *)
(** A step is a message from one table to another. *)
Definition step := (tnode * tnode)%type.
Definition deliver (x : step) (st : tabs) : outcome tabs := send x.1 x.2 st.
Lemma tabs_same st1 st2 : (forall y, tabof st1 y = tabof st2 y) -> st1 = st2.
Proof.
  intros H. destruct st1 as [c1 s1], st2 as [c2 s2]. f_equal; apply list_eq; intros i; [apply (H (TC i))|apply (H (TS i))].
Qed.
Section steps.
Context (dom : nat -> nat) (dom_pos : forall v, (0 < dom v)%nat).
Notation wf := (TableSpec.wf dom).
Notation valid := (valid dom).
Context (incl : tnode -> Prop) (sc ss : nat -> list nat).
Definition scope (x : tnode) : list nat := match x with TC i => sc i | TS s => ss s end.
Definition fit (st : tabs) : Prop := forall x, incl x -> exists t, tabof st x = Some t /\ wf t /\ pt_vars t = scope x.
(** Source and destination exist, one is a clique and the other a separator within it. *)
Definition allowed (x : step) : Prop :=
  incl x.1 /\ incl x.2 /\ match x with
  | (TC c, TS s) | (TS s, TC c) => forall v, v ∈ ss s -> v ∈ sc c
  | _ => False
  end.
Definition new_tab (d : tnode) (this msg t : ptable) : Prop := match d with TC _ => clq_new dom this msg t | TS _ => sep_new dom msg this t end.
Definition broken (d : tnode) (this msg : ptable) : Prop := match d with TC _ => mass dom this msg = 0 | TS _ => False end.
Set Default Proof Using "All".
Lemma new_tab_unique d this msg t1 t2 : new_tab d this msg t1 -> new_tab d this msg t2 -> t1 = t2.
Proof. destruct d; cbn; [by apply clq_new_unique|by apply sep_new_unique]. Qed.
Lemma new_tab_broken d this msg t : new_tab d this msg t -> broken d this msg -> False.
Proof. destruct d; cbn; [|done]. intros (_ & _ & H & _) H'. done. Qed.
Lemma new_tab_fit d this msg t : new_tab d this msg t -> wf t /\ pt_vars t = pt_vars this.
Proof. destruct d; cbn; [intros (? & ? & _); done|intros (? & ? & _); done]. Qed.

(** What a batch of messages with different destinations, none of them a source, amounts to. *)
Definition batch (xs : list step) (st : tabs) (o : outcome tabs) : Prop :=
  (exists st', o = Ok st' /\ (forall y, y ∉ xs.*2 -> tabof st' y = tabof st y) /\
     forall x t m, x ∈ xs -> tabof st x.2 = Some t -> tabof st x.1 = Some m -> exists t', tabof st' x.2 = Some t' /\ new_tab x.2 t m t') \/
  (o = Err DivZero /\ exists x t m, x ∈ xs /\ tabof st x.2 = Some t /\ tabof st x.1 = Some m /\ broken x.2 t m).
Lemma deliver_spec st x : fit st -> allowed x -> x.1 <> x.2 /\ batch [x] st (deliver x st).
Proof.
  intros Hf (H1 & H2 & H3). destruct (Hf _ H1) as (m & Hm & Hwm & Hvm), (Hf _ H2) as (t & Ht & Hwt & Hvt). split; [destruct x as [[?|?] [?|?]]; done|].
  unfold deliver, send. rewrite (get_tab_ok _ _ _ Ht), (get_tab_ok _ _ _ Hm). cbn [mbind outcome_bind].
  assert ((exists t', update_table x.2 t m = Ok t' /\ new_tab x.2 t m t') \/ (update_table x.2 t m = Err DivZero /\ broken x.2 t m)) as [(t' & -> & Hn)|(-> & Hb)].
  { destruct x as [[c|s] [c'|s']]; try done; cbn in *.
    - left. apply (update_separator_spec dom dom_pos); [done|done|]. by rewrite Hvm, Hvt.
    - apply (update_clique_spec dom dom_pos); [done|done|]. by rewrite Hvm, Hvt. }
  - left. cbn [mbind outcome_bind]. destruct (set_tab_spec st x.2 t') as (st' & -> & _ & _ & H4 & H5); [done|]. exists st'. split_and!; [done| |].
    + intros y Hy. apply H5. intros ->. apply Hy. left.
    + intros x' t1 m1 ->%elem_of_list_singleton Ht1 Hm1. exists t'. split; [done|]. congruence.
  - right. split; [done|]. exists x, t, m. split_and!; [left|done|done|done].
Qed.
Lemma batch_fit xs st st' : fit st -> (forall x, x ∈ xs -> allowed x) -> batch xs st (Ok st') -> fit st'.
Proof.
  intros Hf Hx [(st1 & [= <-] & H1 & H2)|(? & _)]; [|done]. intros y Hy. destruct (decide (y ∈ xs.*2)) as [Hin|Hin]; [|rewrite H1 by done; by apply Hf].
  apply elem_of_list_fmap in Hin as (x & -> & Hin). destruct (Hx x Hin) as (Hx1 & Hx2 & _). destruct (Hf _ Hx1) as (m & Hm & _ & _), (Hf _ Hx2) as (t & Ht & _ & Hvt).
  destruct (H2 x t m Hin Ht Hm) as (t' & Ht' & Hn). exists t'. apply new_tab_fit in Hn as [? Hv]. split_and!; [done|done|congruence].
Qed.
Lemma batch_unique xs st o1 o2 : fit st -> (forall x, x ∈ xs -> allowed x) -> batch xs st o1 -> batch xs st o2 -> o1 = o2.
Proof.
  intros Hf Hx [(st1 & -> & H1 & H2)|(-> & x & t & m & Hin & Ht & Hm & Hb)] [(st2 & -> & H3 & H4)|(-> & x' & t' & m' & Hin' & Ht' & Hm' & Hb')].
  - f_equal. apply tabs_same. intros y. destruct (decide (y ∈ xs.*2)) as [Hin|Hin]; [|by rewrite H1, H3].
    apply elem_of_list_fmap in Hin as (x & -> & Hin). destruct (Hx x Hin) as (Hx1 & Hx2 & _). destruct (Hf _ Hx1) as (m & Hm & _ & _), (Hf _ Hx2) as (t & Ht & _ & Hvt).
    destruct (H2 x t m Hin Ht Hm) as (t1 & -> & Hn1), (H4 x t m Hin Ht Hm) as (t2 & -> & Hn2). f_equal. by eapply new_tab_unique.
  - exfalso. destruct (H2 x' t' m' Hin' Ht' Hm') as (t1 & _ & Hn). by eapply new_tab_broken.
  - exfalso. destruct (H4 x t m Hin Ht Hm) as (t1 & _ & Hn). by eapply new_tab_broken.
  - done.
Qed.
Lemma deliver_keeps x : allowed x -> keeps deliver fit x.
Proof.
  intros Hx st st' Hf E. destruct (deliver_spec st x Hf Hx) as [_ Hb]. rewrite E in Hb. eapply (batch_fit [x]); [done| |done]. by intros y ->%elem_of_list_singleton.
Qed.
(** Messages that neither share a destination nor feed each other can be exchanged. *)
Lemma deliver_pair x y st : fit st -> allowed x -> allowed y -> x.2 <> y.2 -> x.2 <> y.1 -> y.2 <> x.1 -> batch [x; y] st (mbind (M := outcome) (deliver y) (deliver x st)).
Proof.
  intros Hf Hx Hy Hd Hs1 Hs2. pose proof (deliver_keeps x Hx st) as Hk. destruct (deliver_spec st x Hf Hx) as [Hxx [(st1 & E & H1 & H2)|(-> & x' & t & m & ->%elem_of_list_singleton & Ht & Hm & Hb)]].
  2: { right. split; [done|]. exists x, t, m. split_and!; [left|done|done|done]. }
  rewrite E. cbn [mbind outcome_bind]. specialize (Hk st1 Hf E).
  assert (tabof st1 y.1 = tabof st y.1) as Ey1 by (apply H1; cbn; intros ?%elem_of_list_singleton; congruence).
  assert (tabof st1 y.2 = tabof st y.2) as Ey2 by (apply H1; cbn; intros ?%elem_of_list_singleton; congruence).
  destruct (deliver_spec st1 y Hk Hy) as [Hyy [(st2 & -> & H3 & H4)|(-> & y' & t & m & ->%elem_of_list_singleton & Ht & Hm & Hb)]].
  - left. exists st2. split_and!; [done| |].
    + intros z Hz. rewrite H3, H1; [done| |]; intros ->%elem_of_list_singleton; apply Hz; [left|right; left].
    + intros z t m Hz Ht Hm. apply elem_of_cons in Hz as [->| ->%elem_of_list_singleton].
      * destruct (H2 x t m) as (t' & Ht' & Hn); [left|done|done|]. exists t'. split; [|done]. rewrite H3; [done|]. cbn. intros ?%elem_of_list_singleton; congruence.
      * apply H4; [left|by rewrite Ey2|by rewrite Ey1].
  - right. split; [done|]. exists y, t, m. split_and!; [right; left|by rewrite <-Ey2|by rewrite <-Ey1|done].
Qed.
Lemma batch_swap x y st o : batch [x; y] st o -> batch [y; x] st o.
Proof.
  assert (forall z, z ∈ [x; y] <-> z ∈ [y; x]) as Hp by (intros z; rewrite !elem_of_cons, elem_of_nil; tauto).
  assert (forall z, z ∈ [x; y].*2 <-> z ∈ [y; x].*2) as Hp2 by (intros z; cbn; rewrite !elem_of_cons, elem_of_nil; tauto).
  intros [(st' & -> & H1 & H2)|(-> & z & t & m & Hz & H)]; [left|right].
  - exists st'. split_and!; [done|intros z Hz; apply H1; by rewrite Hp2|]. intros z t m Hz. apply H2. by apply Hp.
  - split; [done|]. exists z, t, m. split; [by apply Hp|done].
Qed.
Lemma deliver_commute x y : allowed x -> allowed y -> x.2 <> y.2 -> x.2 <> y.1 -> y.2 <> x.1 -> commute deliver fit x y.
Proof.
  intros Hx Hy Hd H1 H2 st Hf. eapply (batch_unique [x; y]); [done| |by apply deliver_pair|apply batch_swap; apply deliver_pair; try done; congruence].
  intros z Hz. apply elem_of_cons in Hz as [->| ->%elem_of_list_singleton]; done.
Qed.
(** Delivering one by one. *)
Lemma deliver_batch xs : forall st, fit st -> (forall x, x ∈ xs -> allowed x) -> NoDup xs.*2 -> (forall x y, x ∈ xs -> y ∈ xs -> x.1 <> y.2) -> batch xs st (mfor xs deliver st).
Proof.
  induction xs as [|x xs IH]; intros st Hf Ha Hnd Hs; cbn [mfor].
  { left. exists st. split_and!; [done|done|]. by intros x t m ?%elem_of_nil. }
  assert (allowed x) as Hx by (apply Ha; left). cbn [fmap list_fmap] in Hnd. apply NoDup_cons in Hnd as [Hnx Hnd].
  pose proof (deliver_keeps x Hx st) as Hk. destruct (deliver_spec st x Hf Hx) as [Hxx [(st1 & E & H1 & H2)|(-> & x' & t & m & ->%elem_of_list_singleton & Ht & Hm & Hb)]].
  2: { right. split; [done|]. exists x, t, m. split_and!; [left|done|done|done]. }
  rewrite E. cbn [mbind outcome_bind]. specialize (Hk st1 Hf E).
  assert (forall y, y ∈ xs -> tabof st1 y.1 = tabof st y.1 /\ tabof st1 y.2 = tabof st y.2) as Heq.
  { intros y Hy. split; apply H1; cbn; intros Hin%elem_of_list_singleton; [apply (Hs y x); [by right|left|done]|]. apply Hnx. rewrite <-Hin. by apply elem_of_list_fmap_1. }
  destruct (IH st1) as [(st2 & -> & H3 & H4)|(-> & y & t & m & Hy & Ht & Hm & Hb)]; [done| |done| | |].
  - intros y Hy. apply Ha. by right.
  - intros y z Hy Hz. apply Hs; by right.
  - left. exists st2. split_and!; [done| |].
    + intros z Hz. cbn [fmap list_fmap] in Hz. apply not_elem_of_cons in Hz as [Hz1 Hz2]. rewrite H3, H1; [done| |done]. cbn. by intros ->%elem_of_list_singleton.
    + intros y t m Hy Ht Hm. apply elem_of_cons in Hy as [->|Hy].
      * destruct (H2 x t m) as (t' & Ht' & Hn); [left|done|done|]. exists t'. split; [|done]. by rewrite H3.
      * destruct (Heq y Hy) as [E1 E2]. apply H4; [done|by rewrite E2|by rewrite E1].
  - right. split; [done|]. destruct (Heq y Hy) as [E1 E2]. exists y, t, m. split_and!; [by right|by rewrite <-E2|by rewrite <-E1|done].
Qed.
Lemma batch_is xs st o : fit st -> (forall x, x ∈ xs -> allowed x) -> NoDup xs.*2 -> (forall x y, x ∈ xs -> y ∈ xs -> x.1 <> y.2) -> batch xs st o -> o = mfor xs deliver st.
Proof. intros Hf Ha Hnd Hs Hb. eapply (batch_unique xs); [done|done|done|]. by apply deliver_batch. Qed.
Lemma mfor_fit xs st st' : fit st -> (forall x, x ∈ xs -> allowed x) -> mfor xs deliver st = Ok st' -> fit st'.
Proof.
  revert st. induction xs as [|x xs IH]; intros st Hf Ha E; cbn [mfor] in E; [by injection E as <-|].
  destruct (deliver x st) as [st1|] eqn:E1; [|done]. cbn [mbind outcome_bind] in E. eapply IH; [|intros y Hy; apply Ha; by right|done]. eapply (deliver_keeps x); [apply Ha; left|done|done].
Qed.
End steps.
