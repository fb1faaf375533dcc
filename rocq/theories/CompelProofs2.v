(** The main loop of FindCompelled; GetSHD. *)
From Verif Require Export CompelProofs.
Local Open Scope nat_scope.

Lemma filter_length_lt {A} (P : A -> Prop) `{forall x, Decision (P x)} (a : A) (l : list A) : ~ P a -> length (filter P (a :: l)) <= length l.
Proof. intros Ha. rewrite filter_cons, decide_False by done. apply filter_length. Qed.

(** [comp] follows the labelling rule: the edges into y are determined by those into its last parent x. *)
Definition label_rule (N : network) (t : list nat) (comp : nat -> nat -> bool) : Prop :=
  forall x y b, has_directed N x y -> (forall z i j, has_directed N z y -> t !! i = Some z -> t !! j = Some x -> i <= j) -> has_directed N b y ->
    comp b y = true <-> (exists w, has_directed N w x /\ comp w x = true /\ ~ has_directed N w y) \/ (exists z, has_directed N z y /\ z <> x /\ ~ has_directed N z x) \/ (has_directed N b x /\ comp b x = true).
Section loop.
Context (N : network) (HI : netinv N) (Hnd : no_dup_directed N) (Hall : Forall is_arc (nt_edges N)).
Context (t : list nat) (Ht : topological (has_directed N) (length (nt_nodes N)) t).
Context (ord0 : list edge) (Harc0 : Forall is_arc ord0) (Hperm0 : epair <$> ord0 ≡ₚ epair <$> nt_edges N)
  (Hsort0 : StronglySorted (edge_before t) (epair <$> ord0)).
Context (comp : nat -> nat -> bool) (Hse : single_extra (fun w x => comp w x = true) N t) (Hrule : label_rule N t comp).
Set Default Proof Using "All".
Definition lab_of (p : nat * nat) : label := if comp (fst p) (snd p) then Compelled else Reversible.
Notation E := (nt_edges N).

Lemma E_pairs x y : has_directed N x y <-> (x, y) ∈ epair <$> E.
Proof. rewrite has_directed_pairs, directed_pairs_all by done. done. Qed.
Lemma E_nodup : NoDup (epair <$> E).
Proof. rewrite <-directed_pairs_all by done. done. Qed.
Lemma pos_unique i j x : t !! i = Some x -> t !! j = Some x -> i = j.
Proof. intros Hi Hj. eapply NoDup_lookup; [|done|done]. destruct Ht as [-> _]. apply NoDup_seq. Qed.

Lemma sorted_filter (P : edge -> Prop) `{forall x, Decision (P x)} l : StronglySorted (edge_before t) (epair <$> l) -> StronglySorted (edge_before t) (epair <$> filter P l).
Proof.
  induction l as [|a l IH]; intros Hs; [constructor|]. rewrite fmap_cons in Hs. inversion Hs as [|? ? Hs' Hf]; subst. rewrite filter_cons.
  destruct (decide (P a)); [|by apply IH]. rewrite fmap_cons. constructor; [by apply IH|]. rewrite Forall_forall in *. intros q Hp. apply Hf.
  apply elem_of_list_fmap in Hp as (e & -> & He). apply elem_of_list_filter in He as [_ He]. apply elem_of_list_fmap. by exists e.
Qed.

Lemma loop_ok fuel es (Y : list nat) :
  lab_inv E es -> (forall p y, y ∈ Y -> (p, y) ∈ epair <$> E -> labelled es (p, y)) -> (forall p y l, y ∈ Y -> (p, y) ∈ epair <$> E -> has_lab es (p, y) l <-> l = lab_of (p, y)) ->
  length (filter (fun e => e_n2 e ∉ Y) ord0) <= fuel ->
  exists es', find_compelled_loop fuel N es (filter (fun e => e_n2 e ∉ Y) ord0) = Ok es' /\ lab_inv E es' /\
    (forall p, p ∈ epair <$> E -> labelled es' p) /\ (forall p l, p ∈ epair <$> E -> has_lab es' p l <-> l = lab_of p).
Proof.
  revert es Y; induction fuel as [|fuel IH]; intros es Y Hes HY HYl Hlen.
  all: destruct (filter (fun e => e_n2 e ∉ Y) ord0) as [|e rest] eqn:Hord.
  2: { cbn in Hlen. lia. }
  1,2: exists es; split; [done|]; split; [done|]; assert (forall x y, (x, y) ∈ epair <$> E -> y ∈ Y) as HinY; [|split; [intros [x y] Hp; apply HY; [by eapply HinY|done]|intros [x y] l Hp; apply HYl; [by eapply HinY|done]]];
    intros x y Hp; destruct (decide (y ∈ Y)) as [|Hy]; [done|exfalso];
    pose proof Hp as Hp'; rewrite <-Hperm0 in Hp'; apply elem_of_list_fmap in Hp' as (e & He & Hin);
    assert (e ∈ filter (fun e => e_n2 e ∉ Y) ord0) as Hc by (apply elem_of_list_filter; split; [unfold epair in He; by injection He as -> <-|done]);
    rewrite Hord in Hc; by apply elem_of_nil in Hc.
  cbn [find_compelled_loop]. destruct (epair e) as [x y] eqn:Hep. unfold epair in Hep. injection Hep as Hx Hy. rewrite Hx, Hy.
  assert (e ∈ filter (fun e => e_n2 e ∉ Y) ord0) as Hein by (rewrite Hord; left). apply elem_of_list_filter in Hein as [HyY Hein]. rewrite Hy in HyY.
  assert ((x, y) ∈ epair <$> E) as HxyE. { rewrite <-Hperm0. apply elem_of_list_fmap. exists e. unfold epair. by rewrite Hx, Hy. }
  pose proof HxyE as Hxy. apply E_pairs in Hxy. destruct (has_directed_bound _ _ _ HI Hxy) as [Hxn Hyn].
  destruct (lookup_lt_is_Some_2 _ _ Hxn) as [ndx Hndx], (lookup_lt_is_Some_2 _ _ Hyn) as [ndy Hndy].
  rewrite (find_node_ok _ _ _ Hndx), (find_node_ok _ _ _ Hndy). cbn [mbind outcome_bind].
  set (ord := e :: rest) in *.
  assert (Forall is_arc ord) as Harc by (rewrite <-Hord; by apply filter_arcs).
  assert (NoDup (epair <$> ord)) as Hndo. { rewrite <-Hord. apply filter_pairs_nodup. rewrite Hperm0. apply E_nodup. }
  assert (StronglySorted (edge_before t) (epair <$> ord)) as Hso by (rewrite <-Hord; by apply sorted_filter).
  assert (forall z w, has_directed N z w -> w ∉ Y -> (z, w) = (x, y) \/ edge_before t (x, y) (z, w)) as Hfirst.
  { intros z w Hzw Hw. apply E_pairs in Hzw. rewrite <-Hperm0 in Hzw. apply elem_of_list_fmap in Hzw as (e' & He' & Hin').
    assert (e' ∈ ord) as Hin. { rewrite <-Hord. apply elem_of_list_filter. split; [|done]. unfold epair in He'. by injection He' as -> <-. }
    apply elem_of_cons in Hin as [->|Hin]; [left; rewrite He'; unfold epair; by rewrite Hx, Hy|right].
    unfold ord in Hso. rewrite fmap_cons in Hso. inversion Hso as [|? ? _ Hf]; subst. rewrite Forall_forall in Hf. rewrite He'. apply Hf. apply elem_of_list_fmap. by exists e'. }
  destruct (ni_parents _ HI _ _ Hndy) as [Hsy _].
  assert (forall p, p ∈ nd_parents ndy <-> has_directed N p y) as Hpary.
  { intros p. rewrite <-(netinv_parent N p y HI). split; [by exists ndy|]. intros (nd & Hnd' & ?). rewrite Hndy in Hnd'. by injection Hnd' as ->. }
  assert (forall p, p ∈ nd_parents ndx <-> has_directed N p x) as Hparx.
  { intros p. rewrite <-(netinv_parent N p x HI). split; [by exists ndx|]. intros (nd & Hnd' & ?). rewrite Hndx in Hnd'. by injection Hnd' as ->. }
  assert (forall p, p ∈ nd_parents ndy -> (p, y) ∈ epair <$> E) as Hpy by (intros p Hp; by apply E_pairs, Hpary).
  assert (forall e', e' ∈ ord -> e_n2 e' = y -> e_n1 e' ∈ nd_parents ndy) as Hordy.
  { intros e' He' Hy'. apply Hpary, E_pairs. rewrite <-Hperm0. rewrite <-Hord in He'. apply elem_of_list_filter in He' as [_ He'].
    apply elem_of_list_fmap. exists e'. unfold epair. by rewrite Hy'. }
  assert (exists e0 rest0, ord = e0 :: rest0 /\ epair e0 = (x, y)) as Hfront. { exists e, rest. split; [done|]. unfold epair. by rewrite Hx, Hy. }
  assert (x ∉ nd_parents ndx) as Hxx. { intros Hc. apply Hparx in Hc. apply (ni_acyclic _ HI x). by apply tc_once. }
  assert (x <> y) as Hneq. { intros ->. apply (ni_acyclic _ HI y). by apply tc_once. }
  assert (forall w, has_directed N w x -> x ∈ Y) as HxY.
  { intros w Hw. destruct (decide (x ∈ Y)) as [|HxY]; [done|exfalso].
      destruct Ht as [_ Hord_t]. destruct (Hfirst w x Hw HxY) as [Heq|(k1 & j1 & k2 & j2 & T1 & T2 & T3 & T4 & Hlt)].
      + injection Heq as -> _. apply (ni_acyclic _ HI x). by apply tc_once.
      + cbn in T1, T2, T3, T4. pose proof (Hord_t _ _ _ _ T1 T2 Hxy). assert (k1 = j2) as <- by (by eapply pos_unique).
        lia. }
  assert (forall w, w ∈ nd_parents ndx -> has_lab es (w, x) Compelled <-> comp w x = true) as Hxl.
  { intros w Hw. apply Hparx in Hw. rewrite HYl; [|by eapply HxY|by apply E_pairs]. unfold lab_of. cbn. destruct (comp w x); split; congruence. }
  assert (forall p, has_directed N p y -> (p, y) ∈ epair <$> ord) as Hordin.
  { intros p Hpz. apply E_pairs in Hpz. rewrite <-Hperm0 in Hpz. apply elem_of_list_fmap in Hpz as (e' & He' & Hin').
    apply elem_of_list_fmap. exists e'. split; [done|]. rewrite <-Hord. apply elem_of_list_filter. split; [|done]. unfold epair in He'. by injection He' as -> <-. }
  assert (forall z i j, has_directed N z y -> t !! i = Some z -> t !! j = Some x -> i <= j) as Hlast.
  { intros z i j Hz Hi Hj. destruct (Hfirst z y Hz HyY) as [[= ->]|(k1 & j1 & k2 & j2 & T1 & T2 & T3 & T4 & Hlt)].
      + assert (i = j); [by eapply pos_unique|lia].
      + cbn in T1, T2, T3, T4. assert (j1 = j2) by (by eapply pos_unique). assert (i = k2) by (by eapply pos_unique). assert (j = k1) by (by eapply pos_unique). lia. }
  pose proof (fun b => Hrule x y b Hxy Hlast) as Hrl.
  destruct (compelled_w_ok E Hall E_nodup (nd_parents ndx) (nd_parents ndy) x y es ord) as (es1 & ord1 & b1 & -> & Hg1 & Hb1); try done.
  { by apply Hpary. }
  { intros w Hw. apply Hparx in Hw. split_and!.
    - intros ->. apply (ni_acyclic _ HI x). by apply tc_once.
    - by apply E_pairs.
    - apply HY; [|by apply E_pairs]. by eapply HxY. }
  cbn [mbind outcome_bind snd fst].
  (* what is left to prove from the state after the edges into y are gone *)
  assert (forall es2, grows E es es2 -> (forall p, (p, y) ∈ epair <$> ord -> labelled es2 (p, y)) ->
    (forall p l, has_directed N p y -> has_lab es2 (p, y) l <-> l = lab_of (p, y)) -> (forall p z l, z <> y -> has_lab es2 (p, z) l <-> has_lab es (p, z) l) ->
    exists es', find_compelled_loop fuel N es2 (filter (fun e => e_n2 e ≠ y) ord) = Ok es' /\ lab_inv E es' /\
      (forall p, p ∈ epair <$> E -> labelled es' p) /\ (forall p l, p ∈ epair <$> E -> has_lab es' p l <-> l = lab_of p)) as Hnext.
  { intros es2 Hg2 Hl2 Hy2 Hk2. assert (filter (fun e => e_n2 e ≠ y) ord = filter (fun e => e_n2 e ∉ y :: Y) ord0) as Hf.
    { rewrite <-Hord. apply filter_filter_and. intros e'. rewrite not_elem_of_cons. done. }
    assert (length (filter (fun e => e_n2 e ≠ y) ord) <= length rest) as Hl by (apply filter_length_lt; tauto).
    rewrite Hf in Hl |- *. apply IH.
    - apply Hg2.
    - intros p z Hz Hpz. apply elem_of_cons in Hz as [->|Hz]; [|by apply Hg2, HY]. destruct (decide ((p, y) ∈ epair <$> ord)) as [|Hn]; [by apply Hl2|exfalso].
      apply Hn. apply E_pairs in Hpz. pose proof Hpz as Hpz'. apply E_pairs in Hpz'. rewrite <-Hperm0 in Hpz'. apply elem_of_list_fmap in Hpz' as (e' & He' & Hin').
      apply elem_of_list_fmap. exists e'. split; [done|]. rewrite <-Hord. apply elem_of_list_filter. split; [|done]. unfold epair in He'. by injection He' as -> <-.
    - intros p z l Hz Hpz. destruct (decide (z = y)) as [->|Hzy]; [apply Hy2; by apply E_pairs|]. apply elem_of_cons in Hz as [->|Hz]; [done|]. rewrite Hk2 by done. by apply HYl.
    - cbn in Hlen. lia. }
  destruct b1.
  { cbn [mbind outcome_bind fst snd]. destruct Hb1 as (-> & Hb1 & (w & Hw & Hwl & Hwy) & S1 & Hu1 & HS1). apply Hnext; [done|done| |].
    - intros p l Hp. rewrite (Hu1 (p, y) l), HS1. cbn [fst snd]. assert (lab_of (p, y) = Compelled) as ->. { unfold lab_of. cbn. rewrite (proj2 (Hrl p Hp)); [done|]. left. exists w. split_and!; [by apply Hparx|by apply Hxl|by rewrite <-Hpary]. }
      apply Hpary in Hp. tauto.
    - intros p z l Hz. rewrite (Hu1 (p, z) l), HS1. cbn [fst snd]. tauto. }
  destruct Hb1 as (W & HW & -> & HWl & HWx & HWy & S1 & Hu1 & HS1).
  assert (forall w, has_directed N w x -> comp w x = true -> has_directed N w y) as Hno1. { intros w Hw Hc. apply Hpary, HWy, HWx. apply Hparx in Hw. split; [done|]. by apply Hxl. }
  assert (exists rest1, filter (fun e => ~ into W y e) ord = e :: rest1) as [rest1 Hord1].
  { unfold ord. rewrite filter_cons, decide_True; [by eexists|]. intros [_ HeW]. rewrite Hx in HeW. apply HW in HeW. done. }
  assert (forall e', e' ∈ filter (fun e => ~ into W y e) ord -> e' ∈ ord) as Hsub by (intros e' He'; by apply elem_of_list_filter in He' as [_ ?]).
  destruct (compelled_z_ok E Hall E_nodup (nd_parents ndx) (nd_parents ndy) x y es1 (filter (fun e => ~ into W y e) ord)) as (es2 & ord2 & b2 & -> & Hg2 & Hb2).
  { apply Hg1. } { by apply filter_arcs. } { by apply filter_pairs_nodup. }
  { exists e, rest1. split; [done|]. unfold epair. by rewrite Hx, Hy. } { done. } { done. } { intros e' He'. apply Hordy. by apply Hsub. }
  { intros z1 z2 Hz1 Hz2 Hn1 Hn2 Hp1 Hp2. eapply (Hse x y); [done|exact Hlast|exact Hno1|by apply Hpary..|done|done| |].
    - by rewrite <-Hparx.
    - by rewrite <-Hparx. }
  { by apply lt_sorted_NoDup. }
  cbn [mbind outcome_bind fst snd].
  assert (forall p, has_directed N p y -> p ∈ W \/ p ∉ W /\ (p, y) ∈ epair <$> filter (fun e => ~ into W y e) ord) as Hsplit.
  { intros p Hp. destruct (decide (p ∈ W)) as [|HpW]; [by left|right]. split; [done|]. apply Hordin in Hp. apply elem_of_list_fmap in Hp as (e' & He' & Hp). apply elem_of_list_fmap. exists e'. split; [done|]. apply elem_of_list_filter. split; [|done].
    unfold epair in He'. injection He' as -> ->. intros [_ ?]. done. }
  assert (forall p e', e' ∈ filter (fun e => ~ into W y e) ord -> epair e' = (p, y) -> p ∉ W) as HnW.
  { intros p e' [Hni _]%elem_of_list_filter He' HpW. unfold epair in He'. injection He' as <- <-. apply Hni. done. }
  assert (forall es3, grows E es1 es3 -> (forall p, (p, y) ∈ epair <$> filter (fun e => ~ into W y e) ord -> labelled es3 (p, y)) ->
    (forall p l, has_directed N p y -> has_lab es3 (p, y) l <-> l = lab_of (p, y)) -> (forall p z l, z <> y -> has_lab es3 (p, z) l <-> has_lab es1 (p, z) l) ->
    exists es', find_compelled_loop fuel N es3 (filter (fun e => e_n2 e ≠ y) (filter (fun e => ~ into W y e) ord)) = Ok es' /\ lab_inv E es' /\
      (forall p, p ∈ epair <$> E -> labelled es' p) /\ (forall p l, p ∈ epair <$> E -> has_lab es' p l <-> l = lab_of p)) as Hnext2.
  { intros es3 Hg3 Hl3 Hy3 Hk3. rewrite (filter_filter_and _ _ (fun e => e_n2 e ≠ y)).
    - apply Hnext; [by eapply (grows_trans E Hall E_nodup)| |done|intros p z l Hz; rewrite Hk3, (Hu1 (p, z) l), HS1 by done; cbn [fst snd]; tauto]. intros p Hp. destruct (decide (p ∈ W)) as [HpW|HpW].
      + apply Hg3. by apply HWl.
      + apply Hl3. apply elem_of_list_fmap in Hp as (e' & He' & Hp). apply elem_of_list_fmap. exists e'. split; [done|]. apply elem_of_list_filter. split; [|done].
        unfold epair in He'. injection He' as -> ->. intros [_ ?]. done.
    - intros e'. unfold into. tauto. }
  destruct b2.
  { cbn [mbind outcome_bind fst snd]. destruct Hb2 as (-> & Hb2 & (z & Hz & Hzx & Hzn) & S2 & Hu2 & HS2). apply Hnext2; [done|done| |].
    - intros p l Hp. rewrite (upd_trans _ _ _ _ _ _ Hu1 Hu2 (p, y) l), elem_of_app, HS1, HS2. cbn [fst snd]. assert (lab_of (p, y) = Compelled) as ->. { unfold lab_of. cbn. rewrite (proj2 (Hrl p Hp)); [done|]. right. left. exists z. split_and!; [by apply Hpary|done|by rewrite <-Hparx]. }
      pose proof (Hordin p Hp). destruct (Hsplit p Hp) as [?|[? ?]]; tauto.
    - intros p w l Hw. rewrite (Hu2 (p, w) l), HS2. cbn [fst snd]. tauto. }
  destruct Hb2 as (-> & -> & Hno2).
  destruct (set_label_ok E Hall E_nodup es1 x y Reversible) as (es3 & -> & Hg3 & Hl3 & Hu3); [apply Hg1|done|]. cbn [mbind outcome_bind].
  assert (Forall is_arc rest1) as Harc1. { assert (Forall is_arc (e :: rest1)) as HF by (rewrite <-Hord1; by apply filter_arcs). by inversion HF. }
  assert (NoDup (epair <$> rest1)) as Hnd1. { assert (NoDup (epair <$> e :: rest1)) as HF by (rewrite <-Hord1; by apply filter_pairs_nodup). rewrite fmap_cons in HF. by apply NoDup_cons in HF as [_ ?]. }
  rewrite Hord1 in Hnext2, Hsub |- *. cbn [erase_front mbind outcome_bind].
  destruct (label_into_ok E Hall E_nodup false (nd_parents ndy) y Reversible es3 rest1) as (es4 & -> & Hg4 & Hl4 & S4 & Hu4 & HS4); [apply Hg3|done|done|done|]. cbn [mbind outcome_bind fst snd].
  replace (filter (fun e => ~ into (nd_parents ndy) y e) rest1) with (filter (fun e => e_n2 e ≠ y) (e :: rest1)).
  - apply Hnext2; [by eapply (grows_trans E Hall E_nodup)| | |].
    + intros p Hp. rewrite fmap_cons in Hp. apply elem_of_cons in Hp as [Hp|Hp].
      * apply Hg4. unfold epair in Hp. injection Hp as -> _. rewrite Hx. done.
      * apply Hl4; [|done]. apply elem_of_list_fmap in Hp as (e' & He' & Hin). unfold epair in He'. injection He' as -> Hy'. apply Hordy; [|done]. apply Hsub. by right.
    + intros p l Hp. rewrite (upd_trans _ _ _ _ _ _ Hu3 Hu4 (p, y) l), (Hu1 (p, y) l), elem_of_app, HS1, HS4, elem_of_list_singleton. cbn [fst snd]. assert (comp p y = true <-> p ∈ W) as HcW.
      { rewrite (Hrl p Hp), HWx, Hparx. split.
        - intros [(w & Hw & Hc & Hn)|[(z & Hz & Hzx & Hn)|[H1 H2]]]; [destruct Hn; by apply Hno1|destruct Hn; apply Hparx, Hno2; [by apply Hpary|done]|]. split; [done|]. apply Hxl; [by apply Hparx|done].
        - intros [H1 H2]. right. right. split; [done|]. apply Hxl; [by apply Hparx|done]. }
      pose proof (Hordin p Hp) as Hpo. pose proof (proj2 (Hpary p) Hp) as Hpp. destruct (Hsplit p Hp) as [HpW|[HpW Hin]].
      * assert (lab_of (p, y) = Compelled) as -> by (unfold lab_of; cbn; by rewrite (proj2 HcW)). assert ((p, y) <> (x, y)) as Hpx. { intros [= ->]. apply HW in HpW. done. }
        assert ((p, y) ∉ epair <$> rest1) as Hpr. { intros (e' & He' & Hin)%elem_of_list_fmap. apply (HnW p e'); [rewrite Hord1; by right|done|done]. } assert (~ (false = true)) as Hft by done. tauto.
      * assert (lab_of (p, y) = Reversible) as ->. { unfold lab_of. cbn. destruct (comp p y); [|done]. destruct HpW. by apply HcW. }
        rewrite Hord1, fmap_cons in Hin. assert (epair e = (x, y)) as Hee by (unfold epair; by rewrite Hx, Hy). rewrite Hee in Hin. apply elem_of_cons in Hin as [Hin|Hin]; tauto.
    + intros p z l Hz. rewrite (upd_trans _ _ _ _ _ _ Hu3 Hu4 (p, z) l), elem_of_app, HS4, elem_of_list_singleton. cbn [fst snd]. split; [|intros ?; right; split; [|done]; intros [[= ? ?]|[? _]]; congruence]. intros [[[[= ? ?]|[? _]] _]|[_ ?]]; congruence || done.
  - rewrite filter_cons, decide_False by tauto. apply filter_ext_in. intros e' He'. unfold into. split; [tauto|]. intros Hn Heq. apply Hn. split; [done|].
    apply Hordy; [|done]. apply Hsub. by right.
Qed.
End loop.

Theorem find_compelled_ok N t ord :
  netinv N -> no_dup_directed N -> Forall is_arc (nt_edges N) ->
  topological (has_directed N) (length (nt_nodes N)) t ->
  Forall is_arc ord -> epair <$> ord ≡ₚ epair <$> nt_edges N -> StronglySorted (edge_before t) (epair <$> ord) -> forall comp, single_extra (fun w x => comp w x = true) N t -> label_rule N t comp ->
  exists N', find_compelled N ord = Ok N' /\ nt_nodes N' = nt_nodes N /\ nt_num_edges N' = nt_num_edges N /\
    epair <$> nt_edges N' = epair <$> nt_edges N /\ Forall is_arc (nt_edges N') /\
    forall e, e ∈ nt_edges N' -> e_label e = Some (lab_of comp (epair e)).
Proof.
  intros HI Hnd Hall Ht Harc Hperm Hsort comp Hse Hrule. unfold find_compelled.
  destruct (loop_ok N HI Hnd Hall t Ht ord Harc Hperm Hsort comp Hse Hrule (length ord) (nt_edges N) []) as (es' & Hes' & [Hp Ha] & Hl & Hlab).
  - done.
  - intros p y Hy. by apply elem_of_nil in Hy.
  - intros p y l Hy. by apply elem_of_nil in Hy.
  - apply filter_length.
  - rewrite (filter_all (fun e => e_n2 e ∉ []) ord) in Hes' by (intros e _; apply not_elem_of_nil). rewrite Hes'. cbn [mbind outcome_bind].
    eexists. split; [done|]. cbn [set_edges nt_nodes nt_edges nt_num_edges]. split_and!; try done. intros e He. assert (epair e ∈ epair <$> nt_edges N) as Hin by (rewrite <-Hp; apply elem_of_list_fmap; by exists e).
    destruct (e_label e) as [l|] eqn:El; [|by destruct (Hl (epair e) Hin e He)]. f_equal. apply (Hlab (epair e) l Hin). by exists e.
Qed.
