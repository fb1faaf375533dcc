(** The levels of the tree as lists of single messages. *)
From Verif Require Import MessageModel TableSpec TableProofs TableProofs2 TableProofs4 ParProofs SchedProofs PassProofs.
From Verif Require Import BeliefSpec BeliefProofs FlowProofs EvidenceProofs CommuteProofs MessageProofs.

Lemma fmap_on {A B} (f g : A -> B) (l : list A) : (forall x, x ∈ l -> f x = g x) -> f <$> l = g <$> l.
Proof. induction l as [|x l IH]; intros H; [done|]. rewrite !fmap_cons. rewrite (H x) by left. f_equal. apply IH. intros y Hy. apply H. by right. Qed.
(** ** The loops without the shortcut *)
Section plain.
Context (dom : nat -> nat) (dom_pos : forall v, (0 < dom v)%nat).
Notation wf := (TableSpec.wf dom).
Notation valid := (valid dom).
(** Collecting into separators is distributing in a tree with the directions turned. *)
Definition turned (T : jtree) : jtree :=
  let m := jt_marks T in
  mkTree (jt_doms T) (jt_levels T) (mkMarks (up_c m) (head <$> dn_s m) (option_list <$> up_c m) (dn_s m)) (jt_backup T).
Lemma sep_plain_spec sch tag T i vec st (cl : nat -> nat) : valid_scheduler sch ->
  jt_levels T !! i = Some vec -> NoDup vec ->
  (forall s, s ∈ vec -> exists S C, dn_s (jt_marks T) !! s = Some [cl s] /\ t_s st !! s = Some S /\ t_c st !! cl s = Some C /\ wf S /\ wf C /\ (forall v, v ∈ pt_vars S -> v ∈ pt_vars C)) ->
  exists st', separator_level_collection_plain sch tag T i st = Ok st' /\
   t_c st' = t_c st /\ length (t_s st') = length (t_s st) /\ (forall s, s ∉ vec -> t_s st' !! s = t_s st !! s) /\
   (forall s S C, s ∈ vec -> t_s st !! s = Some S -> t_c st !! cl s = Some C -> exists S', t_s st' !! s = Some S' /\ sep_new dom C S S').
Proof using dom_pos.
  intros Hsch Hvec Hnd H. assert (separator_level_collection_plain sch tag T i st = separator_level_distribution sch tag (turned T) i st) as ->.
  { unfold separator_level_collection_plain, separator_level_distribution, turned. cbn [jt_levels jt_marks up_s]. rewrite (vget_ok _ _ _ Hvec). cbn [mbind outcome_bind].
    destruct (mcollect vec (vget (t_s st))); cbn [mbind outcome_bind]; [|done].
    rewrite (ParProofs.mcollect_ext vec (fun s => d ← vget (dn_s (jt_marks T)) s; c ← vget d 0; vget (t_c st) c)
      (fun s => u ← vget (head <$> dn_s (jt_marks T)) s; match u with Some c => vget (t_c st) c | None => Err NullDeref end)); [done|].
    intros s Hs. destruct (H s Hs) as (S & C & Hd & _). rewrite (vget_ok _ _ _ Hd). cbn [mbind outcome_bind]. rewrite (vget_ok [cl s] 0 (cl s)) by done. cbn [mbind outcome_bind].
    rewrite (vget_ok (head <$> dn_s (jt_marks T)) s (Some (cl s))); [done|]. by rewrite list_lookup_fmap, Hd. }
  apply (sep_distribution_spec dom dom_pos); try done. intros s Hs. destruct (H s Hs) as (S & C & Hd & Hrest). exists S, C. split; [|done].
  unfold turned. cbn [jt_marks up_s]. by rewrite list_lookup_fmap, Hd.
Qed.
Lemma clique_plain_spec sch tag T i vec st (se : nat -> nat) : valid_scheduler sch ->
  jt_levels T !! i = Some vec -> NoDup vec ->
  (forall c, c ∈ vec -> exists S C, up_c (jt_marks T) !! c = Some (Some (se c)) /\ t_s st !! se c = Some S /\ t_c st !! c = Some C /\ wf S /\ wf C /\ (forall v, v ∈ pt_vars S -> v ∈ pt_vars C)) ->
  (exists st', clique_level_distribution_plain sch tag T i st = Ok st' /\ t_s st' = t_s st /\ length (t_c st') = length (t_c st) /\ (forall c, c ∉ vec -> t_c st' !! c = t_c st !! c) /\
   (forall c S C, c ∈ vec -> t_s st !! se c = Some S -> t_c st !! c = Some C -> exists C', t_c st' !! c = Some C' /\ clq_new dom C S C')) \/
  (clique_level_distribution_plain sch tag T i st = Err DivZero /\ exists c S C, c ∈ vec /\ t_s st !! se c = Some S /\ t_c st !! c = Some C /\ mass dom C S = 0%Qc).
Proof using dom_pos.
  intros Hsch Hvec Hnd H.
  assert (mcollect (seq 0 (length vec)) (vget vec) = Ok vec) as Hall.
  { destruct (mcollect_exists (fun k c => vec !! k = Some c) (seq 0 (length vec)) (vget vec)) as (l & Hl & Hlen & Hk).
    - intros k j Hj. apply lookup_seq in Hj as [-> Hk]. destruct (lookup_lt_is_Some_2 vec k Hk) as [c Hc]. exists c. split; [by apply vget_ok|done].
    - rewrite Hl. f_equal. rewrite seq_length in Hlen. apply list_eq. intros k. destruct (l !! k) as [c|] eqn:E; [symmetry; by apply Hk|]. apply lookup_ge_None in E. symmetry. apply lookup_ge_None. lia. }
  assert (clique_level_distribution_plain sch tag T i st = clique_level_collection sch tag (turned T) i (seq 0 (length vec)) 0 st) as ->.
  { unfold clique_level_distribution_plain, clique_level_collection, turned. cbn [jt_levels jt_marks dn_c]. rewrite (vget_ok _ _ _ Hvec). cbn [mbind outcome_bind]. rewrite Hall. cbn [mbind outcome_bind].
    destruct (mcollect vec (vget (t_c st))); cbn [mbind outcome_bind]; [|done].
    rewrite (ParProofs.mcollect_ext vec (fun c => u ← vget (up_c (jt_marks T)) c; match u with Some s => vget (t_s st) s | None => Err NullDeref end)
      (fun c => d ← vget (option_list <$> up_c (jt_marks T)) c; s ← vget d 0; vget (t_s st) s)); [done|].
    intros s Hs. destruct (H s Hs) as (S & C & Hd & _). rewrite (vget_ok _ _ _ Hd). cbn [mbind outcome_bind].
    rewrite (vget_ok (option_list <$> up_c (jt_marks T)) s [se s]); [done|]. by rewrite list_lookup_fmap, Hd. }
  apply (clique_collection_spec dom dom_pos sch tag (turned T) i vec); try done. intros s Hs. destruct (H s Hs) as (S & C & Hd & Hrest). exists S, C, [se s]. split; [|done].
  unfold turned. cbn [jt_marks dn_c]. by rewrite list_lookup_fmap, Hd.
Qed.
End plain.

(** ** Levels *)
Definition up_in (l : link) : step := (TC (l_dn l), TS (l_sep l)).
Definition up_out (l : link) : step := (TS (l_sep l), TC (l_up l)).
Definition down_in (l : link) : step := (TC (l_up l), TS (l_sep l)).
Definition down_out (l : link) : step := (TS (l_sep l), TC (l_dn l)).
Section levels.
Context (dom : nat -> nat) (dom_pos : forall v, (0 < dom v)%nat).
Notation wf := (TableSpec.wf dom).
Notation valid := (valid dom).
Context (T : jtree) (r : nat) (Ls : list (list link)) (HT : tree_ok T r Ls).
Notation L := (concat Ls).
Context (sc ss : nat -> list nat).
Context (Htail : forall l, l ∈ L -> exists ws, sc (l_dn l) = ws ++ ss (l_sep l)).
Context (Hups : forall l v, l ∈ L -> v ∈ ss (l_sep l) -> v ∈ sc (l_up l)).
Definition in_tree (x : tnode) : Prop := match x with TC i => i ∈ seen r L | TS s => s ∈ l_sep <$> L end.
Notation fit := (fit dom in_tree sc ss).
Notation allowed := (allowed in_tree sc ss).
Notation batch := (batch dom).
Notation J0 := (fun _ : asg => 0%Qc).
Set Default Proof Using "All".
Lemma l_in_block Lpre B Lpost l : Ls = Lpre ++ B :: Lpost -> l ∈ B -> l ∈ L.
Proof. apply (in_block dom dom_pos T r Ls HT sc ss J0 Htail Hups). Qed.
Lemma l_dn_seen l : l ∈ L -> l_dn l ∈ seen r L.
Proof. apply (dn_seen dom dom_pos T r Ls HT sc ss J0 Htail Hups). Qed.
Lemma l_up_seen l : l ∈ L -> l_up l ∈ seen r L.
Proof. apply (up_seen dom dom_pos T r Ls HT sc ss J0 Htail Hups). Qed.
Lemma l_sep_inj l l' : l ∈ L -> l' ∈ L -> l_sep l = l_sep l' -> l = l'.
Proof. apply (link_sep_inj dom dom_pos T r Ls HT sc ss J0 Htail Hups). Qed.
Lemma l_dn_inj l l' : l ∈ L -> l' ∈ L -> l_dn l = l_dn l' -> l = l'.
Proof. apply (link_dn_inj dom dom_pos T r Ls HT sc ss J0 Htail Hups). Qed.
Lemma l_by_sep l : l ∈ L -> by_sep Ls (l_sep l) = Some l.
Proof. apply (by_sep_spec dom dom_pos T r Ls HT sc ss J0 Htail Hups). Qed.
Lemma l_by_dn l : l ∈ L -> by_dn Ls (l_dn l) = Some l.
Proof. apply (by_dn_spec dom dom_pos T r Ls HT sc ss J0 Htail Hups). Qed.
Lemma l_tail l v : l ∈ L -> v ∈ ss (l_sep l) -> v ∈ sc (l_dn l).
Proof. intros Hl Hv. destruct (Htail l Hl) as [ws ->]. apply elem_of_app. by right. Qed.

Lemma up_in_ok l : l ∈ L -> allowed (up_in l).
Proof. intros Hl. split_and!; [by apply l_dn_seen|by apply elem_of_list_fmap_1|]. cbn. intros v. by apply l_tail. Qed.
Lemma up_out_ok l : l ∈ L -> allowed (up_out l).
Proof. intros Hl. split_and!; [by apply elem_of_list_fmap_1|by apply l_up_seen|]. cbn. intros v. by apply Hups. Qed.
Lemma down_in_ok l : l ∈ L -> allowed (down_in l).
Proof. intros Hl. split_and!; [by apply l_up_seen|by apply elem_of_list_fmap_1|]. cbn. intros v. by apply Hups. Qed.
Lemma down_out_ok l : l ∈ L -> allowed (down_out l).
Proof. intros Hl. split_and!; [by apply elem_of_list_fmap_1|by apply l_dn_seen|]. cbn. intros v. by apply l_tail. Qed.

(** A level of separators, a level of cliques. *)
Lemma sep_batch (f : link -> step) (side : link -> nat) B st st' : (forall l, f l = (TC (side l), TS (l_sep l))) ->
  t_c st' = t_c st -> (forall s, s ∉ l_sep <$> B -> t_s st' !! s = t_s st !! s) ->
  (forall l S C, l ∈ B -> t_s st !! l_sep l = Some S -> t_c st !! side l = Some C -> exists S', t_s st' !! l_sep l = Some S' /\ sep_new dom C S S') -> batch (f <$> B) st (Ok st').
Proof.
  intros Hf H1 H2 H3. left. exists st'. split_and!; [done| |].
  - intros [i|s] Hy; cbn; [by rewrite H1|]. apply H2. intros Hin. apply Hy. rewrite <-list_fmap_compose. apply elem_of_list_fmap in Hin as (l & -> & Hl).
    apply elem_of_list_fmap. exists l. split; [cbn; by rewrite Hf|done].
  - intros x t m Hx Ht Hm. apply elem_of_list_fmap in Hx as (l & -> & Hl). rewrite Hf in *. cbn in *. by apply H3.
Qed.
Lemma clq_batch (f : nat -> step) (se : nat -> nat) vec st o : (forall c, c ∈ vec -> f c = (TS (se c), TC c)) ->
  (exists st', o = Ok st' /\ t_s st' = t_s st /\ length (t_c st') = length (t_c st) /\ (forall c, c ∉ vec -> t_c st' !! c = t_c st !! c) /\
   (forall c S C, c ∈ vec -> t_s st !! se c = Some S -> t_c st !! c = Some C -> exists C', t_c st' !! c = Some C' /\ clq_new dom C S C')) \/
  (o = Err DivZero /\ exists c S C, c ∈ vec /\ t_s st !! se c = Some S /\ t_c st !! c = Some C /\ mass dom C S = 0%Qc) -> batch (f <$> vec) st o.
Proof.
  intros Hf [(st' & -> & H1 & _ & H2 & H3)|(-> & c & S & C & Hc & HS & HC & Hm)]; [left|right].
  - exists st'. split_and!; [done| |].
    + intros [i|s] Hy; cbn; [|by rewrite H1]. apply H2. intros Hin. apply Hy. rewrite <-list_fmap_compose. apply elem_of_list_fmap. exists i. split; [cbn; by rewrite Hf|done].
    + intros x t m Hx Ht Hm. apply elem_of_list_fmap in Hx as (c & -> & Hc). rewrite Hf in * by done. cbn in *. by apply (H3 c).
  - split; [done|]. exists (f c), C, S. split; [by apply elem_of_list_fmap_1|]. rewrite Hf by done. done.
Qed.
Lemma fit_c st i : fit st -> i ∈ seen r L -> exists C, t_c st !! i = Some C /\ wf C /\ pt_vars C = sc i.
Proof. intros Hf Hi. by apply (Hf (TC i)). Qed.
Lemma fit_s st l : fit st -> l ∈ L -> exists S, t_s st !! l_sep l = Some S /\ wf S /\ pt_vars S = ss (l_sep l).
Proof. intros Hf Hi. apply (Hf (TS (l_sep l))). by apply elem_of_list_fmap_1. Qed.
Lemma sep_level_nodup (f : link -> step) Lpre B Lpost : Ls = Lpre ++ B :: Lpost -> (forall l, (f l).2 = TS (l_sep l)) -> NoDup (f <$> B).*2.
Proof.
  intros E Hf. rewrite <-list_fmap_compose. rewrite (list_fmap_ext _ (TS ∘ l_sep) B) by (intros; cbn; by rewrite Hf). rewrite list_fmap_compose. apply NoDup_fmap; [intros ?? [= ->]; done|].
  apply (block_seps dom dom_pos T r Ls HT sc ss J0 Htail Hups Lpre B Lpost E).
Qed.
Lemma sep_collect_is sch tag Lpre B Lpost st : valid_scheduler sch -> Ls = Lpre ++ B :: Lpost -> fit st ->
  separator_level_collection sch tag T (2 * length Lpre + 1) st = mfor (up_in <$> B) deliver st.
Proof.
  intros Hsch E Hf. apply (batch_is dom dom_pos in_tree sc ss); [done| | | |].
  - intros x Hx. apply elem_of_list_fmap in Hx as (l & -> & Hl). apply up_in_ok. by eapply l_in_block.
  - by eapply sep_level_nodup.
  - intros x y Hx Hy. apply elem_of_list_fmap in Hx as (? & -> & _), Hy as (? & -> & _). done.
  - destruct (sep_collection_spec dom dom_pos sch tag T (2 * length Lpre + 1) (l_sep <$> B) st (fun s => default 0%nat (l_dn <$> by_sep Ls s))) as (st' & -> & H1 & _ & H2 & H3).
    + done.
    + by apply (level_sep dom dom_pos T r Ls HT sc ss J0 Htail Hups Lpre B Lpost).
    + by apply (block_seps dom dom_pos T r Ls HT sc ss J0 Htail Hups Lpre B Lpost).
    + intros s Hs. apply elem_of_list_fmap in Hs as (l & -> & Hl). pose proof (l_in_block _ _ _ _ E Hl) as HlL. rewrite l_by_sep by done. cbn.
      destruct (fit_s st l Hf HlL) as (S & HS & HwS & HvS). destruct (fit_c st _ Hf (l_dn_seen l HlL)) as (C & HC & HwC & HvC). destruct (Htail l HlL) as [ws Hws].
      exists S, C, ws. split_and!; try done; [by apply (to_dns _ _ _ HT)|congruence].
    + apply (sep_batch _ l_dn); try done. intros l S C Hl HS HC. pose proof (l_in_block _ _ _ _ E Hl) as HlL. apply H3; [by apply elem_of_list_fmap_1|done|]. by rewrite l_by_sep.
Qed.
Lemma sep_plain_is sch tag Lpre B Lpost st : valid_scheduler sch -> Ls = Lpre ++ B :: Lpost -> fit st ->
  separator_level_collection_plain sch tag T (2 * length Lpre + 1) st = mfor (up_in <$> B) deliver st.
Proof.
  intros Hsch E Hf. apply (batch_is dom dom_pos in_tree sc ss); [done| | | |].
  - intros x Hx. apply elem_of_list_fmap in Hx as (l & -> & Hl). apply up_in_ok. by eapply l_in_block.
  - by eapply sep_level_nodup.
  - intros x y Hx Hy. apply elem_of_list_fmap in Hx as (? & -> & _), Hy as (? & -> & _). done.
  - destruct (sep_plain_spec dom dom_pos sch tag T (2 * length Lpre + 1) (l_sep <$> B) st (fun s => default 0%nat (l_dn <$> by_sep Ls s))) as (st' & -> & H1 & _ & H2 & H3).
    + done.
    + by apply (level_sep dom dom_pos T r Ls HT sc ss J0 Htail Hups Lpre B Lpost).
    + by apply (block_seps dom dom_pos T r Ls HT sc ss J0 Htail Hups Lpre B Lpost).
    + intros s Hs. apply elem_of_list_fmap in Hs as (l & -> & Hl). pose proof (l_in_block _ _ _ _ E Hl) as HlL. rewrite l_by_sep by done. cbn.
      destruct (fit_s st l Hf HlL) as (S & HS & HwS & HvS). destruct (fit_c st _ Hf (l_dn_seen l HlL)) as (C & HC & HwC & HvC).
      exists S, C. split_and!; try done; [by apply (to_dns _ _ _ HT)|]. rewrite HvS, HvC. intros v. by apply l_tail.
    + apply (sep_batch _ l_dn); try done. intros l S C Hl HS HC. pose proof (l_in_block _ _ _ _ E Hl) as HlL. apply H3; [by apply elem_of_list_fmap_1|done|]. by rewrite l_by_sep.
Qed.
Lemma sep_distribute_is sch tag Lpre B Lpost st : valid_scheduler sch -> Ls = Lpre ++ B :: Lpost -> fit st ->
  separator_level_distribution sch tag T (2 * length Lpre + 1) st = mfor (down_in <$> B) deliver st.
Proof.
  intros Hsch E Hf. apply (batch_is dom dom_pos in_tree sc ss); [done| | | |].
  - intros x Hx. apply elem_of_list_fmap in Hx as (l & -> & Hl). apply down_in_ok. by eapply l_in_block.
  - by eapply sep_level_nodup.
  - intros x y Hx Hy. apply elem_of_list_fmap in Hx as (? & -> & _), Hy as (? & -> & _). done.
  - destruct (sep_distribution_spec dom dom_pos sch tag T (2 * length Lpre + 1) (l_sep <$> B) st (fun s => default 0%nat (l_up <$> by_sep Ls s))) as (st' & -> & H1 & _ & H2 & H3).
    + done.
    + by apply (level_sep dom dom_pos T r Ls HT sc ss J0 Htail Hups Lpre B Lpost).
    + by apply (block_seps dom dom_pos T r Ls HT sc ss J0 Htail Hups Lpre B Lpost).
    + intros s Hs. apply elem_of_list_fmap in Hs as (l & -> & Hl). pose proof (l_in_block _ _ _ _ E Hl) as HlL. rewrite l_by_sep by done. cbn.
      destruct (fit_s st l Hf HlL) as (S & HS & HwS & HvS). destruct (fit_c st _ Hf (l_up_seen l HlL)) as (C & HC & HwC & HvC).
      exists S, C. split_and!; try done; [by apply (to_ups _ _ _ HT)|]. rewrite HvS, HvC. intros v. by apply Hups.
    + apply (sep_batch _ l_up); try done. intros l S C Hl HS HC. pose proof (l_in_block _ _ _ _ E Hl) as HlL. apply H3; [by apply elem_of_list_fmap_1|done|]. by rewrite l_by_sep.
Qed.
Lemma dn_level_nodup Lpre B Lpost : Ls = Lpre ++ B :: Lpost -> NoDup (down_out <$> B).*2.
Proof.
  intros E. rewrite <-list_fmap_compose. change (NoDup ((TC ∘ l_dn) <$> B)). rewrite list_fmap_compose. apply NoDup_fmap; [intros ?? [= ->]; done|].
  apply (block_dns dom dom_pos T r Ls HT sc ss J0 Htail Hups Lpre B Lpost E).
Qed.
Definition down_to (c : nat) : step := down_out (default (mkLink 0 0 0) (by_dn Ls c)).
Lemma down_to_block Lpre B Lpost : Ls = Lpre ++ B :: Lpost -> down_out <$> B = down_to <$> (l_dn <$> B).
Proof.
  intros E. rewrite <-list_fmap_compose. assert (forall l, l ∈ B -> l ∈ L) as HB by (intros l; by eapply l_in_block). clear E. induction B as [|l B IH]; [done|].
  rewrite !fmap_cons. rewrite IH by (intros l' Hl'; apply HB; by right). f_equal. cbn. unfold down_to. rewrite l_by_dn by (apply HB; left). done.
Qed.
Lemma clq_distribute_is sch tag Lpre B Lpost st : valid_scheduler sch -> Ls = Lpre ++ B :: Lpost -> fit st ->
  clique_level_distribution sch tag T (2 * length Lpre + 2) st = mfor (down_out <$> B) deliver st.
Proof.
  intros Hsch E Hf. apply (batch_is dom dom_pos in_tree sc ss); [done| | | |].
  - intros x Hx. apply elem_of_list_fmap in Hx as (l & -> & Hl). apply down_out_ok. by eapply l_in_block.
  - by eapply dn_level_nodup.
  - intros x y Hx Hy. apply elem_of_list_fmap in Hx as (? & -> & _), Hy as (? & -> & _). done.
  - rewrite (down_to_block Lpre B Lpost E). apply (clq_batch _ (fun c => l_sep (default (mkLink 0 0 0) (by_dn Ls c)))).
    { intros c Hc. apply elem_of_list_fmap in Hc as (l & -> & Hl). unfold down_to. rewrite l_by_dn by (by eapply l_in_block). done. }
    apply (clique_distribution_spec dom dom_pos); [done| | |].
    + by apply (level_dn dom dom_pos T r Ls HT sc ss J0 Htail Hups Lpre B Lpost).
    + by apply (block_dns dom dom_pos T r Ls HT sc ss J0 Htail Hups Lpre B Lpost).
    + intros s Hs. apply elem_of_list_fmap in Hs as (l & -> & Hl). pose proof (l_in_block _ _ _ _ E Hl) as HlL. rewrite l_by_dn by done. cbn.
      destruct (fit_s st l Hf HlL) as (S & HS & HwS & HvS). destruct (fit_c st _ Hf (l_dn_seen l HlL)) as (C & HC & HwC & HvC). destruct (Htail l HlL) as [ws Hws].
      exists S, C, ws. split_and!; try done; [by apply (to_upc _ _ _ HT)|congruence].
Qed.
Lemma clq_plain_is sch tag Lpre B Lpost st : valid_scheduler sch -> Ls = Lpre ++ B :: Lpost -> fit st ->
  clique_level_distribution_plain sch tag T (2 * length Lpre + 2) st = mfor (down_out <$> B) deliver st.
Proof.
  intros Hsch E Hf. apply (batch_is dom dom_pos in_tree sc ss); [done| | | |].
  - intros x Hx. apply elem_of_list_fmap in Hx as (l & -> & Hl). apply down_out_ok. by eapply l_in_block.
  - by eapply dn_level_nodup.
  - intros x y Hx Hy. apply elem_of_list_fmap in Hx as (? & -> & _), Hy as (? & -> & _). done.
  - rewrite (down_to_block Lpre B Lpost E). apply (clq_batch _ (fun c => l_sep (default (mkLink 0 0 0) (by_dn Ls c)))).
    { intros c Hc. apply elem_of_list_fmap in Hc as (l & -> & Hl). unfold down_to. rewrite l_by_dn by (by eapply l_in_block). done. }
    apply (clique_plain_spec dom dom_pos); [done| | |].
    + by apply (level_dn dom dom_pos T r Ls HT sc ss J0 Htail Hups Lpre B Lpost).
    + by apply (block_dns dom dom_pos T r Ls HT sc ss J0 Htail Hups Lpre B Lpost).
    + intros s Hs. apply elem_of_list_fmap in Hs as (l & -> & Hl). pose proof (l_in_block _ _ _ _ E Hl) as HlL. rewrite l_by_dn by done. cbn.
      destruct (fit_s st l Hf HlL) as (S & HS & HwS & HvS). destruct (fit_c st _ Hf (l_dn_seen l HlL)) as (C & HC & HwC & HvC).
      exists S, C. split_and!; try done; [by apply (to_upc _ _ _ HT)|]. rewrite HvS, HvC. intros v. by apply l_tail.
Qed.
(** One child after the other. *)
Definition kids (c : nat) : list link := filter (fun l => l_up l = c) L.
Definition up_kth (k c : nat) : step := up_out (default (mkLink 0 0 0) (kth_link Ls k c)).
Lemma kth_kid k c l : kth_link Ls k c = Some l -> l ∈ L /\ l_up l = c.
Proof. intros H. apply elem_of_list_lookup_2 in H. by apply elem_of_list_filter in H as [? ?]. Qed.
Lemma with_kth_kid k c level : c ∈ with_kth Ls k level -> exists l, kth_link Ls k c = Some l /\ l ∈ L /\ l_up l = c.
Proof. intros Hc. apply elem_of_list_filter in Hc as [Hk _]. destruct (lookup_lt_is_Some_2 _ _ Hk) as [l Hl]. exists l. split; [done|]. by apply (kth_kid k). Qed.
Lemma clq_level_nodup Lpre Lpost : Ls = Lpre ++ Lpost -> NoDup (clq_level r Lpre).
Proof.
  intros E. destruct Lpre as [|B' Lpre _] using rev_ind; [apply NoDup_singleton|]. rewrite clq_level_snoc. apply (block_dns dom dom_pos T r Ls HT sc ss J0 Htail Hups Lpre B' Lpost). by rewrite E, <-app_assoc.
Qed.
Lemma clq_collect_is sch tag Lpre Lpost has k st : valid_scheduler sch -> Ls = Lpre ++ Lpost -> fit st ->
  mcollect has (vget (clq_level r Lpre)) = Ok (with_kth Ls k (clq_level r Lpre)) ->
  clique_level_collection sch tag T (2 * length Lpre) has k st = mfor (up_kth k <$> with_kth Ls k (clq_level r Lpre)) deliver st.
Proof.
  intros Hsch E Hf Hhas. apply (batch_is dom dom_pos in_tree sc ss); [done| | | |].
  - intros x Hx. apply elem_of_list_fmap in Hx as (c & -> & Hc). destruct (with_kth_kid _ _ _ Hc) as (l & Hl & HlL & _). unfold up_kth. rewrite Hl. by apply up_out_ok.
  - rewrite <-list_fmap_compose. assert (NoDup (TC <$> with_kth Ls k (clq_level r Lpre))) as Hnd.
    { apply NoDup_fmap; [intros ?? [= ->]; done|]. apply NoDup_filter. by eapply clq_level_nodup. }
    assert (forall c, c ∈ with_kth Ls k (clq_level r Lpre) -> (up_kth k c).2 = TC c) as Heq.
    { intros c Hc. destruct (with_kth_kid _ _ _ Hc) as (l & Hl & HlL & Hu). unfold up_kth. rewrite Hl. cbn. by rewrite Hu. }
    rewrite (fmap_on _ TC); [done|]. intros c Hc. by apply Heq.
  - intros x y Hx Hy. apply elem_of_list_fmap in Hx as (? & -> & _), Hy as (? & -> & _). done.
  - apply (clq_batch _ (fun c => l_sep (default (mkLink 0 0 0) (kth_link Ls k c)))).
    { intros c Hc. destruct (with_kth_kid _ _ _ Hc) as (l & Hl & HlL & Hu). unfold up_kth. rewrite Hl. cbn. unfold up_out. by rewrite Hu. }
    apply (clique_collection_spec dom dom_pos sch tag T (2 * length Lpre) (clq_level r Lpre)); [done| |done| |].
    + by apply (level_clq dom dom_pos T r Ls HT sc ss J0 Htail Hups Lpre Lpost).
    + apply NoDup_filter. by eapply clq_level_nodup.
    + intros c Hc. destruct (with_kth_kid _ _ _ Hc) as (l & Hl & HlL & Hu). rewrite Hl. cbn [default].
      destruct (fit_s st l Hf HlL) as (S & HS & HwS & HvS). destruct (fit_c st _ Hf (l_up_seen l HlL)) as (C & HC & HwC & HvC). rewrite Hu in HC.
      exists S, C, (l_sep <$> filter (fun l => l_up l = c) L). split_and!; try done; [apply (to_dnc _ _ _ HT); rewrite <-Hu; by apply l_up_seen| |].
      * rewrite list_lookup_fmap. unfold kth_link in Hl. by rewrite Hl.
      * rewrite HvS, HvC. intros v Hv. by apply Hups.
Qed.
(** The messages into a level of cliques: the first children, then the second ones, ... *)
Definition round_robin (level : list nat) : list step :=
  seq 0 (foldl Nat.max 0 ((fun c => length (kids c)) <$> level)) ≫= fun k => up_kth k <$> with_kth Ls k level.
Lemma collect_level_is sch tag Lpre Lpost st : valid_scheduler sch -> Ls = Lpre ++ Lpost -> fit st ->
  collect_level sch tag T (2 * length Lpre) st = mfor (round_robin (clq_level r Lpre)) deliver st.
Proof.
  intros Hsch E Hf. unfold collect_level. rewrite Nat.odd_mul. cbn [Nat.odd Nat.even negb andb].
  rewrite (vget_ok _ _ _ (level_clq dom dom_pos T r Ls HT sc ss J0 Htail Hups Lpre Lpost E)). cbn [mbind outcome_bind].
  rewrite (mcollect_pure _ _ (fun c => length (kids c))).
  2: { intros c Hc. rewrite (vget_ok _ _ _ (to_dnc _ _ _ HT c (clq_level_seen dom dom_pos T r Ls HT sc ss J0 Htail Hups st _ _ _ E Hc))). cbn [mbind outcome_bind]. by rewrite fmap_length. }
  cbn [mbind outcome_bind]. unfold round_robin. rewrite mfor_flat. revert st Hf. generalize (seq 0 (foldl Nat.max 0 ((fun c => length (kids c)) <$> clq_level r Lpre))). intros ks. induction ks as [|k ks IH]; intros st Hf; [done|].
  cbn [mfor]. rewrite (clq_collect_is sch (tag ++ [(2 * length Lpre)%nat; k]) Lpre Lpost); [|done|done|done|apply (mcollect_has (fun c => length (kids c)))].
  destruct (mfor (up_kth k <$> with_kth Ls k (clq_level r Lpre)) deliver st) as [st1|] eqn:E1; cbn [mbind outcome_bind]; [|done]. apply IH. eapply (mfor_fit dom dom_pos in_tree sc ss); [exact Hf| |exact E1].
  intros x Hx. apply elem_of_list_fmap in Hx as (c & -> & Hc). destruct (with_kth_kid _ _ _ Hc) as (l & Hl & HlL & _). unfold up_kth. rewrite Hl. by apply up_out_ok.
Qed.

(** ** Whole schedules *)
Definition up_pair (l : link) : list step := [up_in l; up_out l].
Definition down_pair (l : link) : list step := [down_in l; down_out l].
Lemma kids_elem c l : l ∈ kids c <-> l ∈ L /\ l_up l = c.
Proof. unfold kids. rewrite elem_of_list_filter. tauto. Qed.
Lemma L_nodup : NoDup L.
Proof. eapply NoDup_fmap_1, (to_seps _ _ _ HT). Qed.
Lemma kids_nodup c : NoDup (kids c).
Proof. apply NoDup_filter, L_nodup. Qed.
Lemma kids_block Lpre B Lpost c : Ls = Lpre ++ B :: Lpost -> c ∈ clq_level r Lpre -> kids c = filter (fun l => l_up l = c) B.
Proof. intros E Hc. apply (children_block dom dom_pos T r Ls HT sc ss J0 Htail Hups Lpre B Lpost c E Hc). Qed.
Lemma l_block_up Lpre B Lpost l : Ls = Lpre ++ B :: Lpost -> l ∈ B -> l_up l ∈ clq_level r Lpre.
Proof. intros E Hl. apply (block_up dom dom_pos T r Ls HT sc ss J0 Htail Hups (mkTabs [] []) Lpre B Lpost l E Hl). Qed.
Lemma kids_leaf c : c ∈ clq_level r Ls -> kids c = [].
Proof.
  intros Hc. destruct (kids c) as [|l rest] eqn:Ek; [done|exfalso]. assert (l ∈ kids c) as Hl by (rewrite Ek; left). apply kids_elem in Hl as [Hl Hu].
  apply elem_of_list_In, in_concat in Hl as (B & HB & Hl). apply elem_of_list_In in HB, Hl. apply elem_of_list_split in HB as (P & Q & E).
  assert (exists l', l' ∈ B ++ concat Q /\ l_dn l' = c) as (l' & Hl' & Hd).
  { destruct Q as [|B' Q _] using rev_ind.
    - rewrite E, clq_level_snoc in Hc. apply elem_of_list_fmap in Hc as (l' & -> & Hl'). exists l'. cbn. by rewrite app_nil_r.
    - rewrite E, app_comm_cons, app_assoc, clq_level_snoc in Hc. apply elem_of_list_fmap in Hc as (l' & -> & Hl'). exists l'. split; [|done]. rewrite concat_app, !elem_of_app. right. right. cbn. by rewrite app_nil_r. }
  apply (later_dn dom dom_pos T r Ls HT sc ss J0 Htail Hups (mkTabs [] []) P B Q l' E Hl'). rewrite Hd, <-Hu. by eapply l_block_up.
Qed.
Lemma kid_later Lpre B Lpost l l' : Ls = Lpre ++ B :: Lpost -> l ∈ B -> l' ∈ kids (l_dn l) -> l' ∈ concat Lpost.
Proof.
  intros E Hl Hk. assert (l_dn l ∈ clq_level r (Lpre ++ [B])) as Hc by (rewrite clq_level_snoc; by apply elem_of_list_fmap_1).
  destruct Lpost as [|B' Lpost].
  - rewrite <-E in Hc. rewrite kids_leaf in Hk by done. by apply elem_of_nil in Hk.
  - rewrite (kids_block (Lpre ++ [B]) B' Lpost) in Hk; [|by rewrite <-app_assoc|done]. apply elem_of_list_filter in Hk as [_ Hk]. cbn. apply elem_of_app. by left.
Qed.

(** *** Towards the root *)
Fixpoint upward (X : list nat -> list step) (Lpre Lpost : list (list link)) : list step :=
  match Lpost with
  | [] => []
  | B :: Lpost => upward X (Lpre ++ [B]) Lpost ++ (up_in <$> B) ++ X (clq_level r Lpre)
  end.
Definition grouped (level : list nat) : list step := level ≫= fun c => up_out <$> kids c.
(** A list of the messages into a level that keeps the order of siblings. *)
Definition fair (X : list nat -> list step) : Prop := forall Lpre B Lpost, Ls = Lpre ++ B :: Lpost ->
  X (clq_level r Lpre) ≡ₚ up_out <$> B /\
  forall l' l, [l'; l] `sublist_of` L -> l_up l' = l_up l -> l ∈ B -> [up_out l'; up_out l] `sublist_of` X (clq_level r Lpre).
Lemma sub2_kids l' l : [l'; l] `sublist_of` L -> l_up l' = l_up l -> [l'; l] `sublist_of` kids (l_up l).
Proof. intros Hs Hu. by apply sub2_filter. Qed.
Lemma sub2_fmap {A B} (f : A -> B) x y l : [x; y] `sublist_of` l -> [f x; f y] `sublist_of` f <$> l.
Proof. clear. intros (p & q & -> & Hx & Hy)%sub2_split. rewrite fmap_app. apply sub2_app; by apply elem_of_list_fmap_1. Qed.
Lemma grouped_fair : fair grouped.
Proof.
  intros Lpre B Lpost E. split.
  - unfold grouped. rewrite <-(bind_single up_out B). rewrite <-(bind_group l_up (clq_level r Lpre) B (fun x => [up_out x])).
    + apply bind_perm. intros c Hc. rewrite (kids_block Lpre B Lpost) by done. by rewrite bind_single.
    + by eapply clq_level_nodup.
    + intros l Hl. by eapply l_block_up.
  - intros l' l Hs Hu Hl. unfold grouped. etransitivity; [|apply (sub_bind (fun c => up_out <$> kids c) _ (l_up l)); by eapply l_block_up]. by apply sub2_fmap, sub2_kids.
Qed.
Lemma up_kth_at k c l : kids c !! k = Some l -> up_kth k c = up_out l.
Proof. intros H. unfold up_kth, kth_link. unfold kids in H. by rewrite H. Qed.
Lemma round_robin_elem level x : x ∈ round_robin level <-> exists c k l, c ∈ level /\ kids c !! k = Some l /\ x = up_out l.
Proof.
  unfold round_robin. rewrite elem_of_list_bind. split.
  - intros (k & Hx & _). apply elem_of_list_fmap in Hx as (c & -> & Hc). apply elem_of_list_filter in Hc as [Hk Hc]. destruct (lookup_lt_is_Some_2 _ _ Hk) as [l Hl]. exists c, k, l. split_and!; [done|done|]. by apply up_kth_at.
  - intros (c & k & l & Hc & Hl & ->). exists k. split.
    + apply elem_of_list_fmap. exists c. split; [by rewrite (up_kth_at k c l)|]. apply elem_of_list_filter. split; [|done]. by eapply lookup_lt_Some.
    + apply elem_of_seq. split; [lia|]. cbn. eapply Nat.lt_le_trans; [eapply lookup_lt_Some, Hl|]. apply foldl_max_le. apply elem_of_list_fmap. by exists c.
Qed.
Lemma up_out_inj l l' : l ∈ L -> l' ∈ L -> up_out l = up_out l' -> l = l'.
Proof. intros Hl Hl' [= H _]. by apply l_sep_inj. Qed.
Lemma up_in_inj l l' : l ∈ L -> l' ∈ L -> up_in l = up_in l' -> l = l'.
Proof. intros Hl Hl' [= _ H]. by apply l_sep_inj. Qed.
Lemma nodup_on {A B} (f : A -> B) l : NoDup l -> (forall x y, x ∈ l -> y ∈ l -> f x = f y -> x = y) -> NoDup (f <$> l).
Proof.
  clear. induction l as [|x l IH]; intros Hnd Hi; [constructor|]. rewrite fmap_cons. apply NoDup_cons in Hnd as [Hx Hnd]. apply NoDup_cons. split.
  - intros Hin. apply elem_of_list_fmap in Hin as (y & He & Hy). assert (x = y) as <- by (apply Hi; [left|by right|done]). done.
  - apply IH; [done|]. intros y z Hy Hz. apply Hi; by right.
Qed.
Lemma round_robin_fair : fair round_robin.
Proof.
  intros Lpre B Lpost E. assert (forall c k l, kids c !! k = Some l -> l ∈ L /\ l_up l = c) as Hkid by (intros c k l Hl; apply kids_elem; by eapply elem_of_list_lookup_2). split.
  - apply NoDup_Permutation.
    + apply bind_nodup; [apply NoDup_seq| |].
      * intros k _. apply nodup_on; [apply NoDup_filter; by eapply clq_level_nodup|]. intros c c' Hc Hc' He.
        apply elem_of_list_filter in Hc as [Hc _], Hc' as [Hc' _]. destruct (lookup_lt_is_Some_2 _ _ Hc) as [l Hl], (lookup_lt_is_Some_2 _ _ Hc') as [l' Hl'].
        rewrite (up_kth_at k c l Hl), (up_kth_at k c' l' Hl') in He. destruct (Hkid _ _ _ Hl) as [H1 H2], (Hkid _ _ _ Hl') as [H3 H4]. apply up_out_inj in He; [|done|done]. congruence.
      * intros k k' x _ _ Hx Hx'. apply elem_of_list_fmap in Hx as (c & -> & Hc), Hx' as (c' & He & Hc'). apply elem_of_list_filter in Hc as [Hc _], Hc' as [Hc' _].
        destruct (lookup_lt_is_Some_2 _ _ Hc) as [l Hl], (lookup_lt_is_Some_2 _ _ Hc') as [l' Hl'].
        rewrite (up_kth_at k c l Hl), (up_kth_at k' c' l' Hl') in He. destruct (Hkid _ _ _ Hl) as [H1 H2], (Hkid _ _ _ Hl') as [H3 H4]. apply up_out_inj in He; [|done|done]. subst l'.
        assert (c' = c) as -> by congruence. by eapply NoDup_lookup; [apply (kids_nodup c)| |].
    + apply nodup_on; [eapply NoDup_fmap_1; by eapply (block_seps dom dom_pos T r Ls HT sc ss J0 Htail Hups Lpre B Lpost)|]. intros l l' Hl Hl'. apply up_out_inj; by eapply l_in_block.
    + intros x. rewrite round_robin_elem, elem_of_list_fmap. split.
      * intros (c & k & l & Hc & Hl & ->). exists l. split; [done|]. apply elem_of_list_lookup_2 in Hl. rewrite (kids_block Lpre B Lpost) in Hl by done. by apply elem_of_list_filter in Hl as [_ ?].
      * intros (l & -> & Hl). assert (l ∈ kids (l_up l)) as Hk by (apply kids_elem; split; [by eapply l_in_block|done]). apply elem_of_list_lookup in Hk as [k Hk].
        exists (l_up l), k, l. split_and!; [by eapply l_block_up|done|done].
  - intros l' l Hs Hu Hl. pose proof (sub2_kids l' l Hs Hu) as Hk. pose proof (l_block_up _ _ _ _ E Hl) as Hc.
    apply sub2_split in Hk as (p & q & Ek & Hp & Hq). apply elem_of_list_lookup in Hp as [i Hi], Hq as [j Hj].
    assert (kids (l_up l) !! i = Some l') as Ki by (rewrite Ek; apply lookup_app_l_Some; done).
    assert (kids (l_up l) !! (length p + j)%nat = Some l) as Kj by (rewrite Ek, lookup_app_r by lia; by replace (length p + j - length p)%nat with j by lia).
    apply lookup_lt_Some in Hi. unfold round_robin. apply (sub2_bind _ _ i (length p + j)%nat).
    + apply sub2_seq; [lia|]. apply lookup_lt_Some in Kj. eapply Nat.lt_le_trans; [exact Kj|]. apply foldl_max_le. apply elem_of_list_fmap. by exists (l_up l).
    + apply elem_of_list_fmap. exists (l_up l). split; [by rewrite (up_kth_at _ _ _ Ki)|]. apply elem_of_list_filter. split; [by eapply lookup_lt_Some|done].
    + apply elem_of_list_fmap. exists (l_up l). split; [by rewrite (up_kth_at _ _ _ Kj)|]. apply elem_of_list_filter. split; [by eapply lookup_lt_Some|done].
Qed.
Lemma upward_perm X Lpost : fair X -> forall Lpre, Ls = Lpre ++ Lpost -> upward X Lpre Lpost ≡ₚ concat Lpost ≫= up_pair.
Proof.
  intros HX. induction Lpost as [|B Lpost IH]; intros Lpre E; [done|]. cbn [upward concat]. rewrite IH by (by rewrite <-app_assoc). destruct (HX Lpre B Lpost E) as [-> _].
  rewrite bind_app. rewrite (Permutation_app_comm (B ≫= up_pair)). apply Permutation_app_head. unfold up_pair.
  rewrite <-(bind_single up_in B), <-(bind_single up_out B). by rewrite <-bind_two.
Qed.

(** Which message must come before which. *)
Definition up_before (x y : step) : Prop :=
  (exists l, l ∈ L /\ x = up_in l /\ y = up_out l) \/
  (exists l l', l ∈ L /\ l' ∈ kids (l_dn l) /\ x = up_out l' /\ y = up_in l) \/
  (exists l' l, l ∈ L /\ [l'; l] `sublist_of` L /\ l_up l' = l_up l /\ x = up_out l' /\ y = up_out l).
Lemma up_related x y : x ∈ L ≫= up_pair -> y ∈ L ≫= up_pair -> x <> y ->
  up_before x y \/ up_before y x \/ commute deliver fit x y.
Proof.
  assert (forall x, x ∈ L ≫= up_pair -> exists l, l ∈ L /\ (x = up_in l \/ x = up_out l)) as Hel.
  { intros z Hz. apply elem_of_list_bind in Hz as (l & Hz & Hl). exists l. split; [done|]. apply elem_of_cons in Hz as [->|Hz]; [by left|]. apply elem_of_list_singleton in Hz as ->. by right. }
  intros (l & Hl & [-> | ->])%Hel (l' & Hl' & [-> | ->])%Hel Hne.
  - right. right. apply deliver_commute; [done|by apply up_in_ok|by apply up_in_ok| |done|done]. cbn. intros [= H]. by apply l_sep_inj in H as ->.
  - destruct (decide (l_sep l = l_sep l')) as [Hll|Hll]; [apply l_sep_inj in Hll as ->; [|done|done]; left; left; by exists l'|]. destruct (decide (l_up l' = l_dn l)) as [Hu|Hu].
    + right. left. right. left. exists l, l'. split_and!; [done|by apply kids_elem|done|done].
    + right. right. apply deliver_commute; [done|by apply up_in_ok|by apply up_out_ok|done| |]; cbn; congruence.
  - destruct (decide (l_sep l = l_sep l')) as [Hll|Hll]; [apply l_sep_inj in Hll as ->; [|done|done]; right; left; left; by exists l'|]. destruct (decide (l_up l = l_dn l')) as [Hu|Hu].
    + left. right. left. exists l', l. split_and!; [done|by apply kids_elem|done|done].
    + right. right. apply deliver_commute; [done|by apply up_out_ok|by apply up_in_ok|done| |]; cbn; congruence.
  - assert (l <> l') as Hll by congruence. destruct (decide (l_up l = l_up l')) as [Hu|Hu].
    + destruct (sub2_either l l' L Hl Hl' Hll) as [Hs|Hs]; [left|right; left]; right; right; [by exists l, l'|by exists l', l].
    + right. right. apply deliver_commute; [done|by apply up_out_ok|by apply up_out_ok| |done|done]. cbn. congruence.
Qed.
Lemma up_pairs_nodup : NoDup (L ≫= up_pair).
Proof.
  apply bind_nodup; [apply L_nodup| |].
  - intros l _. apply NoDup_cons. split; [|apply NoDup_singleton]. intros H%elem_of_list_singleton. done.
  - intros l l' x Hl Hl' Hx Hx'. apply elem_of_cons in Hx as [->|Hx]; apply elem_of_cons in Hx' as [Hx'|Hx'].
    + by apply up_in_inj.
    + by apply elem_of_list_singleton in Hx'.
    + apply elem_of_list_singleton in Hx as ->. done.
    + apply elem_of_list_singleton in Hx as ->, Hx'. by apply up_out_inj.
Qed.
Lemma upward_obeys X Lpost : fair X -> forall Lpre, Ls = Lpre ++ Lpost -> forall l, l ∈ concat Lpost ->
  [up_in l; up_out l] `sublist_of` upward X Lpre Lpost /\
  (forall l', l' ∈ kids (l_dn l) -> [up_out l'; up_in l] `sublist_of` upward X Lpre Lpost) /\
  (forall l', [l'; l] `sublist_of` L -> l_up l' = l_up l -> [up_out l'; up_out l] `sublist_of` upward X Lpre Lpost).
Proof.
  intros HX. induction Lpost as [|B Lpost IH]; intros Lpre E l Hl; [by apply elem_of_nil in Hl|]. cbn [upward concat] in *.
  assert (Ls = (Lpre ++ [B]) ++ Lpost) as E' by (by rewrite <-app_assoc). pose proof (upward_perm X Lpost HX _ E') as Hp.
  apply elem_of_app in Hl as [Hl|Hl].
  - destruct (HX Lpre B Lpost E) as [HXp HXs]. split_and!.
    + apply sublist_inserts_l. apply sub2_app; [by apply elem_of_list_fmap_1|]. rewrite HXp. by apply elem_of_list_fmap_1.
    + intros l' Hl'. apply (kid_later Lpre B Lpost) in Hl'; [|done|done]. apply sub2_app.
      * rewrite Hp. apply elem_of_list_bind. exists l'. split; [|done]. right. left.
      * apply elem_of_app. left. by apply elem_of_list_fmap_1.
    + intros l' Hs Hu. apply sublist_inserts_l, sublist_inserts_l. by apply HXs.
  - destruct (IH _ E' l Hl) as (H1 & H2 & H3). split_and!; intros; apply sublist_inserts_r; auto.
Qed.
Lemma upward_obeys' X : fair X -> obeys up_before (upward X [] Ls).
Proof.
  intros HX x y Hr _ _. destruct Hr as [(l & Hl & -> & ->)|[(l & l' & Hl & Hk & -> & ->)|(l' & l & Hl & Hs & Hu & -> & ->)]]; destruct (upward_obeys X Ls HX [] eq_refl l Hl) as (H1 & H2 & H3); auto.
Qed.
(** The order of the recursion. *)
Fixpoint below (n : nat) (c : nat) : list link :=
  match n with 0 => [] | S n => kids c ≫= fun l => below n (l_dn l) ++ [l] end.
Lemma below_perm Lpost : forall Lpre, Ls = Lpre ++ Lpost -> clq_level r Lpre ≫= below (length Lpost) ≡ₚ concat Lpost.
Proof.
  induction Lpost as [|B Lpost IH]; intros Lpre E.
  - cbn [length concat]. clear E. induction (clq_level r Lpre) as [|c l IH]; [done|]. rewrite bind_cons. cbn. apply IH.
  - cbn [length concat]. transitivity (clq_level r Lpre ≫= fun c => filter (fun l => l_up l = c) B ≫= fun l => below (length Lpost) (l_dn l) ++ [l]).
    { apply bind_perm. intros c Hc. cbn [below]. by rewrite (kids_block Lpre B Lpost). }
    rewrite bind_group; [|by eapply clq_level_nodup|intros l Hl; by eapply l_block_up].
    rewrite bind_two. rewrite (bind_single (fun l => l)), list_fmap_id. rewrite <-(bind_over l_dn (below (length Lpost))). rewrite <-(clq_level_snoc r Lpre B), IH by (by rewrite <-app_assoc).
    apply Permutation_app_comm.
Qed.
Lemma below_elem Lpre Lpost c l : Ls = Lpre ++ Lpost -> c ∈ clq_level r Lpre -> l ∈ below (length Lpost) c -> l ∈ concat Lpost.
Proof. intros E Hc Hl. rewrite <-(below_perm Lpost Lpre E). apply elem_of_list_bind. by exists c. Qed.
Lemma below_obeys Lpost : forall Lpre c, Ls = Lpre ++ Lpost -> c ∈ clq_level r Lpre -> forall l, l ∈ below (length Lpost) c ->
  (forall l', l' ∈ kids (l_dn l) -> [l'; l] `sublist_of` below (length Lpost) c) /\
  (forall l', [l'; l] `sublist_of` L -> l_up l' = l_up l -> [l'; l] `sublist_of` below (length Lpost) c).
Proof.
  induction Lpost as [|B Lpost IH]; intros Lpre c E Hc l Hl; [by apply elem_of_nil in Hl|]. cbn [length below] in *. assert (Ls = (Lpre ++ [B]) ++ Lpost) as E' by (by rewrite <-app_assoc).
  apply elem_of_list_bind in Hl as (l1 & Hl & Hl1). assert (l1 ∈ B) as HB by (rewrite (kids_block Lpre B Lpost) in Hl1 by done; by apply elem_of_list_filter in Hl1 as [_ ?]).
  assert (l_dn l1 ∈ clq_level r (Lpre ++ [B])) as Hd by (rewrite clq_level_snoc; by apply elem_of_list_fmap_1).
  apply elem_of_app in Hl as [Hl| ->%elem_of_list_singleton].
  - destruct (IH _ _ E' Hd l Hl) as [H1 H2]. split.
    + intros l' Hl'. etransitivity; [|by apply (sub_bind _ _ l1)]. apply sublist_inserts_r. auto.
    + intros l' Hs Hu. etransitivity; [|by apply (sub_bind _ _ l1)]. apply sublist_inserts_r. auto.
  - split.
    + intros l' Hl'. etransitivity; [|by apply (sub_bind _ _ l1)]. apply sub2_app; [|left].
      destruct Lpost as [|B' Lpost]; [rewrite app_nil_r in E'; rewrite <-E' in Hd; rewrite kids_leaf in Hl' by done; by apply elem_of_nil in Hl'|].
      cbn [length below]. apply elem_of_list_bind. exists l'. split; [|done]. apply elem_of_app. right. left.
    + intros l' Hs Hu. apply kids_elem in Hl1 as [HL Hup]. apply (sub2_bind _ _ l' l1); [|apply elem_of_app; right; left|apply elem_of_app; right; left]. rewrite <-Hup. by apply sub2_kids.
Qed.
Lemma below_all : below (length Ls) r ≡ₚ L.
Proof. rewrite <-(below_perm Ls [] eq_refl). rewrite clq_level_nil. unfold mbind, list_bind. by rewrite app_nil_r. Qed.
Lemma below_obeys' : obeys up_before (below (length Ls) r ≫= up_pair).
Proof.
  assert (forall l, l ∈ L -> l ∈ below (length Ls) r) as Hin by (intros l; by rewrite below_all). assert (r ∈ clq_level r []) as Hr0 by (rewrite clq_level_nil; left).
  intros x y Hr _ _. destruct Hr as [(l & Hl & -> & ->)|[(l & l' & Hl & Hk & -> & ->)|(l' & l & Hl & Hs & Hu & -> & ->)]].
  - apply (sub_bind up_pair _ l). by apply Hin.
  - apply (sub2_bind _ _ l' l); [|right; left|left]. destruct (below_obeys Ls [] r eq_refl Hr0 l (Hin l Hl)) as [H1 H2]; auto.
  - apply (sub2_bind _ _ l' l); [|right; left|right; left]. destruct (below_obeys Ls [] r eq_refl Hr0 l (Hin l Hl)) as [H1 H2]; auto.
Qed.
Lemma up_allowed x : x ∈ L ≫= up_pair -> allowed x.
Proof.
  intros Hx. apply elem_of_list_bind in Hx as (l & Hx & Hl). apply elem_of_cons in Hx as [->|Hx]; [by apply up_in_ok|]. apply elem_of_list_singleton in Hx as ->. by apply up_out_ok.
Qed.
(** All ways of collecting send the same messages to the same effect. *)
Lemma up_orders X st : fair X -> fit st -> mfor (upward X [] Ls) deliver st = mfor (below (length Ls) r ≫= up_pair) deliver st.
Proof.
  intros HX Hf. pose proof (upward_perm X Ls HX [] eq_refl) as Hp. apply (reorder deliver fit up_before).
  - rewrite Hp. apply bind_permuted. symmetry. apply below_all.
  - rewrite Hp. apply up_pairs_nodup.
  - intros x Hx. rewrite Hp in Hx. apply (deliver_keeps dom dom_pos). by apply up_allowed.
  - intros x y Hx Hy. rewrite Hp in Hx, Hy. by apply up_related.
  - by apply upward_obeys'.
  - apply below_obeys'.
  - done.
Qed.

(** *** Away from the root *)
Fixpoint downward (Lpost : list (list link)) : list step :=
  match Lpost with [] => [] | B :: Lpost => (down_in <$> B) ++ (down_out <$> B) ++ downward Lpost end.
Fixpoint above (n : nat) (c : nat) : list link :=
  match n with 0 => [] | S n => kids c ≫= fun l => l :: above n (l_dn l) end.
Definition down_before (x y : step) : Prop :=
  (exists l, l ∈ L /\ x = down_in l /\ y = down_out l) \/
  (exists l l', l ∈ L /\ l' ∈ kids (l_dn l) /\ x = down_out l /\ y = down_in l').
Lemma downward_perm Lpost : downward Lpost ≡ₚ concat Lpost ≫= down_pair.
Proof.
  induction Lpost as [|B Lpost IH]; [done|]. cbn [downward concat]. rewrite IH, bind_app, app_assoc. apply Permutation_app_tail. unfold down_pair.
  rewrite <-(bind_single down_in B), <-(bind_single down_out B). by rewrite <-bind_two.
Qed.
Lemma above_perm Lpost : forall Lpre, Ls = Lpre ++ Lpost -> clq_level r Lpre ≫= above (length Lpost) ≡ₚ concat Lpost.
Proof.
  induction Lpost as [|B Lpost IH]; intros Lpre E.
  - cbn [length concat]. clear E. induction (clq_level r Lpre) as [|c l IH]; [done|]. rewrite bind_cons. cbn. apply IH.
  - cbn [length concat]. transitivity (clq_level r Lpre ≫= fun c => filter (fun l => l_up l = c) B ≫= fun l => [l] ++ above (length Lpost) (l_dn l)).
    { apply bind_perm. intros c Hc. cbn [above]. by rewrite (kids_block Lpre B Lpost). }
    rewrite bind_group; [|by eapply clq_level_nodup|intros l Hl; by eapply l_block_up].
    rewrite bind_two. rewrite (bind_single (fun l => l)), list_fmap_id. rewrite <-(bind_over l_dn (above (length Lpost))). rewrite <-(clq_level_snoc r Lpre B), IH by (by rewrite <-app_assoc).
    done.
Qed.
Lemma above_all : above (length Ls) r ≡ₚ L.
Proof. rewrite <-(above_perm Ls [] eq_refl). rewrite clq_level_nil. unfold mbind, list_bind. by rewrite app_nil_r. Qed.
Lemma above_obeys Lpost : forall Lpre c, Ls = Lpre ++ Lpost -> c ∈ clq_level r Lpre -> forall l, l ∈ above (length Lpost) c ->
  forall l', l' ∈ kids (l_dn l) -> [l; l'] `sublist_of` above (length Lpost) c.
Proof.
  induction Lpost as [|B Lpost IH]; intros Lpre c E Hc l Hl l' Hl'; [by apply elem_of_nil in Hl|]. cbn [length above] in *. assert (Ls = (Lpre ++ [B]) ++ Lpost) as E' by (by rewrite <-app_assoc).
  apply elem_of_list_bind in Hl as (l1 & Hl & Hl1). assert (l1 ∈ B) as HB by (rewrite (kids_block Lpre B Lpost) in Hl1 by done; by apply elem_of_list_filter in Hl1 as [_ ?]).
  assert (l_dn l1 ∈ clq_level r (Lpre ++ [B])) as Hd by (rewrite clq_level_snoc; by apply elem_of_list_fmap_1).
  etransitivity; [|by apply (sub_bind _ _ l1)]. apply elem_of_cons in Hl as [->|Hl].
  - apply (sub2_app _ _ [l1]); [left|]. destruct Lpost as [|B' Lpost]; [rewrite app_nil_r in E'; rewrite <-E' in Hd; rewrite kids_leaf in Hl' by done; by apply elem_of_nil in Hl'|].
    cbn [length above]. apply elem_of_list_bind. exists l'. split; [left|done].
  - apply sublist_cons. by apply (IH _ _ E' Hd l Hl).
Qed.
Lemma downward_obeys Lpost : forall Lpre, Ls = Lpre ++ Lpost -> forall l, l ∈ concat Lpost ->
  [down_in l; down_out l] `sublist_of` downward Lpost /\ (forall l', l' ∈ kids (l_dn l) -> [down_out l; down_in l'] `sublist_of` downward Lpost).
Proof.
  induction Lpost as [|B Lpost IH]; intros Lpre E l Hl; [by apply elem_of_nil in Hl|]. cbn [downward concat] in *.
  apply elem_of_app in Hl as [Hl|Hl].
  - split.
    + apply sub2_app; [by apply elem_of_list_fmap_1|]. apply elem_of_app. left. by apply elem_of_list_fmap_1.
    + intros l' Hl'. apply (kid_later Lpre B Lpost) in Hl'; [|done|done]. apply sublist_inserts_l. apply sub2_app; [by apply elem_of_list_fmap_1|].
      rewrite downward_perm. apply elem_of_list_bind. exists l'. split; [left|done].
  - destruct (IH (Lpre ++ [B]) ltac:(by rewrite <-app_assoc) l Hl) as (H1 & H2). split; intros; apply sublist_inserts_l, sublist_inserts_l; auto.
Qed.
Lemma down_orders st : fit st -> mfor (downward Ls) deliver st = mfor (above (length Ls) r ≫= down_pair) deliver st.
Proof.
  intros Hf. pose proof (downward_perm Ls) as Hp.
  assert (forall x, x ∈ L ≫= down_pair -> exists l, l ∈ L /\ (x = down_in l \/ x = down_out l)) as Hel.
  { intros z Hz. apply elem_of_list_bind in Hz as (l & Hz & Hl). exists l. split; [done|]. apply elem_of_cons in Hz as [->|Hz]; [by left|]. apply elem_of_list_singleton in Hz as ->. by right. }
  assert (forall l, l ∈ L -> l ∈ above (length Ls) r) as Hin by (intros l; by rewrite above_all). assert (r ∈ clq_level r []) as Hr0 by (rewrite clq_level_nil; left).
  apply (reorder deliver fit down_before).
  - rewrite Hp. apply bind_permuted. symmetry. apply above_all.
  - rewrite Hp. apply bind_nodup; [apply L_nodup| |].
    + intros l _. apply NoDup_cons. split; [|apply NoDup_singleton]. intros H%elem_of_list_singleton. done.
    + intros l l' x Hl Hl' Hx Hx'. apply elem_of_cons in Hx as [->|Hx]; apply elem_of_cons in Hx' as [Hx'|Hx'].
      * injection Hx' as _ Hx'. by apply l_sep_inj.
      * by apply elem_of_list_singleton in Hx'.
      * apply elem_of_list_singleton in Hx as ->. done.
      * apply elem_of_list_singleton in Hx as ->, Hx'. injection Hx' as Hx' _. by apply l_sep_inj.
  - intros x Hx. rewrite Hp in Hx. apply (deliver_keeps dom dom_pos). apply Hel in Hx as (l & Hl & [-> | ->]); [by apply down_in_ok|by apply down_out_ok].
  - intros x y Hx Hy Hne. rewrite Hp in Hx, Hy. apply Hel in Hx as (l & Hl & [-> | ->]); apply Hel in Hy as (l' & Hl' & [-> | ->]).
    + right. right. apply deliver_commute; [done|by apply down_in_ok|by apply down_in_ok| |done|done]. cbn. intros [= H]. by apply l_sep_inj in H as ->.
    + destruct (decide (l_sep l = l_sep l')) as [Hll|Hll]; [apply l_sep_inj in Hll as ->; [|done|done]; left; left; by exists l'|]. destruct (decide (l_up l = l_dn l')) as [Hu|Hu].
      * right. left. right. exists l', l. split_and!; [done|by apply kids_elem|done|done].
      * right. right. apply deliver_commute; [done|by apply down_in_ok|by apply down_out_ok|done| |]; cbn; congruence.
    + destruct (decide (l_sep l = l_sep l')) as [Hll|Hll]; [apply l_sep_inj in Hll as ->; [|done|done]; right; left; left; by exists l'|]. destruct (decide (l_up l' = l_dn l)) as [Hu|Hu].
      * left. right. exists l, l'. split_and!; [done|by apply kids_elem|done|done].
      * right. right. apply deliver_commute; [done|by apply down_out_ok|by apply down_in_ok|done| |]; cbn; congruence.
    + right. right. apply deliver_commute; [done|by apply down_out_ok|by apply down_out_ok| |done|done]. cbn. intros [= H]. by apply l_dn_inj in H as ->.
  - intros x y Hr _ _. destruct Hr as [(l & Hl & -> & ->)|(l & l' & Hl & Hk & -> & ->)]; destruct (downward_obeys Ls [] eq_refl l Hl) as (H1 & H2); auto.
  - intros x y Hr _ _. destruct Hr as [(l & Hl & -> & ->)|(l & l' & Hl & Hk & -> & ->)].
    + apply (sub_bind down_pair _ l). by apply Hin.
    + apply (sub2_bind _ _ l l'); [|right; left|left]. by apply (above_obeys Ls [] r eq_refl Hr0 l (Hin l Hl)).
  - done.
Qed.

(** ** The loops and recursions of the program *)
Lemma odd_sep (Lpre : list (list link)) : Nat.odd (2 * length Lpre + 1) = true.
Proof. rewrite Nat.add_1_r, Nat.odd_succ, Nat.even_mul. done. Qed.
Lemma odd_clq (Lpre : list (list link)) : Nat.odd (2 * length Lpre) = false.
Proof. by rewrite Nat.odd_mul. Qed.
Lemma odd_dn (Lpre : list (list link)) : Nat.odd (2 * length Lpre + 2) = false.
Proof. replace (2 * length Lpre + 2)%nat with (2 * S (length Lpre))%nat by lia. by rewrite Nat.odd_mul. Qed.
Lemma levels_up (lev : nat -> tabs -> outcome tabs) X : fair X ->
  (forall Lpre B Lpost st, Ls = Lpre ++ B :: Lpost -> fit st -> lev (2 * length Lpre + 1)%nat st = mfor (up_in <$> B) deliver st) ->
  (forall Lpre B Lpost st, Ls = Lpre ++ B :: Lpost -> fit st -> lev (2 * length Lpre)%nat st = mfor (X (clq_level r Lpre)) deliver st) ->
  forall Lpost Lpre st, Ls = Lpre ++ Lpost -> fit st -> mfor (reverse (seq (2 * length Lpre) (2 * length Lpost))) lev st = mfor (upward X Lpre Lpost) deliver st.
Proof.
  intros HX Hodd Heven. induction Lpost as [|B Lpost IH]; intros Lpre st E Hf; [done|].
  cbn [length]. replace (2 * S (length Lpost))%nat with (S (S (2 * length Lpost))) by lia. cbn [seq]. rewrite !reverse_cons, <-app_assoc. cbn [app upward]. rewrite !mfor_app.
  assert (Ls = (Lpre ++ [B]) ++ Lpost) as E' by (by rewrite <-app_assoc). specialize (IH (Lpre ++ [B]) st E' Hf). rewrite app_length in IH. cbn [length] in IH.
  replace (2 * (length Lpre + 1))%nat with (S (S (2 * length Lpre))) in IH by lia. rewrite IH.
  destruct (mfor (upward X (Lpre ++ [B]) Lpost) deliver st) as [st1|] eqn:E1; cbn [mbind outcome_bind]; [|done].
  assert (fit st1) as Hf1.
  { eapply (mfor_fit dom dom_pos in_tree sc ss); [exact Hf| |exact E1]. intros x Hx. rewrite (upward_perm X Lpost HX _ E') in Hx. apply up_allowed.
    apply elem_of_list_bind in Hx as (l & Hx & Hl). apply elem_of_list_bind. exists l. split; [done|]. rewrite E', concat_app. apply elem_of_app. by right. }
  rewrite mfor_app. cbn [mfor]. replace (S (2 * length Lpre)) with (2 * length Lpre + 1)%nat by lia. rewrite (Hodd Lpre B Lpost) by done.
  destruct (mfor (up_in <$> B) deliver st1) as [st2|] eqn:E2; cbn [mbind outcome_bind]; [|done].
  assert (fit st2) as Hf2.
  { eapply (mfor_fit dom dom_pos in_tree sc ss); [exact Hf1| |exact E2]. intros x Hx. apply elem_of_list_fmap in Hx as (l & -> & Hl). apply up_in_ok. by eapply l_in_block. }
  rewrite (Heven Lpre B Lpost) by done. by destruct (mfor (X (clq_level r Lpre)) deliver st2).
Qed.
Lemma levels_down (lev : nat -> tabs -> outcome tabs) :
  (forall Lpre B Lpost st, Ls = Lpre ++ B :: Lpost -> fit st -> lev (2 * length Lpre + 1)%nat st = mfor (down_in <$> B) deliver st) ->
  (forall Lpre B Lpost st, Ls = Lpre ++ B :: Lpost -> fit st -> lev (2 * length Lpre + 2)%nat st = mfor (down_out <$> B) deliver st) ->
  forall Lpost Lpre st, Ls = Lpre ++ Lpost -> fit st -> mfor (seq (2 * length Lpre + 1) (2 * length Lpost)) lev st = mfor (downward Lpost) deliver st.
Proof.
  intros Hodd Heven. induction Lpost as [|B Lpost IH]; intros Lpre st E Hf; [done|].
  cbn [length downward]. replace (2 * S (length Lpost))%nat with (S (S (2 * length Lpost))) by lia. cbn [seq].
  cbn [mfor]. rewrite (Hodd Lpre B Lpost), !mfor_app by done.
  destruct (mfor (down_in <$> B) deliver st) as [st1|] eqn:E1; cbn [mbind outcome_bind]; [|done].
  assert (fit st1) as Hf1.
  { eapply (mfor_fit dom dom_pos in_tree sc ss); [exact Hf| |exact E1]. intros x Hx. apply elem_of_list_fmap in Hx as (l & -> & Hl). apply down_in_ok. by eapply l_in_block. }
  replace (S (2 * length Lpre + 1)) with (2 * length Lpre + 2)%nat by lia. rewrite (Heven Lpre B Lpost), mfor_app by done.
  destruct (mfor (down_out <$> B) deliver st1) as [st2|] eqn:E2; cbn [mbind outcome_bind]; [|done].
  assert (fit st2) as Hf2.
  { eapply (mfor_fit dom dom_pos in_tree sc ss); [exact Hf1| |exact E2]. intros x Hx. apply elem_of_list_fmap in Hx as (l & -> & Hl). apply down_out_ok. by eapply l_in_block. }
  assert (Ls = (Lpre ++ [B]) ++ Lpost) as E' by (by rewrite <-app_assoc). specialize (IH (Lpre ++ [B]) st2 E' Hf2). rewrite app_length in IH. cbn [length] in IH.
  replace (2 * (length Lpre + 1) + 1)%nat with (S (2 * length Lpre + 2)) in IH by lia. exact IH.
Qed.
Lemma levels_length : length (jt_levels T) = S (2 * length Ls).
Proof. rewrite (to_levels _ _ _ HT). cbn [length]. by rewrite level_list_length. Qed.
Lemma collect_is sch tag st : valid_scheduler sch -> fit st -> collect sch tag T st = mfor (upward round_robin [] Ls) deliver st.
Proof.
  intros Hsch Hf. unfold collect. rewrite levels_length. replace (S (2 * length Ls) - 1)%nat with (2 * length Ls)%nat by lia. apply (levels_up _ round_robin round_robin_fair) with (Lpre := []); [| |done|done].
  - intros Lpre B Lpost s E Hs. unfold collect_level. rewrite odd_sep. by apply (sep_collect_is sch _ Lpre B Lpost).
  - intros Lpre B Lpost s E Hs. by apply (collect_level_is sch tag Lpre (B :: Lpost)).
Qed.
Lemma collect_plain_is sch tag st : valid_scheduler sch -> fit st -> collect_plain sch tag T st = mfor (upward round_robin [] Ls) deliver st.
Proof.
  intros Hsch Hf. unfold collect_plain. rewrite levels_length. replace (S (2 * length Ls) - 1)%nat with (2 * length Ls)%nat by lia. apply (levels_up _ round_robin round_robin_fair) with (Lpre := []); [| |done|done].
  - intros Lpre B Lpost s E Hs. rewrite odd_sep. by apply (sep_plain_is sch _ Lpre B Lpost).
  - intros Lpre B Lpost s E Hs. rewrite odd_clq. by apply (collect_level_is sch tag Lpre (B :: Lpost)).
Qed.
Lemma distribute_is sch tag st : valid_scheduler sch -> fit st -> distribute sch tag T st = mfor (downward Ls) deliver st.
Proof.
  intros Hsch Hf. unfold distribute. rewrite levels_length. replace (S (2 * length Ls) - 1)%nat with (2 * length Ls)%nat by lia. apply levels_down with (Lpre := []); [| |done|done].
  - intros Lpre B Lpost s E Hs. unfold distribute_level. rewrite odd_sep. by apply (sep_distribute_is sch _ Lpre B Lpost).
  - intros Lpre B Lpost s E Hs. unfold distribute_level. rewrite odd_dn. by apply (clq_distribute_is sch _ Lpre B Lpost).
Qed.
Lemma distribute_plain_is sch tag st : valid_scheduler sch -> fit st -> distribute_plain sch tag T st = mfor (downward Ls) deliver st.
Proof.
  intros Hsch Hf. unfold distribute_plain. rewrite levels_length. replace (S (2 * length Ls) - 1)%nat with (2 * length Ls)%nat by lia. apply levels_down with (Lpre := []); [| |done|done].
  - intros Lpre B Lpost s E Hs. rewrite odd_sep. by apply (sep_distribute_is sch _ Lpre B Lpost).
  - intros Lpre B Lpost s E Hs. rewrite odd_dn. by apply (clq_plain_is sch _ Lpre B Lpost).
Qed.
(** *** Level by level *)
Lemma down_sep l : l ∈ L -> downstream T (TS (l_sep l)) = Ok [TC (l_dn l)].
Proof. intros Hl. unfold downstream. rewrite (vget_ok _ _ _ (to_dns _ _ _ HT l Hl)). done. Qed.
Lemma down_clq c : c ∈ seen r L -> downstream T (TC c) = Ok ((fun l => TS (l_sep l)) <$> kids c).
Proof. intros Hc. unfold downstream. rewrite (vget_ok _ _ _ (to_dnc _ _ _ HT c Hc)). cbn [mbind outcome_bind]. f_equal. change (map TS) with (fmap (M := list) TS). by rewrite <-list_fmap_compose. Qed.
Lemma level_in Lpre Lpost c : Ls = Lpre ++ Lpost -> c ∈ clq_level r Lpre -> c ∈ seen r L.
Proof. intros E. apply (clq_level_seen dom dom_pos T r Ls HT sc ss J0 Htail Hups (mkTabs [] []) Lpre Lpost c E). Qed.
Lemma collect3_is st : fit st -> collect3 T st = mfor (upward grouped [] Ls) deliver st.
Proof.
  intros Hf. unfold collect3. rewrite levels_length. replace (S (2 * length Ls) - 1)%nat with (2 * length Ls)%nat by lia. apply (levels_up _ grouped grouped_fair) with (Lpre := []); [| |done|done].
  - intros Lpre B Lpost s E _. unfold level_nodes. rewrite (vget_ok _ _ _ (level_sep dom dom_pos T r Ls HT sc ss J0 Htail Hups Lpre B Lpost E)). cbn [mbind outcome_bind]. rewrite odd_sep.
    change (map TS (l_sep <$> B)) with (TS <$> (l_sep <$> B)). rewrite !mfor_over. apply mfor_same. intros l s' Hl. rewrite down_sep by (by eapply l_in_block). cbn [mbind outcome_bind mfor].
    change (send (TC (l_dn l)) (TS (l_sep l)) s') with (deliver (up_in l) s'). by destruct (deliver (up_in l) s').
  - intros Lpre B Lpost s E _. unfold level_nodes. rewrite (vget_ok _ _ _ (level_clq dom dom_pos T r Ls HT sc ss J0 Htail Hups Lpre (B :: Lpost) E)). cbn [mbind outcome_bind]. rewrite odd_clq.
    change (map TC (clq_level r Lpre)) with (TC <$> clq_level r Lpre). unfold grouped. rewrite mfor_over, mfor_flat. apply mfor_same. intros c s' Hc. rewrite down_clq by (by eapply level_in). cbn [mbind outcome_bind].
    rewrite !mfor_over. apply mfor_same. intros l s2 Hl. apply kids_elem in Hl as [_ <-]. done.
Qed.
Lemma distribute3_is st : fit st -> distribute3 T st = mfor (downward Ls) deliver st.
Proof.
  intros Hf. unfold distribute3. rewrite levels_length. replace (S (2 * length Ls) - 1)%nat with (2 * length Ls)%nat by lia. apply levels_down with (Lpre := []); [| |done|done].
  - intros Lpre B Lpost s E _. unfold level_nodes. rewrite (vget_ok _ _ _ (level_sep dom dom_pos T r Ls HT sc ss J0 Htail Hups Lpre B Lpost E)). cbn [mbind outcome_bind]. rewrite odd_sep.
    change (map TS (l_sep <$> B)) with (TS <$> (l_sep <$> B)). rewrite !mfor_over. apply mfor_same. intros l s' Hl. unfold upstream. rewrite (vget_ok _ _ _ (to_ups _ _ _ HT l ltac:(by eapply l_in_block))). done.
  - intros Lpre B Lpost s E _. unfold level_nodes. rewrite (vget_ok _ _ _ (level_dn dom dom_pos T r Ls HT sc ss J0 Htail Hups Lpre B Lpost E)). cbn [mbind outcome_bind]. rewrite odd_dn.
    change (map TC (l_dn <$> B)) with (TC <$> (l_dn <$> B)). rewrite !mfor_over. apply mfor_same. intros l s' Hl. unfold upstream. rewrite (vget_ok _ _ _ (to_upc _ _ _ HT l ltac:(by eapply l_in_block))). done.
Qed.
(** *** By recursion *)
Lemma bind_nested {A B C} (l : list A) (f : A -> list B) (g : B -> list C) : (l ≫= f) ≫= g = l ≫= (fun x => f x ≫= g).
Proof. clear. induction l as [|x l IH]; [done|]. by rewrite !bind_cons, bind_app, IH. Qed.
Lemma collect2_from_is Lpost : forall Lpre c f st, Ls = Lpre ++ Lpost -> c ∈ clq_level r Lpre -> (2 * length Lpost + 1 <= f)%nat ->
  collect2_from f T (TC c) st = mfor (below (length Lpost) c ≫= up_pair) deliver st.
Proof.
  induction Lpost as [|B Lpost IH]; intros Lpre c f st E Hc Hf.
  - destruct f as [|f]; [cbn in Hf; lia|]. cbn [collect2_from]. rewrite down_clq by (by eapply level_in). cbn [mbind outcome_bind]. rewrite app_nil_r in E. rewrite <-E in Hc. rewrite kids_leaf by done. done.
  - cbn [length] in *. destruct f as [|[|f]]; [lia|lia|]. assert (Ls = (Lpre ++ [B]) ++ Lpost) as E' by (by rewrite <-app_assoc).
    assert (forall l, l ∈ kids c -> l ∈ L /\ l_up l = c /\ l_dn l ∈ clq_level r (Lpre ++ [B])) as Hk.
    { intros l Hl. pose proof Hl as [HL Hu]%kids_elem. rewrite (kids_block Lpre B Lpost) in Hl by done. apply elem_of_list_filter in Hl as [_ Hl]. split_and!; [done|done|]. rewrite clq_level_snoc. by apply elem_of_list_fmap_1. }
    set (g := S f). cbn [collect2_from]. rewrite down_clq by (by apply (level_in Lpre (B :: Lpost))). cbn [mbind outcome_bind below]. rewrite mfor_over, bind_nested, mfor_flat. apply mfor_same. intros l s Hl. destruct (Hk l Hl) as (HL & Hu & Hd).
    rewrite bind_app. cbn [mbind list_bind app]. rewrite app_nil_r, mfor_app. unfold g. cbn [collect2_from]. rewrite down_sep by done. cbn [mbind outcome_bind mfor].
    rewrite (IH (Lpre ++ [B])) by (done || lia). change (list_bind _ _ up_pair (below (length Lpost) (l_dn l))) with (below (length Lpost) (l_dn l) ≫= up_pair).
    destruct (mfor (below (length Lpost) (l_dn l) ≫= up_pair) deliver s) as [s1|]; cbn [mbind outcome_bind up_pair mfor]; [|done].
    change (send (TC (l_dn l)) (TS (l_sep l)) s1) with (deliver (up_in l) s1). destruct (deliver (up_in l) s1) as [s2|]; cbn [mbind outcome_bind mfor]; [|done]. rewrite <-Hu.
    change (send (TS (l_sep l)) (TC (l_up l)) s2) with (deliver (up_out l) s2). by destruct (deliver (up_out l) s2).
Qed.
Lemma root_is : root_node T = Ok (TC r).
Proof. unfold root_node, level_nodes. rewrite (to_levels _ _ _ HT). done. Qed.
Lemma collect2_is f st : (length (jt_levels T) <= f)%nat -> collect2 f T st = mfor (below (length Ls) r ≫= up_pair) deliver st.
Proof. intros Hf. rewrite levels_length in Hf. unfold collect2. rewrite root_is. cbn [mbind outcome_bind]. apply (collect2_from_is Ls []); [done|rewrite clq_level_nil; left|lia]. Qed.
Lemma distribute2_to_is Lpost : forall Lpre c f st, Ls = Lpre ++ Lpost -> c ∈ clq_level r Lpre -> (2 * length Lpost <= f)%nat ->
  mfor (kids c) (fun l st => distribute2_to f T (TC c) (TS (l_sep l)) st) st = mfor (above (length Lpost) c ≫= down_pair) deliver st.
Proof.
  induction Lpost as [|B Lpost IH]; intros Lpre c f st E Hc Hf.
  - rewrite app_nil_r in E. rewrite <-E in Hc. rewrite kids_leaf by done. done.
  - cbn [length] in *. destruct f as [|[|f]]; [lia|lia|]. assert (Ls = (Lpre ++ [B]) ++ Lpost) as E' by (by rewrite <-app_assoc).
    assert (forall l, l ∈ kids c -> l ∈ L /\ l_up l = c /\ l_dn l ∈ clq_level r (Lpre ++ [B])) as Hk.
    { intros l Hl. pose proof Hl as [HL Hu]%kids_elem. rewrite (kids_block Lpre B Lpost) in Hl by done. apply elem_of_list_filter in Hl as [_ Hl]. split_and!; [done|done|]. rewrite clq_level_snoc. by apply elem_of_list_fmap_1. }
    cbn [above]. rewrite bind_nested, mfor_flat. apply mfor_same. intros l s Hl. destruct (Hk l Hl) as (HL & Hu & Hd).
    rewrite bind_cons. cbn [down_pair app mfor]. set (g := S f). cbn [distribute2_to]. rewrite <-Hu. change (send (TC (l_up l)) (TS (l_sep l)) s) with (deliver (down_in l) s).
    destruct (deliver (down_in l) s) as [s1|]; cbn [mbind outcome_bind]; [|done]. rewrite down_sep by done. cbn [mbind outcome_bind mfor]. unfold g. cbn [distribute2_to].
    change (send (TS (l_sep l)) (TC (l_dn l)) s1) with (deliver (down_out l) s1). destruct (deliver (down_out l) s1) as [s2|]; cbn [mbind outcome_bind]; [|done].
    rewrite down_clq by (by apply (level_in (Lpre ++ [B]) Lpost)). cbn [mbind outcome_bind]. rewrite mfor_over, (IH (Lpre ++ [B])) by (done || lia). by destruct (mfor (above (length Lpost) (l_dn l) ≫= down_pair) deliver s2).
Qed.
Lemma distribute2_is f st : (length (jt_levels T) <= f)%nat -> distribute2 f T st = mfor (above (length Ls) r ≫= down_pair) deliver st.
Proof.
  intros Hf. rewrite levels_length in Hf. unfold distribute2. rewrite root_is. cbn [mbind outcome_bind]. rewrite down_clq by left. cbn [mbind outcome_bind]. rewrite mfor_over.
  apply (distribute2_to_is Ls []); [done|rewrite clq_level_nil; left|lia].
Qed.
(** ** All variants agree *)
Lemma pass_same p sch st : valid_scheduler sch -> fit st -> match p with Recursive f => (length (jt_levels T) <= f)%nat | _ => True end ->
  pass_messages p sch T st = pass_messages Shortcut sch T st.
Proof.
  intros Hsch Hf Hp. assert (forall X st', fair X -> mfor (upward X [] Ls) deliver st = Ok st' -> fit st') as Hkeep.
  { intros X st' HX E. eapply (mfor_fit dom dom_pos in_tree sc ss); [exact Hf| |exact E]. intros x Hx. rewrite (upward_perm X Ls HX [] eq_refl) in Hx. by apply up_allowed. }
  unfold pass_messages at 2. rewrite collect_is by done. destruct p as [| | |f]; unfold pass_messages.
  - by rewrite collect_is.
  - rewrite collect_plain_is by done. destruct (mfor (upward round_robin [] Ls) deliver st) as [s1|] eqn:E; cbn [mbind outcome_bind]; [|done]. assert (fit s1) as H1 by (by apply (Hkeep round_robin s1 round_robin_fair)).
    by rewrite distribute_is, distribute_plain_is.
  - rewrite collect3_is by done. rewrite (up_orders grouped), (up_orders round_robin) by (done || apply grouped_fair || apply round_robin_fair).
    destruct (mfor (below (length Ls) r ≫= up_pair) deliver st) as [s1|] eqn:E; cbn [mbind outcome_bind]; [|done].
    assert (fit s1) as H1. { apply (Hkeep round_robin s1 round_robin_fair). rewrite <-E. by apply (up_orders round_robin); [apply round_robin_fair|]. }
    by rewrite distribute_is, distribute3_is.
  - rewrite collect2_is by done. rewrite (up_orders round_robin) by (done || apply round_robin_fair).
    destruct (mfor (below (length Ls) r ≫= up_pair) deliver st) as [s1|] eqn:E; cbn [mbind outcome_bind]; [|done].
    assert (fit s1) as H1. { apply (Hkeep round_robin s1 round_robin_fair). rewrite <-E. by apply (up_orders round_robin); [apply round_robin_fair|]. }
    by rewrite distribute_is, distribute2_is, down_orders.
Qed.
End levels.
