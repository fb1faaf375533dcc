(** The tree as a whole and the queries. *)
From Verif Require Import MemoryModel MemorySpec MemoryProofs MemoryProofs2 MemoryProofs3 MemoryProofs4.

Definition well_linked (cobjs sobjs : list (nat * object)) : Prop :=
  (forall c o, (c, o) ∈ cobjs -> exists n, o = OClique n /\ forall p, p ∈ n -> exists s, p = PTo s /\ s ∈ sobjs.*1) /\
  (forall s o, (s, o) ∈ sobjs -> exists n u, o = OSeparator n u /\ forall p, p ∈ n -> exists c, p = PTo c /\ c ∈ cobjs.*1).
Definition cliques_ok (ch : list nat) (cobjs : list (nat * object)) : Prop :=
  forall c o, (c, o) ∈ cobjs -> exists n, o = OClique n /\ forall p, p ∈ n -> exists s, p = PTo s /\ s ∈ ch.
Lemma wp_clique_of c n m k h : own m k h -> (c, OClique n) ∈ m -> wp (clique_of (PTo c)) (fun x h' => x = n /\ own m k h') h.
Proof. intros H Hi. unfold clique_of. step wp_deref as [-> H1]; [exact H|exact Hi|]. done. Qed.
Lemma insert_ptr_in p q l : p ∈ insert_ptr q l -> p = q \/ p ∈ l.
Proof. unfold insert_ptr. case_bool_decide; [by right|]. by intros ?%elem_of_cons. Qed.
Lemma wp_attach_one a s ch cobjs m k h :
  own (cobjs ++ m) k h -> a ∈ cobjs.*1 -> s ∈ ch -> cliques_ok ch cobjs ->
  wp (n <- clique_of (PTo a); assign (PTo a) (OClique (insert_ptr (PTo s) n)))
    (fun _ h' => exists cobjs', cobjs'.*1 = cobjs.*1 /\ cliques_ok ch cobjs' /\ own (cobjs' ++ m) k h') h.
Proof.
  intros H Ha Hs Hc. destruct (keys_in _ _ Ha) as [o Ho]. destruct (Hc _ _ Ho) as (n & -> & Hn).
  step wp_clique_of as [-> H1]; [exact H|apply elem_of_app; left; exact Ho|].
  apply elem_of_list_split in Ho as (l1 & l2 & ->).
  eapply wp_mono; [eapply (wp_assign _ a _ (l1 ++ l2 ++ m)); [exact H1|flat_l; symmetry; apply Permutation_middle]|].
  intros [] h2 H2. exists (l1 ++ (a, OClique (insert_ptr (PTo s) n)) :: l2). split_and!.
  - by rewrite !fmap_app.
  - intros c o [Hi|[Hi|Hi]%elem_of_cons]%elem_of_app.
    + apply (Hc c o). apply elem_of_app. by left.
    + injection Hi as -> ->. eexists. split; [done|]. intros p [-> |Hp]%insert_ptr_in; [by exists s|by apply Hn].
    + apply (Hc c o). apply elem_of_app. right. by apply elem_of_list_further.
  - eapply own_perm; [exact H2|]. perm.
Qed.
Lemma wp_attach ch L cs cobjs x m k h :
  own (cobjs ++ sblock ch L ++ m) k h -> cobjs.*1 = cs -> cliques_ok ch cobjs -> x ∈ L -> c_sep x ∈ ch -> c_one x ∈ cs -> c_two x ∈ cs ->
  wp (attach (PTo (c_sep x))) (fun _ h' => exists cobjs', cobjs'.*1 = cs /\ cliques_ok ch cobjs' /\ own (cobjs' ++ sblock ch L ++ m) k h') h.
Proof.
  intros H E Hc Hx Hs H1 H2. unfold attach.
  step wp_sep_of as [-> H3]; [exact H|apply elem_of_app; right; apply elem_of_app; left; by apply (elem_of_list_fmap_1 (sep_obj ch) L x)|]. cbn [fst snd].
  eapply wp_bind; [eapply wp_at; [exact H3|reflexivity]|]. intros ? h4 [-> H4].
  eapply wp_bind; [eapply wp_at; [exact H4|reflexivity]|]. intros ? h5 [-> H5].
  assert (A : wp ((n <- clique_of (PTo (c_one x)); assign (PTo (c_one x)) (OClique (insert_ptr (PTo (c_sep x)) n))) ;;
                 (n <- clique_of (PTo (c_two x)); assign (PTo (c_two x)) (OClique (insert_ptr (PTo (c_sep x)) n))))
    (fun _ h' => exists cobjs', cobjs'.*1 = cs /\ cliques_ok ch cobjs' /\ own (cobjs' ++ sblock ch L ++ m) k h') h5).
  { eapply wp_bind; [eapply wp_attach_one; [exact H5|by rewrite E|exact Hs|exact Hc]|].
    intros [] h6 (co & E6 & C6 & H6). rewrite E in E6. eapply wp_mono; [eapply wp_attach_one; [exact H6|by rewrite E6|exact Hs|exact C6]|].
    intros [] h7 (co' & E7 & C7 & H7). exists co'. split_and!; [congruence|done|done]. }
  unfold wp, bind in A |- *. destruct (clique_of (PTo (c_one x)) h5) as [n1 h6|]; exact A.
Qed.
Lemma wp_prune ch L m k h :
  own (sblock ch L ++ m) k h -> wp (prune (listing L)) (fun _ => own (sblock ch (filter (fun x => c_sep x ∈ ch) L) ++ m) k) h.
Proof.
  revert m h. induction L as [|x L IH]; intros m h H; [done|].
  unfold prune in *. cbn [listing fmap list_fmap each]. fold (listing L). cbn [fst snd].
  change (sblock ch (x :: L) ++ m) with (sep_obj ch x :: sblock ch L ++ m) in H.
  destruct (decide (c_sep x ∈ ch)) as [Hx|Hx].
  - rewrite filter_cons_True by done. change (sblock ch (x :: ?l) ++ m) with (sep_obj ch x :: sblock ch l ++ m).
    eapply (wp_bind _ _ (fun _ => own (sep_obj ch x :: sblock ch L ++ m) k)).
    { step wp_sep_of as [-> H1]; [exact H|unfold sep_obj; inm|]. cbn [snd]. by rewrite bool_decide_true. }
    intros [] h2 H2. eapply wp_mono; [apply (IH (sep_obj ch x :: m)); eapply own_perm; [exact H2|perm]|].
    intros [] h3 H3. eapply own_perm; [exact H3|]. unfold sblock. cbn [fmap list_fmap]. perm.
  - rewrite filter_cons_False by done.
    eapply (wp_bind _ _ (fun _ => own (sblock ch L ++ m) k)); [|intros [] h2 H2; by apply IH].
    step wp_sep_of as [-> H1]; [exact H|unfold sep_obj; inm|]. cbn [snd]. rewrite bool_decide_false by done.
    eapply wp_delete_plain; [exact H1|apply Permutation_refl|done|done].
Qed.
Lemma same_keys (l : list (nat * object)) ks : l.*1 ≡ₚ ks -> exists l', l' ≡ₚ l /\ l'.*1 = ks.
Proof.
  intros E. symmetry in E. change (l.*1) with (map fst l) in E. apply Permutation_map_inv in E as (l' & -> & E). exists l'. done.
Qed.
Lemma wp_new_tree l ns es t m k h :
  own m k h -> net_at l ns es ∈ m -> nodes_in ns m -> wired ns es -> linked t ->
  wp (new_tree (PTo l) t)
    (fun p h' => exists tr cobjs sobjs, p = PTo tr /\ well_linked cobjs sobjs /\
       own ((tr, OTree (PTo l) (PTo <$> cobjs.*1) (PTo <$> sobjs.*1)) :: cobjs ++ sobjs ++ m) k h') h.
Proof.
  intros H Hi Hn W [Lk0 Lk]. unfold new_tree.
  step wp_size_of as [-> H1]; [exact H|exact Hi|].
  step wp_new_rows as (a & ls & -> & La & H2); [exact H1|].
  eapply wp_bind; [eapply wp_use_network; [exact H2|inm| |exact W]|].
  { eapply nodes_sub; [|exact Hn]. intros z Hz. apply elem_of_app. by right. }
  intros [] h3 H3.
  eapply wp_bind; [apply (wp_repeat _ _ _ _ H3)|].
  { intros h4 H4. step wp_new as (c & -> & H5); [exact H4|].
    eapply wp_bind; [eapply wp_touch; [exact H5|inm]|]. intros [] h6 H6.
    eapply wp_delete_plain; [exact H6|reflexivity|done|done]. }
  intros [] h4 H4.
  eapply wp_bind; [eapply (wp_touch_rows a ls); [exact H4|unfold matrix; inm|]|].
  { intros z Hz. apply elem_of_app. left. by apply matrix_rows. }
  intros [] h5 H5.
  set (cob := fun ks : list nat => (fun c => (c, OClique [])) <$> ks).
  eapply (wp_bind _ _ (fun r h' => exists cs, r = PTo <$> cs /\ length cs = t_cliques t /\ own (cob cs ++ matrix a ls ++ m) k h')).
  { eapply wp_mono.
    - apply (wp_collect _ (fun r h' => exists cs, r = PTo <$> cs /\ own (cob cs ++ matrix a ls ++ m) k h') _ [] _); [by exists []|].
      intros i bs h6 _ (cs & -> & H6). eapply wp_mono; [eapply wp_new; exact H6|]. intros p h7 (c & -> & H7).
      exists (cs ++ [c]). split; [by rewrite fmap_app|]. eapply own_perm; [exact H7|]. unfold cob. rewrite fmap_app. cbn [fmap list_fmap]. perm.
    - cbn. intros bs h6 [(cs & -> & H6) L6]. exists cs. rewrite fmap_length, seq_length in L6. done. }
  intros ? h6 (cs & -> & Lc & H6).
  eapply wp_bind; [eapply (wp_delete_rows a ls _ (cob cs ++ m)); [exact H6|unfold matrix; perm|done]|]. intros [] h7 H7.
  eapply wp_bind; [eapply wp_delete_array; [exact H7|reflexivity|done]|]. intros [] h8 H8.
  assert (Ec : (cob cs).*1 = cs). { unfold cob. rewrite <-list_fmap_compose. cbn. by rewrite list_fmap_id. }
  eapply wp_bind.
  { pose proof (wp_candidates (cob cs) (t_weight t) m (cob cs ++ m) k h8 H8 (Permutation_refl _)) as C. rewrite Ec in C. exact C. }
  intros ? h9 (L & -> & F & H9).
  destruct (lookup_lt_is_Some_2 cs 0) as [c0 Hc0]; [lia|].
  eapply wp_bind; [eapply wp_at; [exact H9|by rewrite list_lookup_fmap, Hc0]|]. intros ? h10 [-> H10].
  assert (Ncs : NoDup cs). { apply own_sound in H10. rewrite !fmap_app, Ec in H10. apply NoDup_app in H10 as (_ & _ & H10). by apply NoDup_app in H10 as (H10 & _ & _). }
  assert (Es : forall ch L', (sblock ch L').*1 = c_sep <$> L') by (intros; unfold sblock; by rewrite <-list_fmap_compose).
  assert (NL : NoDup (c_sep <$> L)). { apply own_sound in H10. rewrite fmap_app, Es in H10. by apply NoDup_app in H10 as (H10 & _ & _). }
  eapply wp_bind.
  { change (@nil ptr) with (PTo <$> @nil nat). rewrite <-Lc.
    eapply (wp_grow cs (t_weight t) L (cob cs ++ m) k (length cs) [PTo c0] []); [done|done|done| |exact H10|..].
    - intros i Hli. rewrite Lc in *. by apply Lk.
    - apply NoDup_singleton.
    - intros p ->%elem_of_list_singleton. apply elem_of_list_fmap_1. by eapply elem_of_list_lookup_2.
    - exists c0. split; [done|]. inm.
    - constructor.
    - by intros s Hs%elem_of_nil.
    - by intros x _ Hs%elem_of_nil.
    - cbn. lia. }
  intros ? h11 (ch & -> & Nch & Sch & H11).
  assert (Ends : forall x, x ∈ L -> c_one x ∈ cs /\ c_two x ∈ cs).
  { intros x Hx. apply elem_of_list_lookup in Hx as (q & Hq). destruct (Forall2_lookup_r _ _ _ _ _ F Hq) as (ij & _ & M1 & M2).
    split; by eapply elem_of_list_lookup_2. }
  eapply wp_bind.
  { apply (wp_each_same _ (fun h => exists cobjs, cobjs.*1 = cs /\ cliques_ok ch cobjs /\ own (cobjs ++ sblock ch L ++ m) k h)).
    - exists (cob cs). split_and!; [done| |eapply own_perm; [exact H11|perm]].
      intros c o (c' & [= -> ->] & Hc)%elem_of_list_fmap. exists []. split; [done|]. by intros p Hp%elem_of_nil.
    - intros p h12 (s & -> & Hs)%elem_of_list_fmap (cobjs & E12 & C12 & H12).
      pose proof (Sch s Hs) as (x & -> & Hx)%elem_of_list_fmap. destruct (Ends x Hx). by eapply wp_attach. }
  intros [] h12 (cobjs & E12 & C12 & H12).
  eapply wp_bind; [eapply (wp_prune ch L (cobjs ++ m)); eapply own_perm; [exact H12|perm]|]. intros [] h13 H13.
  set (Lf := filter (fun x => c_sep x ∈ ch) L) in *.
  assert (Pf : (sblock ch Lf).*1 ≡ₚ ch).
  { rewrite Es. apply NoDup_Permutation; [|done|].
    - unfold Lf. clear -NL. induction L as [|x L IH]; [constructor|]. cbn in NL. apply NoDup_cons in NL as [N1 N2].
      rewrite filter_cons. case_decide; [|by apply IH]. cbn. apply NoDup_cons. split; [|by apply IH].
      intros (y & Ey & [_ Hy]%elem_of_list_filter)%elem_of_list_fmap. apply N1. rewrite Ey. by apply elem_of_list_fmap_1.
    - intros s. split.
      + intros (x & -> & [Hx _]%elem_of_list_filter)%elem_of_list_fmap. done.
      + intros Hs. pose proof (Sch s Hs) as (x & -> & Hx)%elem_of_list_fmap. apply elem_of_list_fmap_1, elem_of_list_filter. done. }
  destruct (same_keys _ _ Pf) as (sobjs & Eo & Ek).
  assert (H14 : own (cobjs ++ sobjs ++ m) k h13) by (eapply own_perm; [exact H13|rewrite <-Eo; perm]).
  eapply wp_bind; [eapply wp_use_network; [exact H14|inm| |exact W]|].
  { eapply nodes_sub; [|exact Hn]. intros z Hz. apply elem_of_app. right. apply elem_of_app. by right. }
  intros [] h15 H15.
  eapply wp_bind; [apply (wp_repeat _ _ _ _ H15); intros; by apply calm_scratch|]. intros [] h16 H16.
  eapply wp_bind; [apply (wp_each_same _ (own (cobjs ++ sobjs ++ m) k)); [exact H16|]|].
  { intros p h17 (c & -> & Hc)%elem_of_list_fmap H17. rewrite <-E12 in Hc. destruct (keys_in _ _ Hc) as [o Ho].
    eapply wp_touch; [exact H17|apply elem_of_app; left; exact Ho]. }
  intros [] h17 H17. eapply wp_mono; [eapply wp_new; exact H17|]. intros p h18 (tr & -> & H18).
  exists tr, cobjs, sobjs. rewrite E12, Ek. split_and!; [done| |exact H18]. split.
  - intros c o Ho. destruct (C12 c o Ho) as (n & -> & Hnn). exists n. split; [done|]. rewrite Ek. done.
  - intros s o Ho. rewrite Eo in Ho. apply elem_of_list_fmap in Ho as (x & [= -> ->] & [_ Hx]%elem_of_list_filter).
    do 2 eexists. split; [done|]. rewrite E12. destruct (Ends x Hx).
    intros p [-> |[-> |Hp%elem_of_nil]%elem_of_cons]%elem_of_cons; [eauto..|done].
Qed.

Lemma wp_delete_all (f : object -> bool) objs m m' k h :
  own m' k h -> m' ≡ₚ objs ++ m -> (forall l o, (l, o) ∈ objs -> is_array o = false /\ f o = true) ->
  wp (each (PTo <$> objs.*1) (delete_plain f)) (fun _ => own m k) h.
Proof.
  intros H E. eapply own_perm in H; [|exact E]. clear E m'. revert h H. induction objs as [|[l o] objs IH]; intros h H Ho; [done|].
  cbn [fmap list_fmap each fst]. destruct (Ho l o) as [A B]; [inm|].
  eapply wp_bind; [eapply (wp_delete_plain _ l o (objs ++ m)); [exact H|done|done|done]|]. intros [] h1 H1. apply IH; [done|].
  intros l' o' Hl. apply (Ho l'). inm.
Qed.
Lemma wp_delete_tree tr net cobjs sobjs m m' k h :
  own m' k h -> m' ≡ₚ (tr, OTree net (PTo <$> cobjs.*1) (PTo <$> sobjs.*1)) :: cobjs ++ sobjs ++ m -> well_linked cobjs sobjs ->
  wp (delete_tree (PTo tr)) (fun _ => own m k) h.
Proof.
  intros H E [W1 W2]. eapply own_perm in H; [|exact E]. clear E m'. unfold delete_tree.
  step wp_victim as [-> H1]; [exact H|inm|]. cbn beta iota.
  set (o := OTree net (PTo <$> cobjs.*1) (PTo <$> sobjs.*1)) in *.
  eapply wp_bind; [eapply (wp_delete_all _ cobjs ((tr, o) :: sobjs ++ m)); [exact H1|perm|]|].
  { intros l o' Hl. destruct (W1 _ _ Hl) as (n & -> & _). done. }
  intros [] h2 H2. eapply wp_bind; [eapply (wp_delete_all _ sobjs ((tr, o) :: m)); [exact H2|perm|]|].
  { intros l o' Hl. destruct (W2 _ _ Hl) as (n & u & -> & _). done. }
  intros [] h3 H3. eapply wp_release; [exact H3|reflexivity].
Qed.
Lemma wp_walk tr net cobjs sobjs m k h :
  own m k h -> (tr, OTree net (PTo <$> cobjs.*1) (PTo <$> sobjs.*1)) ∈ m -> well_linked cobjs sobjs -> cobjs ⊆ m -> sobjs ⊆ m ->
  wp (walk (PTo tr)) (fun _ => own m k) h.
Proof.
  intros H Hi [W1 W2] S1 S2. unfold walk. eapply (wp_bind _ _ (fun x h' => x = (net, PTo <$> cobjs.*1, PTo <$> sobjs.*1) /\ own m k h')).
  { unfold tree_of. step wp_deref as [-> H1]; [exact H|exact Hi|]. done. }
  intros ? h1 [-> H1]. cbn beta iota.
  eapply wp_bind; [apply (wp_each_same _ (own m k)); [exact H1|]|].
  { intros p h2 (c & -> & Hc)%elem_of_list_fmap H2. destruct (keys_in _ _ Hc) as [o Ho]. destruct (W1 _ _ Ho) as (n & -> & Hn).
    step wp_clique_of as [-> H3]; [exact H2|by apply S1|]. apply wp_each_same; [done|].
    intros p h4 Hp H4. destruct (Hn p Hp) as (s & -> & Hs). destruct (keys_in _ _ Hs) as [o Ho']. eapply wp_touch; [exact H4|apply S2; exact Ho']. }
  intros [] h2 H2. apply wp_each_same; [done|].
  intros p h3 (c & -> & Hc)%elem_of_list_fmap H3. destruct (keys_in _ _ Hc) as [o Ho]. destruct (W2 _ _ Ho) as (n & u & -> & Hn).
  step wp_sep_of as [-> H4]; [exact H3|by apply S2|]. cbn [fst]. apply wp_each_same; [done|].
  intros p h5 Hp H5. destruct (Hn p Hp) as (s & -> & Hs). destruct (keys_in _ _ Hs) as [o Ho']. eapply wp_touch; [exact H5|apply S1; exact Ho'].
Qed.

(** ** The engine *)
Definition engine (e l tr cb sb : nat) (cobjs sobjs : list (nat * object)) : list (nat * object) :=
  (e, OEngine (PTo l) (PTo tr) (PTo cb) (PTo sb)) :: (tr, OTree (PTo l) (PTo <$> cobjs.*1) (PTo <$> sobjs.*1)) ::
  (cb, OCopies) :: (sb, OCopies) :: cobjs ++ sobjs.
Lemma wp_new_engine l ns es d v t m k h :
  own m k h -> net_at l ns es ∈ m -> nodes_in ns m -> wired ns es -> linked t -> (exists r a c, (d, ODataset r v a c) ∈ m) ->
  wp (new_engine (PTo l) (PTo d) t)
    (fun p h' => exists e tr cb sb cobjs sobjs, p = PTo e /\ well_linked cobjs sobjs /\ own (engine e l tr cb sb cobjs sobjs ++ m) k h') h.
Proof.
  intros H Hi Hn W Lk (r & a & c & Hd). unfold new_engine.
  step wp_dataset_of as [-> H1]; [exact H|exact Hd|].
  step wp_new as (ti & -> & H2); [exact H1|].
  eapply wp_bind; [eapply wp_touch; [exact H2|inm]|]. intros [] h3 H3.
  step wp_new_tree as (tr & cobjs & sobjs & -> & WL & H4); [exact H3|inm| |exact W|exact Lk|].
  { eapply nodes_sub; [|exact Hn]. intros z Hz. inm. }
  set (T := OTree (PTo l) (PTo <$> cobjs.*1) (PTo <$> sobjs.*1)) in *.
  eapply wp_bind; [eapply wp_walk; [exact H4|inm|exact WL| |]|].
  { intros z Hz. apply elem_of_list_further, elem_of_app. by left. }
  { intros z Hz. apply elem_of_list_further, elem_of_app. right. apply elem_of_app. by left. }
  intros [] h5 H5.
  eapply wp_bind; [apply (wp_repeat _ _ _ _ H5); intros; by apply calm_scratch|]. intros [] h6 H6.
  step wp_new as (cb & -> & H7); [exact H6|]. step wp_new as (sb & -> & H8); [exact H7|].
  eapply wp_bind; [eapply wp_walk; [exact H8|do 2 apply elem_of_list_further; apply elem_of_list_here|exact WL| |]|].
  { intros z Hz. do 3 apply elem_of_list_further. apply elem_of_app. by left. }
  { intros z Hz. do 3 apply elem_of_list_further. apply elem_of_app. right. apply elem_of_app. by left. }
  intros [] h9 H9.
  eapply wp_bind; [eapply wp_touch; [exact H9|inm]|]. intros [] h10 H10.
  eapply wp_bind; [eapply wp_touch; [exact H10|inm]|]. intros [] h11 H11.
  eapply wp_bind; [eapply wp_touch; [exact H11|inm]|]. intros [] h12 H12.
  eapply wp_bind; [eapply (wp_delete_plain _ ti OTimer ((sb, OCopies) :: (cb, OCopies) :: (tr, T) :: cobjs ++ sobjs ++ m)); [exact H12|perm|done|done]|].
  intros [] h13 H13. eapply wp_mono; [eapply wp_new; exact H13|]. intros p h14 (e & -> & H14).
  exists e, tr, cb, sb, cobjs, sobjs. split_and!; [done|done|]. eapply own_perm; [exact H14|]. unfold engine. fold T. perm.
Qed.
Lemma wp_delete_engine e l tr cb sb cobjs sobjs m m' k h :
  own m' k h -> m' ≡ₚ engine e l tr cb sb cobjs sobjs ++ m -> well_linked cobjs sobjs -> wp (delete_engine (PTo e)) (fun _ => own m k) h.
Proof.
  intros H E WL. eapply own_perm in H; [|exact E]. clear E m'. unfold engine in H. unfold delete_engine.
  set (T := OTree (PTo l) (PTo <$> cobjs.*1) (PTo <$> sobjs.*1)) in *. set (O := OEngine (PTo l) (PTo tr) (PTo cb) (PTo sb)) in *.
  step wp_victim as [-> H1]; [exact H|inm|]. unfold O. cbn beta iota. fold O.
  eapply wp_bind; [eapply (wp_delete_tree tr (PTo l) cobjs sobjs ((e, O) :: (cb, OCopies) :: (sb, OCopies) :: m)); [exact H1|fold T; perm|exact WL]|].
  intros [] h2 H2.
  eapply wp_bind; [eapply (wp_delete_array cb OCopies ((e, O) :: (sb, OCopies) :: m)); [exact H2|perm|done]|]. intros [] h3 H3.
  eapply wp_bind; [eapply (wp_delete_array sb OCopies ((e, O) :: m)); [exact H3|perm|done]|]. intros [] h4 H4.
  eapply wp_release; [exact H4|reflexivity].
Qed.

Definition mats (M : list (nat * list nat)) : list (nat * object) := M ≫= (fun al => matrix (fst al) (snd al)).
Definition bare (n : nat) (M : list (nat * list nat)) : list (nat * object) := (fun al => (fst al, OPointers (replicate n PNull))) <$> M.
Lemma calm_level_arrays kk s n : calm (level_arrays kk s n).
Proof.
  intros m k h H. unfold level_arrays.
  step wp_collect_ints as (ls & -> & _ & H1); [exact H|].
  eapply (wp_bind _ _ (fun r h' => exists M, r = PTo <$> M.*1 /\ Forall (fun al => length (snd al) = n) M /\ own (mats M ++ block ls ++ m) k h')).
  { eapply wp_mono.
    - apply (wp_collect _ (fun r h' => exists M, r = PTo <$> M.*1 /\ Forall (fun al => length (snd al) = n) M /\ own (mats M ++ block ls ++ m) k h') _ [] _).
      + exists []. split_and!; [done|constructor|done].
      + intros i bs h2 _ (M & -> & F & H2). eapply wp_mono; [eapply wp_new_rows; exact H2|]. intros p h3 (a & rs & -> & L & H3).
        exists (M ++ [(a, rs)]). split_and!; [by rewrite !fmap_app|apply Forall_app; split; [done|by apply Forall_singleton]|].
        eapply own_perm; [exact H3|]. unfold mats. rewrite bind_app. cbn [mbind list_bind fst snd]. perm.
    - cbn. intros bs h2 [X _]. exact X. }
  intros ? h2 (M & -> & F & H2).
  assert (Hin : forall a rs, (a, rs) ∈ M -> matrix a rs ⊆ mats M ++ block ls ++ m).
  { intros a rs Ha z Hz. apply elem_of_app. left. unfold mats. apply elem_of_list_bind. exists (a, rs). done. }
  eapply wp_bind; [apply (wp_each_same _ (own (mats M ++ block ls ++ m) k)); [exact H2|]|].
  { intros p h3 (a & -> & ([a' rs] & -> & Ha)%elem_of_list_fmap)%elem_of_list_fmap H3. cbn [fst].
    eapply (wp_touch_rows a' rs); [exact H3|apply (Hin a' rs Ha); unfold matrix; inm|]. intros z Hz. apply (Hin a' rs Ha). by apply matrix_rows. }
  intros [] h3 H3.
  eapply wp_bind; [eapply (wp_touch_block ls (mats M ++ m)); [exact H3|perm]|]. intros [] h4 H4.
  eapply (wp_bind _ _ (fun _ => own (bare n M ++ block ls ++ m) k)).
  { clear -H4 F. revert H4. generalize (block ls ++ m) as q. revert h4. induction M as [|[a rs] M IH]; intros h q H; [done|].
    apply Forall_cons in F as [F1 F2]. cbn [fmap list_fmap each fst]. cbn [fst snd] in *.
    eapply wp_bind; [eapply (wp_delete_rows a rs n (mats M ++ q)); [exact H|unfold mats; cbn [mbind list_bind fst snd]; perm|done]|].
    intros [] h1 H1. eapply wp_mono; [eapply (IH F2 _ ((a, OPointers (replicate n PNull)) :: q)); eapply own_perm; [exact H1|perm]|].
    intros [] h2 H2. eapply own_perm; [exact H2|]. unfold bare. cbn [fmap list_fmap fst]. perm. }
  intros [] h5 H5.
  eapply (wp_bind _ _ (fun _ => own (block ls ++ m) k)).
  { clear -H5. revert H5. generalize (block ls ++ m) as q. revert h5. induction M as [|[a rs] M IH]; intros h q H; [done|].
    cbn [fmap list_fmap each fst].
    eapply wp_bind; [eapply (wp_delete_array a (OPointers (replicate n PNull)) (bare n M ++ q)); [exact H|done|done]|].
    intros [] h1 H1. by apply IH. }
  intros [] h6 H6. eapply wp_delete_block; [exact H6|reflexivity].
Qed.
Lemma wp_marginalize m k h : own m k h -> wp marginalize (fun _ => own m (KInts :: k)) h.
Proof.
  intros H. unfold marginalize. step wp_collect_ints as (ls & -> & _ & H1); [exact H|].
  step wp_new_ints as (x & -> & H2); [exact H1|].
  eapply wp_bind; [eapply (wp_touch_block ls ((x, OInts) :: m)); [exact H2|perm]|]. intros [] h3 H3.
  eapply wp_bind; [eapply wp_touch; [exact H3|inm]|]. intros [] h4 H4.
  eapply wp_bind; [eapply (wp_delete_block ls ((x, OInts) :: m)); [exact H4|perm]|]. intros [] h5 H5.
  eapply wp_mono; [eapply wp_touch; [exact H5|inm]|]. intros [] h6 H6. by apply own_forget in H6.
Qed.
Lemma wp_query e l tr cb sb cobjs sobjs ns es ti q m k h :
  own m k h -> engine e l tr cb sb cobjs sobjs ⊆ m -> well_linked cobjs sobjs -> net_at l ns es ∈ m -> nodes_in ns m -> wired ns es -> (ti, OTimer) ∈ m ->
  wp (answer_query (PTo e) (PTo ti) q) (fun _ => own m (replicate (q_marginals q) KInts ++ k)) h.
Proof.
  intros H Se WL Hi Hn W Ht. unfold answer_query.
  eapply (wp_bind _ _ (fun x h' => x = (PTo l, PTo tr, PTo cb, PTo sb) /\ own m k h')).
  { unfold engine_of. step wp_deref as [-> H1]; [exact H|apply Se; unfold engine; inm|]. done. }
  intros ? h1 [-> H1]. cbn beta iota.
  assert (Wk : forall k h, own m k h -> wp (walk (PTo tr)) (fun _ => own m k) h).
  { intros k2 h2 H2. eapply wp_walk; [exact H2|apply Se; unfold engine; apply elem_of_list_further, elem_of_list_here|exact WL| |].
    - intros z Hz. apply Se. unfold engine. do 4 apply elem_of_list_further. apply elem_of_app. by left.
    - intros z Hz. apply Se. unfold engine. do 4 apply elem_of_list_further. apply elem_of_app. by right. }
  eapply wp_bind; [eapply wp_touch; [exact H1|exact Ht]|]. intros [] h2 H2.
  eapply wp_bind; [apply (wp_each_same _ (own m k)); [exact H2|]|].
  { intros n h3 _ H3. eapply wp_bind; [by apply Wk|]. intros [] h4 H4. by apply calm_level_arrays. }
  intros [] h3 H3. eapply wp_bind; [by apply Wk|]. intros [] h4 H4.
  eapply wp_bind; [apply (wp_each_same _ (own m k)); [exact H4|]|].
  { intros n h5 _ H5. eapply wp_bind; [by apply Wk|]. intros [] h6 H6. destruct (fst n); by apply calm_level_arrays. }
  intros [] h5 H5.
  eapply wp_bind; [apply (wp_each_same _ (own m k)); [exact H5|]|].
  { intros n h6 _ H6. eapply wp_bind; [by apply Wk|]. intros [] h7 H7. destruct (fst n); by apply calm_level_arrays. }
  intros [] h6 H6.
  eapply wp_bind; [by eapply wp_use_network|]. intros [] h7 H7.
  eapply (wp_bind _ _ (fun _ => own m (replicate (q_marginals q) KInts ++ k))).
  { clear -H7. revert k h7 H7. induction (q_marginals q) as [|n IH]; intros k h H; [done|].
    cbn [repeat_prog]. eapply wp_bind; [by apply wp_marginalize|]. intros [] h1 H1. eapply wp_mono; [by apply IH|].
    intros [] h2 H2. eapply own_kinds; [exact H2|]. cbn [replicate app]. symmetry. apply Permutation_middle. }
  intros [] h8 H8. eapply wp_bind; [by apply Wk|]. intros [] h9 H9.
  eapply wp_bind; [eapply wp_touch; [exact H9|apply Se; unfold engine; inm]|]. intros [] h10 H10.
  eapply wp_bind; [eapply wp_touch; [exact H10|apply Se; unfold engine; inm]|]. intros [] h11 H11.
  eapply wp_touch; [exact H11|exact Ht].
Qed.
Lemma wp_predict e l tr cb sb cobjs sobjs ns es qs m k h :
  own m k h -> engine e l tr cb sb cobjs sobjs ⊆ m -> well_linked cobjs sobjs -> net_at l ns es ∈ m -> nodes_in ns m -> wired ns es ->
  wp (predict (PTo e) qs) (fun _ => own m (index_arrays qs ++ k)) h.
Proof.
  intros H Se WL Hi Hn W. unfold predict. step wp_new as (ti & -> & H1); [exact H|].
  eapply wp_bind; [eapply wp_touch; [exact H1|inm]|]. intros [] h2 H2.
  eapply (wp_bind _ _ (fun _ => own ((ti, OTimer) :: m) (index_arrays qs ++ k))).
  { assert (Se' : engine e l tr cb sb cobjs sobjs ⊆ (ti, OTimer) :: m) by (intros z Hz; apply elem_of_list_further, Se, Hz).
    assert (Hn' : nodes_in ns ((ti, OTimer) :: m)) by (eapply nodes_sub; [|exact Hn]; intros z Hz; inm).
    clear H H1. revert k h2 H2. induction qs as [|q qs IH]; intros k h2 H2; [done|]. cbn [each].
    eapply wp_bind; [eapply wp_query; [exact H2|exact Se'|exact WL|inm|exact Hn'|exact W|inm]|]. intros [] h3 H3.
    eapply wp_mono; [by apply IH|]. intros [] h4 H4. eapply own_kinds; [exact H4|].
    assert (E : index_arrays (q :: qs) = replicate (q_marginals q) KInts ++ index_arrays qs) by (unfold index_arrays; rewrite <-replicate_add; done).
    rewrite E. perm. }
  intros [] h3 H3. eapply wp_bind; [eapply wp_touch; [exact H3|inm]|]. intros [] h4 H4.
  eapply wp_delete_plain; [exact H4|reflexivity|done|done].
Qed.
