(** One edge at one depth: the search finds the first separating set, whatever the group size. *)
From Verif Require Import PCModel PCSpec ChoiceProofs.
Local Open Scope nat_scope.

Definition pick (A ch : list nat) : list nat := (fun i => default 0 (A !! i)) <$> ch.
(** The subsets of [A] of size [c] in the order of the search. *)
Definition choose (A : list nat) (c : nat) : list (list nat) := pick A <$> combs (length A) 0 c.
Fixpoint first_sep (ind : list nat -> bool) (L : list (list nat)) : option (list nat) :=
  match L with [] => None | s :: L => if ind s then Some s else first_sep ind L end.
Lemma first_sep_app ind L1 L2 : first_sep ind (L1 ++ L2) = match first_sep ind L1 with Some s => Some s | None => first_sep ind L2 end.
Proof. induction L1 as [|s L1 IH]; cbn; [done|]. by destruct (ind s). Qed.
Lemma first_sep_true ind L : match first_true (ind <$> L) with Some i => exists s, L !! i = Some s /\ first_sep ind L = Some s | None => first_sep ind L = None end.
Proof.
  induction L as [|s L IH]; cbn; [done|]. destruct (ind s) eqn:E; [by exists s|]. change (list_fmap (list nat) bool ind L) with (ind <$> L). destruct (first_true (ind <$> L)); cbn; done.
Qed.
Lemma sins_fold S : StronglySorted lt S -> foldl (fun s v => sins v s) [] S = S.
Proof.
  assert (forall pre, StronglySorted lt (pre ++ S) -> foldl (fun s v => sins v s) pre S = pre ++ S) as H; [|intros Hs; by apply (H [])].
  assert (forall v l, Forall (fun u => u < v) l -> sins v l = l ++ [v]) as Hi. { induction 1 as [|u l Hu _ IH]; [done|]. cbn. rewrite !bool_decide_false by lia. by rewrite IH. }
  induction S as [|v S IH]; intros pre Hs; cbn; [by rewrite app_nil_r|]. rewrite Hi.
  - rewrite IH; [by rewrite <-app_assoc|by rewrite <-app_assoc].
  - clear IH Hi. induction pre as [|u pre IH]; [constructor|]. cbn in Hs. apply StronglySorted_inv in Hs as [Hs Hu]. constructor; [|by apply IH]. rewrite Forall_forall in Hu. apply Hu. apply elem_of_app. right. left.
Qed.
Lemma pick_sorted A ch : StronglySorted lt A -> StronglySorted lt ch -> Forall (fun i => i < length A) ch -> StronglySorted lt (pick A ch).
Proof.
  intros HA Hch Hl. induction Hch as [|i ch Hch IH Hi]; [constructor|]. inversion_clear Hl as [|? ? Hil Hl']. cbn. constructor; [by apply IH|]. apply Forall_fmap, Forall_forall. intros j Hj. cbn.
  rewrite Forall_forall in Hi, Hl'. specialize (Hi j Hj). specialize (Hl' j Hj). cbn in *. destruct (lookup_lt_is_Some_2 A i Hil) as [a Ha], (lookup_lt_is_Some_2 A j Hl') as [b Hb]. rewrite Ha, Hb. cbn.
  clear -HA Hi Ha Hb. revert i j Ha Hb Hi. induction HA as [|u A HA IH Hu]; intros i j Ha Hb Hi; [done|]. destruct i as [|i], j as [|j]; cbn in *; try lia.
  - injection Ha as ->. rewrite Forall_forall in Hu. apply Hu. by eapply elem_of_list_lookup_2.
  - eapply IH; [done|done|lia].
Qed.
Lemma elem_of_pick A ch v : Forall (fun i => i < length A) ch -> v ∈ pick A ch -> v ∈ A.
Proof. intros Hl Hv. apply elem_of_list_fmap in Hv as (i & -> & Hi). rewrite Forall_forall in Hl. destruct (lookup_lt_is_Some_2 A i (Hl i Hi)) as [a Ha]. rewrite Ha. by eapply elem_of_list_lookup_2. Qed.
(** The subsets found by the search are the increasing lists of [c] elements of [A]. *)
Lemma elem_of_choose A c S : StronglySorted lt A -> S ∈ choose A c <-> StronglySorted lt S /\ length S = c /\ forall v, v ∈ S -> v ∈ A.
Proof.
  intros HA. unfold choose. rewrite elem_of_list_fmap. split.
  - intros (ch & -> & Hch). apply elem_of_combs in Hch as (Hl & Hs & Hr). assert (Forall (fun i => i < length A) ch) as Hr' by (eapply Forall_impl; [exact Hr|]; cbn; lia).
    split_and!; [by apply pick_sorted|unfold pick; by rewrite fmap_length|]. intros v. by apply elem_of_pick.
  - intros (Hs & Hl & Hv).
    assert (forall v, v ∈ A -> exists i, A !! i = Some v) as HL by (intros v Hin; by apply elem_of_list_lookup).
    assert (exists ch, S = pick A ch /\ Forall (fun i => i < length A) ch /\ Forall2 (fun i v => A !! i = Some v) ch S) as (ch & -> & Hr & H2).
    { clear Hl Hs. induction S as [|v S IH]; [by exists []|]. destruct IH as (ch & -> & Hr & H2); [intros; apply Hv; by right|]. destruct (HL v) as [i Hi]; [apply Hv; left|]. exists (i :: ch). cbn. rewrite Hi. split_and!; [done|constructor; [by eapply lookup_lt_Some|done]|by constructor]. }
    exists ch. split; [done|]. unfold pick in Hl. rewrite fmap_length in Hl. apply elem_of_combs. split_and!; [done| |eapply Forall_impl; [exact Hr|]; cbn; lia].
    clear -HA Hs H2. remember (pick A ch) as S eqn:E. clear E. induction H2 as [|i v ch S Hi H2 IH]; [constructor|]. apply StronglySorted_inv in Hs as [Hs Hv]. constructor; [by apply IH|]. apply Forall_forall. intros j Hj.
    apply elem_of_list_lookup in Hj as [k Hk]. destruct (Forall2_lookup_l _ _ _ _ _ H2 Hk) as (w & Hw & Hjw). rewrite Forall_forall in Hv. specialize (Hv w (elem_of_list_lookup_2 _ _ _ Hw)).
    clear -HA Hi Hjw Hv. destruct (decide (i < j)) as [|Hn]; [done|]. exfalso. assert (w <= v); [|lia]. clear Hv. revert i j Hi Hjw Hn. induction HA as [|u A HA IH Hu]; intros i j Hi Hj Hn; [done|]. destruct i as [|i], j as [|j]; cbn in *; try lia.
    + injection Hi as ->. injection Hj as ->. done.
    + injection Hj as ->. rewrite Forall_forall in Hu. specialize (Hu v (elem_of_list_lookup_2 _ _ _ Hi)). lia.
    + eapply IH; [done|done|lia].
Qed.
Lemma choose_none A c : length A < c -> choose A c = [].
Proof. intros H. unfold choose. by rewrite combs_empty. Qed.
Lemma chosen_ok A c ch : ch ∈ combs (length A) 0 c -> chosen A c (Z.of_nat <$> ch) = Ok (pick A ch).
Proof.
  intros H. apply elem_of_combs in H as (Hl & _ & Hr). unfold chosen. rewrite (mcollect_ok _ _ (fun j => default 0 (pick A ch !! j))).
  - f_equal. apply list_eq. intros j. rewrite list_lookup_fmap. destruct (decide (j < c)) as [Hj|Hj].
    + rewrite lookup_seq_lt by done. cbn. destruct (lookup_lt_is_Some_2 (pick A ch) j) as [v Hv]; [unfold pick; rewrite fmap_length; lia|]. by rewrite Hv.
    + rewrite lookup_seq_ge by lia. symmetry. apply lookup_ge_None_2. unfold pick. rewrite fmap_length. lia.
  - intros j Hj. apply elem_of_seq in Hj. destruct (lookup_lt_is_Some_2 ch j) as [i Hi]; [lia|]. rewrite (vget_ok _ _ (Z.of_nat i)) by (by rewrite list_lookup_fmap, Hi). cbn [mbind outcome_bind].
    unfold zat. rewrite bool_decide_false by lia. rewrite Nat2Z.id. rewrite Forall_forall in Hr. specialize (Hr i (elem_of_list_lookup_2 _ _ _ Hi)). destruct (lookup_lt_is_Some_2 A i) as [a Ha]; [lia|].
    rewrite (vget_ok _ _ _ Ha). unfold pick. rewrite list_lookup_fmap, Hi. cbn. by rewrite Ha.
Qed.

(** ** The choice generator between two calls *)
Definition cg_at (A : list nat) (c g k : nat) (s : cgen) : Prop := exists g0 l, cgen_init (Z.of_nat (length A)) (Z.of_nat c) = Ok g0 /\ calls (cgen_nextn g) k g0 = Ok (s, l).
Definition chunk {X} (g k : nat) (L : list X) : list X := take g (drop (k * g) L).
Lemma cg_at_start A c g : 0 < c <= length A -> exists g0, cgen_init (Z.of_nat (length A)) (Z.of_nat c) = Ok g0 /\ cg_at A c g 0 g0.
Proof. intros H. destruct (choice_groups (length A) c g 0 H) as (g0 & g' & H0 & _). exists g0. split; [done|]. by exists g0, []. Qed.
Lemma cg_at_next A c g k s : 0 < c <= length A -> cg_at A c g k s ->
  exists s', cgen_nextn g s = Ok (s', ((fun ch : list nat => (Z.of_nat <$> ch : list Z)) <$> chunk g k (combs (length A) 0 c)) ++ replicate (g - length (chunk g k (combs (length A) 0 c))) []) /\ cg_at A c g (S k) s'.
Proof.
  intros Hc (g0 & l & H0 & Hk). destruct (choice_groups (length A) c g (S k) Hc) as (g0' & s' & H0' & Hk'). rewrite H0 in H0'. injection H0' as <-. exists s'. split; [|by eexists g0, _].
  replace (S k) with (k + 1) in Hk' by lia. apply calls_app in Hk' as (s1 & l1 & l2 & Hc1 & Hc2 & Hl). rewrite Hk in Hc1. injection Hc1 as <- <-. pose proof (calls_length _ _ _ _ _ Hk) as Hlen. cbn [calls] in Hc2.
  destruct (cgen_nextn g s) as [[s2 r]|]; [|done]. cbn in Hc2. injection Hc2 as -> <-. f_equal. f_equal. rewrite seq_app, fmap_app in Hl. apply app_inj_1 in Hl as [_ Hl]; [|by rewrite fmap_length, seq_length]. cbn in Hl. injection Hl as Hr. rewrite <-Hr. clear.
  set (L := combs (length A) 0 c). apply list_eq. intros j. unfold chunk. rewrite list_lookup_fmap. destruct (decide (j < g)) as [Hj|Hj].
  - rewrite lookup_seq_lt by done. cbn [fmap option_fmap option_map Nat.add]. rewrite <-lookup_drop. destruct (drop (k * g) L !! j) as [ch|] eqn:E.
    + rewrite lookup_app_l by (rewrite fmap_length, take_length; apply lookup_lt_Some in E; lia). rewrite list_lookup_fmap, lookup_take by done. by rewrite E.
    + apply lookup_ge_None in E. rewrite lookup_app_r by (rewrite fmap_length, take_length; lia). rewrite fmap_length, take_length. rewrite lookup_replicate_2; [done|lia].
  - rewrite lookup_seq_ge by lia. symmetry. apply lookup_ge_None_2. rewrite app_length, fmap_length, replicate_length, take_length. lia.
Qed.
Lemma collect_z_ok A c chs m : 0 < c -> Forall (fun ch => ch ∈ combs (length A) 0 c) chs -> collect_z A c (((fun ch : list nat => (Z.of_nat <$> ch : list Z)) <$> chs) ++ replicate m []) = Ok (concat (pick A <$> chs), length chs).
Proof.
  intros Hc. induction 1 as [|ch chs Hch _ IH]; [by destruct m|]. cbn [fmap list_fmap app collect_z]. rewrite bool_decide_false.
  - rewrite chosen_ok by done. cbn [mbind outcome_bind]. rewrite IH. done.
  - intros E. apply elem_of_combs in Hch as (Hl & _ & _). destruct ch; [cbn in Hl; lia|done].
Qed.

Lemma lt_nodup (l : list nat) : StronglySorted lt l -> NoDup l.
Proof. induction 1 as [|v l _ IH Hv]; constructor; [|done]. intros Hin. rewrite Forall_forall in Hv. apply Hv in Hin. lia. Qed.
Section edge.
Context (tst : nat -> nat -> list nat -> nat -> outcome ci_result) (ind : nat -> nat -> list nat -> bool) (n gmax : nat) (Hdec : decides_apart tst ind n gmax).
Context (adj : adjs) (c g : nat) (Hc : 0 < c) (Hg : 0 < g <= gmax).
Context (x y : nat) (Hx : x < n) (Hy : y < n) (Hxy : x <> y).
Notation good A := (StronglySorted lt A /\ Forall (fun v => v < n /\ v <> x /\ v <> y) A).
Set Default Proof Using "All".
Lemma testing_ok A k s e : good A -> c <= length A -> pe_pair e = (x, y) -> pe_adj e = A -> pe_cg e = Some s -> cg_at A c g k s ->
  exists s', cg_at A c g (S k) s' /\
  match first_sep (ind x y) (chunk g k (choose A c)) with
  | Some zs0 => testing tst c g e = Ok (with_cg e (Some s'), Some zs0)
  | None => testing tst c g e = Ok (with_finish (with_cg e (Some s')) (negb (bool_decide (length (chunk g k (choose A c)) = g))), None)
  end.
Proof.
  intros [Hs Hb] Hlen Hp HA Hcg Hat. destruct (cg_at_next A c g k s ltac:(lia) Hat) as (s' & Hn & Hat'). exists s'. split; [done|]. unfold testing. rewrite Hcg, Hn. cbn [mbind outcome_bind].
  set (chs := chunk g k (combs (length A) 0 c)) in *. assert (chunk g k (choose A c) = pick A <$> chs) as -> by (unfold chs, chunk, choose; by rewrite <-fmap_drop, <-fmap_take).
  assert (Forall (fun ch => ch ∈ combs (length A) 0 c) chs) as Hin. { apply Forall_forall. intros ch Hch. unfold chs, chunk in Hch. rewrite <-(take_drop (k * g) (combs (length A) 0 c)), <-(take_drop g (drop (k * g) (combs (length A) 0 c))). apply elem_of_app. right. apply elem_of_app. by left. }
  assert (length chs <= g) as Hle by (unfold chs, chunk; rewrite take_length; lia).
  injection Hp as H1 H2. rewrite fmap_length. change (pe_adj (with_cg e (Some s'))) with (pe_adj e). change (pe_n1 (with_cg e (Some s'))) with (pe_n1 e). change (pe_n2 (with_cg e (Some s'))) with (pe_n2 e). rewrite HA, H1, H2.
  destruct chs as [|ch chs'] eqn:Ech.
  - cbn [fmap list_fmap app length]. rewrite Nat.sub_0_r. rewrite (vget_ok _ 0 []) by (apply lookup_replicate; split; [done|lia]). cbn [mbind outcome_bind first_sep]. rewrite bool_decide_true by done. by rewrite bool_decide_false by lia.
  - rewrite <-Ech in *. rewrite (vget_ok _ 0 (Z.of_nat <$> ch)) by (by rewrite Ech). cbn [mbind outcome_bind]. rewrite bool_decide_false.
    2:{ rewrite Ech in Hin. inversion_clear Hin as [|? ? Hch _]. apply elem_of_combs in Hch as (Hl & _ & _). destruct ch; [cbn in Hl; lia|done]. }
    rewrite collect_z_ok by done. cbn [mbind outcome_bind].
    assert (Forall (fun zs0 => length zs0 = c /\ Forall (fun v => v < n /\ v <> x /\ v <> y) zs0 /\ StronglySorted lt zs0) (pick A <$> chs)) as HS.
    { apply Forall_fmap. eapply Forall_impl; [exact Hin|]. intros ch' Hch'. unfold compose. assert (pick A ch' ∈ choose A c) as Hc' by (by apply elem_of_list_fmap_1). apply elem_of_choose in Hc' as (Hs' & Hl' & Hv'); [|done]. split_and!; [done| |done].
      rewrite Forall_forall in *. intros v Hv. apply Hb, Hv', Hv. }
    destruct Hdec as [_ Hgrp]. specialize (Hgrp x y c (pick A <$> chs) Hx Hy Hc). rewrite fmap_length in Hgrp. assert (Forall (fun s => length s = c /\ Forall (fun v => v < n) s /\ NoDup (x :: y :: s)) (pick A <$> chs)) as HS2.
    { eapply Forall_impl; [exact HS|]. intros s0 (Hl0 & Hb0 & Hs0). rewrite Forall_forall in Hb0. split_and!; [done|apply Forall_forall; intros v Hv; by apply Hb0|]. repeat apply NoDup_cons_2; [rewrite elem_of_cons; intros [E|E]; [done|by apply Hb0 in E as (_ & E & _)]|intros E; by apply Hb0 in E as (_ & _ & E)|by apply lt_nodup]. }
    specialize (Hgrp HS2 ltac:(rewrite Ech in *; cbn in *; lia)).
    pose proof (first_sep_true (ind x y) (pick A <$> chs)) as Hf. destruct (first_true (ind x y <$> (pick A <$> chs))) as [i|].
    + rewrite Hgrp. cbn [mbind outcome_bind ci_indep ci_first]. destruct Hf as (zs0 & HiS & ->). unfold zat. rewrite bool_decide_false by lia. rewrite Nat2Z.id. rewrite list_lookup_fmap in HiS. destruct (chs !! i) as [chi|] eqn:Ei; [|done]. cbn in HiS. injection HiS as <-.
      rewrite (vget_ok _ i (Z.of_nat <$> chi)) by (rewrite lookup_app_l by (rewrite fmap_length; by eapply lookup_lt_Some); by rewrite list_lookup_fmap, Ei). cbn [mbind outcome_bind]. rewrite Forall_lookup in Hin. rewrite chosen_ok by (by eapply Hin). cbn [mbind outcome_bind].
      rewrite sins_fold; [done|]. rewrite Forall_lookup in HS. apply (HS i). by rewrite list_lookup_fmap, Ei.
    + destruct Hgrp as [f ->]. cbn [mbind outcome_bind ci_indep]. by rewrite Hf.
Qed.

Notation o3 := (outcome (pedge * bool * option (list nat))).
(** [o] is the outcome of the first of [m] calls of [CheckEdge] that handle an edge. *)
Inductive finishes : nat -> o3 -> pedge -> option (list nat) -> Prop :=
| fin_last e' ins : finishes 1 (Ok (e', false, ins)) e' ins
| fin_more m e1 e' ins : pe_pair e1 = pe_pair e' -> finishes m (check_edge tst adj c g e1) e' ins -> finishes (S m) (Ok (e1, true, None)) e' ins.
Definition handled (o : o3) (ins : option (list nat)) : Prop :=
  exists m e', finishes m o e' ins /\ pe_pair e' = (x, y) /\ pe_remove e' = bool_decide (is_Some ins).
Lemma chunk_rest {X} (L : list X) k : drop (k * g) L = chunk g k L ++ drop (S k * g) L.
Proof. clear. unfold chunk. replace (S k * g) with (k * g + g) by lia. rewrite <-drop_drop. by rewrite take_drop. Qed.
Lemma chunk_short {X} (L : list X) k : length (chunk g k L) <> g -> drop (S k * g) L = [].
Proof. clear. unfold chunk. rewrite take_length, drop_length. intros H. apply drop_ge. lia. Qed.
Lemma chunk_full {X} (L : list X) k : length (chunk g k L) = g -> S k * g <= length L.
Proof. clear -Hg. unfold chunk. rewrite take_length, drop_length. intros H. lia. Qed.
Lemma node2_handled A m : good A -> c <= length A -> forall k s e, length (choose A c) - k * g < m -> pe_process e = PNode2 -> pe_pair e = (x, y) -> pe_adj e = A -> pe_cg e = Some s -> cg_at A c g k s ->
  handled (check_tests tst c g e) (first_sep (ind x y) (drop (k * g) (choose A c))).
Proof.
  intros HA Hl. induction m as [|m IH]; intros k s e Hm Hpr Hp Ha Hcg Hat; [lia|]. unfold check_tests. destruct (testing_ok A k s e HA Hl Hp Ha Hcg Hat) as (s' & Hat' & Ht). rewrite (chunk_rest (choose A c) k), first_sep_app.
  destruct (first_sep (ind x y) (chunk g k (choose A c))) as [zs0|].
  - rewrite Ht. cbn [mbind outcome_bind]. eexists 1, _. split; [constructor|]. split; [done|]. by rewrite bool_decide_true.
  - rewrite Ht. cbn [mbind outcome_bind pe_finish with_finish]. case_bool_decide as Hf; cbn [negb].
    + pose proof (chunk_full _ _ Hf) as Hfull. destruct (IH (S k) s' (with_finish (with_cg e (Some s')) false)) as (m' & e' & Hfin & Hp' & Hr'); try done; [lia|].
      exists (S m'), e'. split; [|done]. constructor; [by rewrite Hp'|]. unfold check_edge. cbn [pe_process with_finish with_cg]. rewrite Hpr. exact Hfin.
    + cbn [pe_process with_finish with_cg]. rewrite Hpr. rewrite (chunk_short _ _ Hf). cbn [first_sep]. eexists 1, _. split; [apply fin_last|]. done.
Qed.
Context (row1 row2 : list nat) (Hrow1 : adj !! x = Some row1) (Hrow2 : adj !! y = Some row2).
Notation A1 := (serase y row1).
Notation A2 := (serase x row2).
Context (HA1 : good A1) (HA2 : good A2).
Lemma start_node_ok A p e : c <= length A -> exists s, cg_at A c g 0 s /\ start_node A c p e = Ok (with_process (with_cg (with_adj e A) (Some s)) p).
Proof. intros H. destruct (cg_at_start A c g ltac:(lia)) as (s & Hs & Hat). exists s. split; [done|]. unfold start_node. by rewrite Hs. Qed.
Lemma second_handled e : pe_process e = PENode1 -> pe_pair e = (x, y) -> handled (check_edge tst adj c g e) (first_sep (ind x y) (choose A2 c)).
Proof.
  intros Hpr Hp. unfold check_edge. rewrite Hpr. injection Hp as H1 H2. unfold find_adjacencies, vat. rewrite H1, H2, Hrow2. cbn [mbind outcome_bind]. case_bool_decide as Hl.
  - destruct (start_node_ok A2 PNode2 e Hl) as (s & Hat & ->). cbn [mbind outcome_bind]. change (choose A2 c) with (drop (0 * g) (choose A2 c)). eapply node2_handled; [done|done|apply Nat.lt_succ_diag_r|done| |done|done|done]. unfold pe_pair. cbn. by rewrite H1, H2.
  - rewrite choose_none by lia. eexists 1, _. split; [constructor|]. split; [unfold pe_pair; cbn; by rewrite H1, H2|done].
Qed.
Lemma node1_handled m : c <= length A1 -> forall k s e, length (choose A1 c) - k * g < m -> pe_process e = PNode1 -> pe_pair e = (x, y) -> pe_adj e = A1 -> pe_cg e = Some s -> cg_at A1 c g k s ->
  handled (check_tests tst c g e) (first_sep (ind x y) (drop (k * g) (choose A1 c) ++ choose A2 c)).
Proof.
  intros Hl. induction m as [|m IH]; intros k s e Hm Hpr Hp Ha Hcg Hat; [lia|]. unfold check_tests. destruct (testing_ok A1 k s e HA1 Hl Hp Ha Hcg Hat) as (s' & Hat' & Ht). rewrite (chunk_rest (choose A1 c) k), <-app_assoc, first_sep_app.
  destruct (first_sep (ind x y) (chunk g k (choose A1 c))) as [zs0|].
  - rewrite Ht. cbn [mbind outcome_bind]. eexists 1, _. split; [constructor|]. split; [done|]. by rewrite bool_decide_true.
  - rewrite Ht. cbn [mbind outcome_bind pe_finish with_finish]. case_bool_decide as Hf; cbn [negb].
    + pose proof (chunk_full _ _ Hf) as Hfull. destruct (IH (S k) s' (with_finish (with_cg e (Some s')) false)) as (m' & e' & Hfin & Hp' & Hr'); try done; [lia|].
      exists (S m'), e'. split; [|done]. constructor; [by rewrite Hp'|]. unfold check_edge. cbn [pe_process with_finish with_cg]. rewrite Hpr. exact Hfin.
    + cbn [pe_process with_finish with_cg]. rewrite Hpr. rewrite bool_decide_true by done. rewrite (chunk_short _ _ Hf). cbn [app].
      destruct (second_handled (with_process (with_cg (with_finish (with_cg e (Some s')) true) None) PENode1)) as (m' & e' & Hfin & Hp' & Hr'); [done|done|]. exists (S m'), e'. split; [|done]. constructor; [by rewrite Hp'|done].
Qed.
(** A whole edge. *)
Lemma edge_handled e : pe_process e = PNo -> pe_pair e = (x, y) -> handled (check_edge tst adj c g e) (first_sep (ind x y) (choose A1 c ++ choose A2 c)).
Proof.
  intros Hpr Hp. unfold check_edge. rewrite Hpr. pose proof Hp as Hp'. injection Hp' as H1 H2. unfold find_adjacencies, vat. rewrite H1, H2, Hrow1, Hrow2. cbn [mbind outcome_bind]. case_bool_decide as Hl.
  - destruct (start_node_ok A1 PNode1 e Hl) as (s & Hat & ->). cbn [mbind outcome_bind]. change (choose A1 c ++ choose A2 c) with (drop (0 * g) (choose A1 c) ++ choose A2 c). eapply node1_handled; [done|apply Nat.lt_succ_diag_r|done|done|done|done|done].
  - rewrite (choose_none A1) by lia. cbn [app].
    case_bool_decide as Hl2.
    + destruct (start_node_ok A2 PNode2 e Hl2) as (s & Hat & Hs). rewrite Hs. cbn [mbind outcome_bind]. change (choose A2 c) with (drop (0 * g) (choose A2 c)). eapply node2_handled; [done|done|apply Nat.lt_succ_diag_r|done|done|done|done|done].
    + rewrite choose_none by lia. eexists 1, _. split; [constructor|]. done.
Qed.
End edge.
