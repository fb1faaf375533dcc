(** The skeleton search, as claimed. *)
From Verif Require Import PCModel PCSpec CellTheorems NetProofs PCProofs PCProofs2 PCProofs3 PCProofs4.
Local Open Scope nat_scope.

Lemma decides_weaken tst ind n gmax : decides tst ind n gmax -> decides_apart tst ind n gmax.
Proof. intros [H1 H2]. split; [auto|]. intros x y c zss Hx Hy Hc Hz. apply (H2 x y c zss); try done. eapply Forall_impl; [exact Hz|]. naive_solver. Qed.
Lemma skeleton_result_apart : forall n depth ind, 1 <= depth -> exists E A S,
  (forall tst gmax g sch, decides_apart tst ind n gmax -> 1 <= g <= gmax -> valid_sched sch ->
     exists F es, (forall fuel, F <= fuel -> skeleton_search tst n depth fuel g sch = Ok (es, A, S)) /\ pe_pair <$> es = E) /\
  NoDup E /\ (forall x y, (x, y) ∈ E <-> x < y /\ stable_skeleton ind n depth x y) /\
  length A = n /\ (forall x row, A !! x = Some row -> StronglySorted lt row /\ forall v, v ∈ row <-> stable_skeleton ind n depth x v).
Proof.
  intros n depth ind Hd. exists (fst (canon ind n depth)), (adj_of n (fst (canon ind n depth))), (snd (canon ind n depth)). split_and!.
  - intros tst gmax g sch Hdec Hg Hs. destruct (skeleton_search_ok tst ind n gmax Hdec g Hg sch Hs depth) as (F & es & H). replace (Nat.max 1 depth) with depth in H by lia. eauto.
  - apply canon_ok.
  - intros x y. apply canon_skeleton.
  - apply adj_of_length.
  - intros x row Hx. assert (x < n) as Hxn by (apply lookup_lt_Some in Hx; by rewrite adj_of_length in Hx). rewrite adj_of_lookup in Hx by done. injection Hx as <-. split; [apply nb_sorted|]. intros v. rewrite elem_of_nb, !canon_skeleton. split.
    + intros [_ [[_ H]|[_ H]]]; [done|by apply skeleton_sym].
    + intros H. destruct (skeleton_range _ _ _ _ _ H) as (_ & Hv & Hne). split; [done|]. destruct (decide (x < v)); [by left|right; split; [lia|by apply skeleton_sym]].
Qed.
Lemma skeleton_result : forall n depth ind, 1 <= depth -> exists E A S,
  (forall tst gmax g sch, decides tst ind n gmax -> 1 <= g <= gmax -> valid_sched sch ->
     exists F es, (forall fuel, F <= fuel -> skeleton_search tst n depth fuel g sch = Ok (es, A, S)) /\ pe_pair <$> es = E) /\
  NoDup E /\ (forall x y, (x, y) ∈ E <-> x < y /\ stable_skeleton ind n depth x y) /\
  length A = n /\ (forall x row, A !! x = Some row -> StronglySorted lt row /\ forall v, v ∈ row <-> stable_skeleton ind n depth x v).
Proof.
  intros n depth ind Hd. destruct (skeleton_result_apart n depth ind Hd) as (E & A & S & H & Hrest). exists E, A, S. split; [|exact Hrest]. intros tst gmax g sch Hdec. apply (H tst gmax g sch), decides_weaken, Hdec.
Qed.
Lemma separating_sets : forall tst ind n gmax depth g sch, decides tst ind n gmax -> 1 <= g <= gmax -> valid_sched sch -> 1 <= depth ->
  exists F es A S, (forall fuel, F <= fuel -> skeleton_search tst n depth fuel g sch = Ok (es, A, S)) /\
  (forall x y row, x < y -> y < n -> A !! x = Some row -> y ∉ row <-> is_Some (S !! (x, y))) /\
  (forall x y s, S !! (x, y) = Some s -> x < y /\ y < n /\ ind x y s = true /\ x ∉ s /\ y ∉ s /\ StronglySorted lt s /\
     stable_skeleton ind n (length s) x y /\ ~ stable_skeleton ind n (1 + length s) x y).
Proof.
  intros tst ind n gmax depth g sch Hdec Hg Hs Hd. apply decides_weaken in Hdec. destruct (skeleton_search_ok tst ind n gmax Hdec g Hg sch Hs depth) as (F & es & H & _). replace (Nat.max 1 depth) with depth in H by lia. eexists F, es, _, _. split; [exact H|]. split.
  - intros x y row Hxy Hy Hx. rewrite adj_of_lookup in Hx by lia. injection Hx as <-. rewrite canon_recorded by done. rewrite elem_of_nb, !canon_skeleton. split; [intros Hn Hk; apply Hn; tauto|]. intros Hn [_ [[_ Hk]|[Hk _]]]; [done|lia].
  - intros x y s Hk. apply canon_sepsets in Hk as (H1 & H2 & k & _ & Hin & Hout & Hsort & Hl & Hi & Hor). subst k. split_and!; try done.
    + intros Hx. destruct Hor as [Hor|Hor]; destruct (Hor x Hx) as [Hk Hne]; [apply skeleton_range in Hk; tauto|done].
    + intros Hx. destruct Hor as [Hor|Hor]; destruct (Hor y Hx) as [Hk Hne]; [done|apply skeleton_range in Hk; tauto].
Qed.
(** The G-square test is such a test function. *)
Lemma gsquare_decides : forall accept D ds, tabulated D ds -> (forall ts, Forall balanced ts -> accept ts 0 = true) ->
  decides (independence_result accept D ds) (decision accept D ds) (length ds) 8.
Proof.
  intros accept D ds HD Ha. split.
  - intros x y Hx Hy. destruct (lookup_lt_is_Some_2 ds x Hx) as [dx Hdx], (lookup_lt_is_Some_2 ds y Hy) as [dy Hdy]. destruct (single_decision D ds HD x y dx dy Hdx Hdy accept [] 1 ltac:(constructor) ltac:(lia)) as (f & Hf & _). eauto.
  - intros x y c zss Hx Hy Hc Hu Hg. assert (Forall (fun zs => length zs = c) zss) as Hl by (eapply Forall_impl; [exact Hu|]; naive_solver). assert (Forall (Forall (fun v => v < length ds)) zss) as Hk by (eapply Forall_impl; [exact Hu|]; naive_solver).
    destruct (decide (1 < length zss)) as [H1|H1].
    + rewrite (group_as_single D ds x y accept c zss) by (done || lia). unfold group_result. destruct (first_true _); [done|by eexists].
    + destruct zss as [|zs [|]]; cbn in Hg, H1; try lia. cbn [concat app length fmap list_fmap first_true]. rewrite app_nil_r. inversion_clear Hk as [|? ? Hz _]. inversion_clear Hl as [|? ? Hz' _].
      destruct (lookup_lt_is_Some_2 ds x Hx) as [dx Hdx], (lookup_lt_is_Some_2 ds y Hy) as [dy Hdy]. destruct (single_decision D ds HD x y dx dy Hdx Hdy accept zs 1 Hz ltac:(lia)) as (f & -> & Hf). rewrite Hf by (intros ->; cbn in Hz'; lia). destruct (decision accept D ds x y zs); [done|by eexists].
Qed.
Lemma gsquare_decides_alone : forall accept D ds, tabulated D ds -> decides (independence_result accept D ds) (decision accept D ds) (length ds) 1.
Proof.
  intros accept D ds HD. split.
  - intros x y Hx Hy. destruct (lookup_lt_is_Some_2 ds x Hx) as [dx Hdx], (lookup_lt_is_Some_2 ds y Hy) as [dy Hdy]. destruct (single_decision D ds HD x y dx dy Hdx Hdy accept [] 1 ltac:(constructor) ltac:(lia)) as (f & Hf & _). eauto.
  - intros x y c zss Hx Hy Hc Hu Hg. destruct zss as [|zs [|]]; cbn in Hg; try lia. cbn [concat app length fmap list_fmap first_true]. rewrite app_nil_r. inversion_clear Hu as [|? ? [Hl Hz] _].
    destruct (lookup_lt_is_Some_2 ds x Hx) as [dx Hdx], (lookup_lt_is_Some_2 ds y Hy) as [dy Hdy]. destruct (single_decision D ds HD x y dx dy Hdx Hdy accept zs 1 Hz ltac:(lia)) as (f & -> & Hf). rewrite Hf by (intros ->; cbn in Hl; lia). destruct (decision accept D ds x y zs); [done|by eexists].
Qed.
(** Every pair of iterations writes the counter. *)
Lemma counter_race : forall tst ind n gmax, decides tst ind n gmax -> 3 <= n -> level_zero_race tst n CounterCell.
Proof.
  intros tst ind n gmax [Hz _] Hn. destruct (Hz 0 1 ltac:(lia) ltac:(lia)) as [f1 H1]. destruct (Hz 0 2 ltac:(lia) ltac:(lia)) as [f2 H2]. eexists (0, 1), (0, 2), _, _. cbn [fst snd]. split_and!; try lia; [done|unfold shared_writes; cbn [pe_n1 pe_n2 new_pedge fst snd]; rewrite H1; done|unfold shared_writes; cbn [pe_n1 pe_n2 new_pedge fst snd]; rewrite H2; done|left|left].
Qed.
Lemma sepset_race : forall tst ind n gmax, decides tst ind n gmax -> forall x y u v, x < y -> y < n -> u < v -> v < n -> (x, y) <> (u, v) -> ind x y [] = true -> ind u v [] = true -> level_zero_race tst n SepsetMap.
Proof.
  intros tst ind n gmax [Hz _] x y u v H1 H2 H3 H4 Hne Hxy Huv. destruct (Hz x y ltac:(lia) ltac:(lia)) as [f1 E1]. destruct (Hz u v ltac:(lia) ltac:(lia)) as [f2 E2]. eexists (x, y), (u, v), _, _. cbn [fst snd].
  split_and!; try done; [unfold shared_writes; cbn [pe_n1 pe_n2 new_pedge fst snd]; rewrite E1; done|unfold shared_writes; cbn [pe_n1 pe_n2 new_pedge fst snd]; rewrite E2; done|rewrite Hxy; right; left|rewrite Huv; right; left].
Qed.
