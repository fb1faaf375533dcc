(** Collecting and distributing in exact and in rounded arithmetic: how the counts add up over the tree. *)
From Coq Require Import Field QArith.
From Verif Require Import RoundModel RoundSpec ParProofs PassProofs EvidenceProofs BeliefSpec FlowProofs RoundProofs RoundTables RoundState RoundLevels TableSpec TableProofs.
From Verif Require LevelProofs.

Local Instance link_eq : EqDecision link.
Proof. solve_decision. Defined.

(** ** Weights on a tree *)
Lemma sum_filter_split {A} (f : A -> nat) (P : A -> Prop) `{!forall x, Decision (P x)} l : sum_list_with f (filter P l) <= sum_list_with f l.
Proof. induction l as [|x l IH]; [done|]. rewrite filter_cons. case_decide; cbn; lia. Qed.
Lemma sum_groups {A} (f : A -> nat) (g : A -> nat) (R : list nat) l : NoDup R ->
  sum_list_with (fun q => sum_list_with f (filter (fun x => g x = q) l)) R <= sum_list_with f l.
Proof.
  revert l. induction R as [|q R IH]; intros l Hn; [cbn; lia|]. apply NoDup_cons in Hn as [Hq Hn]. cbn [sum_list_with].
  assert (sum_list_with f l = sum_list_with f (filter (fun x => g x = q) l) + sum_list_with f (filter (fun x => g x <> q) l)) as ->.
  { clear. induction l as [|x l IH]; [done|]. rewrite !filter_cons. destruct (decide (g x = q)) as [H|H].
    - rewrite decide_False by (intros H'; by apply H'). cbn. lia.
    - rewrite decide_True by done. cbn. lia. }
  specialize (IH (filter (fun x => g x <> q) l) Hn). 
  assert (forall S, q ∉ S -> sum_list_with (fun q' => sum_list_with f (filter (fun x => g x = q') l)) S = sum_list_with (fun q' => sum_list_with f (filter (fun x => g x = q') (filter (fun x => g x <> q) l))) S) as E.
  { induction S as [|q' S IHS]; intros HS; [done|]. cbn. rewrite IHS by (intros ?; apply HS; by right). f_equal. rewrite list_filter_filter. f_equal.
    apply list_filter_iff. intros x. split; [|by intros [? _]]. intros Hx. split; [done|]. intros Heq. apply HS. rewrite <-Heq, Hx. left. }
  rewrite (E R Hq). lia.
Qed.
Lemma sum_member {A} (f : A -> nat) l x : x ∈ l -> f x <= sum_list_with f l.
Proof. induction 1; cbn; lia. Qed.
Lemma sum_weaken {A} (f g : A -> nat) l : (forall x, x ∈ l -> f x <= g x) -> sum_list_with f l <= sum_list_with g l.
Proof. induction l as [|x l IH]; intros H; [done|]. cbn. specialize (H x) as Hx. specialize (IH (fun y Hy => H y (elem_of_list_further _ _ _ Hy))). specialize (Hx (elem_of_list_here _ _)). lia. Qed.
Lemma sum_app {A} (f : A -> nat) l l' : sum_list_with f (l ++ l') = sum_list_with f l + sum_list_with f l'.
Proof. induction l as [|x l IH]; [done|]. cbn. lia. Qed.
Lemma sum_take {A} (f : A -> nat) l n : sum_list_with f (take n l) <= sum_list_with f l.
Proof. rewrite <-(take_drop n l) at 2. rewrite sum_app. lia. Qed.
Lemma sum_const {A} (n : nat) (l : list A) : sum_list_with (fun _ => n) l = length l * n.
Proof. induction l as [|x l IH]; [done|]. cbn. lia. Qed.
Lemma sum_plus {A} (f g : A -> nat) l : sum_list_with (fun x => f x + g x) l = sum_list_with f l + sum_list_with g l.
Proof. induction l as [|x l IH]; [done|]. cbn. lia. Qed.
Lemma sum_fmap {A B} (f : B -> nat) (g : A -> B) l : sum_list_with f (g <$> l) = sum_list_with (fun x => f (g x)) l.
Proof. induction l as [|x l IH]; [done|]. cbn. lia. Qed.
(** Loads of the cliques: each carries its own [b], and for each child the child's load and [w]. *)
Lemma loads_exist b w Ls : forall R, LevelProofs.hangs R Ls -> NoDup (R ++ (l_dn <$> concat Ls)) ->
  exists ld : nat -> nat,
    (forall q, q ∈ R ++ (l_dn <$> concat Ls) -> b + sum_list_with (fun l => ld (l_dn l) + w) (filter (fun l => l_up l = q) (concat Ls)) <= ld q) /\
    sum_list_with (fun q => ld q + w) R <= length (R ++ (l_dn <$> concat Ls)) * (b + w) /\
    (forall q, q ∈ R ++ (l_dn <$> concat Ls) -> ld q + w <= length (R ++ (l_dn <$> concat Ls)) * (b + w)).
Proof.
  induction Ls as [|B Ls IH]; intros R Hh Hn; cbn [concat] in *.
  - exists (fun _ => b). rewrite fmap_nil, app_nil_r. split_and!.
    + intros q _. cbn. lia.
    + rewrite sum_const. lia.
    + intros q Hq. apply elem_of_list_split in Hq as (l1 & l2 & ->). rewrite app_length. cbn. nia.
  - destruct Hh as (_ & Hup & Hh). rewrite fmap_app in Hn |- *. apply NoDup_app in Hn as (HnR & Hdis & Hn). destruct (IH _ Hh Hn) as (ld & H1 & H2 & H3).
    set (D := (l_dn <$> B) ++ (l_dn <$> concat Ls)) in *. rewrite (app_length R D).
    set (f := fun q => if decide (q ∈ R) then b + sum_list_with (fun l => ld (l_dn l) + w) (filter (fun l => l_up l = q) B) else ld q).
    assert (forall l, l ∈ B ++ concat Ls -> f (l_dn l) = ld (l_dn l)) as Hf.
    { intros l Hl. unfold f. rewrite decide_False; [done|]. intros Hin. apply (Hdis _ Hin). unfold D. rewrite <-fmap_app. by apply elem_of_list_fmap_1. }
    assert (forall q M, (forall l, l ∈ M -> l ∈ B ++ concat Ls) -> sum_list_with (fun l => f (l_dn l) + w) (filter (fun l => l_up l = q) M) = sum_list_with (fun l => ld (l_dn l) + w) (filter (fun l => l_up l = q) M)) as Hs.
    { intros q M. induction M as [|l M IHM]; intros HM; [done|]. rewrite filter_cons. specialize (IHM (fun y Hy => HM y (elem_of_list_further _ _ _ Hy))). case_decide; [|done]. cbn. rewrite IHM, Hf; [done|apply HM; left]. }
    assert (forall q, q ∈ R -> filter (fun l => l_up l = q) (concat Ls) = []) as Hnone.
    { intros q Hq. destruct (filter (fun l => l_up l = q) (concat Ls)) as [|l rest] eqn:E; [done|exfalso]. assert (l ∈ filter (fun l => l_up l = q) (concat Ls)) as Hl by (rewrite E; left).
      apply elem_of_list_filter in Hl as [Hu Hl]. destruct (hangs_parents _ _ _ Hh Hl) as [H|H]; rewrite Hu in H; apply (Hdis q Hq); apply elem_of_app; [by left|by right]. }
    assert (sum_list_with (fun q => f q + w) R <= (length R + length D) * (b + w)) as HR.
    { rewrite (Nat.mul_add_distr_r (length R)). etrans; [|apply Nat.add_le_mono_l; exact H2].
      rewrite sum_fmap. etrans; [apply (sum_weaken _ (fun q => (b + w) + sum_list_with (fun l => ld (l_dn l) + w) (filter (fun l => l_up l = q) B)))|].
      - intros q Hq. unfold f. rewrite decide_True by done. lia.
      - rewrite sum_plus, sum_const. pose proof (sum_groups (fun l => ld (l_dn l) + w) l_up R B HnR). lia. }
    exists f. split_and!.
    + intros q Hq. rewrite Hs by done. unfold f. case_decide as HqR.
      * rewrite filter_app, (Hnone q HqR), app_nil_r. done.
      * apply elem_of_app in Hq as [?|Hq]; [done|]. rewrite filter_app, sum_app. assert (filter (fun l => l_up l = q) B = []) as ->.
        { destruct (filter (fun l => l_up l = q) B) as [|l rest] eqn:E; [done|exfalso]. assert (l ∈ filter (fun l => l_up l = q) B) as Hl by (rewrite E; left).
          apply elem_of_list_filter in Hl as [Hu Hl]. apply HqR. rewrite <-Hu. by apply Hup. }
        cbn. by apply H1.
    + exact HR.
    + intros q Hq. apply elem_of_app in Hq as [Hq|Hq].
      * etrans; [|exact HR]. by apply (sum_member (fun q => f q + w)).
      * unfold f. rewrite decide_False by (intros ?; by apply (Hdis q)). specialize (H3 q Hq). nia.
Qed.
(** Depths. *)
Lemma depths_exist Ls : forall R, LevelProofs.hangs R Ls -> NoDup (R ++ (l_dn <$> concat Ls)) ->
  exists dp : nat -> nat, (forall q, q ∈ R -> dp q = 0) /\ (forall l, l ∈ concat Ls -> dp (l_dn l) = S (dp (l_up l))) /\ (forall q, q ∈ R ++ (l_dn <$> concat Ls) -> dp q <= length (concat Ls)).
Proof.
  induction Ls as [|B Ls IH]; intros R Hh Hn; cbn [concat] in *.
  - exists (fun _ => 0). split_and!; [done|by intros l ?%elem_of_nil|]. intros; lia.
  - destruct Hh as (Hne & Hup & Hh). rewrite fmap_app in Hn |- *. apply NoDup_app in Hn as (HnR & Hdis & Hn). destruct (IH _ Hh Hn) as (dp & H1 & H2 & H3).
    exists (fun q => if decide (q ∈ R) then 0 else S (dp q)). split_and!.
    + intros q Hq. by rewrite decide_True.
    + intros l Hl. rewrite decide_False.
      2:{ intros Hin. apply (Hdis _ Hin). rewrite <-fmap_app. by apply elem_of_list_fmap_1. }
      apply elem_of_app in Hl as [Hl|Hl].
      * rewrite decide_True by (by apply Hup). f_equal. apply H1. by apply elem_of_list_fmap_1.
      * rewrite (H2 l Hl). rewrite decide_False; [done|]. intros Hin. destruct (hangs_parents _ _ _ Hh Hl) as [H|H]; apply (Hdis _ Hin); apply elem_of_app; [by left|by right].
    + intros q Hq. case_decide; [lia|]. apply elem_of_app in Hq as [?|Hq]; [done|]. specialize (H3 q Hq). rewrite app_length. destruct B; [done|]. cbn. lia.
Qed.

Lemma orel_assoc_mfor {I S S'} (Q : S -> S' -> Prop) (l1 l2 : list I) f f' s s' (P : S -> S' -> Prop) : orel P (mfor l1 f s) (mfor l1 f' s') -> (forall t t', P t t' -> orel Q (mfor l2 f t) (mfor l2 f' t')) -> orel Q (mfor (l1 ++ l2) f s) (mfor (l1 ++ l2) f' s').
Proof. intros H1 H2. rewrite !mfor_app. by eapply orel_bind. Qed.

Section flow.
Context (dom : nat -> nat) (dom_pos : forall v, (0 < dom v)%nat) (c : Qc) (rnd : Qc -> Qc) (Hr : rounds c rnd).
Notation srel := (srel dom c).
Context (T : jtree) (r : nat) (Ls : list (list link)) (HT : tree_ok T r Ls).
Context (sc ss : nat -> list nat).
Context (Htail : forall l, l ∈ concat Ls -> exists ws, sc (l_dn l) = ws ++ ss (l_sep l)).
Context (Hups : forall l v, l ∈ concat Ls -> v ∈ ss (l_sep l) -> v ∈ sc (l_up l)).
Notation L := (concat Ls).
Notation J0 := (fun _ : asg => 0%Qc).
Notation st0 := (mkTabs [] []).
Context (M b : nat) (ld dd : nat -> nat).
Context (Hld : forall q, q ∈ seen r L -> b + sum_list_with (fun l => ld (l_dn l) + (M + 3)) (filter (fun l => l_up l = q) L) <= ld q).
Context (Hdr : ld r <= dd r) (Hdd : forall l, l ∈ L -> dd (l_up l) + 2 * ld (l_dn l) + 2 * M + 4 <= dd (l_dn l)).
Notation by_sep := (by_sep Ls).
Lemma bysep l : l ∈ L -> by_sep (l_sep l) = Some l.
Proof using dom_pos HT Htail Hups. exact (by_sep_spec dom dom_pos T r Ls HT sc ss J0 Htail Hups l). Qed.

(** Counts after collecting from the blocks [Lpost]. *)
Definition kcol (Lpost : list (list link)) (x : tnode) : nat :=
  match x with
  | TC q => b + sum_list_with (fun l => ld (l_dn l) + (M + 3)) (filter (fun l => l_up l = q) (concat Lpost))
  | TS s => match by_sep s with Some l => if decide (l ∈ concat Lpost) then ld (l_dn l) + M + 1 else 0 | None => 0 end
  end.
Lemma kcol_load Lpre Lpost q : Ls = Lpre ++ Lpost -> q ∈ seen r L -> kcol Lpost (TC q) <= ld q.
Proof using All. intros E Hq. etrans; [|by apply Hld]. cbn. rewrite E, concat_app, filter_app, sum_app. lia. Qed.
Lemma collect_sep_rel sch tag Lpre B Lpost st st' : Ls = Lpre ++ B :: Lpost -> srel M (kcol Lpost) st st' ->
  orel (srel M (fun x => match x with TC q => kcol Lpost (TC q) | TS s => kcol (B :: Lpost) (TS s) end)) (separator_level_collection sch tag T (2 * length Lpre + 1) st) (separator_level_collection_r rnd sch tag T (2 * length Lpre + 1) st').
Proof using All.
  intros E Hst. eapply (separator_collection_rel dom c rnd Hr M (kcol Lpost) _ (fun s => match by_sep s with Some l => ld (l_dn l) | None => 0 end)); [exact Hst| | | |].
  - intros [q|s]; [done|]. cbn. destruct (by_sep s) as [l|]; [|done]. destruct (decide (l ∈ concat Lpost)); [|lia]. rewrite decide_True; [done|]. apply elem_of_app. by right.
  - by apply (level_sep dom dom_pos T r Ls HT sc ss J0 Htail Hups Lpre B Lpost).
  - intros s d q Hs Hd Hq. apply elem_of_list_fmap in Hs as (l & -> & Hl). pose proof (in_block dom dom_pos T r Ls HT sc ss J0 Htail Hups Lpre B Lpost l E Hl) as HlL. rewrite (bysep l HlL).
    rewrite (to_dns _ _ _ HT l HlL) in Hd. injection Hd as <-. injection Hq as <-. eapply (kcol_load (Lpre ++ [B])); [by rewrite E, <-app_assoc|]. right. by apply elem_of_list_fmap_1.
  - intros s Hs. apply elem_of_list_fmap in Hs as (l & -> & Hl). pose proof (in_block dom dom_pos T r Ls HT sc ss J0 Htail Hups Lpre B Lpost l E Hl) as HlL. cbn. rewrite (bysep l HlL).
    rewrite decide_False by (by apply (block_fresh dom dom_pos T r Ls HT sc ss J0 Htail Hups st0 Lpre B Lpost)). rewrite decide_True by (apply elem_of_app; by left). lia.
Qed.
Lemma collect_clique_rel sch tag Lpre B Lpost st st' : valid_scheduler sch -> Ls = Lpre ++ B :: Lpost ->
  srel M (fun x => match x with TC q => kcol Lpost (TC q) | TS s => kcol (B :: Lpost) (TS s) end) st st' ->
  orel (srel M (kcol (B :: Lpost))) (collect_level sch tag T (2 * length Lpre) st) (collect_level_r rnd sch tag T (2 * length Lpre) st').
Proof using All.
  intros Hsch E Hst. unfold collect_level, collect_level_r. rewrite Nat.odd_mul. cbn [Nat.odd Nat.even negb andb].
  pose proof (level_clq dom dom_pos T r Ls HT sc ss J0 Htail Hups Lpre (B :: Lpost) E) as Hlev. rewrite (vget_ok _ _ _ Hlev). cbn [mbind outcome_bind].
  assert (forall q, q ∈ clq_level r Lpre -> q ∈ seen r L) as Hseen by (intros q; by apply (clq_level_seen dom dom_pos T r Ls HT sc ss J0 Htail Hups st0 Lpre (B :: Lpost))).
  rewrite (mcollect_pure _ _ (fun c => length (filter (fun l => l_up l = c) L))).
  2: { intros q Hq. rewrite (vget_ok _ _ _ (to_dnc _ _ _ HT q (Hseen q Hq))). cbn [mbind outcome_bind]. by rewrite fmap_length. }
  cbn [mbind outcome_bind]. set (level := clq_level r Lpre) in *.
  match goal with |- context [mfor (seq 0 ?m) _ _] => set (mx := m) end.
  set (kk := fun (done : list nat) (x : tnode) => match x with
    | TC q => kcol Lpost (TC q) + sum_list_with (fun l => ld (l_dn l) + (M + 3)) (take (length done) (filter (fun l => l_up l = q) B))
    | TS s => kcol (B :: Lpost) (TS s) end).
  eapply orel_mono; [|apply (orel_mfor (fun done => srel M (kk done)))].
  - intros u u' Hu. eapply (srel_weaken dom c rnd Hr); [|exact Hu]. intros [q|s]; [|done]. cbn. rewrite filter_app, sum_app.
    pose proof (sum_take (fun l => ld (l_dn l) + (M + 3)) (filter (fun l => l_up l = q) B) (length (seq 0 mx))). lia.
  - eapply (srel_weaken dom c rnd Hr); [|exact Hst]. intros [q|s]; cbn; lia.
  - intros done k rest u u' Es Hu.
    assert (length done = k) as Hk. { assert (seq 0 mx !! length done = Some k) as Hk by (rewrite Es; by apply list_lookup_middle). apply lookup_seq in Hk as [-> _]. lia. }
    eapply (clique_collection_rel dom c rnd Hr M (kk done) (kk (done ++ [k])) (fun q => match filter (fun l => l_up l = q) B !! k with Some l => ld (l_dn l) + M + 1 | None => 0 end)); [done|exact Hu| | | |].
    + intros [q|s]; [|done]. unfold kk. rewrite app_length. cbn [length]. rewrite Hk. apply Nat.add_le_mono_l.
      assert (take k (take (k + 1) (filter (fun l => l_up l = q) B)) = take k (filter (fun l => l_up l = q) B)) as <- by (rewrite take_take; f_equal; lia). apply sum_take.
    + rewrite (vget_ok _ _ _ Hlev). cbn [mbind outcome_bind]. by apply mcollect_has.
    + intros q d s Hq Hd Hs. apply elem_of_list_filter in Hq as [_ Hq]. rewrite (to_dnc _ _ _ HT q (Hseen q Hq)) in Hd. injection Hd as <-.
      rewrite (children_block dom dom_pos T r Ls HT sc ss J0 Htail Hups Lpre B Lpost q E Hq) in Hs. rewrite list_lookup_fmap in Hs. destruct (filter (fun l => l_up l = q) B !! k) as [l|] eqn:Hl; [|done]. injection Hs as <-.
      assert (l ∈ filter (fun l => l_up l = q) B) as Hin by (by eapply elem_of_list_lookup_2). apply elem_of_list_filter in Hin as [_ Hin]. pose proof (in_block dom dom_pos T r Ls HT sc ss J0 Htail Hups Lpre B Lpost l E Hin) as HlL.
      cbn. rewrite (bysep l HlL). case_decide; lia.
    + intros q Hq. apply elem_of_list_filter in Hq as [Hlt Hq]. rewrite (children_block dom dom_pos T r Ls HT sc ss J0 Htail Hups Lpre B Lpost q E Hq) in Hlt.
      destruct (lookup_lt_is_Some_2 _ _ Hlt) as [l Hl]. rewrite Hl. unfold kk. rewrite app_length. cbn [length]. rewrite Hk. replace (k + 1) with (S k) by lia. rewrite (take_S_r _ _ _ Hl), sum_app. cbn. lia.
Qed.
Lemma collect_blocks_rel sch tag Lpost : forall Lpre st st', valid_scheduler sch -> Ls = Lpre ++ Lpost -> srel M (kcol []) st st' ->
  orel (srel M (kcol Lpost)) (mfor (reverse (seq (2 * length Lpre) (2 * length Lpost))) (collect_level sch tag T) st) (mfor (reverse (seq (2 * length Lpre) (2 * length Lpost))) (collect_level_r rnd sch tag T) st').
Proof using All.
  induction Lpost as [|B Lpost IH]; intros Lpre st st' Hsch E Hst; [done|].
  cbn [length]. replace (2 * S (length Lpost)) with (S (S (2 * length Lpost))) by lia. cbn [seq]. rewrite !reverse_cons, <-app_assoc. cbn [app].
  eapply orel_assoc_mfor.
  - specialize (IH (Lpre ++ [B]) st st' Hsch). rewrite app_length in IH. cbn [length] in IH. replace (2 * (length Lpre + 1)) with (S (S (2 * length Lpre))) in IH by lia. apply IH; [by rewrite E, <-app_assoc|done].
  - intros u u' Hu. cbn [mfor]. replace (S (2 * length Lpre)) with (2 * length Lpre + 1) by lia.
    assert (Nat.odd (2 * length Lpre + 1) = true) as Hodd by (rewrite Nat.add_1_r, Nat.odd_succ, Nat.even_mul; done).
    assert (forall z, collect_level sch tag T (2 * length Lpre + 1) z = separator_level_collection sch (tag ++ [2 * length Lpre + 1]) T (2 * length Lpre + 1) z) as -> by (intros; unfold collect_level; by rewrite Hodd).
    assert (forall z, collect_level_r rnd sch tag T (2 * length Lpre + 1) z = separator_level_collection_r rnd sch (tag ++ [2 * length Lpre + 1]) T (2 * length Lpre + 1) z) as -> by (intros; unfold collect_level_r; by rewrite Hodd).
    eapply orel_bind; [by apply (collect_sep_rel _ _ Lpre B Lpost)|]. intros v v' Hv. eapply orel_bind; [by apply (collect_clique_rel _ _ Lpre B Lpost)|]. intros z z' Hz. exact Hz.
Qed.
Lemma collect_rel sch tag st st' : valid_scheduler sch -> srel M (kcol []) st st' -> orel (srel M (kcol Ls)) (collect sch tag T st) (collect_r rnd sch tag T st').
Proof using All.
  intros Hsch Hst. unfold collect, collect_r. rewrite (to_levels _ _ _ HT). cbn [length]. rewrite level_list_length. replace (S (2 * length Ls) - 1) with (2 * length Ls) by lia.
  by apply (collect_blocks_rel sch tag Ls []).
Qed.

(** Counts after distributing to the blocks [Lpre]. *)
Definition kdis (Lpre : list (list link)) (x : tnode) : nat :=
  match x with
  | TC q => if decide (q ∈ seen r (concat Lpre)) then Nat.max (dd q) (kcol Ls (TC q)) else kcol Ls (TC q)
  | TS s => match by_sep s with Some l => if decide (l ∈ concat Lpre) then dd (l_up l) + ld (l_dn l) + 2 * M + 2 else ld (l_dn l) + M + 1 | None => 0 end
  end.
Lemma kdis_start x : kcol Ls x <= kdis [] x.
Proof using All. destruct x as [q|s]; cbn [kdis]; [case_decide; lia|]. cbn. destruct (by_sep s); [repeat case_decide; lia|done]. Qed.
Lemma kdis_done q : q ∈ seen r L -> kdis Ls (TC q) <= Nat.max (dd q) (ld q).
Proof using All. intros Hq. cbn [kdis]. rewrite decide_True by done. pose proof (kcol_load [] Ls q eq_refl Hq). lia. Qed.
Lemma dd_ld q : q ∈ seen r L -> ld q <= dd q.
Proof using All. intros [->|Hq]%elem_of_cons; [done|]. apply elem_of_list_fmap in Hq as (l & -> & Hl). specialize (Hdd l Hl). lia. Qed.
Lemma distribute_step_rel sch tag Lpre B Lpost st st' : valid_scheduler sch -> Ls = Lpre ++ B :: Lpost -> srel M (kdis Lpre) st st' ->
  orel (srel M (kdis (Lpre ++ [B]))) (mfor [2 * length Lpre + 1; 2 * length Lpre + 2] (distribute_level sch tag T) st) (mfor [2 * length Lpre + 1; 2 * length Lpre + 2] (distribute_level_r rnd sch tag T) st').
Proof using All.
  intros Hsch E Hst. cbn [mfor]. assert (forall l, l ∈ B -> l ∈ L) as HB by (intros l; by apply (in_block dom dom_pos T r Ls HT sc ss J0 Htail Hups Lpre B Lpost)).
  assert (forall l, l ∈ B -> l ∉ concat Lpre) as Hfresh.
  { intros l Hl Hin. pose proof (NoDup_L dom dom_pos T r Ls HT sc ss J0 Htail Hups st0) as Hnd. rewrite E, concat_app in Hnd. cbn [concat] in Hnd. apply NoDup_app in Hnd as (_ & Hd & _). apply (Hd l Hin). apply elem_of_app. by left. }
  assert (forall l, l ∈ B -> l_dn l ∉ seen r (concat Lpre)) as Hdn.
  { intros l Hl Hin. pose proof (to_nodup _ _ _ HT) as Hnd. rewrite E, concat_app in Hnd. cbn [concat] in Hnd. unfold seen in *. rewrite !fmap_app, app_comm_cons in Hnd. apply NoDup_app in Hnd as (_ & Hd & _). apply (Hd _ Hin).
    apply elem_of_app. left. by apply elem_of_list_fmap_1. }
  assert (forall l, l ∈ B -> l_up l ∈ seen r (concat Lpre)) as Hup.
  { intros l Hl. apply clq_level_elem. by apply (block_up dom dom_pos T r Ls HT sc ss J0 Htail Hups st0 Lpre B Lpost). }
  assert (Nat.odd (2 * length Lpre + 1) = true) as Hodd by (rewrite Nat.add_1_r, Nat.odd_succ, Nat.even_mul; done).
  assert (Nat.odd (2 * length Lpre + 2) = false) as Heven by (rewrite Nat.odd_add, Nat.odd_mul; done).
  unfold distribute_level, distribute_level_r. rewrite Hodd, Heven.
  set (mid := fun x => match x with TC q => kdis Lpre (TC q) | TS s => kdis (Lpre ++ [B]) (TS s) end).
  eapply orel_bind with (R := srel M mid).
  - eapply (separator_distribution_rel dom c rnd Hr M (kdis Lpre) mid (fun s => match by_sep s with Some l => dd (l_up l) | None => 0 end)); [exact Hst| | | |].
    + intros [q|s]; [done|]. cbn. destruct (by_sep s) as [l|]; [|done]. rewrite concat_app. destruct (decide (l ∈ concat Lpre)); [rewrite decide_True by (apply elem_of_app; by left); lia|]. case_decide; lia.
    + by apply (level_sep dom dom_pos T r Ls HT sc ss J0 Htail Hups Lpre B Lpost).
    + intros s q Hs Hq. apply elem_of_list_fmap in Hs as (l & -> & Hl). rewrite (bysep l (HB l Hl)). rewrite (to_ups _ _ _ HT l (HB l Hl)) in Hq. injection Hq as <-.
      cbn [kdis]. rewrite decide_True by (by apply Hup). assert (l_up l ∈ seen r L) as Hs by (apply (up_seen dom dom_pos T r Ls HT sc ss J0 Htail Hups); by apply HB).
      pose proof (kcol_load [] Ls (l_up l) eq_refl Hs). pose proof (dd_ld _ Hs). lia.
    + intros s Hs. apply elem_of_list_fmap in Hs as (l & -> & Hl). cbn. rewrite (bysep l (HB l Hl)). rewrite decide_False by (by apply Hfresh). rewrite decide_True; [lia|]. rewrite concat_app. apply elem_of_app. right. cbn. by rewrite app_nil_r.
  - intros u u' Hu. eapply orel_bind; [|intros z z' Hz; exact Hz].
    eapply (clique_distribution_rel dom c rnd Hr M mid _ (fun q => match by_dn Ls q with Some l => dd (l_up l) + ld (l_dn l) + 2 * M + 2 | None => 0 end)); [done|exact Hu| | | |].
    + intros [q|s]; [|done]. cbn [mid kdis]. rewrite concat_app. unfold seen. rewrite fmap_app, app_comm_cons. destruct (decide (q ∈ r :: (l_dn <$> concat Lpre))); [rewrite decide_True by (apply elem_of_app; by left); lia|]. case_decide; lia.
    + by apply (level_dn dom dom_pos T r Ls HT sc ss J0 Htail Hups Lpre B Lpost).
    + intros q s Hq Hs. apply elem_of_list_fmap in Hq as (l & -> & Hl). rewrite (by_dn_spec dom dom_pos T r Ls HT sc ss J0 Htail Hups l (HB l Hl)). rewrite (to_upc _ _ _ HT l (HB l Hl)) in Hs. injection Hs as <-.
      cbn. rewrite (bysep l (HB l Hl)). case_decide; lia.
    + intros q Hq. apply elem_of_list_fmap in Hq as (l & -> & Hl). rewrite (by_dn_spec dom dom_pos T r Ls HT sc ss J0 Htail Hups l (HB l Hl)). cbn [mid kdis].
      rewrite decide_False by (by apply Hdn). rewrite decide_True. 2:{ rewrite concat_app. unfold seen. right. rewrite fmap_app. apply elem_of_app. right. cbn. rewrite app_nil_r. by apply elem_of_list_fmap_1. }
      assert (l_dn l ∈ seen r L) as Hs by (right; apply elem_of_list_fmap_1; by apply HB). pose proof (kcol_load [] Ls (l_dn l) eq_refl Hs). specialize (Hdd l (HB l Hl)). lia.
Qed.
Lemma distribute_blocks_rel sch tag Lpost : forall Lpre st st', valid_scheduler sch -> Ls = Lpre ++ Lpost -> srel M (kdis Lpre) st st' ->
  orel (srel M (kdis Ls)) (mfor (seq (2 * length Lpre + 1) (2 * length Lpost)) (distribute_level sch tag T) st) (mfor (seq (2 * length Lpre + 1) (2 * length Lpost)) (distribute_level_r rnd sch tag T) st').
Proof using All.
  induction Lpost as [|B Lpost IH]; intros Lpre st st' Hsch E Hst; [cbn; by rewrite E, app_nil_r|].
  cbn [length]. replace (2 * S (length Lpost)) with (S (S (2 * length Lpost))) by lia. cbn [seq].
  match goal with |- context [mfor (?x :: ?y :: ?l)] => change (x :: y :: l) with ([x; y] ++ l) end. replace (S (2 * length Lpre + 1)) with (2 * length Lpre + 2) by lia.
  eapply orel_assoc_mfor; [by apply (distribute_step_rel _ _ Lpre B Lpost)|]. intros u u' Hu.
  specialize (IH (Lpre ++ [B]) u u' Hsch). rewrite app_length in IH. cbn [length] in IH. replace (2 * (length Lpre + 1) + 1) with (S (2 * length Lpre + 2)) in IH by lia.
  apply IH; [by rewrite E, <-app_assoc|done].
Qed.
Lemma distribute_rel sch tag st st' : valid_scheduler sch -> srel M (kcol Ls) st st' -> orel (srel M (kdis Ls)) (distribute sch tag T st) (distribute_r rnd sch tag T st').
Proof using All.
  intros Hsch Hst. unfold distribute, distribute_r. rewrite (to_levels _ _ _ HT). cbn [length]. rewrite level_list_length. replace (S (2 * length Ls) - 1) with (2 * length Ls) by lia.
  apply (distribute_blocks_rel sch tag Ls []); [done|done|]. eapply (srel_weaken dom c rnd Hr); [|exact Hst]. apply kdis_start.
Qed.
End flow.
