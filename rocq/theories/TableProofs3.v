(** Tail reorganisation, CPT normalisation, and the general products. *)
From Verif Require Export TableProofs2.
Local Open Scope Qc_scope.

(** ** TableReorganizationPre *)
Fixpoint split_spec (vars common : list nat) : list nat :=
  match vars with
  | [] => []
  | v :: vs => match common with
               | [] => v :: split_spec vs []
               | c :: cs => if bool_decide (v = c) then split_spec vs cs else v :: split_spec vs (c :: cs)
               end
  end.

Lemma split_spec_nil vars : split_spec vars [] = vars.
Proof. induction vars as [|v vs IH]; cbn; [done|]. by rewrite IH. Qed.

Lemma split_spec_filter vars common :
  NoDup vars -> common `sublist_of` vars -> split_spec vars common = filter (fun v => v ∉ common) vars.
Proof.
  revert common; induction vars as [|v vs IH]; intros common Hnd Hsub; [done|].
  apply NoDup_cons in Hnd as [Hv Hnd]. cbn [split_spec]. rewrite filter_cons.
  destruct common as [|c cs].
  - rewrite decide_True by apply not_elem_of_nil. f_equal. rewrite IH; [done|done|]. apply sublist_nil_l.
  - case_bool_decide as Hvc.
    + subst c. rewrite decide_False by (intros H; apply H; by left).
      inversion Hsub as [|x l1 l2 Hs|x l1 l2 Hs]; subst.
      * rewrite IH by done. apply filter_iff_in. intros w Hw. split.
        -- intros H1 H2. apply elem_of_cons in H2 as [->|H2]; [by apply Hv|by apply H1].
        -- intros H1 H2. apply H1. by right.
      * exfalso. apply Hv. apply (sublist_submseteq _ _) in Hs.
        eapply elem_of_submseteq; [|exact Hs]. by left.
    + inversion Hsub as [|x l1 l2 Hs|x l1 l2 Hs]; subst; [done|].
      rewrite decide_True.
      * f_equal. by apply IH.
      * intros H1. apply Hv. eapply elem_of_submseteq; [exact H1|by apply sublist_submseteq].
Qed.

Lemma split_spec_perm vars common :
  common `sublist_of` vars -> vars ≡ₚ split_spec vars common ++ common.
Proof.
  revert common; induction vars as [|v vs IH]; intros common Hsub; cbn [split_spec].
  - inversion Hsub. done.
  - destruct common as [|c cs].
    + cbn [app]. rewrite <-IH; [done|apply sublist_nil_l].
    + case_bool_decide as Hvc.
      * subst c. inversion Hsub as [|x l1 l2 Hs|x l1 l2 Hs]; subst.
        -- rewrite <-Permutation_middle. by rewrite <-IH.
        -- rewrite <-Permutation_middle. rewrite <-IH; [done|].
           etransitivity; [|exact Hs]. by apply sublist_cons.
      * inversion Hsub as [|x l1 l2 Hs|x l1 l2 Hs]; subst; [done|]. cbn [app]. by rewrite <-IH.
Qed.

Lemma reorg_split_spec (dom : nat -> nat) all vars i common :
  drop i all = vars -> common `sublist_of` vars ->
  exists kept com, reorg_split (zip vars (dom <$> vars)) i common = Ok (kept, com) /\
    ((fun t : nat * nat * nat => snd (fst t)) <$> kept) = split_spec vars common /\
    ((fun t : nat * nat * nat => snd t) <$> kept) = dom <$> split_spec vars common /\
    (snd <$> com) = dom <$> common /\
    locs_ok all (split_spec vars common) ((fun t : nat * nat * nat => fst (fst t)) <$> kept) /\
    locs_ok all common (fst <$> com).
Proof.
  revert i common; induction vars as [|v vs IH]; intros i common Hd Hsub.
  - inversion Hsub; subst. exists [], []. split_and!; try done; constructor.
  - assert (all !! i = Some v) as Hi.
    { rewrite <-(Nat.add_0_r i), <-lookup_drop, Hd. done. }
    assert (drop (S i) all = vs) as Hd'.
    { replace (S i) with (i + 1)%nat by lia. rewrite <-drop_drop, Hd. done. }
    cbn [fmap list_fmap zip_with reorg_split split_spec].
    destruct common as [|c cs].
    + destruct (IH (S i) [] Hd') as (kept & com & -> & H1 & H2 & H3 & H4 & H5); [apply sublist_nil_l|].
      cbn [mbind outcome_bind fst snd]. exists ((i, v, dom v) :: kept), com.
      split_and!; try done; cbn; [by rewrite <-H1|by rewrite <-H2|by constructor].
    + case_bool_decide as Hvc.
      * subst c.
        assert (cs `sublist_of` vs) as Hs.
        { inversion Hsub; subst; [done|]. etransitivity; [|eassumption]. by apply sublist_cons. }
        destruct (IH (S i) cs Hd' Hs) as (kept & com & -> & H1 & H2 & H3 & H4 & H5).
        cbn [mbind outcome_bind fst snd]. exists kept, ((i, dom v) :: com).
        split_and!; try done; cbn; [by rewrite H3|by constructor].
      * assert ((c :: cs) `sublist_of` vs) as Hs by (inversion Hsub; by subst).
        destruct (IH (S i) (c :: cs) Hd' Hs) as (kept & com & -> & H1 & H2 & H3 & H4 & H5).
        cbn [mbind outcome_bind fst snd]. exists ((i, v, dom v) :: kept), com.
        split_and!; try done; cbn; [by rewrite <-H1|by rewrite <-H2|by constructor].
Qed.

Lemma locs_ok_app all ws1 ws2 l1 l2 :
  locs_ok all ws1 l1 -> locs_ok all ws2 l2 -> locs_ok all (ws1 ++ ws2) (l1 ++ l2).
Proof. apply Forall2_app. Qed.

(** ** Cells of a table seen as a matrix with [p] columns *)
Definition cell (p i j : nat) : nat := (i + j * p)%nat.

Lemma cell_inj p i j i' j' : (i < p)%nat -> (i' < p)%nat -> cell p i j = cell p i' j' -> i = i' /\ j = j'.
Proof.
  unfold cell. intros Hi Hi' H.
  assert (i = i') as ->.
  { rewrite <-(Nat.mod_small i p), <-(Nat.mod_small i' p) by done.
    rewrite <-(Nat.mod_add i j p), <-(Nat.mod_add i' j' p) by lia. by rewrite H. }
  split; [done|]. nia.
Qed.
Lemma cell_lt p n i j : (i < p)%nat -> (j < n)%nat -> (cell p i j < n * p)%nat.
Proof. unfold cell. nia. Qed.

Definition col_sum (p n : nat) (l : list Qc) (i : nat) : Qc :=
  qsum (seq 0 n) (fun j => default 0 (l !! cell p i j)).

Lemma seq_split_length n dn (i : nat) rest :
  seq 0 n = dn ++ i :: rest -> i = length dn /\ (length dn < n)%nat.
Proof.
  intros Hl. assert (seq 0 n !! length dn = Some i) as Hlk by (rewrite Hl, lookup_app_r, Nat.sub_diag; done).
  apply lookup_seq in Hlk. lia.
Qed.

Lemma qsum_loop {I} (l : list I) (f : I -> outcome Qc) (g : I -> Qc) acc :
  (forall i, i ∈ l -> f i = Ok (g i)) ->
  mfor l (fun i acc => x ← f i; Ok (acc + x)) acc = Ok (acc + qsum l g).
Proof.
  revert acc; induction l as [|i l IH]; intros acc H; cbn [mfor].
  - rewrite qsum_nil. f_equal. ring.
  - rewrite H by left. cbn [mbind outcome_bind]. rewrite IH by (intros j Hj; apply H; by right).
    rewrite qsum_cons. f_equal. ring.
Qed.

(** One column of NormalizeCPT. *)
Definition norm_entry (z x : Qc) : Qc := if bool_decide (0 < z) then x / z else x.

Lemma normalize_cpt_column p n i (l : list Qc) :
  (i < p)%nat -> length l = (n * p)%nat ->
  exists l',
    (denom ← mfor (seq 0 n) (fun j acc => x ← vget l (i + j * p)%nat; Ok (acc + x)) 0;
     if bool_decide (0 < denom) then
       mfor (seq 0 n) (fun j pots =>
         x ← vget pots (i + j * p)%nat; vset pots (i + j * p)%nat (x / denom)) l
     else Ok l) = Ok l' /\ length l' = (n * p)%nat /\
    (forall j, (j < n)%nat -> l' !! cell p i j = norm_entry (col_sum p n l i) <$> l !! cell p i j) /\
    (forall i' j, (i' < p)%nat -> i' ≠ i -> l' !! cell p i' j = l !! cell p i' j).
Proof.
  intros Hi Hlen.
  rewrite (qsum_loop _ _ (fun j => default 0 (l !! cell p i j))).
  2: { intros j Hj. apply elem_of_seq in Hj.
       destruct (lookup_lt_is_Some_2 l (cell p i j)) as [x Hx].
       { rewrite Hlen. apply cell_lt; [done|lia]. }
       rewrite Hx. apply vget_ok, Hx. }
  cbn [mbind outcome_bind]. fold (col_sum p n l i). set (z := col_sum p n l i).
  replace (0 + z) with z by ring. unfold norm_entry. case_bool_decide as Hz.
  2: { exists l. split_and!; try done. intros j _. by destruct (l !! _). }
  set (P := fun (dn : list nat) (pots : list Qc) => length pots = (n * p)%nat /\
     (forall j, (j < n)%nat -> pots !! cell p i j =
        if bool_decide (j < length dn)%nat then (fun x => x / z) <$> l !! cell p i j else l !! cell p i j) /\
     (forall i' j, (i' < p)%nat -> i' ≠ i -> pots !! cell p i' j = l !! cell p i' j)).
  destruct (mfor_inv P (seq 0 n) (fun j pots =>
         x ← vget pots (i + j * p)%nat; vset pots (i + j * p)%nat (x / z)) l) as (l' & Hok & HP).
  - split_and!; try done.
  - intros dn j rest s0 Hl (Hl0 & HP1 & HP2).
    apply seq_split_length in Hl as [-> Hlt].
    assert (cell p i (length dn) < n * p)%nat as Hc by (apply cell_lt; [done|lia]).
    destruct (lookup_lt_is_Some_2 l (cell p i (length dn))) as [x Hx]; [lia|].
    assert (s0 !! cell p i (length dn) = Some x) as Hs.
    { rewrite HP1 by done. rewrite bool_decide_false by lia. done. }
    fold (cell p i (length dn)). rewrite (vget_ok _ _ _ Hs). cbn [mbind outcome_bind].
    rewrite vset_ok by lia. eexists; split; [done|]. split_and!.
    + by rewrite insert_length.
    + intros j Hj. rewrite app_length. cbn [length].
      destruct (decide (j = length dn)) as [->|Hne].
      * rewrite list_lookup_insert by lia. rewrite bool_decide_true by lia. by rewrite Hx.
      * rewrite list_lookup_insert_ne by (intros E; apply cell_inj in E; [naive_solver|done|done]).
        rewrite HP1 by done.
        destruct (decide (j < length dn)%nat).
        -- by rewrite !bool_decide_true by lia.
        -- by rewrite !bool_decide_false by lia.
    + intros i' j Hi' Hne. rewrite list_lookup_insert_ne by (intros E; apply cell_inj in E; [naive_solver|done|done]).
      by apply HP2.
  - exists l'. destruct HP as (H1 & H2 & H3). split_and!; try done.
    intros j Hj. rewrite H2 by done. rewrite seq_length, bool_decide_true by lia. done.
Qed.

Lemma normalize_cpt_loop p n (l : list Qc) :
  length l = (n * p)%nat ->
  exists l', mfor (seq 0 p) (fun i pots =>
    denom ← mfor (seq 0 n) (fun j acc => x ← vget pots (i + j * p)%nat; Ok (acc + x)) 0;
    if bool_decide (0 < denom) then
      mfor (seq 0 n) (fun j pots =>
        x ← vget pots (i + j * p)%nat; vset pots (i + j * p)%nat (x / denom)) pots
    else Ok pots) l = Ok l' /\ length l' = (n * p)%nat /\
    forall i j, (i < p)%nat -> (j < n)%nat ->
      l' !! cell p i j = norm_entry (col_sum p n l i) <$> l !! cell p i j.
Proof.
  intros Hlen.
  set (P := fun (dn : list nat) (pots : list Qc) => length pots = (n * p)%nat /\
    forall i j, (i < p)%nat -> (j < n)%nat -> pots !! cell p i j =
      if bool_decide (i < length dn)%nat then norm_entry (col_sum p n l i) <$> l !! cell p i j
      else l !! cell p i j).
  match goal with |- exists l', mfor _ ?b _ = _ /\ _ => destruct (mfor_inv P (seq 0 p) b l) as (l' & Hok & HP) end.
  - split; [done|]. intros i j _ _. done.
  - intros dn i rest s0 Hl (Hl0 & HP). apply seq_split_length in Hl as [-> Hlt].
    destruct (normalize_cpt_column p n (length dn) s0 Hlt Hl0) as (l' & Hok & Hl' & Hcol & Hoth).
    exists l'. split; [exact Hok|]. split; [done|]. intros i j Hi Hj. rewrite app_length. cbn [length].
    destruct (decide (i = length dn)) as [->|Hne].
    + rewrite bool_decide_true by lia. rewrite Hcol by done.
      rewrite HP by done. rewrite bool_decide_false by lia. f_equal. f_equal.
      unfold col_sum. apply qsum_ext. intros k Hk. apply elem_of_seq in Hk.
      rewrite HP by lia. by rewrite bool_decide_false by lia.
    + rewrite Hoth by done. rewrite HP by done.
      destruct (decide (i < length dn)%nat).
      * by rewrite !bool_decide_true by lia.
      * by rewrite !bool_decide_false by lia.
  - exists l'. destruct HP as [H1 H2]. split_and!; try done.
    intros i j Hi Hj. rewrite H2 by done. by rewrite seq_length, bool_decide_true by lia.
Qed.

(** ** Sets as sorted lists *)
Lemma elem_of_set_insert x y l : y ∈ set_insert x l <-> y = x \/ y ∈ l.
Proof.
  induction l as [|z l IH]; cbn [set_insert]; [set_solver|].
  case_bool_decide; [set_solver|]. case_bool_decide; [subst; set_solver|].
  rewrite !elem_of_cons, IH. tauto.
Qed.
Lemma elem_of_set_of_list x l : x ∈ set_of_list l <-> x ∈ l.
Proof.
  induction l as [|y l IH]; cbn; [done|]. rewrite elem_of_set_insert, IH, elem_of_cons. done.
Qed.
Lemma set_insert_sorted x l : StronglySorted lt l -> StronglySorted lt (set_insert x l).
Proof.
  induction 1 as [|y l Hs IH Hall]; cbn [set_insert].
  - repeat constructor.
  - case_bool_decide as H1.
    + constructor; [by constructor|]. constructor; [done|].
      eapply Forall_impl; [exact Hall|]. cbn. lia.
    + case_bool_decide as H2; [by constructor|]. constructor; [done|].
      apply Forall_forall. intros z Hz. apply elem_of_set_insert in Hz as [->|Hz]; [lia|].
      eapply Forall_forall in Hall; [|exact Hz]. done.
Qed.
Lemma set_of_list_sorted l : StronglySorted lt (set_of_list l).
Proof. induction l; cbn; [constructor|]. by apply set_insert_sorted. Qed.
Lemma sorted_NoDup l : StronglySorted lt l -> NoDup l.
Proof.
  induction 1 as [|x l Hs IH Hall]; constructor; [|done].
  intros Hx. eapply Forall_forall in Hall; [|exact Hx]. lia.
Qed.
Lemma NoDup_set_of_list l : NoDup (set_of_list l).
Proof. apply sorted_NoDup, set_of_list_sorted. Qed.

Lemma nodup_cover_le (l1 l2 : list nat) :
  NoDup l1 -> NoDup l2 -> (forall v, v ∈ l2 -> v ∈ l1) -> (length l1 - length l2 = 0)%nat -> l2 ≡ₚ l1.
Proof.
  intros H1 H2 Hs Hl. apply submseteq_Permutation_length_le; [lia|]. by apply NoDup_submseteq.
Qed.

Section tables3.
Context (dom : nat -> nat) (dom_pos : forall v, (0 < dom v)%nat).
Set Default Proof Using "All".
Notation wf := (wf dom).
Notation valid := (valid dom).
Notation sumv := (sumv dom).

Lemma table_reorganize_tail_spec T common :
  wf T -> pt_vars T ≠ [] -> common `sublist_of` pt_vars T ->
  exists T', table_reorganize_tail T common = Ok T' /\ wf T' /\
    pt_vars T' = filter (fun v => v ∉ common) (pt_vars T) ++ common /\
    forall a, valid a -> tval T' a = tval T a.
Proof.
  intros HT Hne Hsub. unfold table_reorganize_tail, reorganization_pre.
  destruct (reorg_split_spec dom (pt_vars T) (pt_vars T) 0 common) as (kept & com & Hr & H1 & H2 & H3 & H4 & H5); [done|done|].
  rewrite (wf_dims _ _ HT), Hr. cbn [mbind outcome_bind]. rewrite H1, H2, H3, <-fmap_app.
  set (ws := split_spec (pt_vars T) common ++ common).
  set (locs := _ ++ (fst <$> com)).
  assert (locs_ok (pt_vars T) ws locs) as Hlocs by (by apply locs_ok_app).
  assert (pt_vars T ≡ₚ ws) as Hperm by (by apply split_spec_perm).
  assert (length ws = pt_nv T) as Hlen.
  { rewrite (wf_nv _ _ HT). symmetry. by apply Permutation_length. }
  assert (pt_size T = length (configs (dom <$> ws))) as Hsize.
  { rewrite (wf_size _ _ HT), !configs_length, (wf_dims _ _ HT). apply prod_list_perm.
    by apply fmap_Permutation. }
  rewrite <-Hlen.
  assert (construct_cum_levels (length ws) (dom <$> ws) = Ok (strides (dom <$> ws))) as ->.
  { rewrite <-(fmap_length dom ws) at 1. apply construct_cum_levels_spec.
    intros E. apply (f_equal length) in E. rewrite fmap_length, Hlen, (wf_nv _ _ HT) in E.
    by destruct (pt_vars T). }
  cbn [mbind outcome_bind]. rewrite Hsize.
  fold (fresh dom ws).
  assert (NoDup ws) as Hnd by (rewrite <-Hperm; apply HT).
  pose proof (wf_fresh dom dom_pos ws Hnd) as HN.
  destruct (index_map dom dom_pos T ws (reorganization_main (fresh dom ws) T locs)) as (tidx & Hti & Htl & Htv); [done| |].
  { intros a Ha. unfold reorganization_main. rewrite (get_config_spec dom dom_pos) by done. cbn [mbind outcome_bind].
    change (pt_nv (fresh dom ws)) with (length ws). rewrite (project_config (pt_vars T) ws locs a) by done.
    cbn [mbind outcome_bind]. change ws with (pt_vars (fresh dom ws)).
    by rewrite (get_index_ok dom dom_pos) by done. }
  change (pt_size (fresh dom ws)) with (length (configs (dom <$> ws))). rewrite <-Hsize, Hti.
  cbn [mbind outcome_bind].
  destruct (reorganize_core dom dom_pos T (fresh dom ws) tidx) as (T' & Hok & HT' & Hv & Hval); try done.
  exists T'. split_and!; try done. rewrite Hv. cbn. unfold ws. f_equal. apply split_spec_filter; [apply HT|done].
Qed.

(** ** NormalizeCPT *)
Lemma table_normalize_cpt_spec T v vs :
  wf T -> pt_vars T = v :: vs ->
  exists T', table_normalize_cpt T = Ok T' /\ wf T' /\ pt_vars T' = pt_vars T /\
    forall a, valid a ->
      let z := qsum (seq 0 (dom v)) (fun x => tval T (upd a v x)) in
      tval T' a = if bool_decide (0 < z) then tval T a / z else tval T a.
Proof.
  intros HT E. unfold table_normalize_cpt.
  assert (NoDup (v :: vs)) as Hnd by (rewrite <-E; apply HT). apply NoDup_cons in Hnd as [Hv Hnd].
  assert (pt_dims T = dom v :: (dom <$> vs)) as Hdims by (by rewrite (wf_dims _ _ HT), E).
  set (p := prod_list (dom <$> vs)).
  rewrite (vget_ok (pt_cum T) 0%nat p) by (by rewrite (wf_cum _ _ HT), Hdims). cbn [mbind outcome_bind].
  rewrite (vget_ok (pt_dims T) 0%nat (dom v)) by (by rewrite Hdims). cbn [mbind outcome_bind].
  assert (pt_size T = dom v * p)%nat as Hsize.
  { by rewrite (wf_size _ _ HT), configs_length, Hdims. }
  assert (length (pt_pots T) = dom v * p)%nat as Hlen.
  { by rewrite (wf_pots _ _ HT), <-(wf_size _ _ HT). }
  destruct (normalize_cpt_loop p (dom v) (pt_pots T) Hlen) as (l' & -> & Hl' & Hval).
  cbn [mbind outcome_bind]. eexists; split; [done|]. split_and!.
  - apply (wf_set_pots dom dom_pos); [done|]. by rewrite Hsize.
  - done.
  - intros a Ha.
    assert (forall b, valid b -> lex_index (pt_dims T) (b <$> pt_vars T) = cell p (lex_index (dom <$> vs) (b <$> vs)) (b v)) as Hcell.
    { intros b Hb. rewrite Hdims, E. cbn. unfold cell. fold p. lia. }
    assert (lex_index (dom <$> vs) (a <$> vs) < p)%nat as Hi.
    { apply lex_index_lt. by apply valid_in_range. }
    unfold tval at 1. cbn [pt_pots pt_dims pt_vars]. rewrite Hcell by done.
    rewrite Hval by (try done; apply Ha). rewrite <-Hcell by done.
    rewrite (tval_lookup dom dom_pos T a HT Ha). cbn [fmap option_fmap option_map default from_option].
    unfold norm_entry, id.
    replace (col_sum p (dom v) (pt_pots T) (lex_index (dom <$> vs) (a <$> vs)))
      with (qsum (seq 0 (dom v)) (fun x => tval T (upd a v x))); [done|].
    unfold col_sum. apply qsum_ext. intros x Hx. apply elem_of_seq in Hx.
    assert (valid (upd a v x)) as Hb by (apply valid_upd; [done|lia]).
    rewrite <-(upd_same a v x) at 2.
    assert (a <$> vs = upd a v x <$> vs) as ->.
    { apply list_fmap_ext. intros ? w Hw. symmetry. apply upd_other. intros ->.
      apply Hv. by eapply elem_of_list_lookup_2. }
    rewrite <-Hcell by done. by rewrite (tval_lookup dom dom_pos T _ HT Hb).
Qed.

(** ** General products *)
Lemma table_multiplication_two_spec T S :
  wf T -> wf S -> pt_vars T ≠ [] -> pt_vars S ≠ [] ->
  (pt_vars T ≡ₚ pt_vars S -> pt_vars T = pt_vars S) ->
  exists P S', table_multiplication_two T S = Ok (P, S') /\ wf P /\
    (forall v, v ∈ pt_vars P <-> v ∈ pt_vars T \/ v ∈ pt_vars S) /\
    forall a, valid a -> tval P a = tval T a * tval S a.
Proof.
  intros HT HS HTne HSne Hord. unfold table_multiplication_two.
  rewrite (bool_decide_false (pt_vars T = [])) by done.
  rewrite (bool_decide_false (pt_vars S = [])) by done.
  set (all := set_of_list (pt_vars S ++ pt_vars T)).
  assert (forall v, v ∈ all <-> v ∈ pt_vars T \/ v ∈ pt_vars S) as Hall.
  { intros v. unfold all. rewrite elem_of_set_of_list, elem_of_app. tauto. }
  assert (NoDup all) as Hnd by apply NoDup_set_of_list.
  rewrite (wf_nv _ _ HT), (wf_nv _ _ HS).
  assert (exists T1 S1, (if bool_decide (length all - length (pt_vars T) = 0 /\ length all - length (pt_vars S) = 0)%nat then Ok (T, S)
       else if bool_decide (length all - length (pt_vars S) = 0)%nat then
         t ← table_extension T (pt_vars S) (pt_dims S); Ok (t, S)
       else if bool_decide (length all - length (pt_vars T) = 0)%nat then
         s ← table_extension S (pt_vars T) (pt_dims T); Ok (T, s)
       else
         dims ← mcollect all (fun v =>
           loc ← get_variable_index T v;
           if bool_decide (loc < length (pt_vars T))%nat then vget (pt_dims T) loc
           else loc2 ← get_variable_index S v; vget (pt_dims S) loc2);
         t ← table_extension T all dims;
         s ← table_extension S all dims;
         Ok (t, s)) = Ok (T1, S1) /\ wf T1 /\ wf S1 /\ pt_vars T1 = pt_vars S1 /\
       (forall v, v ∈ pt_vars T1 <-> v ∈ all) /\
       (forall a, valid a -> tval T1 a = tval T a) /\ (forall a, valid a -> tval S1 a = tval S a))
    as (T1 & S1 & -> & HT1 & HS1 & Hv1 & Hvall & HvT & HvS).
  { case_bool_decide as Hz.
    - destruct Hz as [Hz1 Hz2].
      assert (pt_vars T ≡ₚ all) as PT by (apply nodup_cover_le; [done|apply HT| |done]; intros; apply Hall; tauto).
      assert (pt_vars S ≡ₚ all) as PS by (apply nodup_cover_le; [done|apply HS| |done]; intros; apply Hall; tauto).
      exists T, S. split_and!; try done.
      + apply Hord. by rewrite PT, PS.
      + intros v. by rewrite PT.
    - case_bool_decide as Hz2.
      + assert (pt_vars S ≡ₚ all) as PS by (apply nodup_cover_le; [done|apply HS| |done]; intros; apply Hall; tauto).
        rewrite (wf_dims _ _ HS).
        destruct (table_extension_spec dom dom_pos T (pt_vars S)) as (T1 & -> & HT1 & Hv & Hval); [done|apply HS|done| |].
        { intros v Hv. rewrite PS. apply Hall. tauto. }
        exists T1, S. split_and!; try done. intros v. by rewrite Hv, PS.
      + case_bool_decide as Hz1.
        * assert (pt_vars T ≡ₚ all) as PT by (apply nodup_cover_le; [done|apply HT| |done]; intros; apply Hall; tauto).
          rewrite (wf_dims _ _ HT).
          destruct (table_extension_spec dom dom_pos S (pt_vars T)) as (S1 & -> & HS1 & Hv & Hval); [done|apply HT|done| |].
          { intros v Hv. rewrite PT. apply Hall. tauto. }
          exists T, S1. split_and!; try done. intros v. by rewrite PT.
        * rewrite (mcollect_ok _ _ dom).
          2: { intros v Hv. apply Hall in Hv.
               destruct (decide (v ∈ pt_vars T)) as [HvT|HvT].
               - destruct (get_variable_index_in dom dom_pos T v HT HvT) as (i & -> & Hi & Hlt).
                 cbn [mbind outcome_bind]. rewrite bool_decide_true by (by rewrite <-(wf_nv _ _ HT)).
                 apply vget_ok. by rewrite (wf_dims _ _ HT), list_lookup_fmap, Hi.
               - rewrite (get_variable_index_out dom dom_pos T v HT HvT).
                 cbn [mbind outcome_bind]. rewrite bool_decide_false by (rewrite <-(wf_nv _ _ HT); lia).
                 destruct (get_variable_index_in dom dom_pos S v HS) as (i & -> & Hi & Hlt); [tauto|].
                 cbn [mbind outcome_bind]. apply vget_ok. by rewrite (wf_dims _ _ HS), list_lookup_fmap, Hi. }
          cbn [mbind outcome_bind].
          assert (all ≠ []) as Hne.
          { destruct (pt_vars T) as [|v l] eqn:Ev; [done|]. intros Hn.
            assert (v ∈ all) as Hin by (apply Hall; left; left). rewrite Hn in Hin. by apply elem_of_nil in Hin. }
          destruct (table_extension_spec dom dom_pos T all) as (T1 & -> & HT1 & HvT & HvalT); [done|done|done| |].
          { intros v Hv. apply Hall. tauto. }
          destruct (table_extension_spec dom dom_pos S all) as (S1 & -> & HS1 & HvS & HvalS); [done|done|done| |].
          { intros v Hv. apply Hall. tauto. }
          cbn [mbind outcome_bind]. exists T1, S1. split_and!; try done; [by rewrite HvT|by rewrite HvT]. }
  cbn [mbind outcome_bind fst snd].
  destruct (mult_loop_spec dom dom_pos T1 S1) as (P & -> & HP & HvP & HvalP); try done.
  cbn [mbind outcome_bind]. exists P, S1. split_and!; try done.
  - intros v. by rewrite HvP, Hvall, Hall.
  - intros a Ha. by rewrite HvalP, HvT, HvS.
Qed.

Lemma table_multiplication_one_spec T S v :
  wf T -> wf S -> pt_vars S = [v] -> v ∈ pt_vars T ->
  exists P, table_multiplication_one T S = Ok P /\ wf P /\ pt_vars P = pt_vars T /\
    forall a, valid a -> tval P a = tval T a * tval S a.
Proof.
  intros HT HS ES Hv. unfold table_multiplication_one.
  rewrite (bool_decide_false (pt_vars T = [])) by (intros E; rewrite E in Hv; by apply elem_of_nil in Hv).
  rewrite (bool_decide_false (pt_vars S = [])) by (by rewrite ES).
  rewrite (vget_ok (pt_vars S) 0%nat v) by (by rewrite ES). cbn [mbind outcome_bind].
  case_bool_decide as Hn.
  - destruct (get_variable_index_in dom dom_pos T v HT Hv) as (loc & -> & Hloc & Hlt). cbn [mbind outcome_bind].
    set (g := fun k x => x * default 0 (pt_pots S !! default 0%nat (default [] (configs (pt_dims T) !! k) !! loc))).
    assert (forall a, valid a -> configs (pt_dims T) !! lex_index (pt_dims T) (a <$> pt_vars T) = Some (a <$> pt_vars T)) as Hcfg.
    { intros a Ha. apply configs_lookup. split; [|done]. rewrite (wf_dims _ _ HT). by apply valid_in_range. }
    assert (forall a, valid a -> pt_pots S !! a v = Some (tval S a)) as HSl.
    { intros a Ha. pose proof (tval_lookup dom dom_pos S a HS Ha) as Hl.
      rewrite (wf_dims _ _ HS), ES in Hl. cbn in Hl. by rewrite Nat.add_0_r, Nat.mul_1_r in Hl. }
    rewrite (mfor_ext _ _ (fun k pots => x ← vget pots k;
      y ← (cfg ← get_config T k; c ← vget cfg loc; y ← vget (pt_pots S) c; Ok (x * y)); vset pots k y)).
    2: { intros k s0 Hk. apply elem_of_seq in Hk.
         destruct (slot_asg dom dom_pos T k HT) as (a & Ha & Hi & ->); [lia|]. cbn [mbind outcome_bind].
         rewrite (vget_ok _ _ (a v)) by (by rewrite list_lookup_fmap, Hloc). cbn [mbind outcome_bind].
         destruct (vget s0 k); cbn [mbind outcome_bind]; [|done].
         by rewrite (vget_ok _ _ _ (HSl a Ha)). }
    rewrite (mfor_pointwise _ _ g).
    + cbn [mbind outcome_bind]. eexists; split; [done|]. split_and!; [|done|].
      * apply (wf_set_pots dom dom_pos); [done|]. rewrite imap_length, (wf_pots _ _ HT). symmetry; apply HT.
      * intros a Ha. unfold tval at 1. cbn [pt_pots pt_dims pt_vars].
        rewrite list_lookup_imap, (tval_lookup dom dom_pos T a HT Ha). cbn. unfold g.
        rewrite Hcfg by done. cbn. rewrite list_lookup_fmap, Hloc. cbn. by rewrite (HSl a Ha).
    + intros k x Hk. apply lookup_lt_Some in Hk. rewrite (wf_pots _ _ HT), <-(wf_size _ _ HT) in Hk.
      destruct (slot_asg dom dom_pos T k HT Hk) as (a & Ha & Hi & ->). cbn [mbind outcome_bind].
      rewrite (vget_ok _ _ (a v)) by (by rewrite list_lookup_fmap, Hloc). cbn [mbind outcome_bind].
      rewrite (vget_ok _ _ _ (HSl a Ha)). cbn [mbind outcome_bind]. unfold g.
      rewrite <-Hi, Hcfg by done. cbn. rewrite list_lookup_fmap, Hloc. cbn. by rewrite (HSl a Ha).
    + rewrite (wf_pots _ _ HT). symmetry. apply HT.
  - apply (mult_loop_spec dom dom_pos); try done. rewrite ES.
    rewrite (wf_nv _ _ HT) in Hn. destruct (pt_vars T) as [|w [|w2 l]]; [by apply elem_of_nil in Hv| |cbn in Hn; lia].
    apply elem_of_list_singleton in Hv. by subst.
Qed.
End tables3.
