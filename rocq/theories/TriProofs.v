(** [triangulate] eliminates the vertices one by one and keeps the maximal cliques. *)
From Verif Require Import JTModel JTSpec TableProofs TableProofs3 ParProofs NetProofs MoralProofs ElimProofs.
Local Open Scope nat_scope.


Lemma construct_empty_spec doms vars : NoDup vars -> vars <> [] -> (forall v, v ∈ vars -> v < length doms) ->
  exists t, construct_empty_potential_table doms vars = Ok t /\ TableSpec.wf (dom_of doms) t /\ pt_vars t = vars /\
    pt_pots t = replicate (pt_size t) 1%Qc.
Proof.
  intros Hnd Hne Hb. unfold construct_empty_potential_table, construct_var_dims_and_cum_levels.
  assert (mcollect vars (node_dim doms) = Ok (dom_of doms <$> vars)) as ->.
  { apply mcollect_ok. intros v Hv. unfold node_dim, dom_of. destruct (lookup_lt_is_Some_2 doms v (Hb v Hv)) as [d ->]. done. }
  cbn [mbind outcome_bind]. 
  assert (dom_of doms <$> vars <> []) as Hne' by (by destruct vars).
  assert (construct_cum_levels (length vars) (dom_of doms <$> vars) = Ok (strides (dom_of doms <$> vars))) as ->.
  { rewrite <-(construct_cum_levels_spec _ Hne'). by rewrite fmap_length. }
  cbn [mbind outcome_bind].
  destruct vars as [|v vars]; [done|]. cbn [fmap list_fmap]. cbn [strides].
  set (d := dom_of doms v) in *. change (list_fmap nat nat (dom_of doms) vars) with (dom_of doms <$> vars) in *. set (ds := dom_of doms <$> vars) in *.
  change (vget (prod_list ds :: strides ds) 0) with (Ok (prod_list ds)). change (vget (d :: ds) 0) with (Ok d). cbn [mbind outcome_bind].
  assert (prod_list ds * d = length (configs (d :: ds))) as Hsz by (rewrite configs_length; cbn; fold (prod_list ds); lia).
  eexists. split; [done|]. split; [|done]. split; cbn [pt_vars pt_pots pt_dims pt_cum pt_nv pt_size]; try done. by rewrite replicate_length.
Qed.
Lemma empty_tval doms t a : (forall v, 0 < dom_of doms v) -> TableSpec.wf (dom_of doms) t -> pt_pots t = replicate (pt_size t) 1%Qc -> valid (dom_of doms) a -> tval t a = 1%Qc.
Proof.
  intros Hd Hw Hp Ha. pose proof (tval_lookup _ Hd t a Hw Ha) as H. rewrite Hp in H. apply lookup_replicate in H as [? _]. done.
Qed.

(** ** One elimination step on the matrix *)
Lemma fill_in_spec n m nb : square_matrix n m -> StronglySorted lt nb -> (forall x, x ∈ nb -> x < n) ->
  exists m', fill_in m nb = Ok m' /\ square_matrix n m' /\
    forall a b, matrix_rel m' a b <-> matrix_rel m a b \/ (a <> b /\ a ∈ nb /\ b ∈ nb).
Proof.
  intros Hsq Hs Hb. unfold fill_in.
  set (D := fun i j a b => exists p q, p < q /\ (p < i \/ (p = i /\ q < j)) /\
     ((nb !! p = Some a /\ nb !! q = Some b) \/ (nb !! p = Some b /\ nb !! q = Some a))).
  set (Q := fun i j (m' : matrix) => square_matrix n m' /\ forall a b, matrix_rel m' a b <-> matrix_rel m a b \/ D i j a b).
  set (inner := fun i => fun j (m : matrix) => x ← vat nb i; y ← vat nb j; m1 ← mset m x y 1; mset m1 y x 1).
  destruct (mfor_seq_inv (fun i m' => Q i (i + 1) m') (fun i m => mfor (seq (i + 1) (length nb - (i + 1))) (inner i) m) 0 (length nb) m) as (m' & Hm' & Hs' & Hr').
  - split; [done|]. intros a b. split; [by left|]. intros [?|(p & q & ? & ? & _)]; [done|lia].
  - intros i y [_ Hi] Hy. cbn in Hi. destruct (mfor_seq_inv (fun j m' => Q i j m') (inner i) (i + 1) (length nb - (i + 1)) y Hy) as (z & Hz & Hqs & Hqr).
    + intros j y' Hj [Hs' Hr']. destruct (lookup_lt_is_Some_2 nb i) as [u Hu]; [lia|]. destruct (lookup_lt_is_Some_2 nb j) as [w Hw]; [lia|].
      unfold inner. assert (vat nb i = Ok u) as -> by (unfold vat; by rewrite Hu). assert (vat nb j = Ok w) as -> by (unfold vat; by rewrite Hw). cbn [mbind outcome_bind].
      destruct (mset2_one n y' u w Hs') as (m2 & -> & Hs2 & Hr2); [apply Hb; by eapply elem_of_list_lookup_2..|]. exists m2. split; [done|]. split; [done|].
      intros a b. rewrite Hr2, Hr'. split.
      * intros [[-> ->]|[[-> ->]|[?|(p & q & ? & ? & ?)]]]; [right|right|by left|right].
        -- exists i, j. split_and!; [lia|lia|by left].
        -- exists i, j. split_and!; [lia|lia|by right].
        -- exists p, q. split_and!; [lia|lia|done].
      * intros [?|(p & q & Hpq & Hc & Hor)]; [tauto|]. destruct (decide (p = i /\ q = j)) as [[-> ->]|Hne].
        -- rewrite Hu, Hw in Hor. destruct Hor as [[[= <-] [= <-]]|[[= <-] [= <-]]]; tauto.
        -- right; right; right. exists p, q. split_and!; [lia|lia|done].
    + exists z. split; [done|]. split; [done|]. intros a b. rewrite Hqr. apply or_iff_compat_l. unfold D.
      replace (i + 1 + (length nb - (i + 1))) with (length nb) by lia.
      split; intros (p & q & Hpq & Hc & Hor); exists p, q; (split_and!; [done| |done]).
      * lia.
      * assert (q < length nb); [|lia]. destruct Hor as [[_ Hq]|[_ Hq]]; by eapply lookup_lt_Some.
  - exists m'. split; [done|]. split; [done|]. intros a b. rewrite Hr'. apply or_iff_compat_l. unfold D. split.
    + intros (p & q & Hpq & _ & Hor). destruct Hor as [[Hp Hq]|[Hp Hq]]; pose proof (sorted_lookup nb p q _ _ Hs Hp Hq Hpq);
        (split_and!; [lia|by eapply elem_of_list_lookup_2|by eapply elem_of_list_lookup_2]).
    + intros (Hne & Ha & Hbb). destruct (decide (a < b)) as [Hlt|Hge].
      * destruct (sorted_pair nb a b Hs Ha Hbb Hlt) as (p & q & Hpq & Hp & Hq). exists p, q. split_and!; [done| |by left].
        apply lookup_lt_Some in Hp. lia.
      * destruct (sorted_pair nb b a Hs Hbb Ha ltac:(lia)) as (p & q & Hpq & Hp & Hq). exists p, q. split_and!; [done| |by right].
        apply lookup_lt_Some in Hp. lia.
Qed.

Lemma isolate_spec n m v nb : square_matrix n m -> v < n -> (forall x, x ∈ nb -> x < n) ->
  exists m', mfor nb (fun x m => m1 ← mset m v x 0; mset m1 x v 0) m = Ok m' /\ square_matrix n m' /\
    forall a b, matrix_rel m' a b <-> matrix_rel m a b /\ ~ (a = v /\ b ∈ nb) /\ ~ (b = v /\ a ∈ nb).
Proof.
  intros Hsq Hv. revert m Hsq. induction nb as [|x nb IH]; intros m Hsq Hb; cbn [mfor].
  - exists m. split; [done|]. split; [done|]. intros a b. rewrite !elem_of_nil. tauto.
  - destruct (mset2_zero n m v x Hsq Hv) as (m1 & -> & Hs1 & Hr1); [apply Hb; left|]. cbn [mbind outcome_bind].
    destruct (IH m1 Hs1) as (m2 & -> & Hs2 & Hr2); [intros; apply Hb; by right|]. exists m2. split; [done|]. split; [done|].
    intros a b. rewrite Hr2, Hr1, !elem_of_cons. naive_solver.
Qed.

Lemma min_neighbours_spec n m processed : square_matrix n m -> length processed = n ->
  exists best, min_neighbours m n processed = Ok best /\
    match best with
    | Some (_, v) => v < n /\ processed !! v = Some false
    | None => forall v, v < n -> processed !! v = Some true
    end.
Proof.
  intros Hsq Hl. unfold min_neighbours.
  destruct (mfor_seq_inv (fun i best => match best with Some (_, v) => v < n /\ processed !! v = Some false | None => forall v, v < i -> processed !! v = Some true end)
    (fun i best => p ← vget processed i; if p : bool then Ok best else
      nb ← neighbours m n i;
      Ok (match best with
          | None => Some (length nb, i)
          | Some (mn, _) => if bool_decide (length nb < mn) then Some (length nb, i) else best
          end)) 0 n (None : option (nat * nat))) as (best & -> & Hbest).
  - intros v Hv. lia.
  - intros i best [_ Hi] Hinv. cbn in Hi. destruct (lookup_lt_is_Some_2 processed i) as [p Hp]; [lia|]. rewrite (vget_ok _ _ _ Hp). cbn [mbind outcome_bind].
    destruct p.
    + exists best. split; [done|]. destruct best as [[? v]|]; [done|]. intros v Hv. destruct (decide (v = i)) as [->|]; [done|]. apply Hinv. lia.
    + destruct (neighbours_spec n m i Hsq Hi) as (nb & -> & _). cbn [mbind outcome_bind]. eexists. split; [done|].
      destruct best as [[mn v]|]; [|done]. by destruct (bool_decide _).
  - exists best. split; [done|]. exact Hbest.
Qed.

Lemma foldl_sins v nb : StronglySorted lt (foldl (fun s x => sins x s) [v] nb) /\
  forall x, x ∈ foldl (fun s x => sins x s) [v] nb <-> x = v \/ x ∈ nb.
Proof.
  assert (forall s, StronglySorted lt s -> StronglySorted lt (foldl (fun s x => sins x s) s nb) /\
    forall x, x ∈ foldl (fun s x => sins x s) s nb <-> x ∈ s \/ x ∈ nb) as H.
  { induction nb as [|y nb IH]; intros s Hs; cbn.
    - split; [done|]. intros x. rewrite elem_of_nil. tauto.
    - destruct (IH (sins y s)) as [H1 H2]; [by apply sins_sorted|]. split; [done|]. intros x. rewrite H2, elem_of_sins, elem_of_cons. tauto. }
  destruct (H [v]) as [H1 H2]; [repeat constructor|]. split; [done|]. intros x. by rewrite H2, elem_of_list_singleton.
Qed.

Lemma filter_length_lt_all (V : list nat) v : v ∈ V -> length (filter (fun x => x <> v) V) < length V.
Proof.
  induction V as [|x V IH]; intros Hin; [by apply elem_of_nil in Hin|]. rewrite filter_cons. destruct (decide (x <> v)) as [Hne|He].
  - apply elem_of_cons in Hin as [->|Hin]; [done|]. cbn. specialize (IH Hin). lia.
  - cbn. pose proof (filter_length (fun x => x <> v) V). lia.
Qed.
Lemma inter_same K C : set_intersection K C = K <-> sub K C.
Proof.
  unfold set_intersection. rewrite sub_alt. split.
  - intros H x Hx. rewrite <-H in Hx. apply elem_of_list_filter in Hx. tauto.
  - intros H. by apply filter_keep.
Qed.
Lemma redundant_spec K cliques : redundant K cliques = true <-> Exists (sub K) (cq_vars <$> cliques).
Proof.
  unfold redundant. rewrite existsb_exists, Exists_exists. split.
  - intros (C & HC & H). exists (cq_vars C). split; [apply elem_of_list_fmap; exists C; split; [done|by apply elem_of_list_In]|].
    apply bool_decide_eq_true in H. by apply inter_same.
  - intros (V & HV & H). apply elem_of_list_fmap in HV as (C & -> & HC). exists C. split; [by apply elem_of_list_In|].
    apply bool_decide_eq_true. by apply inter_same.
Qed.

Definition fresh_for (olds : list (list nat)) (K : list nat) : Prop := ~ Exists (sub K) olds.
Global Instance fresh_for_dec olds K : Decision (fresh_for olds K).
Proof. unfold fresh_for. apply _. Defined.
Lemma filter_merge {A} (P Q R : A -> Prop) `{forall x, Decision (P x)} `{forall x, Decision (Q x)} `{forall x, Decision (R x)} (l : list A) :
  (forall x, x ∈ l -> R x <-> P x /\ Q x) -> filter P (filter Q l) = filter R l.
Proof.
  intros Hall. induction l as [|x l IH]; [done|]. rewrite !filter_cons. specialize (IH ltac:(intros; apply Hall; by right)).
  assert (R x <-> P x /\ Q x) as Hx by (apply Hall; left).
  destruct (decide (Q x)), (decide (R x)); try tauto; try (rewrite filter_cons; destruct (decide (P x)); try tauto; by rewrite IH).
  all: done.
Qed.

Theorem triangulate_spec n doms : length doms = n ->
  forall fuel m processed cliques V, square_matrix n m -> length processed = n -> NoDup V ->
  (forall x, x ∈ V <-> x < n /\ processed !! x = Some false) -> graph_ok (matrix_rel m) V -> length V < fuel ->
  exists M news, triangulate fuel n doms m processed cliques = Ok (cliques ++ news) /\ elim (matrix_rel m) V M /\
    cq_vars <$> news = filter (fresh_for (cq_vars <$> cliques)) M /\ Forall (fun c => new_clique doms (cq_vars c) = Ok c) news.
Proof.
  intros Hdoms. induction fuel as [|fuel IH]; intros m processed cliques V Hsq Hlp Hnd HV Hg Hf; [lia|]. cbn [triangulate].
  assert (mcollect (seq 0 n) (fun i => vget processed i) = Ok processed) as ->.
  { apply mcollect_lookup. rewrite seq_length. split; [done|]. intros k i Hk. apply lookup_seq in Hk as [-> Hk].
    destruct (lookup_lt_is_Some_2 processed (0 + k)) as [p Hp]; [lia|]. exists p. split; [done|]. by apply vget_ok. }
  cbn [mbind outcome_bind]. destruct (forallb id processed) eqn:Hall.
  { assert (V = []) as ->.
    { destruct V as [|x V]; [done|]. assert (x ∈ x :: V) as Hx by left. apply HV in Hx as [_ Hx].
      apply forallb_forall with (x := false) in Hall; [done|]. apply elem_of_list_In. by eapply elem_of_list_lookup_2. }
    exists [], []. rewrite app_nil_r. split_and!; [done|constructor|done|constructor]. }
  destruct (min_neighbours_spec n m processed Hsq Hlp) as (best & -> & Hbest). cbn [mbind outcome_bind].
  destruct best as [[mn v]|].
  2: { exfalso. apply not_true_iff_false in Hall. apply Hall. apply forallb_forall. intros p Hp. apply elem_of_list_In, elem_of_list_lookup in Hp as [k Hk].
       rewrite Hbest in Hk; [by injection Hk as <-|]. apply lookup_lt_Some in Hk. lia. }
  destruct Hbest as [Hv Hpv]. assert (v ∈ V) as HvV by (by apply HV).
  destruct (neighbours_spec n m v Hsq Hv) as (nb & -> & Hnbs & Hnb). cbn [mbind outcome_bind].
  destruct (fill_in_spec n m nb Hsq Hnbs) as (m1 & -> & Hs1 & Hr1); [intros x Hx; by apply Hnb|]. cbn [mbind outcome_bind].
  destruct (foldl_sins v nb) as [HKs HKm]. set (K := foldl (fun s x => sins x s) [v] nb) in *.
  assert (forall x, x ∈ nb <-> matrix_rel m v x) as Hnb'. { intros x. rewrite Hnb. split; [by intros [_ ?]|]. intros Hx. split; [|done]. by apply (rel_bound n) in Hx as [_ ?]. }
  destruct (isolate_spec n m1 v nb Hs1 Hv) as (m2 & Hm2 & Hs2 & Hr2); [intros x Hx; by apply Hnb|].
  assert (forall x y, matrix_rel m2 x y <-> x <> v /\ y <> v /\ (matrix_rel m x y \/ (x <> y /\ matrix_rel m v x /\ matrix_rel m v y))) as HG.
  { intros x y. rewrite Hr2, Hr1, !Hnb'. split.
    - intros ([Hxy|(Hne & Hx & Hy)] & N1 & N2).
      + pose proof (Hg _ _ Hxy) as (Hyx & _ & _ & _). split_and!; [intros ->; tauto|intros ->; tauto|by left].
      + split_and!; [intros ->; apply Hg in Hx; tauto|intros ->; apply Hg in Hy; tauto|by right].
    - intros (Hx & Hy & Hor). tauto. }
  assert (exists C, new_clique doms K = Ok C /\ cq_vars C = K) as (C & HC & HCK).
  { unfold new_clique. destruct (construct_empty_spec doms K) as (t & -> & _).
    - by apply sorted_NoDup.
    - intros HK. assert (v ∈ K) as Hin by (apply HKm; by left). rewrite HK in Hin. by apply elem_of_nil in Hin.
    - intros x Hx. rewrite Hdoms. apply HKm in Hx as [->|Hx]; [done|by apply Hnb].
    - cbn. eexists. split; [done|done]. }
  rewrite vset_ok by lia.
  set (V' := filter (fun x => x <> v) V).
  assert (forall x, x ∈ V' <-> x ∈ V /\ x <> v) as HV' by (intros x; unfold V'; rewrite elem_of_list_filter; tauto).
  assert (length V' < length V) as HlV.
  { unfold V'. by apply filter_length_lt_all. }
  assert (forall cl, exists M news, triangulate fuel n doms m2 (<[v:=true]> processed) cl = Ok (cl ++ news) /\ elim (matrix_rel m2) V' M /\
    cq_vars <$> news = filter (fresh_for (cq_vars <$> cl)) M /\ Forall (fun c => new_clique doms (cq_vars c) = Ok c) news) as Hrec.
  { intros cl. apply IH; [done|by rewrite insert_length|by apply NoDup_filter| |by eapply graph_ok_step|lia].
    intros x. rewrite HV', HV. destruct (decide (x = v)) as [->|Hne].
    - rewrite list_lookup_insert by lia. split; [tauto|]. by intros [_ ?].
    - rewrite list_lookup_insert_ne by done. tauto. }
  assert (forall M, elim (matrix_rel m2) V' M -> elim (matrix_rel m) V (K :: filter (fun C => ~ sub C K) M)) as Hel.
  { intros M HM. apply (elim_step _ _ v K M (matrix_rel m2) V'); try done. intros x. by rewrite HKm, Hnb'. }
  destruct (redundant K cliques) eqn:Hred.
  - cbn [mbind outcome_bind]. rewrite Hm2. cbn [mbind outcome_bind]. destruct (Hrec cliques) as (M & news & -> & HM & Hnews & HF).
    exists (K :: filter (fun C => ~ sub C K) M), news. split_and!; [done|by apply Hel| |done].
    apply redundant_spec in Hred. rewrite filter_cons, decide_False by (unfold fresh_for; tauto). rewrite Hnews. symmetry. apply filter_merge.
    intros D _. split; [|tauto]. intros HD. split; [done|]. intros HDK. apply HD. apply Exists_exists in Hred as (B & HB & HKB). apply Exists_exists. exists B. split; [done|]. by eapply sub_trans.
  - rewrite HC. cbn [mbind outcome_bind]. rewrite Hm2. cbn [mbind outcome_bind]. destruct (Hrec (cliques ++ [C])) as (M & news & -> & HM & Hnews & HF).
    exists (K :: filter (fun C => ~ sub C K) M), (C :: news). split_and!; [by rewrite <-app_assoc|by apply Hel| |].
    + apply not_true_iff_false in Hred. rewrite redundant_spec in Hred. rewrite filter_cons, decide_True by done. rewrite fmap_cons, HCK. f_equal. rewrite Hnews. symmetry.
      apply filter_merge. intros D _. unfold fresh_for. rewrite fmap_app, Exists_app. cbn [fmap list_fmap]. rewrite HCK, Exists_cons, Exists_nil. tauto.
    + constructor; [|done]. by rewrite HCK.
Qed.
