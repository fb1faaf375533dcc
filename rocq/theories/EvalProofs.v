(** The reference file is read as written, and the two errors are what they should be. *)
From Coq Require Import Field QArith.
From Verif Require Import EvalModel EvalSpec StringProofs DataProofs BIFProofs UtilProofs JTTheorems TableProofs.
Local Open Scope nat_scope.

(** ** Lines *)
Definition left_lines (t : str) (ls : list str) : Prop := (exists r, t = text_of ls ++ r) \/ t ++ [newline] = text_of ls.
Lemma left_step t l ls l0 : newline ∉ l -> left_lines t (l :: ls) -> exists t' e, next_line l0 t false = (l, t', e) /\ (ls <> [] -> e = false /\ left_lines t' ls).
Proof.
  intros Hl [(r & ->)|Ht].
  - exists (text_of ls ++ r), false. unfold next_line. rewrite text_of_cons, <-app_assoc. cbn [app]. rewrite getline_line by done. split; [done|]. intros _. split; [done|]. left. by exists r.
  - rewrite text_of_cons in Ht. destruct ls as [|l2 ls].
    + change (text_of []) with ([] : str) in Ht. apply app_inj_tail in Ht as [-> _]. exists [], true. unfold next_line. rewrite getline_end by done. done.
    + assert (exists u, text_of (l2 :: ls) = u ++ [newline]) as [u Hu].
      { generalize (l2 :: ls) (ltac:(done) : l2 :: ls <> []). intros l3 Hne. destruct l3 as [|x l3 _] using rev_ind; [done|]. exists (text_of l3 ++ x). unfold text_of. rewrite fmap_app, concat_app. cbn. by rewrite app_nil_r, <-app_assoc. }
      rewrite Hu in Ht. change (l ++ newline :: u ++ [newline]) with (l ++ (newline :: u) ++ [newline]) in Ht. rewrite app_assoc in Ht. apply app_inj_tail in Ht as [-> _].
      exists u, false. unfold next_line. rewrite getline_line by done. split; [done|]. intros _. split; [done|]. right. by rewrite Hu.
Qed.
Lemma words_last es : es <> [] -> Forall (fun e => e <> [] /\ Forall (fun c => (33 <= c)%Z) e) es -> exists c, last (words es) = Some c /\ (33 <= c)%Z.
Proof.
  intros Hne H. induction H as [|e es [He Hc] H IH]; [done|]. destruct es as [|e2 es].
  - change (words [e]) with e. destruct e as [|c e _] using rev_ind; [done|]. exists c. rewrite last_snoc. split; [done|]. apply Forall_app in Hc as [_ Hc]. by inversion_clear Hc.
  - destruct (IH ltac:(done)) as (c & Hl & Hc'). exists c. split; [|done]. change (words (e :: e2 :: es)) with (e ++ blank :: words (e2 :: es)). rewrite last_app, last_cons, Hl. done.
Qed.
Lemma trim_unique (r w : str) : Forall (fun c => (c < 33)%Z) w -> (forall c, last r = Some c -> (33 <= c)%Z) -> trim_right (r ++ w) = Ok r.
Proof.
  intros Hw Hr. destruct (trim_right_spec (r ++ w)) as (r' & w' & -> & Heq & Hw' & Hr'). f_equal.
  assert (forall (a b c d : str), a ++ b = c ++ d -> Forall (fun x => (x < 33)%Z) b -> Forall (fun x => (x < 33)%Z) d -> (forall x, last a = Some x -> (33 <= x)%Z) -> (forall x, last c = Some x -> (33 <= x)%Z) -> length a <= length c -> a = c) as Hgen.
  { intros a b c d He Hb Hd Ha Hc Hle. pose proof He as He'. apply app_eq_inv in He' as [(k & -> & ->)|(k & -> & ->)].
    - rewrite app_length in Hle. destruct k; [by rewrite app_nil_r|cbn in Hle; lia].
    - destruct k as [|x k _] using rev_ind; [by rewrite app_nil_r|]. exfalso. specialize (Hc x). rewrite app_assoc, last_snoc in Hc. specialize (Hc eq_refl). rewrite !Forall_app in Hb. destruct Hb as [[_ Hx] _]. inversion_clear Hx. lia. }
  destruct (le_ge_dec (length r) (length r')) as [H|H]; [symmetry; by apply (Hgen r w r' w')|by apply (Hgen r' w' r w)].
Qed.
Lemma trim_blank (w : str) : Forall (fun c => (c < 33)%Z) w -> trim_right w = Ok [].
Proof. intros H. change w with (([] : str) ++ w). by apply trim_unique. Qed.
Lemma split_words es : es <> [] -> Forall (fun e => e <> [] /\ Forall (fun c => (33 <= c)%Z) e) es -> split_str (words es) [blank] = Ok es.
Proof. intros Hne H. apply split_glue; [done|]. intros c Hc Hb. rewrite Forall_forall in H. apply H in Hc as [_ Hc]. rewrite Forall_forall in Hc. apply Hc in Hb. unfold blank in Hb. lia. Qed.

(** ** Filling a row *)
Lemma fill_block {A} (xs : list A) (f : nat -> outcome A) pre (z : A) k : (forall i x, xs !! i = Some x -> f i = Ok x) -> length xs <= k ->
  mfor (seq 0 (length xs)) (fun i (acc : list A * nat) => x ← f i; tab ← vset (fst acc) (snd acc) x; Ok (tab, S (snd acc))) (pre ++ replicate k z, length pre) =
  Ok ((pre ++ xs) ++ replicate (k - length xs) z, length (pre ++ xs)).
Proof.
  intros Hf Hk. match goal with |- mfor _ ?b ?s = _ => destruct (mfor_inv (fun (dn : list nat) acc => acc = ((pre ++ take (length dn) xs) ++ replicate (k - length dn) z, length pre + length dn)) (seq 0 (length xs)) b s) as (s' & -> & ->) end.
  - cbn. by rewrite app_nil_r, Nat.sub_0_r, Nat.add_0_r.
  - intros dn i rest s0 Hs ->. assert (i = length dn /\ length dn < length xs) as [-> Hi].
    { assert (seq 0 (length xs) !! length dn = Some i) as H by (rewrite Hs, lookup_app_r, Nat.sub_diag by lia; done). apply lookup_seq in H. done. }
    destruct (lookup_lt_is_Some_2 xs (length dn) Hi) as [x Hx]. rewrite (Hf _ _ Hx). cbn [mbind outcome_bind fst snd]. eexists. split.
    + rewrite vset_ok by (rewrite !app_length, take_length, replicate_length; lia). reflexivity.
    + rewrite app_length. cbn [length]. f_equal; [|lia]. replace (length dn + 1) with (S (length dn)) by lia. rewrite (take_S_r _ _ _ Hx).
      rewrite insert_app_r_alt by (rewrite app_length, take_length; lia). rewrite app_length, take_length. replace (length pre + length dn - (length pre + length dn `min` length xs)) with 0 by lia.
      replace (k - length dn) with (S (k - S (length dn))) by lia. cbn [replicate]. rewrite <-!app_assoc. done.
  - rewrite seq_length, firstn_all, app_length. done.
Qed.

(** ** One row of the file *)
Lemma bind_nest {A B C} (o : outcome A) (f : A -> outcome B) (g : B -> outcome C) : ((o ≫= f) ≫= g) = (o ≫= fun x => f x ≫= g).
Proof. by destruct o. Qed.
Lemma bind_vget {A B} (l : list A) i x (f : A -> outcome B) : l !! i = Some x -> (vget l i ≫= f) = f x.
Proof. intros H. by rewrite (vget_ok _ _ _ H). Qed.
Definition ready (st : str * bool) (ls : list str) : Prop := ls = [] \/ (snd st = false /\ left_lines (fst st) ls).
Section rows.
Context (sq : Qc -> Qc) (stod : str -> outcome Qc) (N : network).
Notation doms := (domain_sizes N).
Notation dom := (net_dom N).
Notation n := (net_size N).

Definition ref_block (E : list (nat * nat)) (ref : nat -> nat -> Qc) (v : nat) : list Qc :=
  if bool_decide (v ∈ fst <$> E) then [qz (-1)] else ref v <$> seq 0 (dom v).
Definition ref_row (E : list (nat * nat)) (ref : nat -> nat -> Qc) : list Qc :=
  let bs := seq 0 n ≫= ref_block E ref in bs ++ replicate (sum_list doms - length bs) 0%Qc.

Lemma reference_node_ok E ref v l ls pre k line0 t e : v < n -> reference_line stod (bool_decide (v ∈ fst <$> E)) (dom v) (ref v) l -> ready (t, e) (l :: ls) -> length (ref_block E ref v) <= k ->
  exists line' t' e', reference_node stod doms v (pre ++ replicate k 0%Qc, length pre, (line0, t, e)) =
    Ok ((pre ++ ref_block E ref v) ++ replicate (k - length (ref_block E ref v)) 0%Qc, length (pre ++ ref_block E ref v), (line', t', e')) /\ ready (t', e') ls.
Proof.
  intros Hv [Hnl Hl] [?|[He Ht]] Hk; [done|]. cbn [fst snd] in He, Ht. subst e. destruct (left_step t l ls line0 Hnl Ht) as (t' & e' & Hnext & Hrest).
  unfold reference_node. rewrite Hnext. unfold ref_block in *.
  assert (forall t' e', (ls <> [] -> e' = false /\ left_lines t' ls) -> ready (t', e') ls) as Hready.
  { intros t1 e1 H1. destruct ls; [by left|right]. by apply H1. }
  case_bool_decide as Hobs.
  - rewrite trim_blank by done. cbn [mbind outcome_bind]. rewrite bool_decide_true by done. cbn [length] in Hk. destruct k as [|k]; [lia|].
    rewrite vset_ok by (rewrite app_length; cbn; lia). cbn [mbind outcome_bind]. exists [], t', e'. split; [|by apply Hready]. f_equal. f_equal. f_equal.
    + rewrite insert_app_r_alt, Nat.sub_diag by lia. cbn. rewrite <-app_assoc. cbn. by rewrite Nat.sub_0_r.
    + rewrite app_length. cbn. lia.
  - destruct Hl as (es & b & Hne & Hes & Hb & -> & Href). destruct (words_last es Hne Hes) as (c & Hlast & Hc).
    rewrite trim_unique; [|done|rewrite Hlast; by intros ? [= <-]]. cbn [mbind outcome_bind]. rewrite bool_decide_false by (intros Hz; by rewrite Hz in Hlast). rewrite split_words by done. cbn [mbind outcome_bind].
    destruct (lookup_lt_is_Some_2 doms v) as [d Hd]; [unfold domain_sizes; by rewrite fmap_length|]. assert (dom v = d) as Hdv by (unfold net_dom, dom_of; by rewrite Hd).
    rewrite (vget_ok _ _ _ Hd). cbn [mbind outcome_bind]. rewrite <-Hdv. rewrite fmap_length, seq_length in *.
    pose proof (fill_block (ref v <$> seq 0 (dom v)) (fun k => t ← vget es k; stod t) pre 0%Qc k) as Hfill. rewrite fmap_length, seq_length in Hfill.
    match type of Hfill with _ -> _ -> ?a = _ => match goal with |- context [mbind _ ?b] => replace b with a end end.
    + rewrite Hfill; [|clear Hfill; intros i x Hi|done].
      * cbn [mbind outcome_bind]. eexists _, t', e'. split; [reflexivity|by apply Hready].
      * apply list_lookup_fmap_Some in Hi as (j & Hj & ->). apply lookup_seq in Hj as [-> Hi]. destruct (Href i Hi) as (e & He & Hx). cbn [Nat.add]. etransitivity; [exact (bind_vget es i e (fun t => stod t) He)|exact Hx].
    + apply mfor_ext. intros i acc _. exact (bind_nest (vget es i) (fun t => stod t) (fun x => tab ← vset (fst acc) (snd acc) x; Ok (tab, S (snd acc)))).
Qed.
Lemma reference_row_ok E ref ls more i pre k line0 t e : i + length ls <= n ->
  (forall j l, ls !! j = Some l -> reference_line stod (bool_decide (i + j ∈ fst <$> E)) (dom (i + j)) (ref (i + j)) l) ->
  ready (t, e) (ls ++ more) -> length (seq i (length ls) ≫= ref_block E ref) <= k ->
  exists line' t' e', mfor (seq i (length ls)) (reference_node stod doms) (pre ++ replicate k 0%Qc, length pre, (line0, t, e)) =
    Ok ((pre ++ (seq i (length ls) ≫= ref_block E ref)) ++ replicate (k - length (seq i (length ls) ≫= ref_block E ref)) 0%Qc, length (pre ++ (seq i (length ls) ≫= ref_block E ref)), (line', t', e')) /\ ready (t', e') more.
Proof.
  revert i pre k line0 t e. induction ls as [|l ls IH]; intros i pre k line0 t e Hi Href Hr Hk.
  - exists line0, t, e. cbn. rewrite app_nil_r, Nat.sub_0_r. done.
  - cbn [length seq mfor]. cbn [length] in Hi. assert (seq i (S (length ls)) ≫= ref_block E ref = ref_block E ref i ++ (seq (S i) (length ls) ≫= ref_block E ref)) as Hs by done. cbn [length] in *. rewrite Hs in *. rewrite app_length in Hk.
    pose proof (Href 0 l eq_refl) as H0. rewrite Nat.add_0_r in H0. destruct (reference_node_ok E ref i l (ls ++ more) pre k line0 t e) as (l1 & t1 & e1 & -> & Hr1); [lia|done|done|lia|]. cbn [mbind outcome_bind].
    destruct (IH (S i) (pre ++ ref_block E ref i) (k - length (ref_block E ref i)) l1 t1 e1) as (l2 & t2 & e2 & -> & Hr2); [lia| |done|lia|].
    + intros j l' Hj. specialize (Href (S j) l' Hj). by rewrite Nat.add_succ_r in Href.
    + exists l2, t2, e2. split; [|done]. change (list_bind nat Qc (ref_block E ref) (i :: seq (S i) (length ls))) with (ref_block E ref i ++ (seq (S i) (length ls) ≫= ref_block E ref)). rewrite (app_length (ref_block E ref i)), Nat.sub_add_distr, <-!app_assoc. done.
Qed.

Lemma doms_seq : dom <$> seq 0 n = doms.
Proof.
  assert (length doms = n) as Hl by (unfold domain_sizes, net_size; by rewrite fmap_length). apply list_eq. intros i. rewrite list_lookup_fmap. destruct (decide (i < n)) as [Hi|Hi].
  - rewrite lookup_seq_lt by done. cbn. unfold net_dom, dom_of. destruct (lookup_lt_is_Some_2 doms i) as [d Hd]; [lia|]. by rewrite Hd.
  - rewrite !lookup_ge_None_2; [done|lia|rewrite seq_length; lia].
Qed.
Lemma ref_blocks_length E ref : Forall (fun d => 0 < d) doms -> length (seq 0 n ≫= ref_block E ref) <= sum_list doms.
Proof.
  intros Hpos. assert (forall l, length (l ≫= ref_block E ref) <= sum_list (dom <$> l)) as H.
  { induction l as [|v l IH]; [done|]. change ((v :: l) ≫= ref_block E ref) with (ref_block E ref v ++ (l ≫= ref_block E ref)). rewrite app_length. change (sum_list (dom <$> v :: l)) with (dom v + sum_list (dom <$> l)).
    enough (length (ref_block E ref v) <= dom v) by lia. unfold ref_block. case_bool_decide; [|by rewrite fmap_length, seq_length]. cbn. unfold net_dom, dom_of. destruct (doms !! v) as [d|] eqn:Hd; [|done]. cbn. rewrite Forall_lookup in Hpos. by apply (Hpos v). }
  specialize (H (seq 0 n)). by rewrite doms_seq in H.
Qed.
Lemma load_rows Es refs lss pre line0 t e k : Forall (fun d => 0 < d) doms -> length refs = length Es ->
  Forall2 (fun p ls => reference_lines stod N p.1 p.2 ls) (zip Es refs) lss -> ready (t, e) (concat lss) ->
  exists st, mfor (seq k (length Es)) (fun _ (acc : list (list Qc) * (str * str * bool)) =>
    st ← mfor (seq 0 (length doms)) (reference_node stod doms) (replicate (sum_list doms) 0%Qc, 0, snd acc);
    Ok (fst acc ++ [fst (fst st)], snd st)) (pre, (line0, t, e)) = Ok (pre ++ zip_with ref_row Es refs, st).
Proof.
  intros Hpos. revert refs lss pre line0 t e k. induction Es as [|E Es IH]; intros [|ref refs] lss pre line0 t e k Hl HF Hr; try done.
  - eexists. cbn. by rewrite app_nil_r.
  - cbn in HF. inversion HF as [|? ls ? lss' [Hlen Hls] HF']; subst. cbn [length seq mfor snd fst]. cbn [fst snd] in *.
    assert (length doms = length ls) as Hdl by (rewrite Hlen; unfold domain_sizes, net_size; by rewrite fmap_length).
    destruct (reference_row_ok E ref ls (concat lss') 0 [] (sum_list doms) line0 t e) as (l1 & t1 & e1 & Hrow & Hr1); [lia|done|done|rewrite Hlen; by apply ref_blocks_length|]. cbn [app length] in Hrow.
    rewrite Hdl, Hrow. cbn [mbind outcome_bind fst snd]. rewrite Hlen. destruct (IH refs lss' (pre ++ [ref_row E ref]) l1 t1 e1 (S k)) as (st & Hst); [by injection Hl|done..|]. exists st. rewrite Hdl, Hlen in Hst. etransitivity; [exact Hst|].
    cbn. by rewrite <-app_assoc.
Qed.
Lemma load_reference_ok Es refs text : Forall (fun d => 0 < d) doms -> is_reference stod N Es refs text -> load_reference stod doms (length Es) text = Ok (zip_with ref_row Es refs).
Proof.
  intros Hpos (Hl & lss & HF & Ht). unfold load_reference. rewrite QueryProofs.foldl_add_sum. cbn [Nat.add].
  destruct (load_rows Es refs lss [] [] text false 0 Hpos Hl HF) as (st & Hst); [right; by split|]. unfold str in *. rewrite Hst. done.
Qed.

(** ** The two errors of one row *)
Lemma error_loop (g : Qc -> Qc) approx exact : length approx = length exact ->
  mfor (seq 0 (length exact)) (fun i (st : nat * Qc) =>
    e ← vget exact i;
    if bool_decide (0 < e)%Qc then a ← vget approx i; let d := (g (qround a 7) - g e)%Qc in Ok (S (fst st), (snd st + d * d)%Qc)
    else Ok st) (0, 0%Qc) =
  let l := (fun p => (qround p.1 7, p.2)) <$> filter (fun p => 0 < p.2)%Qc (zip approx exact) in
  Ok (length l, qsum l (fun p => (g p.1 - g p.2) * (g p.1 - g p.2))%Qc).
Proof.
  intros Hl. match goal with |- mfor _ ?b ?s = _ => destruct (mfor_inv (fun (dn : list nat) st =>
    let l := (fun p => (qround p.1 7, p.2)) <$> filter (fun p => 0 < p.2)%Qc (take (length dn) (zip approx exact)) in
    st = (length l, qsum l (fun p => (g p.1 - g p.2) * (g p.1 - g p.2))%Qc)) (seq 0 (length exact)) b s) as (s' & -> & ->) end.
  - done.
  - intros dn i rest st Hs ->. assert (i = length dn /\ length dn < length exact) as [-> Hi].
    { assert (seq 0 (length exact) !! length dn = Some i) as H by (rewrite Hs, lookup_app_r, Nat.sub_diag by lia; done). apply lookup_seq in H. done. }
    destruct (lookup_lt_is_Some_2 exact (length dn) Hi) as [e He]. destruct (lookup_lt_is_Some_2 approx (length dn)) as [a Ha]; [lia|].
    rewrite (vget_ok _ _ _ He), (vget_ok _ _ _ Ha). cbn [mbind outcome_bind fst snd]. rewrite app_length. cbn [length]. rewrite Nat.add_1_r.
    assert (zip approx exact !! length dn = Some (a, e)) as Hz by (apply lookup_zip_with_Some; by exists a, e).
    rewrite (take_S_r _ _ _ Hz), filter_app, fmap_app, app_length, qsum_app. rewrite filter_cons. case_bool_decide as Hpos.
    + rewrite decide_True by done. eexists. split; [done|]. cbn. f_equal; [lia|]. ring.
    + rewrite decide_False by done. eexists. split; [done|]. cbn. f_equal; [lia|]. ring.
  - rewrite seq_length, take_ge; [done|]. rewrite zip_with_length. lia.
Qed.

Lemma compared_zip pts E ref : Forall (fun d => 0 < d) doms ->
  length (answer_all N pts E) = length (ref_row E ref) /\
  (fun p => (qround p.1 7, p.2)) <$> filter (fun p => 0 < p.2)%Qc (zip (answer_all N pts E) (ref_row E ref)) = compared N pts E ref.
Proof.
  intros Hpos. assert (forall v, length (answer_block N pts E v) = length (ref_block E ref v)) as Hb.
  { intros v. unfold answer_block, ref_block. case_bool_decide; [done|]. by rewrite !fmap_length. }
  assert (forall l, length (l ≫= answer_block N pts E) = length (l ≫= ref_block E ref)) as Hbs.
  { induction l as [|v l IH]; [done|]. change ((v :: l) ≫= ref_block E ref) with (ref_block E ref v ++ (l ≫= ref_block E ref)). change ((v :: l) ≫= answer_block N pts E) with (answer_block N pts E v ++ (l ≫= answer_block N pts E)). by rewrite !app_length, IH, Hb. }
  split.
  - unfold answer_all, ref_row. rewrite !app_length, !replicate_length, Hbs. done.
  - unfold answer_all, ref_row. rewrite zip_with_app by apply Hbs. rewrite filter_app, fmap_app. rewrite Hbs. set (k := sum_list doms - _). clearbody k.
    assert (filter (fun p : Qc * Qc => 0 < p.2)%Qc (zip (replicate k minus_one) (replicate k 0%Qc)) = []) as ->.
    { induction k as [|k IH]; [done|]. cbn [replicate zip zip_with]. rewrite filter_cons, decide_False; [done|]. cbn. intros H. by apply Qclt_not_eq in H. }
    rewrite app_nil_r. unfold compared. induction (seq 0 n) as [|v l IH]; [done|].
    change ((v :: l) ≫= ref_block E ref) with (ref_block E ref v ++ (l ≫= ref_block E ref)). change ((v :: l) ≫= answer_block N pts E) with (answer_block N pts E v ++ (l ≫= answer_block N pts E)).
    rewrite zip_with_app by apply Hb. rewrite filter_app, fmap_app, IH. rewrite filter_cons. unfold answer_block, ref_block. clear IH. case_bool_decide as Hv.
    + rewrite decide_False by tauto. done.
    + rewrite decide_True by done. rewrite bind_cons. f_equal. rewrite zip_with_fmap_r, zip_with_fmap_l. induction (seq 0 (dom v)) as [|x s IHs]; [done|]. cbn [zip_with]. rewrite !filter_cons. cbn [fst snd]. destruct (decide (0 < ref v x)%Qc); [|exact IHs]. rewrite fmap_cons, IHs. done.
Qed.
Lemma calculate_mse_ok pts E ref : Forall (fun d => 0 < d) doms ->
  calculate_mse sq (answer_all N pts E) (ref_row E ref) = if bool_decide (compared N pts E ref = []) then Err DivZero else Ok (root_mean_square sq (fun x => x) (compared N pts E ref)).
Proof.
  intros Hpos. destruct (compared_zip pts E ref Hpos) as [Hl Hc]. unfold calculate_mse. pose proof (error_loop (fun x => x) _ _ Hl) as Hloop. cbv zeta in Hloop. rewrite Hc in Hloop. cbv zeta. rewrite Hloop. cbn [mbind outcome_bind fst snd].
  destruct (compared N pts E ref); [done|]. by rewrite !bool_decide_false by done.
Qed.
Lemma calculate_hd_ok pts E ref : Forall (fun d => 0 < d) doms ->
  calculate_hd sq (answer_all N pts E) (ref_row E ref) = if bool_decide (compared N pts E ref = []) then Err DivZero else Ok (root_mean_square sq sq (compared N pts E ref)).
Proof.
  intros Hpos. destruct (compared_zip pts E ref Hpos) as [Hl Hc]. unfold calculate_hd. pose proof (error_loop sq _ _ Hl) as Hloop. cbv zeta in Hloop. rewrite Hc in Hloop. cbv zeta. rewrite Hloop. cbn [mbind outcome_bind fst snd].
  destruct (compared N pts E ref); [done|]. by rewrite !bool_decide_false by done.
Qed.
End rows.
