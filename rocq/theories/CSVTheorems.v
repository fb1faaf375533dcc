From Verif Require Import DataProofs DataSpec UtilProofs.
Local Open Scope nat_scope.

Lemma table_reads text header rows : csv_table text header rows ->
  exists r0 l rs r1, rows = l :: rs /\ getline text = (glue comma header, r0, true, false) /\
    (forall old, line_after old r0 false = (glue comma l, r1)) /\ reads r1 (glue comma <$> rs).
Proof.
  intros (Hl & Hh & Hhr & Hr & Hrs). apply has_lines_reads in Hl.
  2:{ intros l Hin. apply elem_of_list_fmap in Hin as (x & -> & Hx). apply (csv_row_line (length header)).
      apply elem_of_cons in Hx as [->|Hx]; [done|by apply Hrs]. }
  destruct rows as [|l rs]; [done|]. cbn [fmap list_fmap reads] in Hl.
  destruct Hl as (r0 & b0 & H0 & _ & r1 & b1 & H1 & _ & H2). exists r0, l, rs, r1. split_and!; [done| | |done].
  - rewrite H0. destruct b0; [|done]. apply getline_eof in H0 as ->. by rewrite getline_nil in H1.
  - intros old. unfold line_after. by rewrite H1.
Qed.
Lemma foldl_grow_length n ds rows : (forall r, r ∈ rows -> length r = n) -> length ds = n -> length (foldl grow_all ds rows) = n.
Proof.
  intros Hr Hds. revert ds Hds; induction rows as [|x l IH]; intros ds Hds; [done|]. cbn. apply IH.
  - intros y Hy. apply Hr. by right.
  - rewrite grow_all_length; [done|]. rewrite Hds. symmetry. apply Hr. left.
Qed.
Lemma codes_fst ds cells row : codes ds cells row -> fst <$> row = seq 0 (length cells).
Proof.
  intros [Hl Hc]. apply list_eq. intros i. rewrite list_lookup_fmap. destruct (decide (i < length cells)) as [Hi|Hi].
  - destruct (lookup_lt_is_Some_2 cells i Hi) as [c Hci]. destruct (Hc i c Hci) as (d & v & _ & _ & ->).
    rewrite lookup_seq_lt by done. done.
  - rewrite (lookup_ge_None_2 row) by lia. rewrite lookup_ge_None_2; [done|]. rewrite seq_length. lia.
Qed.

Theorem csv_training text header rows :
  csv_table text header rows -> NoDup header ->
  exists d, load_csv_training text = Ok d /\
    d_names d = header /\ d_nvars d = length header /\ length (d_dicts d) = length header /\ d_sizes d = length <$> d_dicts d /\
    (forall i dict, d_dicts d !! i = Some dict -> first_appearance (column i rows) dict) /\
    length (d_rows d) = length rows /\
    (forall j cells row, rows !! j = Some cells -> d_rows d !! j = Some row -> codes (d_dicts d) cells row) /\
    (forall i j cells c, rows !! j = Some cells -> cells !! i = Some c ->
       exists col dict v, d_columns d !! i = Some col /\ d_dicts d !! i = Some dict /\ dict !! v = Some c /\ col !! j = Some (Z.of_nat v)).
Proof.
  intros Ht Hnd. pose proof (table_reads _ _ _ Ht) as (r0 & l & rs & r1 & -> & H0 & H1 & H2).
  destruct Ht as (_ & Hh & Hhr & _ & Hrs). set (n := length header) in *.
  assert (n <> 0) as Hn by (unfold n; by destruct header).
  unfold load_csv_training. rewrite H0. cbv beta iota.
  pose proof (csv_row_cells n header Hn Hhr) as Hcells.
  assert (length (filter (fun c => c = comma) (glue comma header)) + 1 = n) as Hcount.
  { apply count_commas; [done|]. intros c Hc Hx. destruct Hhr as (_ & Hcl & _). by destruct (Hcl c Hc comma Hx) as [[] _]. }
  rewrite Hcount. destruct (trim_right (glue comma header)) as [s|e]; [|done]. cbn [mbind outcome_bind] in *. rewrite Hcells.
  cbn [mbind outcome_bind]. rewrite bool_decide_true by done. rewrite H1. cbv beta iota.
  assert (forall r, r ∈ l :: rs -> length r = n) as Hlen by (intros r Hr; by destruct (Hrs r Hr)).
  rewrite (train_loop n _ l rs); try done.
  2:{ apply Hrs. left. } 2:{ intros r Hr. apply Hrs. by right. } 2:{ apply replicate_length. }
  2:{ apply reads_bound in H2. rewrite fmap_length in H2. lia. }
  cbn [mbind outcome_bind app]. set (rows := l :: rs) in *. set (ds0 := replicate n ([] : list str)) in *.
  set (ds := foldl grow_all ds0 rows). set (coded := all_codes ds0 rows).
  assert (forall j cells row, rows !! j = Some cells -> coded !! j = Some row -> codes ds cells row) as Hcodes.
  { intros j cells row Hj Hrow. eapply (all_codes_ok n ds0 rows); try done.
    - apply replicate_length.
    - intros d Hd. apply elem_of_replicate in Hd as [-> _]. constructor. }
  assert (length coded = length rows) as Hcl by apply all_codes_length.
  destruct (dense_then_transpose n coded) as (dense & cols & -> & Hcols & Hval).
  { intros row Hrow. apply elem_of_list_lookup in Hrow as [j Hj].
    destruct (lookup_lt_is_Some_2 rows j) as [cells Hcj]; [apply lookup_lt_Some in Hj; lia|].
    pose proof (Hcodes j cells row Hcj Hj) as Hco. pose proof (codes_fst _ _ _ Hco) as Hf.
    rewrite (Hlen cells) in Hf by (by eapply elem_of_list_lookup_2). split.
    - rewrite Hf. apply NoDup_seq.
    - intros vv Hvv. assert (fst vv ∈ fst <$> row) as Hin by (by apply elem_of_list_fmap_1).
      rewrite Hf in Hin. apply elem_of_seq in Hin. lia. }
  cbn [mbind outcome_bind]. rewrite Hcols. cbn [mbind outcome_bind].
  eexists. split; [done|]. cbn [d_names d_nvars d_dicts d_sizes d_rows d_columns]. split_and!; try done.
  - unfold ds. apply foldl_grow_length; [done|]. apply replicate_length.
  - intros i dict Hi. assert (i < n) as Hin. { apply lookup_lt_Some in Hi. unfold ds in Hi. rewrite (foldl_grow_length n) in Hi; try done. apply replicate_length. }
    unfold ds in Hi. rewrite (grow_rows_lookup n ds0 rows i []) in Hi; try done.
    + injection Hi as <-. apply dict_first_appearance.
    + apply replicate_length.
    + by apply lookup_replicate_2.
  - intros i j cells c Hj Hc. destruct (lookup_lt_is_Some_2 coded j) as [row Hrow]; [rewrite Hcl; by eapply lookup_lt_Some|].
    assert (i < n) as Hin. { apply lookup_lt_Some in Hc. rewrite (Hlen cells) in Hc; [done|]. by eapply elem_of_list_lookup_2. }
    destruct (Hval i j row Hin Hrow) as (col & x & Hcol & Hx & Hcase).
    pose proof (Hcodes j cells row Hj Hrow) as [Hl Hco]. destruct (Hco i c Hc) as (d & v & Hd & Hv & Hi).
    exists col, d, v. split_and!; try done. rewrite Hx. f_equal. destruct Hcase as [Hin'|[Hni _]].
    + apply elem_of_list_lookup in Hin' as [k Hk].
      pose proof (codes_fst _ _ _ (conj Hl Hco)) as Hf. assert ((fst <$> row) !! k = Some i) as Hki by (by rewrite list_lookup_fmap, Hk).
      rewrite Hf in Hki. apply lookup_seq in Hki as [Hki _]. assert (k = i) as -> by lia. rewrite Hi in Hk. by injection Hk.
    + destruct Hni. apply elem_of_list_lookup_2 in Hi. apply elem_of_list_fmap. by exists (i, Z.of_nat v).
Qed.

Theorem csv_duplicate_names text header rows :
  csv_table text header rows -> ~ NoDup header -> load_csv_training text = Err Exit1.
Proof.
  intros Ht Hnd. pose proof (table_reads _ _ _ Ht) as (r0 & l & rs & r1 & -> & H0 & H1 & H2).
  destruct Ht as (_ & Hh & Hhr & _ & Hrs). unfold load_csv_training. rewrite H0. cbv beta iota.
  pose proof (csv_row_cells (length header) header) as Hcells. destruct (trim_right (glue comma header)) as [s|e].
  - cbn [mbind outcome_bind] in *. rewrite Hcells by (done || by destruct header). cbn [mbind outcome_bind]. by rewrite bool_decide_false.
  - cbn in Hcells. discriminate Hcells; [by destruct header|done].
Qed.

(** ** Test files *)
Lemma test_codes_elem ds cells i z : (forall d, d ∈ ds -> NoDup d) -> length ds = length cells ->
  (i, z) ∈ test_codes ds cells <-> exists (c : str) d v, cells !! i = Some c /\ c <> [] /\ ds !! i = Some d /\ d !! v = Some c /\ z = Z.of_nat v.
Proof.
  intros Hnd Hl. unfold test_codes. rewrite elem_of_list_In, in_concat. split.
  - intros (x & Hx & Hin). apply elem_of_list_In in Hx, Hin. apply elem_of_lookup_imap in Hx as (k & [d c] & -> & Hk).
    apply lookup_zip_with_Some in Hk as (d' & c' & [= <- <-] & Hd & Hc). unfold test_code in Hin. cbn [fst snd] in Hin.
    case_bool_decide; [by apply elem_of_nil in Hin|]. destruct (value_id d c) as [v|] eqn:E; [|by apply elem_of_nil in Hin].
    apply elem_of_list_singleton in Hin as [= -> ->]. exists c, d, v. split_and!; try done. apply value_id_spec; [|done].
    apply Hnd. by eapply elem_of_list_lookup_2.
  - intros (c & d & v & Hc & Hne & Hd & Hv & ->). exists (test_code i (d, c)). rewrite <-!elem_of_list_In. split.
    + apply elem_of_lookup_imap. exists i, (d, c). split; [done|]. apply lookup_zip_with_Some. by exists d, c.
    + unfold test_code. cbn [fst snd]. rewrite bool_decide_false by done. 
      assert (value_id d c = Some v) as -> by (apply value_id_spec; [apply Hnd; by eapply elem_of_list_lookup_2|done]). left.
Qed.
Lemma StronglySorted_app_lt (l1 l2 : list nat) m :
  StronglySorted lt l1 -> StronglySorted lt l2 -> (forall x, x ∈ l1 -> x < m) -> (forall x, x ∈ l2 -> m <= x) -> StronglySorted lt (l1 ++ l2).
Proof.
  intros H1 H2 Ha Hb. induction H1 as [|x l1 H1 IH Hx]; [done|]. cbn. constructor.
  - apply IH. intros y Hy. apply Ha. by right.
  - apply Forall_app. split; [done|]. apply Forall_forall. intros y Hy. apply Hb in Hy. assert (x < m) by (apply Ha; left). lia.
Qed.
Lemma test_codes_sorted_from k (l : list (list str * str)) :
  StronglySorted lt (fst <$> concat (imap (fun i => test_code (k + i)) l)) /\ forall x, x ∈ fst <$> concat (imap (fun i => test_code (k + i)) l) -> k <= x.
Proof.
  revert k; induction l as [|p l IH]; intros k; cbn [imap concat].
  - split; [constructor|]. intros x Hx. by apply elem_of_nil in Hx.
  - assert (forall x, x ∈ fst <$> test_code (k + 0) p -> x = k) as Hh.
    { intros x Hx. unfold test_code in Hx. case_bool_decide; [by apply elem_of_nil in Hx|].
      destruct (value_id _ _); [|by apply elem_of_nil in Hx]. apply elem_of_list_singleton in Hx. cbn in Hx. lia. }
    assert (imap ((fun i => test_code (k + i)) ∘ S) l = imap (fun i => test_code (S k + i)) l) as ->.
    { apply imap_ext. intros i x _. cbn. f_equal. lia. }
    destruct (IH (S k)) as [IH1 IH2]. rewrite fmap_app. split.
    + apply (StronglySorted_app_lt _ _ (S k)); [|done| |done].
      * unfold test_code. case_bool_decide; [constructor|]. destruct (value_id _ _); [|constructor]. repeat constructor.
      * intros x Hx. apply Hh in Hx. lia.
    + intros x [Hx|Hx]%elem_of_app; [apply Hh in Hx; lia|]. apply IH2 in Hx. lia.
Qed.
Lemma test_codes_known ds cells : (forall d, d ∈ ds -> NoDup d) -> length ds = length cells -> codes_known ds cells (test_codes ds cells).
Proof. intros Hnd Hl. split; [apply (test_codes_sorted_from 0)|]. intros i z. by apply test_codes_elem. Qed.

Lemma csv_testing_eq text header rows ds :
  csv_table text header rows -> length ds = length header ->
  load_csv_testing (length ds) ds text = Ok (test_codes ds <$> rows).
Proof.
  intros Ht Hds. pose proof (table_reads _ _ _ Ht) as (r0 & l & rs & r1 & -> & H0 & H1 & H2).
  destruct Ht as (_ & Hh & Hhr & _ & Hrs). assert (length ds <> 0) as Hn by (rewrite Hds; by destruct header).
  unfold load_csv_testing. rewrite bool_decide_false by (by destruct ds). rewrite H0. cbv beta iota. rewrite H1. cbv beta iota.
  rewrite (test_loop (length ds) _ l rs); try done.
  - rewrite Hds. apply Hrs. left.
  - intros r Hr. rewrite Hds. apply Hrs. by right.
  - apply reads_bound in H2. rewrite fmap_length in H2. lia.
Qed.
Theorem csv_testing text header rows ds :
  csv_table text header rows -> length ds = length header -> (forall d, d ∈ ds -> NoDup d) ->
  exists coded, load_csv_testing (length ds) ds text = Ok coded /\ length coded = length rows /\
    forall j cells row, rows !! j = Some cells -> coded !! j = Some row -> codes_known ds cells row.
Proof.
  intros Ht Hds Hnd. exists (test_codes ds <$> rows). split_and!.
  - by eapply csv_testing_eq.
  - apply fmap_length.
  - intros j cells row Hj Hrow. rewrite list_lookup_fmap, Hj in Hrow. injection Hrow as <-. apply test_codes_known; [done|].
    destruct Ht as (_ & _ & _ & _ & Hrs). destruct (Hrs cells) as [-> _]; [|done]. by eapply elem_of_list_lookup_2.
Qed.

(** ** Training data read back as test data *)
Lemma codes_unique ds cells row : (forall d, d ∈ ds -> NoDup d) -> length ds = length cells -> (forall c, c ∈ cells -> c <> []) ->
  codes ds cells row -> test_codes ds cells = row.
Proof.
  intros Hnd Hl Hne [Hlr Hc].
  assert (imap test_code (zip ds cells) = (fun p => [p]) <$> row) as E.
  { apply list_eq. intros i. rewrite list_lookup_imap, list_lookup_fmap, lookup_zip_with. destruct (decide (i < length cells)) as [Hi|Hi].
    - destruct (lookup_lt_is_Some_2 cells i Hi) as [c Hci]. destruct (Hc i c Hci) as (d & v & Hd & Hv & ->). rewrite Hd. cbn. rewrite Hci. cbn.
      unfold test_code. cbn [fst snd]. rewrite bool_decide_false by (apply Hne; by eapply elem_of_list_lookup_2).
      assert (value_id d c = Some v) as -> by (apply value_id_spec; [apply Hnd; by eapply elem_of_list_lookup_2|done]). done.
    - rewrite (lookup_ge_None_2 row) by lia. rewrite (lookup_ge_None_2 ds) by lia. done. }
  unfold test_codes. rewrite E. clear. induction row as [|p row IH]; [done|]. cbn. by f_equal.
Qed.
Theorem csv_same_codes text header rows d :
  csv_table text header rows -> (forall r c, r ∈ rows -> c ∈ r -> c <> []) -> load_csv_training text = Ok d ->
  load_csv_testing (d_nvars d) (d_dicts d) text = Ok (d_rows d).
Proof.
  intros Ht Hne Hd. assert (NoDup header) as Hnd.
  { destruct (decide (NoDup header)) as [H|H]; [done|]. rewrite (csv_duplicate_names _ _ _ Ht H) in Hd. discriminate Hd. }
  destruct (csv_training _ _ _ Ht Hnd) as (d' & Hd' & _ & Hn & Hl & _ & Hfa & Hlr & Hco & _). rewrite Hd in Hd'. injection Hd' as <-.
  rewrite Hn, <-Hl. rewrite (csv_testing_eq _ _ _ _ Ht Hl). f_equal. apply list_eq. intros j. rewrite list_lookup_fmap.
  destruct (rows !! j) as [cells|] eqn:Hj.
  - destruct (lookup_lt_is_Some_2 (d_rows d) j) as [row Hrow]; [rewrite Hlr; by eapply lookup_lt_Some|]. rewrite Hrow. cbn. f_equal.
    apply codes_unique; [| | |by apply (Hco j)].
    + intros x Hx. apply elem_of_list_lookup in Hx as [i Hi]. by apply Hfa in Hi as [Hi _].
    + destruct Ht as (_ & _ & _ & _ & Hrs). destruct (Hrs cells) as [-> _]; [|done]. by eapply elem_of_list_lookup_2.
    + intros c Hc. apply (Hne cells); [by eapply elem_of_list_lookup_2|done].
  - rewrite lookup_ge_None_2; [done|]. rewrite Hlr. by apply lookup_ge_None_1.
Qed.

(** ** Writing *)
Lemma csv_line_glue cells : cells <> [] -> csv_line cells = glue comma cells.
Proof.
  intros Hne. unfold csv_line. assert (concat ((fun c => c ++ [comma]) <$> cells) = glue comma cells ++ [comma]) as ->.
  { induction cells as [|c cells IH]; [done|]. destruct cells as [|c' cells]; [cbn; by rewrite app_nil_r|].
    change (glue comma (c :: c' :: cells)) with (c ++ comma :: glue comma (c' :: cells)). rewrite <-app_assoc. cbn [app]. rewrite <-IH by done.
    cbn. rewrite <-!app_assoc. done. }
  rewrite app_length. cbn [length]. replace (length (glue comma cells) + 1 - 1) with (length (glue comma cells)) by lia. apply take_app.
Qed.
(** The cells a coded row stands for: known cells, empty otherwise. *)
Definition known_cell (p : list str * str) : str := if bool_decide (snd p = []) then [] else match value_id (fst p) (snd p) with Some _ => snd p | None => [] end.
Definition known_cells (ds : list (list str)) (cells : list str) : list str := known_cell <$> zip ds cells.
Lemma csv_values_known ds cells row : (forall d, d ∈ ds -> NoDup d) -> length ds = length cells ->
  codes_known ds cells row -> csv_values (length ds) ds row = Ok (known_cells ds cells).
Proof.
  intros Hnd Hl [Hs Hc]. unfold csv_values.
  set (P := fun (dn : rowv) (value : list str) => length value = length ds /\
     forall i, i < length ds -> value !! i = Some (if bool_decide (i ∈ fst <$> dn) then default ([] : str) (cells !! i) else ([] : str))).
  match goal with |- mfor ?l ?b ?st = _ => destruct (mfor_inv P l b st) as (st' & -> & HP) end.
  - split; [apply replicate_length|]. intros i Hi. rewrite bool_decide_false by (by apply not_elem_of_nil). by apply lookup_replicate_2.
  - intros dn [i z] rest value Hrow [Hvl Hv]. cbn [fst snd].
    assert ((i, z) ∈ row) as Hin by (rewrite Hrow; apply elem_of_app; right; left).
    apply Hc in Hin as (c & d & v & Hci & Hne & Hdi & Hvc & ->). rewrite (vget_ok _ _ _ Hdi). cbn [mbind outcome_bind].
    rewrite (bool_decide_false (Z.of_nat v < 0)%Z) by lia. rewrite Nat2Z.id, Hvc. cbn [default from_option]. 
    assert (i < length ds) as Hi by (by eapply lookup_lt_Some).
    change (id c) with c. rewrite (bool_decide_false (c = [])) by done.
    rewrite vset_ok by (rewrite Hvl; done). eexists. split; [done|]. split; [by rewrite insert_length|].
    intros k Hk. destruct (decide (k = i)) as [->|Hki].
    + rewrite (list_lookup_insert value i) by (rewrite Hvl; done). rewrite bool_decide_true; [by rewrite Hci|]. rewrite fmap_app. apply elem_of_app. right. left.
    + rewrite list_lookup_insert_ne by done. rewrite Hv by done. f_equal.
      assert (k ∈ fst <$> (dn ++ [(i, Z.of_nat v)]) <-> k ∈ fst <$> dn) as Hiff.
      { rewrite fmap_app, elem_of_app. cbn. rewrite elem_of_list_singleton. tauto. }
      by rewrite (bool_decide_ext _ _ Hiff).
  - destruct HP as [Hvl Hv]. f_equal. apply list_eq. intros i. unfold known_cells. rewrite list_lookup_fmap, lookup_zip_with.
    destruct (decide (i < length ds)) as [Hi|Hi].
    + rewrite Hv by done. destruct (lookup_lt_is_Some_2 ds i Hi) as [d Hd]. destruct (lookup_lt_is_Some_2 cells i) as [c Hci]; [lia|].
      rewrite Hd, Hci. cbn. unfold known_cell. cbn [fst snd]. f_equal.
      assert (i ∈ fst <$> row <-> c <> [] /\ exists v, d !! v = Some c) as Hiff.
      { rewrite elem_of_list_fmap. split.
        - intros ([i' z] & -> & Hin). cbn [fst] in *. apply Hc in Hin as (c' & d' & v & H1 & H2 & H3 & H4 & _).
          rewrite Hci in H1. rewrite Hd in H3. injection H1 as <-. injection H3 as <-. eauto.
        - intros [Hne [v Hv']]. exists (i, Z.of_nat v). split; [done|]. apply Hc. by exists c, d, v. }
      destruct (decide (c = [])) as [->|Hne].
      * rewrite bool_decide_false by (rewrite Hiff; tauto). by rewrite bool_decide_true.
      * rewrite (bool_decide_false (c = [])) by done. destruct (value_id d c) as [v|] eqn:E.
        -- rewrite bool_decide_true; [done|]. apply Hiff. split; [done|]. exists v. apply value_id_spec; [|done].
           apply Hnd. by eapply elem_of_list_lookup_2.
        -- rewrite bool_decide_false; [done|]. intros [_ [v Hv']]%Hiff. apply value_id_None in E. apply E. by eapply elem_of_list_lookup_2.
    + rewrite (lookup_ge_None_2 ds) by lia. apply lookup_ge_None_2. lia.
Qed.
Lemma known_cells_length ds cells : length ds = length cells -> length (known_cells ds cells) = length cells.
Proof. intros H. unfold known_cells. rewrite fmap_length, zip_with_length. lia. Qed.
Theorem csv_store names ds rows :
  names <> [] -> length ds = length names -> (forall d, d ∈ ds -> NoDup d) -> (forall cells, cells ∈ rows -> length cells = length names) ->
  store_csv names (length names) ds (test_codes ds <$> rows) = Ok (text_of (glue comma <$> names :: (known_cells ds <$> rows))).
Proof.
  intros Hne Hl Hnd Hr. unfold store_csv. rewrite !bool_decide_false by (done || by destruct ds, names). cbn [orb].
  rewrite bool_decide_true by done. cbn [negb].
  assert (mcollect (test_codes ds <$> rows) (fun row => v ← csv_values (length names) ds row; Ok (csv_line v))
          = Ok (glue comma <$> (known_cells ds <$> rows))) as ->.
  { induction rows as [|cells rows IH]; [done|]. cbn [fmap list_fmap mcollect].
    assert (length cells = length names) as Hcl by (apply Hr; left).
    rewrite <-Hl, (csv_values_known ds cells), Hl; try done; [|lia|apply test_codes_known; [done|lia]].
    cbn [mbind outcome_bind]. rewrite csv_line_glue.
    2:{ intros E. apply (f_equal length) in E. rewrite known_cells_length in E by lia. cbn in E. rewrite Hcl in E. by destruct names. }
    cbn [mbind outcome_bind]. rewrite IH; [done|]. intros x Hx. apply Hr. by right. }
  cbn [mbind outcome_bind]. rewrite csv_line_glue by done. done.
Qed.
Lemma glue_snoc sep pre c : glue sep (pre ++ [c]) = match pre with [] => c | _ => glue sep pre ++ sep :: c end.
Proof.
  induction pre as [|a pre IH]; [done|]. destruct pre as [|b pre]; [done|].
  change (glue sep ((a :: b :: pre) ++ [c])) with (a ++ sep :: glue sep ((b :: pre) ++ [c])). rewrite IH.
  change (glue sep (a :: b :: pre)) with (a ++ sep :: glue sep (b :: pre)). by rewrite <-app_assoc.
Qed.
Lemma known_cell_cases p : known_cell p = snd p \/ known_cell p = [].
Proof. unfold known_cell. case_bool_decide; [by right|]. destruct (value_id _ _); [by left|by right]. Qed.
Lemma known_csv_row n ds cells : length ds = n -> csv_row n cells -> csv_row n (known_cells ds cells).
Proof.
  intros Hds (Hl & Hc & Ht). split_and!.
  - rewrite known_cells_length; lia.
  - intros c Hin. unfold known_cells in Hin. apply elem_of_list_fmap in Hin as ([d c'] & -> & Hin).
    destruct (known_cell_cases (d, c')) as [->| ->]; [|by intros x ?%elem_of_nil]. cbn [snd]. apply Hc.
    apply elem_of_zip_r in Hin. done.
  - unfold known_cells. destruct cells as [|c cells' _] using rev_ind.
    { assert (length ds = 0) by (cbn in Hl; lia). destruct ds; [|done]. done. }
    rewrite app_length in Hl. cbn in Hl. destruct ds as [|d ds' _] using rev_ind; [cbn in Hds; lia|].
    rewrite app_length in Hds. cbn in Hds. rewrite zip_with_app by lia. cbn [zip_with]. rewrite fmap_app. cbn [fmap list_fmap].
    rewrite glue_snoc. rewrite glue_snoc in Ht. intros x Hx. destruct (known_cell_cases (d, c)) as [E|E]; rewrite E in Hx.
    + cbn [snd] in Hx. destruct cells' as [|a cells'].
      * destruct ds'; [|cbn in *; lia]. cbn in Hx. apply Ht. done.
      * destruct ds' as [|b ds']; [cbn in *; lia|]. cbn [zip_with fmap list_fmap] in Hx. rewrite last_app in Hx.
        apply Ht. rewrite last_app. rewrite last_cons in Hx |- *. destruct (last c); done.
    + destruct cells' as [|a cells'].
      * destruct ds'; [|cbn in *; lia]. done.
      * destruct ds' as [|b ds']; [cbn in *; lia|]. cbn [zip_with fmap list_fmap] in Hx. rewrite last_snoc in Hx. injection Hx as <-. done.
Qed.
Lemma known_test_codes ds cells : length ds = length cells -> test_codes ds (known_cells ds cells) = test_codes ds cells.
Proof.
  intros Hl. unfold test_codes. f_equal. apply list_eq. intros i. rewrite !list_lookup_imap, !lookup_zip_with. unfold known_cells.
  destruct (ds !! i) as [d|] eqn:Hd; [|done]. cbn. rewrite list_lookup_fmap, lookup_zip_with, Hd. cbn.
  destruct (cells !! i) as [c|] eqn:Hc; [|done]. cbn. f_equal. unfold test_code, known_cell. cbn [fst snd].
  destruct (bool_decide_reflect (c = [])) as [->|Hne]; [done|]. destruct (value_id d c) as [v|] eqn:E; [|done].
  rewrite bool_decide_false by done. by rewrite E.
Qed.
Lemma known_blanked ds cells : (forall d, d ∈ ds -> NoDup d) -> length ds = length cells -> blanked ds cells (known_cells ds cells).
Proof.
  intros Hnd Hl. split; [by apply known_cells_length|]. intros i c d Hc Hd. unfold known_cells. rewrite list_lookup_fmap, lookup_zip_with, Hd. cbn.
  rewrite Hc. cbn. unfold known_cell. cbn [fst snd]. destruct (decide (c = [])) as [->|Hne]; [by rewrite bool_decide_true|].
  rewrite bool_decide_false by done. destruct (value_id d c) as [v|] eqn:E.
  - split; [done|]. intros Hn. destruct Hn. apply value_id_spec in E; [by eapply elem_of_list_lookup_2|]. apply Hnd. by eapply elem_of_list_lookup_2.
  - apply value_id_None in E. done.
Qed.
Lemma known_all ds cells : length ds = length cells -> (forall i c d, cells !! i = Some c -> ds !! i = Some d -> c <> [] /\ c ∈ d) ->
  known_cells ds cells = cells.
Proof.
  intros Hl H. apply list_eq. intros i. unfold known_cells. rewrite list_lookup_fmap, lookup_zip_with.
  destruct (decide (i < length ds)) as [Hi|Hi].
  - destruct (lookup_lt_is_Some_2 ds i Hi) as [d Hd]. destruct (lookup_lt_is_Some_2 cells i) as [c Hc]; [lia|].
    rewrite Hd. cbn. rewrite Hc. cbn. f_equal. destruct (H i c d Hc Hd) as [Hne Hin]. unfold known_cell. cbn [fst snd].
    rewrite bool_decide_false by done. destruct (value_id d c) eqn:E; [done|]. by apply value_id_None in E.
  - rewrite !lookup_ge_None_2 by lia. done.
Qed.
Theorem csv_store_training text header rows d :
  csv_table text header rows -> (forall r c, r ∈ rows -> c ∈ r -> c <> []) -> load_csv_training text = Ok d ->
  store_csv (d_names d) (d_nvars d) (d_dicts d) (d_rows d) = Ok (text_of (glue comma <$> header :: rows)).
Proof.
  intros Ht Hne Hd. assert (NoDup header) as Hnd.
  { destruct (decide (NoDup header)) as [H|H]; [done|]. rewrite (csv_duplicate_names _ _ _ Ht H) in Hd. discriminate Hd. }
  pose proof (csv_same_codes _ _ _ _ Ht Hne Hd) as Hsame.
  destruct (csv_training _ _ _ Ht Hnd) as (d' & Hd' & Hnames & Hn & Hl & _ & Hfa & Hlr & Hco & _). rewrite Hd in Hd'. injection Hd' as <-.
  rewrite Hn, <-Hl, (csv_testing_eq _ _ _ _ Ht Hl) in Hsame. injection Hsame as Hsame. rewrite <-Hsame, Hn, Hnames.
  destruct Ht as (_ & Hh & _ & _ & Hrs). rewrite csv_store; try done.
  - assert (known_cells (d_dicts d) <$> rows = rows) as ->; [|done].
    apply list_eq. intros j. rewrite list_lookup_fmap. destruct (rows !! j) as [cells|] eqn:Hj; [|done]. cbn. f_equal.
    assert (cells ∈ rows) as Hin by (by eapply elem_of_list_lookup_2). destruct (Hrs cells Hin) as [Hcl _].
    apply known_all; [lia|]. intros i c dict Hc Hdi. split; [by apply (Hne cells); [|eapply elem_of_list_lookup_2]|].
    destruct (Hfa i dict Hdi) as (_ & Hiff & _). apply Hiff. unfold column. apply elem_of_list_omap. by exists cells.
  - intros x Hx. apply elem_of_list_lookup in Hx as [i Hi]. by apply Hfa in Hi as [Hi _].
  - intros cells Hc. by destruct (Hrs cells Hc).
Qed.
Theorem csv_store_testing text header rows ds coded :
  csv_table text header rows -> length ds = length header -> (forall d, d ∈ ds -> NoDup d) ->
  load_csv_testing (length ds) ds text = Ok coded ->
  exists rows', length rows' = length rows /\
    (forall j cells cells', rows !! j = Some cells -> rows' !! j = Some cells' -> blanked ds cells cells') /\
    store_csv header (length header) ds coded = Ok (text_of (glue comma <$> header :: rows')) /\
    load_csv_testing (length ds) ds (text_of (glue comma <$> header :: rows')) = Ok coded.
Proof.
  intros Ht Hds Hnd Hc. rewrite (csv_testing_eq _ _ _ _ Ht Hds) in Hc. injection Hc as <-.
  destruct Ht as (Hlines & Hh & Hhr & Hr & Hrs). exists (known_cells ds <$> rows). split_and!.
  - apply fmap_length.
  - intros j cells cells' Hj Hj'. rewrite list_lookup_fmap, Hj in Hj'. injection Hj' as <-. apply known_blanked; [done|].
    destruct (Hrs cells) as [-> _]; [by eapply elem_of_list_lookup_2|done].
  - apply csv_store; try done. intros cells Hc. by destruct (Hrs cells Hc).
  - rewrite (csv_testing_eq _ header (known_cells ds <$> rows)).
    + f_equal. rewrite <-list_fmap_compose. apply list_fmap_ext. intros j cells Hj. cbn. apply known_test_codes.
      destruct (Hrs cells) as [-> _]; [by eapply elem_of_list_lookup_2|done].
    + split_and!; try done; [by left| |].
      * intros E. apply fmap_nil_inv in E. done.
      * intros r Hr'. apply elem_of_list_fmap in Hr' as (x & -> & Hx). apply known_csv_row; [done|by apply Hrs].
    + done.
Qed.
