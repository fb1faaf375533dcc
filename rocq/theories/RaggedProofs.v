(** CSV files of any form. *)
From Verif Require Import RaggedSpec DataProofs UtilProofs EvalProofs CSVTheorems FieldProofs FieldTheorems TableProofs.
Local Open Scope nat_scope.

(** ** Lines and cells *)
Lemma csv_lines_exist text : exists header ls, csv_lines text header ls.
Proof.
  destruct (text_lines text) as (ls & tail & -> & Ht & Hl). destruct ls as [|h ls].
  - exists tail, [tail]. by apply (csv_open tail).
  - destruct ls as [|l ls], tail as [|c tail].
    + exists h, [[]]. rewrite app_nil_r. apply csv_header; [by rewrite text_of_cons|apply Hl; left].
    + exists h, [c :: tail]. apply csv_some.
      * right. split; [|done]. rewrite !text_of_cons. change (text_of []) with ([] : str). by rewrite <-!app_assoc.
      * intros x [->|Hx]%elem_of_cons; [apply Hl; left|]. by apply elem_of_list_singleton in Hx as ->.
    + exists h, (l :: ls). apply csv_some; [left; by rewrite app_nil_r|done].
    + exists h, (l :: ls ++ [c :: tail]). apply csv_some.
      * right. split; [|change (h :: l :: ls ++ [c :: tail]) with ((h :: l :: ls) ++ [c :: tail]); by rewrite last_snoc].
        change (h :: l :: ls ++ [c :: tail]) with ((h :: l :: ls) ++ [c :: tail]). unfold text_of. rewrite (fmap_app _ (h :: l :: ls)), concat_app. cbn [fmap list_fmap concat]. by rewrite app_nil_r, <-!app_assoc.
      * intros x Hx. change (h :: l :: ls ++ [c :: tail]) with ((h :: l :: ls) ++ [c :: tail]) in Hx. apply elem_of_app in Hx as [Hx| ->%elem_of_list_singleton]; [by apply Hl|done].
Qed.
Lemma cells_of l : exists cells, line_cells l cells.
Proof. destruct (trim_right_spec l) as (r & w & Et & -> & Hw & Hr). destruct (parts_exist 44%Z r) as [cells H]. exists cells. by exists r, w. Qed.
Lemma cells_split l cells : line_cells l cells -> exists s, trim_right l = Ok s /\ split_str s [comma] = Ok cells /\ trim_right s = Ok s.
Proof. intros (s & trail & -> & Ht & Hs & Hp). exists s. split; [by apply trim_unique|]. split; [by apply parts_split|]. by apply trim_right_fix. Qed.
Lemma cells_unique l cells cells' : line_cells l cells -> line_cells l cells' -> cells = cells'.
Proof. intros (s & H1 & H2 & _)%cells_split (s' & H1' & H2' & _)%cells_split. congruence. Qed.
Lemma cells_count l cells : line_cells l cells -> length (filter (fun c => c = comma) l) + 1 = length cells.
Proof.
  intros (s & trail & -> & Ht & Hs & -> & Hne & Hp). pose proof (filter_app (fun c => c = comma) (glue 44 cells) trail) as E.
  rewrite <-(count_commas cells) by done. assert (filter (fun c => c = comma) trail = []) as E2.
  2:{ rewrite E2, app_nil_r in E. f_equal. f_equal. exact E. }
  clear -Ht. induction Ht as [|c trail Hc _ IH]; [done|]. rewrite filter_cons_False; [done|]. intros ->. by unfold comma in Hc.
Qed.

(** ** One line *)
Definition train_cells (n : nat) (cells : list str) (ds : list (list str)) : outcome (list (list str) * rowv) :=
  mfor (seq 0 n) (fun i st =>
    let '(ds, row) := st in
    c ← vget cells i; d ← vget ds i;
    let '(d', v) := code_value d c in
    ds' ← vset ds i d'; Ok (ds', row ++ [(i, Z.of_nat v)])) (ds, []).
Definition test_cells (n : nat) (cells : list str) (ds : list (list str)) : outcome rowv :=
  mfor (seq 0 n) (fun i row =>
    c ← vget cells i;
    if bool_decide (c = []) then Ok row else
    d ← vget ds i;
    match value_id d c with Some v => Ok (row ++ [(i, Z.of_nat v)]) | None => Ok row end) [].
Lemma vget_take {A} n (l : list A) i : i < n -> vget (take n l) i = vget l i.
Proof. intros Hi. unfold vget. by rewrite lookup_take. Qed.
Lemma train_cells_take n cells ds : train_cells n cells ds = train_cells n (take n cells) ds.
Proof. apply mfor_ext. intros i [ds' row] Hi%elem_of_seq. by rewrite vget_take by lia. Qed.
Lemma test_cells_take n cells ds : test_cells n cells ds = test_cells n (take n cells) ds.
Proof. apply mfor_ext. intros i row Hi%elem_of_seq. by rewrite vget_take by lia. Qed.
(** Any cells of the right number can be glued without changing the result. *)
Lemma train_cells_ok n r ds : length r = n -> length ds = n -> train_cells n r ds = Ok (grow_all ds r, row_codes ds r).
Proof.
  intros Hl Hds. unfold train_cells.
  set (P := fun (dn : list nat) (st : list (list str) * rowv) =>
    st = (take (length dn) (grow_all ds r) ++ drop (length dn) ds, take (length dn) (row_codes ds r))).
  assert (length (grow_all ds r) = n) as Hg by (unfold grow_all; rewrite zip_with_length; lia).
  assert (length (row_codes ds r) = n) as Hrc by (unfold row_codes; rewrite imap_length, zip_with_length; lia).
  match goal with |- mfor ?l ?b ?st = _ => destruct (mfor_inv P l b st) as (st' & -> & HP) end.
  - unfold P. cbn [length]. by rewrite !take_0, drop_0.
  - intros dn i rest st Hsplit ->. destruct (seq_split Hsplit) as [Hi Hlt]. subst i. set (k := length dn) in *.
    destruct (lookup_lt_is_Some_2 r k) as [c Hck]; [lia|]. destruct (lookup_lt_is_Some_2 ds k) as [d Hdk]; [lia|].
    rewrite (vget_ok _ _ _ Hck). cbn [mbind outcome_bind].
    rewrite (vget_ok _ k d); cycle 1.
    { rewrite lookup_app_r by (rewrite take_length; lia). rewrite take_length, lookup_drop, Hg.
      replace (k + (k - k `min` n)) with k by lia. done. }
    cbn [mbind outcome_bind]. destruct (code_value d c) as [d' v] eqn:E.
    rewrite vset_ok by (rewrite app_length, take_length, drop_length; lia). cbn [mbind outcome_bind].
    eexists. split; [done|]. unfold P. rewrite app_length. cbn [length]. fold k. f_equal.
    + assert (grow_all ds r !! k = Some d') as Hgk.
      { unfold grow_all. rewrite lookup_zip_with, Hdk. cbn. rewrite Hck. cbn. unfold grow. by rewrite E. }
      rewrite Nat.add_1_r, (take_S_r _ _ _ Hgk), (drop_S ds d k Hdk).
      replace k with (length (take k (grow_all ds r)) + 0) at 1 by (rewrite take_length; lia).
      rewrite insert_app_r. cbn. by rewrite <-app_assoc.
    + rewrite Nat.add_1_r. rewrite (take_S_r _ k (k, Z.of_nat v)); [done|].
      unfold row_codes. rewrite list_lookup_imap, lookup_zip_with, Hdk. cbn. rewrite Hck. cbn. by rewrite E.
  - unfold P in HP. rewrite HP, seq_length, !take_ge, drop_ge, app_nil_r by lia. done.
Qed.
Lemma test_cells_ok n r ds : length r = n -> length ds = n -> test_cells n r ds = Ok (test_codes ds r).
Proof.
  intros Hl Hds. unfold test_cells, test_codes. set (f := test_code).
  set (P := fun (dn : list nat) (row : rowv) => row = concat (take (length dn) (imap f (zip ds r)))).
  assert (length (imap f (zip ds r)) = n) as Hfl by (rewrite imap_length, zip_with_length; lia).
  match goal with |- mfor ?l ?b ?st = _ => destruct (mfor_inv P l b st) as (st' & -> & HP) end.
  - done.
  - intros dn i rest st Hsplit ->. destruct (seq_split Hsplit) as [Hi Hlt]. subst i. set (k := length dn) in *.
    destruct (lookup_lt_is_Some_2 r k) as [c Hck]; [lia|]. destruct (lookup_lt_is_Some_2 ds k) as [d Hdk]; [lia|].
    rewrite (vget_ok (A:=str) _ _ _ Hck). cbn [mbind outcome_bind].
    assert (P (dn ++ [k]) (concat (take k (imap f (zip ds r))) ++ f k (d, c))) as HP.
    { unfold P. rewrite app_length. cbn [length]. fold k. rewrite Nat.add_1_r. rewrite (take_S_r _ k (f k (d, c))).
      - rewrite concat_app. cbn. by rewrite app_nil_r.
      - rewrite list_lookup_imap, lookup_zip_with, Hdk. cbn. by rewrite Hck. }
    unfold f in HP at 2. unfold test_code in HP. cbn [fst snd] in HP. destruct (decide (c = [])) as [Hc0|Hc0].
    + rewrite bool_decide_true in HP by done. rewrite bool_decide_true by done. rewrite app_nil_r in HP. eexists. by split.
    + rewrite bool_decide_false in HP by done. rewrite bool_decide_false by done.
      rewrite (vget_ok _ _ _ Hdk). cbn [mbind outcome_bind]. destruct (value_id d c).
      * eexists. by split.
      * rewrite app_nil_r in HP. eexists. by split.
  - unfold P in HP. rewrite HP, seq_length, !take_ge by lia. done.
Qed.
(** A loop whose every step reads [cells] and otherwise fails only outside an array. *)
Lemma mfor_short {S} (cells : list str) (body : nat -> S -> outcome S) :
  (forall i s, (cells !! i = None -> body i s = Err OutOfBounds) /\ forall e, body i s = Err e -> e = OutOfBounds) ->
  forall l s, (exists i, i ∈ l /\ cells !! i = None) -> mfor l body s = Err OutOfBounds.
Proof.
  intros H l. induction l as [|i l IH]; intros s (k & Hk & Hn); [by apply elem_of_nil in Hk|]. cbn [mfor]. destruct (body i s) as [s'|e] eqn:E; cbn [mbind outcome_bind].
  - apply elem_of_cons in Hk as [->|Hk]; [|apply IH; eauto]. apply (H i s) in Hn. congruence.
  - by apply (H i s) in E as ->.
Qed.
Lemma train_cells_short n cells ds : length cells < n -> train_cells n cells ds = Err OutOfBounds.
Proof.
  intros Hn. apply (mfor_short cells).
  - intros i [ds' row]. split; [intros E; unfold vget; by rewrite E|]. intros e. unfold vget. destruct (cells !! i) as [c|]; cbn [mbind outcome_bind]; [|congruence].
    destruct (ds' !! i) as [d|]; cbn [mbind outcome_bind]; [|congruence]. destruct (code_value d c) as [d' v]. unfold vset. case_bool_decide; cbn [mbind outcome_bind]; congruence.
  - exists (length cells). split; [apply elem_of_seq; lia|]. by apply lookup_ge_None_2.
Qed.
Lemma test_cells_short n cells ds : length cells < n -> test_cells n cells ds = Err OutOfBounds.
Proof.
  intros Hn. apply (mfor_short cells).
  - intros i row. split; [intros E; unfold vget; by rewrite E|]. intros e. unfold vget. change (list Z) with str in *. destruct (cells !! i) as [c|]; cbn [mbind outcome_bind]; [|congruence].
    case_bool_decide; [done|]. destruct (ds !! i) as [d|]; cbn [mbind outcome_bind]; [|congruence]. by destruct (value_id d c).
  - exists (length cells). split; [apply elem_of_seq; lia|]. by apply lookup_ge_None_2.
Qed.
Lemma train_line_cells n l cells ds : line_cells l cells -> csv_train_line n l ds = train_cells n cells ds.
Proof. intros (s & H1 & H2 & _)%cells_split. unfold csv_train_line. rewrite H1. cbn [mbind outcome_bind]. rewrite H2. done. Qed.
Lemma test_line_cells n l cells ds : line_cells l cells -> csv_test_line n l ds = test_cells n cells ds.
Proof. intros (s & H1 & H2 & _)%cells_split. unfold csv_test_line. rewrite H1. cbn [mbind outcome_bind]. rewrite H2. done. Qed.

(** ** All lines *)
Definition wide (n : nat) (css : list (list str)) : Prop := forall cells, cells ∈ css -> n <= length cells.
Lemma wide_dec n css : {wide n css} + {exists cells, cells ∈ css /\ length cells < n}.
Proof.
  destruct (decide (Forall (fun cells : list str => n <= length cells) css)) as [H|H].
  - left. intros cells Hin. rewrite Forall_forall in H. by apply H.
  - right. apply not_Forall_Exists in H; [|apply _]. apply Exists_exists in H as (cells & Hin & Hn). exists cells. split; [done|]. cbn in Hn. lia.
Qed.
Lemma train_loop_any n css : forall l ls fuel rest ds acc, Forall2 line_cells (l :: ls) css -> length ds = n -> reads rest ls -> length ls < fuel ->
  (wide n css -> csv_train_loop fuel n l rest ds acc = Ok (foldl grow_all ds (take n <$> css), acc ++ all_codes ds (take n <$> css))) /\
  (~ wide n css -> csv_train_loop fuel n l rest ds acc = Err OutOfBounds).
Proof.
  induction css as [|cells css IH]; intros l ls [|fuel] rest ds acc HF Hds Hr Hf; try (inversion HF; fail); try lia. inversion HF as [|? ? ? ? Hc HF']; subst.
  cbn [csv_train_loop]. rewrite (train_line_cells _ _ _ _ Hc). destruct (decide (length ds <= length cells)) as [Hle|Hlt].
  2:{ split; [intros H; specialize (H cells); destruct Hlt; apply H; left|]. intros _. by rewrite train_cells_short by lia. }
  rewrite train_cells_take, train_cells_ok by (done || rewrite take_length; lia). cbn [mbind outcome_bind].
  assert (length (grow_all ds (take (length ds) cells)) = length ds) as Hg by (apply grow_all_length; rewrite take_length; lia).
  destruct ls as [|l' ls].
  - inversion HF'; subst. cbn in Hr. subst rest. rewrite getline_nil. split; [done|]. intros []. intros x Hx. by apply elem_of_list_singleton in Hx as ->.
  - cbn [reads] in Hr. destruct Hr as (rest' & b & -> & _ & Hr). destruct (IH l' ls fuel rest' (grow_all ds (take (length ds) cells)) (acc ++ [row_codes ds (take (length ds) cells)])) as [I1 I2]; try done; [cbn [length] in Hf; lia|]. split.
    + intros Hw. rewrite I1 by (intros x Hx; apply Hw; by right). cbn [fmap list_fmap foldl all_codes]. by rewrite <-app_assoc.
    + intros Hw. apply I2. intros Hw'. apply Hw. intros x [->|Hx]%elem_of_cons; [done|by apply Hw'].
Qed.
Lemma test_loop_any n css ds : length ds = n -> forall l ls fuel rest acc, Forall2 line_cells (l :: ls) css -> reads rest ls -> length ls < fuel ->
  (wide n css -> csv_test_loop fuel n l rest ds acc = Ok (acc ++ (test_codes ds <$> (take n <$> css)))) /\
  (~ wide n css -> csv_test_loop fuel n l rest ds acc = Err OutOfBounds).
Proof.
  intros Hds. induction css as [|cells css IH]; intros l ls [|fuel] rest acc HF Hr Hf; try (inversion HF; fail); try lia. inversion HF as [|? ? ? ? Hc HF']; subst.
  cbn [csv_test_loop]. rewrite (test_line_cells _ _ _ _ Hc). destruct (decide (length ds <= length cells)) as [Hle|Hlt].
  2:{ split; [intros H; specialize (H cells); destruct Hlt; apply H; left|]. intros _. by rewrite test_cells_short by lia. }
  rewrite test_cells_take, test_cells_ok by (done || rewrite take_length; lia). cbn [mbind outcome_bind]. destruct ls as [|l' ls].
  - inversion HF'; subst. cbn in Hr. subst rest. rewrite getline_nil. split; [done|]. intros []. intros x Hx. by apply elem_of_list_singleton in Hx as ->.
  - cbn [reads] in Hr. destruct Hr as (rest' & b & -> & _ & Hr). destruct (IH l' ls fuel rest' (acc ++ [test_codes ds (take (length ds) cells)])) as [I1 I2]; try done; [cbn [length] in Hf; lia|]. split.
    + intros Hw. rewrite I1 by (intros x Hx; apply Hw; by right). cbn [fmap list_fmap]. by rewrite <-app_assoc.
    + intros Hw. apply I2. intros Hw'. apply Hw. intros x [->|Hx]%elem_of_cons; [done|by apply Hw'].
Qed.

(** ** The data set *)
Lemma coded_rows names n rows : n = length names -> (forall r, r ∈ rows -> length r = n) ->
  exists dense cols, dense_rows n (length (all_codes (replicate n []) rows)) (all_codes (replicate n []) rows) = Ok dense /\
    column_major n (length (all_codes (replicate n []) rows)) dense = Ok cols /\
    codes_rows names rows (mkData names n (foldl grow_all (replicate n []) rows) (length <$> foldl grow_all (replicate n []) rows) (all_codes (replicate n []) rows) cols).
Proof.
  intros Hn Hlen. set (ds0 := replicate n ([] : list str)) in *. set (ds := foldl grow_all ds0 rows). set (coded := all_codes ds0 rows).
  assert (forall j cells row, rows !! j = Some cells -> coded !! j = Some row -> codes ds cells row) as Hcodes.
  { intros j cells row Hj Hrow. eapply (all_codes_ok n ds0 rows); try done.
    - apply replicate_length.
    - intros d Hd. apply elem_of_replicate in Hd as [-> _]. constructor. }
  assert (length coded = length rows) as Hcl by apply all_codes_length.
  destruct (dense_then_transpose n coded) as (dense & cols & Hdense & Hcols & Hval).
  { intros row Hrow. apply elem_of_list_lookup in Hrow as [j Hj].
    destruct (lookup_lt_is_Some_2 rows j) as [cells Hcj]; [apply lookup_lt_Some in Hj; lia|].
    pose proof (Hcodes j cells row Hcj Hj) as Hco. pose proof (codes_fst _ _ _ Hco) as Hf.
    rewrite (Hlen cells) in Hf by (by eapply elem_of_list_lookup_2). split.
    - rewrite Hf. apply NoDup_seq.
    - intros vv Hvv. assert (fst vv ∈ fst <$> row) as Hin by (by apply elem_of_list_fmap_1).
      rewrite Hf in Hin. apply elem_of_seq in Hin. lia. }
  exists dense, cols. split; [done|]. split; [done|]. unfold codes_rows. cbn [d_names d_nvars d_dicts d_sizes d_rows d_columns]. split_and!; try done.
  - rewrite <-Hn. apply foldl_grow_length; [done|]. apply replicate_length.
  - intros i dict Hi. assert (i < n) as Hin. { apply lookup_lt_Some in Hi. unfold ds in Hi. rewrite (foldl_grow_length n) in Hi; try done. apply replicate_length. }
    unfold ds in Hi. rewrite (grow_rows_lookup n ds0 rows i []) in Hi; try done.
    + injection Hi as <-. apply dict_first_appearance.
    + apply replicate_length.
    + by apply lookup_replicate_2.
  - intros i j cells c Hj Hc. destruct (lookup_lt_is_Some_2 coded j) as [row Hrow]; [rewrite Hcl; by eapply lookup_lt_Some|].
    assert (i < n) as Hin. { apply lookup_lt_Some in Hc. rewrite (Hlen cells) in Hc; [done|]. by eapply elem_of_list_lookup_2. }
    destruct (Hval i j row Hin Hrow) as (col & x & Hcol & Hx & Hcase).
    pose proof (Hcodes j cells row Hj Hrow) as [Hl Hco]. destruct (Hco i c Hc) as (d & v & Hd & Hv & Hi).
    exists col, d, v. split_and!; try done. rewrite Hx. f_equal. destruct Hcase as [Hin'|[Hni _]].
    + apply elem_of_list_lookup in Hin' as [k Hk].
      pose proof (codes_fst _ _ _ (conj Hl Hco)) as Hf. assert ((fst <$> row) !! k = Some i) as Hki by (by rewrite list_lookup_fmap, Hk).
      rewrite Hf in Hki. apply lookup_seq in Hki as [Hki _]. assert (k = i) as -> by lia. rewrite Hi in Hk. by injection Hk.
    + destruct Hni. apply elem_of_list_lookup_2 in Hi. apply elem_of_list_fmap. by exists (i, Z.of_nat v).
Qed.

(** ** Files *)
(** The calls of [getline]: the first line, then the data lines. [keep] is what the string holds after the first call. *)
Lemma csv_lines_read text header ls keep hc : csv_lines text header ls -> line_cells header hc -> line_cells keep hc ->
  exists rest ok eof l rest' ls0, getline text = (header, rest, ok, eof) /\ line_after keep rest eof = (l, rest') /\ reads rest' ls0 /\
    forall css, Forall2 line_cells ls css -> Forall2 line_cells (l :: ls0) css.
Proof.
  intros H Hh Hk. destruct H as [header l ls H Hn|header -> Hn|Hn].
  - apply has_lines_reads in H; [|done]. cbn [reads] in H. destruct H as (r0 & b0 & H0 & _ & r1 & b1 & H1 & _ & H2). exists r0, true, false, l, r1, ls. split_and!; [|unfold line_after; by rewrite H1|done|done].
    rewrite H0. destruct b0; [|done]. apply getline_eof in H0 as ->. by rewrite getline_nil in H1.
  - exists [], true, false, [], [], []. split_and!; [by rewrite getline_line|done|done|done].
  - exists [], (negb (bool_decide (text = []))), true, keep, [], []. split_and!; [by rewrite getline_end|done|done|].
    intros css HF. inversion HF as [|? cells ? ? Hc HF']; subst. inversion HF'; subst. constructor; [|constructor]. by rewrite (cells_unique _ _ _ Hc Hh).
Qed.
Theorem training_any text header ls names css : csv_lines text header ls -> line_cells header names -> Forall2 line_cells ls css ->
  (NoDup names -> (forall cells, cells ∈ css -> length names <= length cells) ->
     exists d, load_csv_training text = Ok d /\ codes_rows names (take (length names) <$> css) d) /\
  (NoDup names -> (exists cells, cells ∈ css /\ length cells < length names) -> load_csv_training text = Err OutOfBounds) /\
  (~ NoDup names -> load_csv_training text = Err Exit1).
Proof.
  intros Hl Hh HF. destruct (cells_split _ _ Hh) as (s & E1 & E2 & E3).
  assert (line_cells s names) as Hs. { destruct Hh as (s' & trail & -> & Ht & Hs' & Hp). rewrite trim_unique in E1 by done. injection E1 as ->. exists s, []. rewrite app_nil_r. done. }
  destruct (csv_lines_read text header ls s names Hl Hh Hs) as (rest & ok & eof & l & rest' & ls0 & G1 & G2 & G3 & G4).
  unfold load_csv_training. rewrite G1. cbv beta iota. rewrite (cells_count _ _ Hh), E1. cbn [mbind outcome_bind]. rewrite E2. cbn [mbind outcome_bind].
  destruct (decide (NoDup names)) as [Hnd|Hnd].
  2:{ split_and!; try done. intros _. by rewrite bool_decide_false. }
  rewrite bool_decide_true by done. rewrite G2. cbv beta iota. apply G4 in HF.
  destruct (train_loop_any (length names) css l ls0 (S (length rest')) rest' (replicate (length names) []) [] HF) as [T1 T2]; [apply replicate_length|done|apply reads_bound in G3; lia|].
  split_and!; [| |done].
  - intros _ Hw. rewrite T1 by done. cbn [mbind outcome_bind app]. destruct (coded_rows names (length names) (take (length names) <$> css)) as (dense & cols & -> & Hcols & Hrows).
    + done.
    + intros r Hr. apply elem_of_list_fmap in Hr as (cells & -> & Hc). rewrite take_length. apply Hw in Hc. lia.
    + cbn [mbind outcome_bind]. rewrite Hcols. cbn [mbind outcome_bind]. eexists. split; [done|]. done.
  - intros _ (cells & Hc & Hlt). rewrite T2; [done|]. intros Hw. apply Hw in Hc. lia.
Qed.
Theorem testing_any text header ls css ds : csv_lines text header ls -> Forall2 line_cells ls css -> ds <> [] -> (forall d, d ∈ ds -> NoDup d) ->
  ((forall cells, cells ∈ css -> length ds <= length cells) ->
     exists coded, load_csv_testing (length ds) ds text = Ok coded /\ Forall2 (fun cells row => codes_known ds (take (length ds) cells) row) css coded) /\
  ((exists cells, cells ∈ css /\ length cells < length ds) -> load_csv_testing (length ds) ds text = Err OutOfBounds).
Proof.
  intros Hl HF Hne Hnd. destruct (cells_of header) as [hc Hh]. destruct (csv_lines_read text header ls header hc Hl Hh Hh) as (rest & ok & eof & l & rest' & ls0 & G1 & G2 & G3 & G4).
  unfold load_csv_testing. rewrite bool_decide_false by done. rewrite G1. cbv beta iota. rewrite G2. cbv beta iota. apply G4 in HF.
  destruct (test_loop_any (length ds) css ds eq_refl l ls0 (S (length rest')) rest' [] HF) as [T1 T2]; [done|apply reads_bound in G3; lia|]. split.
  - intros Hw. rewrite T1 by done. cbn [app]. eexists. split; [done|]. rewrite <-list_fmap_compose. apply Forall2_fmap_r, Forall_Forall2_diag, Forall_forall. intros cells Hc. cbn.
    apply test_codes_known; [done|]. rewrite take_length. apply Hw in Hc. lia.
  - intros (cells & Hc & Hlt). apply T2. intros Hw. apply Hw in Hc. lia.
Qed.
