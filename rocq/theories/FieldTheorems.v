(** Loading LIBSVM files: every line, every file. *)
From Verif Require Import FieldSpec DataProofs UtilProofs EvalProofs SVMTheorems ParProofs FieldProofs.
Local Open Scope nat_scope.

(** ** Every text has lines *)
Lemma text_lines (t : str) : exists ls tail, t = text_of ls ++ tail /\ newline ∉ tail /\ forall l, l ∈ ls -> newline ∉ l.
Proof.
  induction t as [|c t (ls & tail & -> & Ht & Hl)].
  - exists [], []. split_and!; [done|apply not_elem_of_nil|]. intros l Hl. by apply elem_of_nil in Hl.
  - destruct (decide (c = newline)) as [->|Hc].
    + exists ([] :: ls), tail. split_and!; [done|done|]. intros l [->|H]%elem_of_cons; [apply not_elem_of_nil|by apply Hl].
    + destruct ls as [|l ls].
      * exists [], (c :: tail). split_and!; [done|by apply not_elem_of_cons|done].
      * exists ((c :: l) :: ls), tail. split_and!; [by rewrite !text_of_cons|done|]. intros l' [->|H]%elem_of_cons; [|apply Hl; by right].
        apply not_elem_of_cons. split; [done|]. apply Hl. left.
Qed.
Theorem every_file (t : str) : exists ls, has_lines t ls /\ forall l, l ∈ ls -> newline ∉ l.
Proof.
  destruct (text_lines t) as (ls & tail & -> & Ht & Hl). destruct tail as [|c tail].
  - exists ls. rewrite app_nil_r. split; [by left|done].
  - exists (ls ++ [c :: tail]). split.
    + right. split; [|by rewrite last_snoc]. unfold text_of. rewrite fmap_app, concat_app. cbn. by rewrite app_nil_r, <-app_assoc.
    + intros l [H| ->%elem_of_list_singleton]%elem_of_app; [by apply Hl|done].
Qed.

(** ** Training files *)
Lemma train_loop_collect cls ls : forall fuel t acc, reads t ls -> length ls < fuel ->
  svm_train_loop fuel cls t acc = (rows ← mcollect ls (svm_train_line cls); Ok (acc ++ rows)).
Proof.
  induction ls as [|l ls IH]; intros [|fuel] t acc Hr Hf; try (cbn [length] in Hf; lia); cbn [svm_train_loop mcollect].
  - cbn in Hr. subst t. rewrite getline_nil. cbn [mbind outcome_bind]. by rewrite app_nil_r.
  - cbn [reads] in Hr. destruct Hr as (r & b & -> & _ & Hr). destruct (svm_train_line cls l) as [row|e]; cbn [mbind outcome_bind]; [|done].
    rewrite IH by (done || (cbn [length] in Hf; lia)). destruct (mcollect ls (svm_train_line cls)) as [rows|e]; cbn [mbind outcome_bind]; [|done]. by rewrite <-app_assoc.
Qed.
Lemma dense_row_len n row : (forall p, p ∈ row -> fst p < n) -> exists r, dense_row n row = Ok r /\ length r = n.
Proof.
  intros H. unfold dense_row. assert (length (replicate n 0%Z) = n) as Hl by apply replicate_length. revert Hl. generalize (replicate n 0%Z). induction row as [|p row IH]; intros r Hl; cbn [mfor].
  - by exists r.
  - rewrite vset_ok by (rewrite Hl; apply H; left). cbn [mbind outcome_bind]. apply IH; [intros q Hq; apply H; by right|]. by rewrite insert_length.
Qed.
Lemma mcollect_total {A B} (f : A -> outcome B) (P : B -> Prop) l : (forall a, a ∈ l -> exists b, f a = Ok b /\ P b) -> exists bs, mcollect l f = Ok bs /\ length bs = length l /\ forall b, b ∈ bs -> P b.
Proof.
  induction l as [|a l IH]; intros H; cbn [mcollect].
  - exists []. split_and!; try done. intros b Hb. by apply elem_of_nil in Hb.
  - destruct (H a) as (b & -> & Hb); [left|]. destruct IH as (bs & -> & Hl & Hbs); [intros x Hx; apply H; by right|]. exists (b :: bs). split_and!; [done|cbn; by rewrite Hl|]. intros x [->|Hx]%elem_of_cons; auto.
Qed.
Lemma dense_total n rows : (forall row p, row ∈ rows -> p ∈ row -> fst p < n) ->
  exists dense cols, dense_rows n (length rows) rows = Ok dense /\ column_major n (length rows) dense = Ok cols.
Proof.
  intros H. destruct (mcollect_total (fun s => row ← vget rows s; dense_row n row) (fun r => length r = n) (seq 0 (length rows))) as (dense & Hd & Hl & Hlen).
  { intros s Hs%elem_of_seq. destruct (lookup_lt_is_Some_2 rows s) as [row Hrow]; [lia|]. rewrite (vget_ok _ _ _ Hrow). cbn [mbind outcome_bind].
    apply dense_row_len. intros p Hp. apply (H row p); [by eapply elem_of_list_lookup_2|done]. }
  rewrite seq_length in Hl. exists dense. destruct (mcollect_total (fun i => mcollect (seq 0 (length rows)) (fun j => row ← vget dense j; vget row i)) (fun _ => True) (seq 0 n)) as (cols & Hc & _).
  { intros i Hi%elem_of_seq. destruct (mcollect_total (fun j => row ← vget dense j; vget row i) (fun _ => True) (seq 0 (length rows))) as (col & Hc & _); [|by exists col].
    intros j Hj%elem_of_seq. destruct (lookup_lt_is_Some_2 dense j) as [row Hrow]; [lia|]. rewrite (vget_ok _ _ _ Hrow). cbn [mbind outcome_bind].
    destruct (lookup_lt_is_Some_2 row i) as [x Hx]; [rewrite (Hlen row) by (by eapply elem_of_list_lookup_2); lia|]. exists x. by rewrite (vget_ok _ _ _ Hx). }
  by exists cols.
Qed.
Lemma dense_refused n rows cls x fs : rows = ((cls, x) :: fs) :: drop 1 rows -> n <= cls -> dense_rows n (length rows) rows = Err OutOfBounds.
Proof.
  intros -> Hn. unfold dense_rows. cbn [length seq mcollect vget lookup list_lookup mbind outcome_bind]. unfold dense_row. cbn [mfor fst snd].
  unfold vset. rewrite bool_decide_false by (rewrite replicate_length; lia). done.
Qed.

Lemma training_file cls text ls : has_lines text ls -> (forall l, l ∈ ls -> newline ∉ l) ->
  (forall rows, (exists d, load_svm_training cls text = Ok d /\ d_rows d = rows) <-> Forall2 (training_line cls) ls rows /\ class_known cls rows) /\
  (forall e, load_svm_training cls text = Err e -> refusal e).
Proof.
  intros Ht Hl. pose proof (has_lines_reads _ _ Ht Hl) as Hr. unfold load_svm_training.
  rewrite (train_loop_collect cls ls) by (done || (apply reads_bound in Hr; lia)).
  destruct (mcollect_spec (svm_train_line cls) (training_line cls) refusal (train_line_spec cls) ls) as [M1 M2].
  destruct (mcollect ls (svm_train_line cls)) as [rows|e] eqn:E; cbn [mbind outcome_bind].
  2:{ split; [|intros e' [= <-]; by apply M2]. intros rows. split; [by intros (d & ? & _)|]. intros [H _]. by apply M1 in H. }
  cbn [app]. pose proof (proj1 (M1 rows) eq_refl) as HF.
  assert (forall rows', Forall2 (training_line cls) ls rows' -> rows' = rows) as Hu. { intros rows' H%M1. congruence. }
  set (L := (fun p : nat * Z => Z.of_nat (fst p)) <$> concat (drop 1 <$> rows)).
  assert (forall z, z ∈ L <-> exists row f, row ∈ rows /\ f ∈ drop 1 row /\ z = Z.of_nat (fst f)) as HL.
  { intros z. unfold L. rewrite elem_of_list_fmap. split.
    - intros (f & -> & Hin). apply elem_of_list_In, in_concat in Hin as (y & Hy & Hin). apply elem_of_list_In in Hy, Hin. apply elem_of_list_fmap in Hy as (row & -> & Hrow). by exists row, f.
    - intros (row & f & Hrow & Hf & ->). exists f. split; [done|]. apply elem_of_list_In, in_concat. exists (drop 1 row). rewrite <-!elem_of_list_In. split; [|done]. apply elem_of_list_fmap. by exists row. }
  destruct (list_max_z_spec L) as (X1 & X2 & X3). set (n := Z.to_nat (list_max_z L + 1)).
  assert (forall row, row ∈ rows -> exists x, row = (cls, x) :: drop 1 row) as Hhead.
  { intros row Hrow. apply elem_of_list_lookup in Hrow as [j Hj]. destruct (Forall2_lookup_r _ _ _ _ _ HF Hj) as (l & _ & w & ws & label & fs & _ & _ & _ & ->). by exists label. }
  assert (forall row f, row ∈ rows -> f ∈ drop 1 row -> fst f < n) as Hfs.
  { intros row f Hrow Hf. assert (Z.of_nat (fst f) <= list_max_z L)%Z by (apply X1, HL; eauto). unfold n. lia. }
  destruct (decide (rows = [] \/ cls < n)) as [Hok|Hbad].
  - destruct (dense_total n rows) as (dense & cols & -> & Hc).
    { intros row f Hrow Hf. destruct (Hhead row Hrow) as [x Hx]. rewrite Hx in Hf. apply elem_of_cons in Hf as [->|Hf]; [|by apply (Hfs row)]. destruct Hok as [->|?]; [by apply elem_of_nil in Hrow|done]. }
    cbn [mbind outcome_bind]. rewrite Hc. cbn [mbind outcome_bind]. split; [|done]. intros rows'. split.
    + intros (d & [= <-] & <-). cbn [d_rows]. split; [done|]. destruct (decide (rows = [])) as [->|Hne]; [by left|]. right. destruct Hok as [?|Hok]; [done|].
      destruct X3 as [X3|X3]; [unfold n in Hok; rewrite X3 in Hok; cbn in Hok; lia|]. apply HL in X3 as (row & f & Hrow & Hf & Hz). exists row, f. split_and!; try done. unfold n in Hok. rewrite Hz in Hok. lia.
    + intros [H _]. apply Hu in H as ->. eexists. split; [done|]. done.
  - assert (n <= cls) as Hge by (destruct (decide (cls < n)); [by destruct Hbad; right|lia]). destruct rows as [|row rows]; [by destruct Hbad; left|]. destruct (Hhead row) as [x Hx]; [left|].
    rewrite (dense_refused n (row :: rows) cls x (drop 1 row)) by (done || (by rewrite <-Hx)). cbn [mbind outcome_bind]. split; [|intros e' [= <-]; by right]. intros rows'. split; [by intros (d & ? & _)|].
    intros [H [->|(r & f & Hr' & Hf & Hcl)]]; [by apply Hu in H|]. apply Hu in H as ->. pose proof (Hfs r f Hr' Hf). lia.
Qed.

(** ** Test files *)
Definition feature_step (n : nat) (s : str) (row : rowv) : outcome rowv :=
  p ← split_str s [colon]; a ← vget p 0; i ← stoi a;
  if bool_decide (Z.of_nat n <= i)%Z then Ok row else
  b ← vget p 1; v ← stoi b;
  if bool_decide (i < 0)%Z then Err OutOfBounds else vset row (Z.to_nat i) (Z.to_nat i, v).
Lemma parts_unique sep s ps ps' : parts sep s ps -> parts sep s ps' -> ps = ps'.
Proof. intros H%parts_split H'%parts_split. congruence. Qed.
Lemma int_unique s z z' : int_field s z -> int_field s z' -> z = z'.
Proof. intros H H'. apply stoi_spec in H, H'. congruence. Qed.
Lemma feature_step_spec n s row : length row = n ->
  (exists a more i, parts colon s (a :: more) /\ int_field a i /\ (Z.of_nat n <= i)%Z /\ feature_step n s row = Ok row) \/
  (exists f, feature_field s f /\ fst f < n /\ feature_step n s row = Ok (<[fst f := f]> row)) \/
  ((forall ws row', ~ test_features n (s :: ws) row row') /\ exists e, feature_step n s row = Err e /\ refusal e).
Proof.
  intros Hlen. destruct (parts_exist colon s) as [ps Hps]. unfold feature_step. rewrite (parts_split _ _ _ Hps). cbn [mbind outcome_bind].
  destruct ps as [|a ps]; [by destruct Hps as (_ & ? & _)|]. change (vget (a :: ps) 0) with (Ok a). cbn [mbind outcome_bind].
  assert (forall (Q : Prop), (forall i, int_field a i -> (Z.of_nat n <= i)%Z -> Q) -> (forall b ps' (f : nat * Z), ps = b :: ps' -> int_field a (Z.of_nat (fst f)) -> int_field b (snd f) -> fst f < n -> Q) ->
    (exists ws row', test_features n (s :: ws) row row') -> Q) as Hinv.
  { intros Q H1 H2 (ws & row' & H). inversion H as [|w ws0 a' more i r r' P1 P2 P3|w ws0 f r r' (a' & b & more & P1 & P2 & P3) P4]; subst.
    - pose proof (parts_unique _ _ _ _ Hps P1) as E. injection E as -> ->. by apply (H1 i).
    - pose proof (parts_unique _ _ _ _ Hps P1) as E. injection E as -> ->. by apply (H2 b more f). }
  destruct (stoi a) as [i|e] eqn:Ea; cbn [mbind outcome_bind].
  2:{ right; right. split; [|exists e; split; [done|]; left; by eapply stoi_error]. intros ws row' H. apply Hinv; [| |by eauto].
      - intros i Hi _. apply stoi_spec in Hi. congruence.
      - intros b ps' f _ Hi. apply stoi_spec in Hi. congruence. }
  apply stoi_spec in Ea as Hi. case_bool_decide as Hni; [left; by exists a, ps, i|]. destruct ps as [|b ps].
  { right; right. split; [|exists OutOfBounds; split; [done|by right]]. intros ws row' H. apply Hinv; [| |by eauto]; [|done]. intros i' Hi' Hle. pose proof (int_unique _ _ _ Hi Hi'). lia. }
  change (vget (a :: b :: ps) 1) with (Ok b). cbn [mbind outcome_bind]. destruct (stoi b) as [x|e] eqn:Eb; cbn [mbind outcome_bind].
  2:{ right; right. split; [|exists e; split; [done|]; left; by eapply stoi_error]. intros ws row' H. apply Hinv; [| |by eauto].
      - intros i' Hi' Hle. pose proof (int_unique _ _ _ Hi Hi'). lia.
      - intros b' ps' f [= <- _] _ Hb. apply stoi_spec in Hb. congruence. }
  apply stoi_spec in Eb as Hx. case_bool_decide as Hneg.
  - right; right. split; [|exists OutOfBounds; split; [done|by right]]. intros ws row' H. apply Hinv; [| |by eauto].
    + intros i' Hi' Hle. pose proof (int_unique _ _ _ Hi Hi'). lia.
    + intros b' ps' f _ Hi' _ _. pose proof (int_unique _ _ _ Hi Hi'). lia.
  - right; left. exists (Z.to_nat i, x). cbn [fst snd]. split_and!; [|lia|by rewrite vset_ok by lia]. exists a, b, ps. cbn [fst snd]. rewrite Z2Nat.id by lia. done.
Qed.
Lemma features_spec n ws : forall row, length row = n ->
  (forall row', mfor ws (feature_step n) row = Ok row' <-> test_features n ws row row') /\ (forall e, mfor ws (feature_step n) row = Err e -> refusal e).
Proof.
  induction ws as [|w ws IH]; intros row Hlen; cbn [mfor].
  - split; [|done]. intros row'. split; [intros [= <-]; constructor|]. intros H. by inversion H.
  - destruct (feature_step_spec n w row Hlen) as [(a & more & i & P1 & P2 & P3 & ->)|[(f & F1 & F2 & ->)|(Hno & e & -> & He)]]; cbn [mbind outcome_bind].
    + destruct (IH row Hlen) as [I1 I2]. split; [|done]. intros row'. rewrite I1. split; [intros H; by eapply tf_skip|].
      intros H. inversion H as [|? ? ? ? ? ? ? ? ? ? Q|? ? f ? ? (a' & b & more' & Q1 & Q2 & Q3) Q4]; subst; [done|].
      pose proof (parts_unique _ _ _ _ P1 Q1) as E. injection E as -> ->. pose proof (int_unique _ _ _ P2 Q2). lia.
    + destruct (IH (<[fst f := f]> row)) as [I1 I2]; [by rewrite insert_length|]. split; [|done]. intros row'. rewrite I1. split; [intros H; by eapply tf_set|].
      destruct F1 as (a & b & more & P1 & P2 & P3). intros H. inversion H as [|? ? a' more' i ? ? Q1 Q2 Q3|? ? f' ? ? (a' & b' & more' & Q1 & Q2 & Q3) Q4 Q5]; subst.
      * pose proof (parts_unique _ _ _ _ P1 Q1) as E. injection E as <- <-. pose proof (int_unique _ _ _ P2 Q2). lia.
      * pose proof (parts_unique _ _ _ _ P1 Q1) as E. injection E as <- <- <-. pose proof (int_unique _ _ _ P2 Q2). pose proof (int_unique _ _ _ P3 Q3). assert (f = f') as <-; [|done]. destruct f, f'. cbn [fst snd] in *. f_equal; [lia|done].
    + split; [|by intros e' [= <-]]. intros row'. split; [done|]. intros H. by destruct (Hno ws row').
Qed.
Lemma test_line_spec n cls l : (forall row, svm_test_line n cls l = Ok row <-> testing_line n cls l row) /\ (forall e, svm_test_line n cls l = Err e -> refusal e).
Proof.
  destruct (words_of l) as (ws & Hws & E). unfold svm_test_line.
  assert (forall X (k : list str -> outcome X), (s ← trim_right l; ps ← split_str s [blank]; k ps) = k ws) as Ek.
  { intros X k. destruct (trim_right l) as [s|]; [|done]. cbn [mbind outcome_bind] in *. by rewrite E. }
  rewrite Ek. assert (forall w' ws', line_words l (w' :: ws') -> ws = w' :: ws') as Hu. { intros w' ws' H%words_unique. congruence. }
  destruct ws as [|w ws]; [by destruct Hws as (? & ? & _ & _ & _ & _ & ? & _)|]. change (vget (w :: ws) 0) with (Ok w). change (drop 1 (w :: ws)) with ws. cbn [mbind outcome_bind].
  destruct (stoi w) as [v|e] eqn:Ev; cbn [mbind outcome_bind].
  2:{ split; [|intros e' [= <-]; left; by eapply stoi_error]. intros row. split; [done|]. intros (w' & ws' & label & H1 & H2 & _). apply Hu in H1. injection H1 as <- <-. apply stoi_spec in H2. congruence. }
  apply stoi_spec in Ev as Hv. set (zero := (fun i => (i, 0%Z)) <$> seq 0 n). assert (length zero = n) as Hz by (unfold zero; by rewrite fmap_length, seq_length).
  destruct (decide (cls < n)) as [Hc|Hc].
  2:{ unfold vset. rewrite bool_decide_false by lia. cbn [mbind outcome_bind]. split; [|intros e' [= <-]; by right]. intros row. split; [done|]. by intros (w' & ws' & label & _ & _ & ? & _). }
  rewrite vset_ok by lia. cbn [mbind outcome_bind]. destruct (features_spec n ws (<[cls := (cls, v)]> zero)) as [F1 F2]; [by rewrite insert_length|].
  change (fun s row => p ← split_str s [colon]; _) with (feature_step n). split; [|done]. intros row. rewrite F1. split.
  - intros H. by exists w, ws, v.
  - intros (w' & ws' & label & H1 & H2 & _ & H3). apply Hu in H1. injection H1 as <- <-. by rewrite (int_unique _ _ _ Hv H2).
Qed.
Lemma test_loop_collect n cls tail ls : newline ∉ tail -> (forall l, l ∈ ls -> newline ∉ l) -> forall fuel acc, length ls < fuel ->
  svm_test_loop fuel n cls (text_of ls ++ tail) acc = (rows ← mcollect ls (svm_test_line n cls); Ok (acc ++ rows)).
Proof.
  intros Ht. induction ls as [|l ls IH]; intros Hl [|fuel] acc Hf; try (cbn [length] in Hf; lia); cbn [svm_test_loop mcollect].
  - change (text_of [] ++ tail) with tail. rewrite getline_end by done. cbn [mbind outcome_bind]. by rewrite app_nil_r.
  - rewrite text_of_cons, <-app_assoc. cbn [app]. rewrite getline_line by (apply Hl; left). destruct (svm_test_line n cls l) as [row|e]; cbn [mbind outcome_bind]; [|done].
    rewrite IH by ((intros x Hx; apply Hl; by right) || (cbn [length] in Hf; lia)). destruct (mcollect ls (svm_test_line n cls)) as [rows|e]; cbn [mbind outcome_bind]; [|done]. by rewrite <-app_assoc.
Qed.
Lemma testing_file n cls ls tail : newline ∉ tail -> (forall l, l ∈ ls -> newline ∉ l) ->
  (forall rows, load_svm_testing n cls (text_of ls ++ tail) = Ok rows <-> Forall2 (testing_line n cls) ls rows) /\
  (forall e, load_svm_testing n cls (text_of ls ++ tail) = Err e -> refusal e).
Proof.
  intros Ht Hl. unfold load_svm_testing. rewrite test_loop_collect; [|done|done|].
  2:{ pose proof (reads_bound _ _ (text_reads ls Hl)). rewrite app_length. lia. }
  destruct (mcollect_spec (svm_test_line n cls) (testing_line n cls) refusal (test_line_spec n cls) ls) as [M1 M2].
  destruct (mcollect ls (svm_test_line n cls)) as [rows|e]; cbn [mbind outcome_bind].
  - split; [|done]. intros rows'. rewrite <-M1. done.
  - split; [|intros e' [= <-]; by apply M2]. intros rows'. rewrite <-M1. done.
Qed.

(** ** What is refused *)
Lemma refused_training cls text ls : has_lines text ls -> (forall l, l ∈ ls -> newline ∉ l) -> (exists l, l ∈ ls /\ forall row, ~ training_line cls l row) ->
  load_svm_training cls text = Err Thrown \/ load_svm_training cls text = Err OutOfBounds.
Proof.
  intros Ht Hl (l & Hin & Hno). destruct (training_file cls text ls Ht Hl) as [T1 T2]. destruct (load_svm_training cls text) as [d|e] eqn:E.
  - destruct (proj1 (T1 (d_rows d))) as [HF _]; [by exists d|]. apply elem_of_list_lookup in Hin as [j Hj]. destruct (Forall2_lookup_l _ _ _ _ _ HF Hj) as (row & _ & Hrow). by destruct (Hno row).
  - destruct (T2 e eq_refl) as [->| ->]; auto.
Qed.
Theorem bad_word cls text ls l w ws x : has_lines text ls -> (forall l, l ∈ ls -> newline ∉ l) -> l ∈ ls -> line_words l (w :: ws) ->
  (x = w /\ (forall z, ~ int_field w z)) \/ (x ∈ ws /\ forall f, ~ feature_field x f) ->
  load_svm_training cls text = Err Thrown \/ load_svm_training cls text = Err OutOfBounds.
Proof.
  intros Ht Hl Hin Hw Hx. apply (refused_training cls text ls); [done|done|]. exists l. split; [done|]. intros row (w' & ws' & label & fs & H1 & H2 & H3 & _).
  apply words_unique in H1. apply words_unique in Hw. rewrite Hw in H1. injection H1 as <- <-. destruct Hx as [[-> Hx]|[Hi Hx]]; [by apply (Hx label)|].
  apply elem_of_list_lookup in Hi as [j Hj]. destruct (Forall2_lookup_l _ _ _ _ _ H3 Hj) as (f & _ & Hf). by apply (Hx f).
Qed.
Lemma test_features_prefix n ws row row' x : test_features n ws row row' -> x ∈ ws ->
  (exists a more i, parts colon x (a :: more) /\ int_field a i /\ (Z.of_nat n <= i)%Z) \/ (exists f, feature_field x f /\ fst f < n).
Proof.
  induction 1 as [row|w ws a more i row row' P1 P2 P3 _ IH|w ws f row row' F1 F2 _ IH]; intros Hx.
  - by apply elem_of_nil in Hx.
  - apply elem_of_cons in Hx as [->|Hx]; [left; eauto 10|by apply IH].
  - apply elem_of_cons in Hx as [->|Hx]; [right; eauto|by apply IH].
Qed.
Theorem bad_test_word n cls ls tail l w ws x : newline ∉ tail -> (forall l, l ∈ ls -> newline ∉ l) -> l ∈ ls -> line_words l (w :: ws) ->
  (x = w /\ (forall z, ~ int_field w z)) \/
  (x ∈ ws /\ (forall a more i, parts colon x (a :: more) -> int_field a i -> (i < Z.of_nat n)%Z) /\ forall f, ~ feature_field x f) ->
  load_svm_testing n cls (text_of ls ++ tail) = Err Thrown \/ load_svm_testing n cls (text_of ls ++ tail) = Err OutOfBounds.
Proof.
  intros Ht Hl Hin Hw Hx. destruct (testing_file n cls ls tail Ht Hl) as [T1 T2]. destruct (load_svm_testing n cls (text_of ls ++ tail)) as [rows|e].
  - pose proof (proj1 (T1 rows) eq_refl) as HF. apply elem_of_list_lookup in Hin as [j Hj]. destruct (Forall2_lookup_l _ _ _ _ _ HF Hj) as (row & _ & w' & ws' & label & H1 & H2 & _ & H3).
    apply words_unique in H1. apply words_unique in Hw. rewrite Hw in H1. injection H1 as <- <-. destruct Hx as [[-> Hx]|(Hi & Hx1 & Hx2)]; [by destruct (Hx label)|].
    destruct (test_features_prefix _ _ _ _ _ H3 Hi) as [(a & more & i & P1 & P2 & P3)|(f & F1 & _)]; [specialize (Hx1 _ _ _ P1 P2); lia|by destruct (Hx2 f)].
  - destruct (T2 e eq_refl) as [->| ->]; auto.
Qed.
Theorem numbers s : (forall z, stoi s = Ok z <-> int_field s z) /\ ((forall z, ~ int_field s z) -> stoi s = Err Thrown).
Proof. apply stoi_spec. Qed.
