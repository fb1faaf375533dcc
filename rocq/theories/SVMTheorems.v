From Coq Require Import DecimalPos.
From Verif Require Import DataProofs DataSpec UtilProofs.
Local Open Scope nat_scope.

(** ** Numbers *)
Lemma read_acc u p : read_digits (Z.pos p) true (digit_chars u) = Some (Z.pos (Pos.of_uint_acc u p)).
Proof.
  revert p; induction u as [|u IH|u IH|u IH|u IH|u IH|u IH|u IH|u IH|u IH|u IH]; intros p; cbn [digit_chars read_digits]; [done|..];
    match goal with |- context [is_digit ?c] => change (is_digit c) with true end; cbv iota; cbn [Pos.of_uint_acc]; rewrite <-IH; f_equal; lia.
Qed.
Lemma read_uint u b : u <> Decimal.Nil -> read_digits 0 b (digit_chars u) = Some (Z.of_uint u).
Proof.
  assert (read_digits 0 true [] = Some 0%Z) as H0 by done.
  revert b; induction u as [|u IH|u IH|u IH|u IH|u IH|u IH|u IH|u IH|u IH|u IH]; intros b H; [done|..]; cbn [digit_chars read_digits];
    match goal with |- context [is_digit ?c] => change (is_digit c) with true end; cbv iota;
    match goal with |- read_digits (0 * 10 + (?c - 48))%Z true _ = _ => let z := eval vm_compute in (0 * 10 + (c - 48))%Z in change (0 * 10 + (c - 48))%Z with z end.
  { destruct u; [done|..]; rewrite IH by done; done. }
  all: rewrite read_acc; done.
Qed.
Lemma to_string_chars z c : c ∈ to_string z -> (45 <= c <= 57)%Z.
Proof.
  assert (forall u, c ∈ digit_chars u -> (48 <= c <= 57)%Z) as Hd.
  { induction u as [|u IH|u IH|u IH|u IH|u IH|u IH|u IH|u IH|u IH|u IH]; cbn [digit_chars];
      [by intros ?%elem_of_nil|..]; intros [->|H]%elem_of_cons; (lia || by apply IH). }
  unfold to_string. destruct (Z.to_int z) as [u|u]; [intros H%Hd; lia|]. intros [->|H%Hd]%elem_of_cons; lia.
Qed.
Lemma to_int_nonnil z u : Z.to_int z = Decimal.Pos u \/ Z.to_int z = Decimal.Neg u -> u <> Decimal.Nil.
Proof. destruct z; cbn; intros [H|H]; try discriminate H; injection H as <-; try done; apply Unsigned.to_uint_nonnil. Qed.
Lemma digit_head u : u <> Decimal.Nil -> exists c s, digit_chars u = c :: s /\ (48 <= c <= 57)%Z.
Proof. destruct u; intros H; [done|..]; cbn [digit_chars]; eexists _, _; (split; [done|lia]). Qed.
Lemma to_string_nonempty z : to_string z <> [].
Proof.
  unfold to_string. destruct (Z.to_int z) as [u|u] eqn:E; [|done]. destruct (digit_head u) as (c & s & -> & _); [|done].
  apply (to_int_nonnil z). by left.
Qed.
Theorem stoi_to_string z : (-2147483648 <= z <= 2147483647)%Z -> stoi (to_string z) = Ok z.
Proof.
  intros Hz. assert (read_int (to_string z) = Some z) as H.
  { pose proof (of_to z) as Hot. unfold to_string, read_int. destruct (Z.to_int z) as [u|u] eqn:E.
    - assert (u <> Decimal.Nil) as Hu by (apply (to_int_nonnil z); by left). pose proof (read_uint u false Hu) as Hr.
      destruct (digit_head u Hu) as (c & s & Hs & Hc). rewrite Hs in *. cbn [drop_spaces].
      assert (is_space c = false) as ->. { unfold is_space. rewrite !bool_decide_false by lia. done. }
      transitivity (read_digits 0 false (c :: s)).
      { assert (c = 48 \/ c = 49 \/ c = 50 \/ c = 51 \/ c = 52 \/ c = 53 \/ c = 54 \/ c = 55 \/ c = 56 \/ c = 57)%Z as Hcs by lia.
        repeat destruct Hcs as [->|Hcs]; try done. by rewrite Hcs. }
      rewrite Hr. cbn in Hot. by rewrite <-Hot.
    - assert (u <> Decimal.Nil) as Hu by (apply (to_int_nonnil z); by right). cbn [drop_spaces]. replace (is_space 45) with false by done.
      rewrite read_uint by done. cbn in *. by rewrite <-Hot. }
  unfold stoi. rewrite H. assert (fits_int z = true) as -> by (by apply bool_decide_eq_true). done.
Qed.

(** ** Lines *)
Definition feature (p : nat * Z) : str := to_string (Z.of_nat (fst p)) ++ colon :: to_string (snd p).
Definition fits (p : nat * Z) : Prop := (Z.of_nat (fst p) <= 2147483647)%Z /\ (-2147483648 <= snd p <= 2147483647)%Z.
Lemma feature_chars p c : c ∈ feature p -> (45 <= c <= 58)%Z.
Proof. unfold feature. intros [H%to_string_chars|[->|H%to_string_chars]%elem_of_cons]%elem_of_app; unfold colon; lia. Qed.
Lemma split_feature p : split_str (feature p) [colon] = Ok [to_string (Z.of_nat (fst p)); to_string (snd p)].
Proof.
  unfold feature. apply (split_glue colon [_; _]); [done|]. unfold colon.
  intros c [->|[->|H%elem_of_nil]%elem_of_cons]%elem_of_cons H'; try done; apply to_string_chars in H'; lia.
Qed.
Lemma svm_feature_ok p : fits p -> svm_feature (feature p) = Ok p.
Proof.
  intros [H1 H2]. unfold svm_feature. rewrite split_feature. cbn [mbind outcome_bind vget lookup list_lookup].
  rewrite stoi_to_string by lia. cbn [mbind outcome_bind]. rewrite stoi_to_string by lia. cbn [mbind outcome_bind].
  rewrite bool_decide_false by lia. rewrite Nat2Z.id. by destruct p.
Qed.
Definition svm_text (label : Z) (fs : rowv) : str := glue blank (to_string label :: (feature <$> fs)).
Lemma last_glue sep (cells : list str) c x : last cells = Some c -> last c = Some x -> last (glue sep cells) = Some x.
Proof.
  revert c x; induction cells as [|a cells IH]; intros c x H Hx; [done|]. destruct cells as [|b cells].
  - cbn in *. by injection H as ->.
  - change (glue sep (a :: b :: cells)) with (a ++ sep :: glue sep (b :: cells)). rewrite last_app, last_cons.
    change (last (a :: b :: cells)) with (last (b :: cells)) in H. by rewrite (IH c x H Hx).
Qed.
Lemma svm_text_trim label fs : trim_right (svm_text label fs ++ [blank]) = Ok (svm_text label fs).
Proof.
  assert (exists x, last (svm_text label fs) = Some x /\ (45 <= x)%Z) as (x & Hx & Hge).
  { unfold svm_text. destruct (last (to_string label :: (feature <$> fs))) as [c|] eqn:E; [|by apply last_None in E].
    assert (c <> [] /\ forall y, y ∈ c -> (45 <= y)%Z) as [Hc Hy].
    { assert (c ∈ to_string label :: (feature <$> fs)) as Hin by (rewrite last_lookup in E; by eapply elem_of_list_lookup_2).
      apply elem_of_cons in Hin as [->|Hin]; [split; [apply to_string_nonempty|intros y Hy%to_string_chars; lia]|].
      apply elem_of_list_fmap in Hin as (p & -> & _). split; [unfold feature; intros [_ E0]%app_eq_nil; discriminate E0|intros y Hy%feature_chars; lia]. }
    destruct (last c) as [x|] eqn:Ex; [|by apply last_None in Ex]. exists x. split; [by eapply last_glue|].
    apply Hy. rewrite last_lookup in Ex. by eapply elem_of_list_lookup_2. }
  destruct (trim_right_spec (svm_text label fs ++ [blank])) as (r & w & -> & E & Hw & Hl). f_equal.
  destruct w as [|y w _] using rev_ind.
  - rewrite app_nil_r in E. subst r. specialize (Hl blank). rewrite last_snoc in Hl. specialize (Hl eq_refl). unfold blank in Hl. lia.
  - rewrite app_assoc in E. apply app_inj_tail in E as [E <-]. rewrite E in Hx. destruct w as [|z w _] using rev_ind; [by rewrite app_nil_r in E|].
    rewrite app_assoc, last_snoc in Hx. injection Hx as ->. rewrite !Forall_app in Hw. destruct Hw as [[_ Hw] _]. inversion Hw; subst. lia.
Qed.
Lemma svm_text_split label fs : split_str (svm_text label fs) [blank] = Ok (to_string label :: (feature <$> fs)).
Proof.
  apply split_glue; [done|]. unfold blank. intros c [->|Hin]%elem_of_cons H; [apply to_string_chars in H; lia|].
  apply elem_of_list_fmap in Hin as (p & -> & _). apply feature_chars in H. lia.
Qed.
Lemma svm_text_newline label fs : newline ∉ svm_text label fs ++ [blank].
Proof.
  intros [H|H%elem_of_list_singleton]%elem_of_app; [|done]. apply elem_of_glue in H as [H|(c & Hc & H)]; [done|].
  apply elem_of_cons in Hc as [->|Hc]; [apply to_string_chars in H; unfold newline in H; lia|].
  apply elem_of_list_fmap in Hc as (p & -> & _). apply feature_chars in H. unfold newline in H. lia.
Qed.
Lemma train_line_svm cls label fs : (-2147483648 <= label <= 2147483647)%Z -> (forall p, p ∈ fs -> fits p) ->
  svm_train_line cls (svm_text label fs ++ [blank]) = Ok ((cls, label) :: fs).
Proof.
  intros Hl Hf. unfold svm_train_line. rewrite svm_text_trim. cbn [mbind outcome_bind]. rewrite svm_text_split.
  cbn [mbind outcome_bind vget lookup list_lookup]. rewrite stoi_to_string by done. cbn [mbind outcome_bind]. change (drop 1 (to_string label :: ?l)) with l.
  assert (mcollect (feature <$> fs) svm_feature = Ok fs) as ->; [|done].
  induction fs as [|p fs IH]; [done|]. cbn [fmap list_fmap mcollect]. rewrite svm_feature_ok by (apply Hf; left). cbn [mbind outcome_bind].
  rewrite IH; [done|]. intros q Hq. apply Hf. by right.
Qed.
Lemma mfor_fmap {I J S} (g : I -> J) (l : list I) (body : J -> S -> outcome S) s : mfor (g <$> l) body s = mfor l (fun i => body (g i)) s.
Proof. revert s; induction l as [|i l IH]; intros s; [done|]. cbn. destruct (body (g i) s); cbn; [apply IH|done]. Qed.
Lemma test_line_svm n cls label fs :
  (-2147483648 <= label <= 2147483647)%Z -> (forall p, p ∈ fs -> fits p /\ fst p <> cls) -> NoDup (fst <$> fs) -> cls < n ->
  exists row, svm_test_line n cls (svm_text label fs ++ [blank]) = Ok row /\ length row = n /\ row !! cls = Some (cls, label) /\
    (forall i x, (i, x) ∈ fs -> i < n -> row !! i = Some (i, x)) /\ (forall i, i < n -> i <> cls -> i ∉ fst <$> fs -> row !! i = Some (i, 0%Z)).
Proof.
  intros Hl Hf Hnd Hcls. unfold svm_test_line. rewrite svm_text_trim. cbn [mbind outcome_bind]. rewrite svm_text_split.
  cbn [mbind outcome_bind vget lookup list_lookup]. rewrite stoi_to_string by done. cbn [mbind outcome_bind]. change (drop 1 (to_string label :: ?l)) with l.
  set (zeros := (fun i => (i, 0%Z)) <$> seq 0 n).
  assert (length zeros = n) as Hz by (unfold zeros; by rewrite fmap_length, seq_length).
  rewrite (vset_ok zeros) by lia. cbn [mbind outcome_bind]. rewrite mfor_fmap.
  set (P := fun (dn : rowv) (row : rowv) => length row = n /\ row !! cls = Some (cls, label) /\
    (forall i x, (i, x) ∈ dn -> i < n -> row !! i = Some (i, x)) /\ (forall i, i < n -> i <> cls -> i ∉ fst <$> dn -> row !! i = Some (i, 0%Z))).
  match goal with |- exists r, mfor ?l ?b ?st = _ /\ _ => destruct (mfor_inv P l b st) as (st' & Hok & HP) end.
  - split_and!.
    + by rewrite insert_length.
    + apply list_lookup_insert. lia.
    + intros i x Hin. by apply elem_of_nil in Hin.
    + intros i Hi Hne _. rewrite list_lookup_insert_ne by done. unfold zeros. by rewrite list_lookup_fmap, lookup_seq_lt.
  - intros dn [v x] rest row Hsplit (P1 & P2 & P3 & P4).
    destruct (Hf (v, x)) as ([F1 F2] & Hvc); [rewrite Hsplit; apply elem_of_app; right; left|]. cbn [fst snd] in *.
    rewrite split_feature. cbn [mbind outcome_bind vget lookup list_lookup fst snd]. rewrite !stoi_to_string by lia. cbn [mbind outcome_bind].
    destruct (decide (n <= v)) as [Hv|Hv].
    { rewrite bool_decide_true by lia. exists row. split; [done|]. split_and!; [done|done| |].
      - intros i y [Hin|Hin%elem_of_list_singleton]%elem_of_app Hi; [by apply P3|]. injection Hin as -> ->. lia.
      - intros i Hi Hne Hni. rewrite fmap_app in Hni. apply not_elem_of_app in Hni as [Hni _]. by apply P4. }
    rewrite !bool_decide_false by lia.
    rewrite Nat2Z.id, (vset_ok row) by lia. eexists. split; [done|].
    rewrite Hsplit, fmap_app in Hnd. apply NoDup_app in Hnd as (_ & Hdisj & _). split_and!.
    + by rewrite insert_length.
    + by rewrite list_lookup_insert_ne.
    + intros i y [Hin|Hin%elem_of_list_singleton]%elem_of_app Hi.
      * rewrite list_lookup_insert_ne; [by apply P3|]. intros ->. apply (Hdisj i); [apply elem_of_list_fmap; by exists (i, y)|left].
      * injection Hin as -> ->. apply list_lookup_insert. lia.
    + intros i Hi Hne Hni. rewrite fmap_app in Hni. apply not_elem_of_app in Hni as [Hni Hne']. cbn in Hne'.
      rewrite list_lookup_insert_ne; [by apply P4|]. intros ->. apply Hne'. left.
  - by exists st'.
Qed.

(** ** Writing *)
Lemma filter_iff_in {A} (P Q : A -> Prop) `{forall x, Decision (P x), forall x, Decision (Q x)} (l : list A) :
  (forall x, x ∈ l -> P x <-> Q x) -> filter P l = filter Q l.
Proof.
  induction l as [|a l IH]; intros H'; [done|]. rewrite !filter_cons. rewrite IH by (intros x Hx; apply H'; by right).
  specialize (H' a (elem_of_list_here _ _)). destruct (decide (P a)), (decide (Q a)); done || tauto.
Qed.
Definition cell_text (p : nat * Z) : str :=
  if bool_decide (snd p = 0%Z) then [] else to_string (Z.of_nat (fst p)) ++ [colon] ++ to_string (snd p) ++ [blank].
Lemma features_text (a : str) (fs : rowv) :
  a ++ [blank] ++ concat (cell_text <$> fs) = glue blank (a :: (feature <$> filter (fun p => snd p <> 0%Z) fs)) ++ [blank].
Proof.
  revert a; induction fs as [|p fs IH]; intros a; [done|]. cbn [fmap list_fmap concat]. unfold cell_text at 1. destruct (decide (snd p = 0%Z)) as [H0|H0].
  - rewrite bool_decide_true, filter_cons_False by tauto. cbn [app]. apply IH.
  - rewrite bool_decide_false, filter_cons_True by done. cbn [fmap list_fmap].
    transitivity (a ++ blank :: (glue blank (feature p :: (feature <$> filter (fun p => snd p <> 0%Z) fs)) ++ [blank])).
    2:{ change (glue blank (a :: ?b :: ?c)) with (a ++ blank :: glue blank (b :: c)). by rewrite <-app_assoc. }
    rewrite <-(IH (feature p)). unfold feature. rewrite <-!app_assoc. done.
Qed.
(** The features of a row that are written. *)
Definition written (cls : nat) (row : rowv) : rowv := filter (fun p => fst p <> cls /\ snd p <> 0%Z) row.
Lemma svm_line_text cls row label : NoDup (fst <$> row) -> (cls, label) ∈ row ->
  svm_line cls row = Ok (svm_text label (written cls row) ++ [blank]).
Proof.
  intros Hnd Hin. unfold svm_line. destruct (list_find (fun p => fst p = cls) row) as [[pos [v l]]|] eqn:E.
  2:{ apply list_find_None in E. rewrite Forall_forall in E. by destruct (E _ Hin). }
  apply list_find_Some in E as (Hpos & Hv & _). cbn [fst] in Hv. subst v.
  assert (l = label) as ->.
  { apply elem_of_list_lookup in Hin as [k Hk]. assert (k = pos) as ->.
    { eapply NoDup_lookup; [exact Hnd| |]; rewrite list_lookup_fmap; [by rewrite Hk|by rewrite Hpos]. }
    rewrite Hpos in Hk. by injection Hk. }
  assert (written cls row = filter (fun p => snd p <> 0%Z) (take pos row ++ drop (S pos) row)) as ->.
  { unfold written. rewrite <-(take_drop_middle row pos (cls, label) Hpos) at 1. rewrite !list.filter_app, filter_cons_False by naive_solver.
    rewrite <-(take_drop_middle row pos (cls, label) Hpos) in Hnd. rewrite fmap_app, fmap_cons in Hnd. apply NoDup_app in Hnd as (_ & Hd & Hn).
    apply NoDup_cons in Hn as [Hn _]. f_equal; apply filter_iff_in; intros [v x] Hvx; cbn [fst snd]; (split; [tauto|]); intros Hx; (split; [|done]); intros ->.
    - apply (Hd cls); [apply elem_of_list_fmap; by exists (cls, x)|left].
    - apply Hn. apply elem_of_list_fmap. by exists (cls, x). }
  f_equal. apply features_text.
Qed.
(** ** Files *)
Lemma complete_all n row : complete_row n row -> fst <$> row ≡ₚ seq 0 n.
Proof.
  intros (Hl & Hnd & Hr). apply submseteq_Permutation_length_eq; [by rewrite seq_length, fmap_length, Hl|].
  apply NoDup_submseteq; [done|]. intros v Hv. apply elem_of_list_fmap in Hv as ([v' x] & -> & Hin). apply Hr in Hin as [Hin _].
    cbn. apply elem_of_seq. lia.
Qed.
Lemma complete_value n row v : complete_row n row -> v < n -> exists x, (v, x) ∈ row.
Proof.
  intros H Hv. assert (v ∈ fst <$> row) as Hin by (rewrite (complete_all n row H); apply elem_of_seq; lia).
  apply elem_of_list_fmap in Hin as ([v' x] & -> & Hin). by exists x.
Qed.
Lemma row_value_unique (row : rowv) v x y : NoDup (fst <$> row) -> (v, x) ∈ row -> (v, y) ∈ row -> x = y.
Proof.
  intros Hnd Hx Hy. apply elem_of_list_lookup in Hx as [i Hi], Hy as [j Hj]. assert (i = j) as ->.
  { eapply NoDup_lookup; [exact Hnd| |]; rewrite list_lookup_fmap; [by rewrite Hi|by rewrite Hj]. }
  rewrite Hi in Hj. by injection Hj.
Qed.
Lemma written_fits n cls row p : (Z.of_nat n <= 2147483648)%Z -> complete_row n row -> p ∈ written cls row -> fits p /\ fst p < n /\ fst p <> cls.
Proof.
  intros Hn (_ & _ & Hr) Hp. apply elem_of_list_filter in Hp as [[H1 H2] Hp]. destruct p as [v x]. cbn [fst snd] in *.
  destruct (Hr v x Hp) as [Hv Hx]. unfold fits. cbn [fst snd]. split_and!; try done; lia.
Qed.
Lemma written_NoDup cls row : NoDup (fst <$> row) -> NoDup (fst <$> written cls row).
Proof.
  unfold written. induction row as [|p row IH]; intros H; [constructor|]. rewrite fmap_cons in H. apply NoDup_cons in H as [H1 H2].
  rewrite filter_cons. destruct (decide _); [|by apply IH]. rewrite fmap_cons. apply NoDup_cons. split; [|by apply IH].
  intros Hin. apply H1. apply elem_of_list_fmap in Hin as (q & -> & Hq). apply elem_of_list_filter in Hq as [_ Hq]. by apply elem_of_list_fmap_1.
Qed.
(** The label of a row. *)
Definition label_of (cls : nat) (row : rowv) : Z := default 0%Z (snd <$> head (filter (fun p => fst p = cls) row)).
Lemma label_of_eq cls row x : NoDup (fst <$> row) -> (cls, x) ∈ row -> label_of cls row = x.
Proof.
  intros Hnd Hx. unfold label_of. destruct (filter (fun p => fst p = cls) row) as [|[v y] l] eqn:E.
  - assert ((cls, x) ∈ filter (fun p => fst p = cls) row) as H by (by apply elem_of_list_filter). rewrite E in H. by apply elem_of_nil in H.
  - assert ((v, y) ∈ filter (fun p => fst p = cls) row) as H by (rewrite E; left). apply elem_of_list_filter in H as [Hv H]. cbn in *. subst v.
    by eapply row_value_unique.
Qed.
Definition row_text (cls : nat) (row : rowv) : str := svm_text (label_of cls row) (written cls row) ++ [blank].
Lemma row_text_ok n cls row : cls < n -> complete_row n row -> svm_line cls row = Ok (row_text cls row).
Proof.
  intros Hc H. destruct (complete_value n row cls H Hc) as [x Hx]. destruct H as (_ & Hnd & _). unfold row_text.
  rewrite (label_of_eq cls row x) by done. by apply svm_line_text.
Qed.
Lemma store_svm_ok n cls rows : cls < n -> (forall row, row ∈ rows -> complete_row n row) ->
  store_svm n cls rows = Ok (text_of (row_text cls <$> rows)).
Proof.
  intros Hc Hr. unfold store_svm. rewrite (mcollect_ok _ _ (row_text cls)); [done|]. intros row Hin.
  pose proof (Hr row Hin) as Hco. rewrite bool_decide_true by apply Hco. by apply (row_text_ok n).
Qed.
Lemma label_fits n cls row : cls < n -> complete_row n row -> (-2147483648 <= label_of cls row <= 2147483647)%Z.
Proof.
  intros Hc H. destruct (complete_value n row cls H Hc) as [x Hx]. destruct H as (_ & Hnd & Hr).
  rewrite (label_of_eq cls row x) by done. by destruct (Hr _ _ Hx).
Qed.
Lemma train_loop_svm n cls rows fuel acc :
  cls < n -> (Z.of_nat n <= 2147483648)%Z -> (forall row, row ∈ rows -> complete_row n row) -> length rows < fuel ->
  svm_train_loop fuel cls (text_of (row_text cls <$> rows)) acc = Ok (acc ++ ((fun row => (cls, label_of cls row) :: written cls row) <$> rows)).
Proof.
  intros Hc Hn. revert rows acc; induction fuel as [|fuel IH]; intros rows acc Hr Hf; [lia|]. cbn [svm_train_loop].
  destruct rows as [|row rows].
  - cbn. by rewrite app_nil_r.
  - rewrite fmap_cons, text_of_cons, getline_line by apply svm_text_newline. change (row_text cls row) with (svm_text (label_of cls row) (written cls row) ++ [blank]).
    assert (complete_row n row) as Hrow by (apply Hr; left).
    rewrite train_line_svm; [|by apply (label_fits n)|intros p Hp; by apply (written_fits n cls row)]. cbn [mbind outcome_bind].
    rewrite IH; [|intros x Hx; apply Hr; by right|cbn in Hf; lia]. by rewrite <-app_assoc.
Qed.
Theorem svm_testing_sizes m n cls rows :
  cls < m -> cls < n -> (Z.of_nat m <= 2147483648)%Z -> (forall row, row ∈ rows -> complete_row m row) ->
  exists text loaded, store_svm m cls rows = Ok text /\ load_svm_testing n cls text = Ok loaded /\ length loaded = length rows /\
    forall j row row', rows !! j = Some row -> loaded !! j = Some row' ->
      length row' = n /\ (forall v x, (v, x) ∈ row -> v < n -> row' !! v = Some (v, x)) /\ (forall v, m <= v -> v < n -> row' !! v = Some (v, 0%Z)).
Proof.
  intros Hc Hcn Hn Hr. exists (text_of (row_text cls <$> rows)).
  assert (forall rows fuel acc, (forall row, row ∈ rows -> complete_row m row) -> length rows < fuel ->
    exists loaded, svm_test_loop fuel n cls (text_of (row_text cls <$> rows)) acc = Ok (acc ++ loaded) /\ length loaded = length rows /\
    forall j row row', rows !! j = Some row -> loaded !! j = Some row' ->
      length row' = n /\ (forall v x, (v, x) ∈ row -> v < n -> row' !! v = Some (v, x)) /\ (forall v, m <= v -> v < n -> row' !! v = Some (v, 0%Z))) as Hloop.
  { clear Hr rows. induction rows as [|row rows IH]; intros fuel acc Hr Hf; (destruct fuel as [|fuel]; [lia|]); cbn [svm_test_loop].
    - cbn. exists []. rewrite app_nil_r. split_and!; try done.
    - rewrite fmap_cons, text_of_cons, getline_line by apply svm_text_newline. change (row_text cls row) with (svm_text (label_of cls row) (written cls row) ++ [blank]).
      assert (complete_row m row) as Hrow by (apply Hr; left).
      destruct (complete_value m row cls Hrow Hc) as [lab Hlab]. assert (NoDup (fst <$> row)) as Hnd by apply Hrow.
      destruct (test_line_svm n cls (label_of cls row) (written cls row)) as (row' & -> & L1 & L2 & L3 & L4).
      { by apply (label_fits m). } { intros p Hp. destruct (written_fits m cls row p Hn Hrow Hp) as (F1 & _ & F2); by split. } { by apply written_NoDup. } { done. }
      cbn [mbind outcome_bind]. destruct (IH fuel (acc ++ [row'])) as (loaded & -> & Hlen & Hall).
      { intros x Hx. apply Hr. by right. } { cbn in Hf. lia. }
      exists (row' :: loaded). split_and!; [by rewrite <-app_assoc|cbn; by rewrite Hlen|].
      intros [|j] r r' Hj Hj'; cbn in Hj, Hj'; [|by apply (Hall j)]. injection Hj as <-. injection Hj' as <-. split; [done|]. split.
      2:{ intros v Hm Hv. apply L4; [done|lia|]. intros Hin. apply elem_of_list_fmap in Hin as ([v' y] & -> & Hin). apply elem_of_list_filter in Hin as [_ Hin]. destruct Hrow as (_ & _ & H). destruct (H _ _ Hin). cbn [fst] in Hm. lia. }
      intros v x Hvx Hvn. destruct (decide (v = cls)) as [->|Hvc].
      + rewrite L2. by rewrite (label_of_eq cls row x).
      + destruct (decide (x = 0%Z)) as [->|Hx0].
        * apply L4; [done|done|]. intros Hin.
          apply elem_of_list_fmap in Hin as ([v' y] & -> & Hin). apply elem_of_list_filter in Hin as [[_ Hy] Hin]. cbn [fst snd] in *.
          apply Hy. by eapply row_value_unique.
        * apply L3; [|done]. apply elem_of_list_filter. done. }
  destruct (Hloop rows (S (length (text_of (row_text cls <$> rows)))) [] Hr) as (loaded & Hl & Hlen & Hall).
  { assert (reads (text_of (row_text cls <$> rows)) (row_text cls <$> rows)) as H%reads_bound.
    - apply text_reads. intros l Hl. apply elem_of_list_fmap in Hl as (row & -> & _). apply svm_text_newline.
    - rewrite fmap_length in H. lia. }
  exists loaded. split_and!; [by apply store_svm_ok|exact Hl|done|done].
Qed.
Theorem svm_testing_round_trip n cls rows :
  cls < n -> (Z.of_nat n <= 2147483648)%Z -> (forall row, row ∈ rows -> complete_row n row) ->
  exists text loaded, store_svm n cls rows = Ok text /\ load_svm_testing n cls text = Ok loaded /\ length loaded = length rows /\
    forall j row row', rows !! j = Some row -> loaded !! j = Some row' ->
      length row' = n /\ forall v x, (v, x) ∈ row -> row' !! v = Some (v, x).
Proof.
  intros Hc Hn Hr. destruct (svm_testing_sizes n n cls rows Hc Hc Hn Hr) as (text & loaded & H1 & H2 & H3 & H4). exists text, loaded. split_and!; [done..|].
  intros j row row' Hj Hj'. destruct (H4 j row row' Hj Hj') as (Hl & Hv & _). split; [done|]. intros v x Hvx. apply Hv; [done|]. assert (complete_row n row) as (_ & _ & H) by (apply Hr; by eapply elem_of_list_lookup_2). by destruct (H _ _ Hvx).
Qed.
Lemma list_max_z_spec l : (forall x, x ∈ l -> (x <= list_max_z l)%Z) /\ (-1 <= list_max_z l)%Z /\ (list_max_z l = (-1)%Z \/ list_max_z l ∈ l).
Proof.
  unfold list_max_z. assert (forall m, (m <= foldl Z.max m l)%Z /\ (forall x, x ∈ l -> (x <= foldl Z.max m l)%Z) /\ (foldl Z.max m l = m \/ foldl Z.max m l ∈ l)) as H.
  { induction l as [|y l IH]; intros m; cbn.
    - split_and!; [lia| |by left]. intros x Hx. by apply elem_of_nil in Hx.
    - destruct (IH (Z.max m y)) as (H1 & H2 & H3). split_and!; [lia| |].
      + intros x [->|Hx]%elem_of_cons; [lia|by apply H2].
      + destruct H3 as [->|H3]; [|right; by right]. destruct (Z.max_spec m y) as [[_ ->]|[_ ->]]; [right; left|by left]. }
  destruct (H (-1)%Z) as (H1 & H2 & H3). by split_and!.
Qed.
Theorem svm_training n cls rows text :
  cls < n -> (Z.of_nat n <= 2147483648)%Z -> (forall row, row ∈ rows -> complete_row n row) -> store_svm n cls rows = Ok text ->
  exists m, m <= n /\
    (forall row v x, row ∈ rows -> (v, x) ∈ row -> v <> cls -> x <> 0%Z -> v < m) /\
    (m = 0 \/ exists row x, row ∈ rows /\ (m - 1, x) ∈ row /\ m - 1 <> cls /\ x <> 0%Z) /\
    (m <= cls -> rows <> [] -> load_svm_training cls text = Err OutOfBounds) /\
    (cls < m -> exists d, load_svm_training cls text = Ok d /\ d_nvars d = m /\ length (d_rows d) = length rows /\
       length (d_columns d) = m /\ length (d_sizes d) = m /\
       forall i j row x, i < m -> rows !! j = Some row -> (i, x) ∈ row ->
         exists col size, d_columns d !! i = Some col /\ col !! j = Some x /\ d_sizes d !! i = Some size /\ (x < Z.of_nat size)%Z).
Proof.
  intros Hc Hn Hr Hs. rewrite (store_svm_ok n) in Hs by done. injection Hs as <-.
  set (loaded := (fun row => (cls, label_of cls row) :: written cls row) <$> rows).
  set (L := (fun p => Z.of_nat (fst p)) <$> concat (drop 1 <$> loaded)).
  assert (forall z, z ∈ L <-> exists row v x, row ∈ rows /\ (v, x) ∈ row /\ v <> cls /\ x <> 0%Z /\ z = Z.of_nat v) as HL.
  { intros z. unfold L. rewrite elem_of_list_fmap. split.
    - intros ([v x] & -> & Hin). apply elem_of_list_In, in_concat in Hin as (y & Hy & Hin). apply elem_of_list_In in Hy, Hin.
      apply elem_of_list_fmap in Hy as (r & -> & Hr'). unfold loaded in Hr'. apply elem_of_list_fmap in Hr' as (row & -> & Hrow).
      change (drop 1 (?a :: ?b)) with b in Hin. apply elem_of_list_filter in Hin as [[H1 H2] Hin]. cbn [fst snd] in *. by exists row, v, x.
    - intros (row & v & x & Hrow & Hin & H1 & H2 & ->). exists (v, x). split; [done|]. apply elem_of_list_In, in_concat.
      exists (written cls row). rewrite <-!elem_of_list_In. split.
      + apply elem_of_list_fmap. exists ((cls, label_of cls row) :: written cls row). split; [done|]. unfold loaded.
        apply elem_of_list_fmap. by exists row.
      + by apply elem_of_list_filter. }
  destruct (list_max_z_spec L) as (M1 & M2 & M3). set (m := Z.to_nat (list_max_z L + 1)). exists m.
  assert (forall row v x, row ∈ rows -> (v, x) ∈ row -> v <> cls -> x <> 0%Z -> v < m) as Hbound.
  { intros row v x Hrow Hin H1 H2. assert (Z.of_nat v ∈ L) as Hv by (apply HL; by exists row, v, x). apply M1 in Hv. unfold m. lia. }
  assert (load_svm_training cls (text_of (row_text cls <$> rows)) =
    (dense ← dense_rows m (length loaded) loaded; cols ← column_major m (length loaded) dense;
     Ok (mkData ((fun i => to_string (Z.of_nat i)) <$> seq 0 m) m (replicate m []) ((fun c => Z.to_nat (list_max_z c + 1)) <$> cols) loaded cols))) as Hload.
  { unfold load_svm_training. rewrite (train_loop_svm n); try done.
    assert (reads (text_of (row_text cls <$> rows)) (row_text cls <$> rows)) as H%reads_bound.
    - apply text_reads. intros l Hl. apply elem_of_list_fmap in Hl as (row & -> & _). apply svm_text_newline.
    - rewrite fmap_length in H. lia. }
  split_and!; [|done| | |].
  - unfold m. destruct M3 as [->|Hin]; [lia|]. apply HL in Hin as (row & v & x & Hrow & Hin & _ & _ & ->).
    destruct (Hr row Hrow) as (_ & _ & H). destruct (H _ _ Hin). lia.
  - destruct M3 as [H|Hin]; [left; unfold m; lia|]. right. apply HL in Hin as (row & v & x & Hrow & Hin & H1 & H2 & Hv).
    exists row, x. unfold m. rewrite Hv. replace (Z.to_nat (Z.of_nat v + 1) - 1) with v by lia. done.
  - intros Hm Hne. rewrite Hload. unfold loaded. destruct rows as [|row rows]; [done|]. cbn [fmap list_fmap length].
    unfold dense_rows. cbn [seq mcollect]. cbn [vget lookup list_lookup mbind outcome_bind]. unfold dense_row. cbn [mfor fst snd].
    unfold vset. rewrite bool_decide_false by (rewrite replicate_length; lia). done.
  - intros Hm. destruct (dense_then_transpose m loaded) as (dense & cols & Hd & Hcols & Hval).
    { intros r Hr'. unfold loaded in Hr'. apply elem_of_list_fmap in Hr' as (row & -> & Hrow). pose proof (Hr row Hrow) as Hco. split.
      - rewrite fmap_cons. apply NoDup_cons. split; [|apply written_NoDup; apply Hco]. cbn [fst]. intros Hin.
        apply elem_of_list_fmap in Hin as (p & Hp & Hin). by apply (written_fits n cls row p Hn Hco) in Hin as (_ & _ & []).
      - intros p [->|Hp]%elem_of_cons; [done|]. destruct p as [v x]. apply elem_of_list_filter in Hp as [[H1 H2] Hp]. by apply (Hbound row v x). }
    rewrite Hload, Hd. cbn [mbind outcome_bind]. rewrite Hcols. cbn [mbind outcome_bind]. eexists. split; [done|]. cbn [d_nvars d_rows d_columns d_sizes].
    assert (length cols = m) as Hcl. { unfold column_major in Hcols. apply mcollect_inv in Hcols as [Hcols _]. by rewrite seq_length in Hcols. }
    split_and!; [done|unfold loaded; by rewrite fmap_length|done|by rewrite fmap_length|].
    intros i j row x Hi Hj Hx. pose proof (Hr row (elem_of_list_lookup_2 _ _ _ Hj)) as Hco.
    destruct (Hval i j ((cls, label_of cls row) :: written cls row) Hi) as (col & y & Hcol & Hy & Hcase).
    { unfold loaded. by rewrite list_lookup_fmap, Hj. }
    assert (y = x) as ->.
    { destruct Hcase as [[Hin|Hin]%elem_of_cons|[Hni ->]].
      - injection Hin as -> ->. apply label_of_eq; [apply Hco|done].
      - apply elem_of_list_filter in Hin as [_ Hin]. eapply row_value_unique; [apply Hco|done|done].
      - destruct (decide (x = 0%Z)) as [->|Hx0]; [done|]. destruct Hni. rewrite fmap_cons. cbn [fst].
        destruct (decide (i = cls)) as [->|Hic]; [left|]. right. apply elem_of_list_fmap. exists (i, x). split; [done|]. by apply elem_of_list_filter. }
    exists col, (Z.to_nat (list_max_z col + 1)). split_and!; try done; [by rewrite list_lookup_fmap, Hcol|].
    destruct (list_max_z_spec col) as (N1 & N2 & _). assert (x ∈ col) as Hin by (by eapply elem_of_list_lookup_2). apply N1 in Hin. lia.
Qed.
Theorem svm_training_round_trip n cls rows text :
  cls < n -> (Z.of_nat n <= 2147483648)%Z -> (forall row, row ∈ rows -> complete_row n row) -> cls <> n - 1 ->
  (exists row x, row ∈ rows /\ (n - 1, x) ∈ row /\ x <> 0%Z) -> store_svm n cls rows = Ok text ->
  exists d, load_svm_training cls text = Ok d /\ d_nvars d = n /\ length (d_rows d) = length rows /\
    length (d_columns d) = n /\
    forall i j row x, rows !! j = Some row -> (i, x) ∈ row -> exists col, d_columns d !! i = Some col /\ col !! j = Some x.
Proof.
  intros Hc Hn Hr Hl (row & x & Hrow & Hx & Hx0) Hs. destruct (svm_training n cls rows text Hc Hn Hr Hs) as (m & Hm & Hb & _ & _ & Hok).
  pose proof (Hb row (n - 1) x Hrow Hx (not_eq_sym Hl) Hx0) as Hnm. assert (m = n) as -> by lia.
  destruct (Hok Hc) as (d & Hd & D1 & D2 & D3 & D4 & D5). exists d. split_and!; try done.
  intros i j r y Hj Hy. destruct (D5 i j r y) as (col & size & H1 & H2 & _); try done; [|by exists col].
  destruct (Hr r (elem_of_list_lookup_2 _ _ _ Hj)) as (_ & _ & H). by destruct (H _ _ Hy).
Qed.

(** ** Samples *)
Lemma output_cells cls x k :
  concat ((fun p => if bool_decide (fst p = cls) then [] else cell_text p) <$> zip (seq k (length x)) x) =
  concat (cell_text <$> filter (fun p => fst p <> cls) (zip (seq k (length x)) x)).
Proof.
  generalize (zip (seq k (length x)) x). clear. intros l. induction l as [|p l IH]; [done|]. rewrite filter_cons. cbn [fmap list_fmap concat].
  rewrite IH. destruct (decide (fst p = cls)) as [->|H].
  - rewrite bool_decide_true by done. rewrite decide_False by tauto. done.
  - rewrite bool_decide_false by done. rewrite decide_True by done. done.
Qed.
Lemma zip_seq_fst {A} k (x : list A) : fst <$> zip (seq k (length x)) x = seq k (length x).
Proof. apply fst_zip. by rewrite seq_length. Qed.
Theorem output_svm_store n cls samples :
  cls < n -> (forall x, x ∈ samples -> length x = n) ->
  output_svm cls samples = store_svm n cls ((fun x => zip (seq 0 (length x)) x) <$> samples).
Proof.
  intros Hc Hl. unfold output_svm, store_svm.
  match goal with |- (ls ← mcollect _ ?b; _) = (ks ← mcollect (?g <$> _) ?b'; _) =>
    assert (forall x, length x = n -> exists t, b x = Ok t /\ b' (g x) = Ok t) as Hx end.
  { intros x Hx. destruct (lookup_lt_is_Some_2 x cls) as [l Hlk]; [lia|]. rewrite (vget_ok _ _ _ Hlk). cbn [mbind outcome_bind].
    rewrite (mcollect_ok _ _ (fun j => if bool_decide (j = cls) then [] else cell_text (j, default 0%Z (x !! j)))).
    2:{ intros j Hj. apply elem_of_seq in Hj. case_bool_decide; [done|]. destruct (lookup_lt_is_Some_2 x j) as [v Hv]; [lia|].
        rewrite (vget_ok _ _ _ Hv), Hv. done. }
    cbn [mbind outcome_bind]. eexists. split; [done|]. rewrite bool_decide_true by (rewrite zip_with_length, seq_length; lia).
    rewrite (svm_line_text cls _ l).
    2:{ rewrite zip_seq_fst. apply NoDup_seq. }
    2:{ apply elem_of_list_lookup. exists cls. rewrite lookup_zip_with, lookup_seq_lt by lia. cbn. by rewrite Hlk. }
    f_equal. unfold svm_text.
    assert (written cls (zip (seq 0 (length x)) x) = filter (fun p => snd p <> 0%Z) (filter (fun p => fst p <> cls) (zip (seq 0 (length x)) x))) as ->.
    { unfold written. rewrite list_filter_filter. apply filter_iff_in. intros p _. tauto. }
    rewrite <-features_text. f_equal. f_equal. rewrite <-output_cells. f_equal. apply list_eq. intros i.
    rewrite !list_lookup_fmap, lookup_zip_with. destruct (decide (i < length x)) as [Hi|Hi].
    - rewrite lookup_seq_lt by done. destruct (lookup_lt_is_Some_2 x i Hi) as [v Hv]. cbn. rewrite Hv. cbn. done.
    - rewrite (lookup_ge_None_2 (seq _ _)) by (rewrite seq_length; lia). done. }
  match goal with |- (ls ← ?a; _) = (ks ← ?b; _) => assert (a = b) as E end; [|by rewrite E].
  clear Hc. induction samples as [|x samples IH]; [done|]. cbn [mcollect fmap list_fmap].
  destruct (Hx x) as (t & H1 & H2); [apply Hl; left|]. rewrite H1, H2. cbn [mbind outcome_bind]. rewrite IH; [done|].
  intros y Hy. apply Hl. by right.
Qed.
