From Verif Require Import DataSpec UtilProofs.
Local Open Scope nat_scope.

(** ** Lines *)
Lemma upto_app l r : newline ∉ l -> upto_newline (l ++ newline :: r) = (l, newline :: r).
Proof.
  induction l as [|c l IH]; intros H; cbn [upto_newline app]; [by rewrite bool_decide_true|].
  apply not_elem_of_cons in H as [H1 H2]. rewrite bool_decide_false by congruence. by rewrite IH.
Qed.
Lemma upto_end l : newline ∉ l -> upto_newline l = (l, []).
Proof.
  induction l as [|c l IH]; intros H; cbn [upto_newline]; [done|].
  apply not_elem_of_cons in H as [H1 H2]. rewrite bool_decide_false by congruence. by rewrite IH.
Qed.
Lemma getline_line l r : newline ∉ l -> getline (l ++ newline :: r) = (l, r, true, false).
Proof. intros H. unfold getline. by rewrite upto_app. Qed.
Lemma getline_end l : newline ∉ l -> getline l = (l, [], negb (bool_decide (l = [])), true).
Proof. intros H. unfold getline. by rewrite upto_end. Qed.

(** Successive successful calls of [getline] give these lines, then it fails. *)
Fixpoint reads (t : str) (ls : list str) : Prop :=
  match ls with
  | [] => t = []
  | l :: ls' => exists r b, getline t = (l, r, true, b) /\ length r < length t /\ reads r ls'
  end.
Lemma reads_bound t ls : reads t ls -> length ls <= length t.
Proof. revert t; induction ls as [|l ls IH]; intros t; cbn; [lia|]. intros (r & b & _ & Hr & H). apply IH in H. lia. Qed.
Lemma text_of_cons l ls : text_of (l :: ls) = l ++ newline :: text_of ls.
Proof. unfold text_of. cbn. by rewrite <-app_assoc. Qed.
Lemma text_reads ls : (forall l, l ∈ ls -> newline ∉ l) -> reads (text_of ls) ls.
Proof.
  induction ls as [|l ls IH]; intros H; [done|]. rewrite text_of_cons. cbn [reads]. exists (text_of ls), false.
  rewrite getline_line by (apply H; left). split_and!; [done| |].
  - rewrite app_length. cbn [length]. lia.
  - apply IH. intros l' Hl'. apply H. by right.
Qed.
Lemma has_lines_reads t ls : has_lines t ls -> (forall l, l ∈ ls -> newline ∉ l) -> reads t ls.
Proof.
  intros [->|[Ht Hl]] H; [by apply text_reads|]. destruct ls as [|l0 ls0] eqn:E using rev_ind.
  { cbn in Ht. by destruct t. }
  clear IHls0. rename l0 into l, ls0 into ls'. rewrite last_snoc in Hl.
  assert (t = text_of ls' ++ l) as ->.
  { unfold text_of in Ht. rewrite fmap_app, concat_app in Ht. cbn in Ht. rewrite app_nil_r, app_assoc in Ht.
    by apply app_inj_tail in Ht as [-> _]. }
  clear E Ht. induction ls' as [|x ls' IH].
  - cbn. assert (newline ∉ l) as Hn by (apply H; left). exists [], true. rewrite getline_end by done.
    rewrite bool_decide_false by (by intros ->). split_and!; try done. destruct l; [done|cbn; lia].
  - rewrite text_of_cons. cbn [app reads]. exists (text_of ls' ++ l), false. rewrite <-app_assoc. cbn [app].
    rewrite getline_line by (apply H; left). split_and!; [done| |].
    + rewrite !app_length. cbn [length]. rewrite app_length. lia.
    + apply IH. intros l' Hl'. apply H. by right.
Qed.
Lemma getline_eof t l r ok : getline t = (l, r, ok, true) -> r = [].
Proof. unfold getline. destruct (upto_newline t) as [l' [|c r']]; congruence. Qed.
Lemma getline_nil : getline [] = ([], [], false, true). Proof. done. Qed.

(** ** Splitting *)
Lemma weave_inj (sep : Z) ps qs ds ds' :
  (forall p, p ∈ ps -> sep ∉ p) -> (forall p, p ∈ qs -> sep ∉ p) -> Forall (eq sep) ds -> Forall (eq sep) ds' ->
  length ps = S (length ds) -> length qs = S (length ds') -> weave ps ds = weave qs ds' -> ps = qs.
Proof.
  revert qs ds ds'; induction ps as [|p ps IH]; intros qs ds ds' Hp Hq Hd Hd' Hl Hl' E; [done|].
  destruct qs as [|q qs]; [done|]. cbn in Hl, Hl'. injection Hl as Hl. injection Hl' as Hl'.
  assert (sep ∉ p) as Hsp by (apply Hp; left). assert (sep ∉ q) as Hsq by (apply Hq; left).
  assert (forall (a b c d : str), sep ∉ a -> sep ∉ c -> a ++ sep :: b = c ++ sep :: d -> a = c /\ b = d) as Hcut.
  { clear. induction a as [|x a IH]; intros b [|y c] d Ha Hc E; cbn in E.
    - injection E as ->. done.
    - injection E as <- _. apply not_elem_of_cons in Hc as [[] _]. done.
    - injection E as -> _. apply not_elem_of_cons in Ha as [[] _]. done.
    - injection E as -> E. apply not_elem_of_cons in Ha as [_ Ha]. apply not_elem_of_cons in Hc as [_ Hc].
      destruct (IH b c d Ha Hc E) as [-> ->]. done. }
  assert (forall (a b c : str), sep ∉ c -> a ++ sep :: b <> c) as Hno.
  { intros a b c Hc <-. apply Hc. apply elem_of_app. right. left. }
  destruct ds as [|d ds], ds' as [|d' ds']; cbn [weave] in E.
  - destruct ps, qs; try done. by rewrite E.
  - inversion Hd'; subst. exfalso. by apply (Hno _ _ _ Hsp eq_refl).
  - inversion Hd; subst. exfalso. by apply (Hno _ _ _ Hsq eq_refl).
  - inversion Hd as [|?? <- Hd1]; subst. inversion Hd' as [|?? <- Hd1']; subst.
    apply Hcut in E as [-> E]; [|done|done]. f_equal. eapply (IH qs ds ds'); try done.
    + intros x Hx. apply Hp. by right.
    + intros x Hx. apply Hq. by right.
Qed.
Lemma glue_weave sep cells : glue sep cells = weave cells (replicate (length cells - 1) sep).
Proof.
  induction cells as [|c cs IH]; [done|]. cbn [length Nat.sub]. rewrite Nat.sub_0_r.
  destruct cs as [|c' cs]; [done|]. change (glue sep (c :: c' :: cs)) with (c ++ sep :: glue sep (c' :: cs)). rewrite IH.
  cbn [length replicate weave Nat.sub]. by rewrite Nat.sub_0_r.
Qed.
Lemma split_glue sep cells :
  cells <> [] -> (forall c, c ∈ cells -> sep ∉ c) -> split_str (glue sep cells) [sep] = Ok cells.
Proof.
  intros Hne Hc. destruct (split_spec_full (glue sep cells) [sep]) as (ps & -> & Hl & Hp & Hw). f_equal.
  rewrite glue_weave in Hw at 2. eapply weave_inj; [| | | | | |exact Hw].
  - intros p Hp' Hs. apply (Hp p sep Hp' Hs). left.
  - done.
  - apply Forall_forall. intros x Hx. apply elem_of_list_filter in Hx as [Hx _]. by apply elem_of_list_singleton in Hx.
  - apply Forall_forall. intros x Hx. by apply elem_of_replicate in Hx as [-> _].
  - done.
  - rewrite replicate_length. destruct cells; [done|]. cbn. lia.
Qed.
Lemma elem_of_glue sep cells x : x ∈ glue sep cells -> x = sep \/ exists c, c ∈ cells /\ x ∈ c.
Proof.
  induction cells as [|c cs IH]; [by intros ?%elem_of_nil|]. destruct cs as [|c' cs].
  - intros H. right. exists c. split; [left|done].
  - change (glue sep (c :: c' :: cs)) with (c ++ sep :: glue sep (c' :: cs)). intros [H|H]%elem_of_app.
    + right. exists c. split; [left|done].
    + apply elem_of_cons in H as [->|H]; [by left|]. apply IH in H as [->|(d & Hd & Hx)]; [by left|]. right. exists d. split; [by right|done].
Qed.
Lemma csv_row_line n r : csv_row n r -> newline ∉ glue comma r.
Proof.
  intros (_ & Hc & _) [?|(c & Hc' & Hx)]%elem_of_glue; [done|]. destruct (Hc c Hc' _ Hx) as [_ []]. done.
Qed.
Lemma csv_row_cells n r : n <> 0 -> csv_row n r ->
  (s ← trim_right (glue comma r); split_str s [comma]) = Ok r.
Proof.
  intros Hn (Hl & Hc & Ht). rewrite trim_right_fix by done. cbn [mbind outcome_bind]. apply split_glue.
  - by intros ->.
  - intros c Hc' Hx. destruct (Hc c Hc' _ Hx) as [[] _]. done.
Qed.
Lemma count_commas r : r <> [] -> (forall c, c ∈ r -> comma ∉ c) ->
  length (filter (fun c => c = comma) (glue comma r)) + 1 = length r.
Proof.
  intros Hne Hc. induction r as [|c r IH]; [done|]. assert (forall c : str, comma ∉ c -> filter (fun x => x = comma) c = []) as H0.
  { intros s Hs. destruct (filter _ s) as [|x l] eqn:E; [done|].
    assert (x ∈ filter (fun x => x = comma) s) as [-> Hx]%elem_of_list_filter by (rewrite E; left). done. }
  destruct r as [|c' r].
  - cbn [glue]. rewrite H0; [done|]. apply Hc. left.
  - change (glue comma (c :: c' :: r)) with (c ++ comma :: glue comma (c' :: r)). unfold str in *. rewrite list.filter_app, (H0 c) by (apply Hc; left).
    rewrite filter_cons_True by done. cbn [app length]. rewrite <-plus_n_Sm, <-plus_n_O in IH. cbn [length] in IH.
    rewrite <-plus_n_Sm, <-plus_n_O. f_equal. apply IH; [done|]. intros x Hx. apply Hc. by right.
Qed.

(** ** Coding *)
Lemma value_id_spec d s v : NoDup d -> value_id d s = Some v <-> d !! v = Some s.
Proof.
  intros Hd. unfold value_id. split.
  - intros H. apply fmap_Some in H as ([i x] & H & ->). apply list_find_Some in H as (H & -> & _). done.
  - intros H. destruct (list_find (eq s) d) as [[i x]|] eqn:E.
    + apply list_find_Some in E as (H1 & -> & _). cbn. f_equal. eapply NoDup_lookup; eauto.
    + apply list_find_None in E. rewrite Forall_forall in E. apply elem_of_list_lookup_2 in H. by destruct (E _ H).
Qed.
Lemma value_id_None d s : value_id d s = None <-> s ∉ d.
Proof.
  unfold value_id. rewrite fmap_None, list_find_None, Forall_forall. split; [intros H Hs; by apply (H s)|intros H x Hx ->; done].
Qed.
Definition grow (d : list str) (s : str) : list str := fst (code_value d s).
Definition dict_of (d : list str) (col : list str) : list str := foldl grow d col.
Lemma grow_prefix d s : d `prefix_of` grow d s.
Proof. unfold grow, code_value. destruct (value_id d s); cbn; [done|]. by apply prefix_app_r. Qed.
Lemma dict_prefix d col : d `prefix_of` dict_of d col.
Proof. revert d; induction col as [|s col IH]; intros d; [done|]. cbn. etrans; [apply grow_prefix|apply IH]. Qed.
Lemma code_lookup d s : NoDup d -> grow d s !! snd (code_value d s) = Some s.
Proof.
  intros Hd. unfold grow, code_value. destruct (value_id d s) as [v|] eqn:E; cbn; [by apply value_id_spec|].
  by rewrite lookup_app_r, Nat.sub_diag.
Qed.
Lemma grow_NoDup d s : NoDup d -> NoDup (grow d s).
Proof.
  intros Hd. unfold grow, code_value. destruct (value_id d s) as [v|] eqn:E; cbn; [done|]. apply value_id_None in E.
  apply NoDup_app. split_and!; [done| |by apply NoDup_singleton]. intros x Hx ->%elem_of_list_singleton. done.
Qed.
Lemma dict_NoDup d col : NoDup d -> NoDup (dict_of d col).
Proof. revert d; induction col as [|s col IH]; intros d Hd; [done|]. cbn. by apply IH, grow_NoDup. Qed.
Lemma grow_elem d s x : x ∈ grow d s <-> x ∈ d \/ x = s.
Proof.
  unfold grow, code_value. destruct (value_id d s) as [v|] eqn:E; cbn.
  - split; [by left|]. intros [H| ->]; [done|]. unfold value_id in E. apply fmap_Some in E as ([i y] & E & _).
    apply list_find_Some in E as (H & -> & _). by eapply elem_of_list_lookup_2.
  - by rewrite elem_of_app, elem_of_list_singleton.
Qed.
Lemma dict_app d a b : dict_of d (a ++ b) = dict_of (dict_of d a) b.
Proof. apply foldl_app. Qed.
Lemma dict_snoc d col s : dict_of d (col ++ [s]) = grow (dict_of d col) s.
Proof. unfold dict_of. by rewrite foldl_app. Qed.
Lemma dict_first_appearance col : first_appearance col (dict_of [] col).
Proof.
  induction col as [|s col (IH1 & IH2 & IH3)] using rev_ind.
  - split_and!; [constructor|done|]. intros k k' s s' H. discriminate H.
  - rewrite dict_snoc. split_and!.
    + by apply grow_NoDup.
    + intros x. rewrite grow_elem, elem_of_app, IH2, elem_of_list_singleton. done.
    + intros k k' x x' Hk Hk' Hlt. unfold grow, code_value in Hk, Hk'. destruct (value_id (dict_of [] col) s) as [v|] eqn:E; cbn in Hk, Hk'.
      * destruct (IH3 k k' x x' Hk Hk' Hlt) as (p & Hp & Hq). exists p. split; [by apply lookup_app_l_Some|].
        intros q Hx'. apply lookup_app_Some in Hx' as [Hx'|[Hge Hx']]; [by apply Hq|]. apply lookup_lt_Some in Hp. lia.
      * assert (k < length (dict_of [] col)) as Hkl. { apply lookup_lt_Some in Hk'. rewrite app_length in Hk'. cbn in Hk'. lia. }
        rewrite lookup_app_l in Hk by done. apply lookup_app_Some in Hk' as [Hk'|[Hge Hk']].
        -- destruct (IH3 k k' x x' Hk Hk' Hlt) as (p & Hp & Hq). exists p. split; [by apply lookup_app_l_Some|].
           intros q Hx'. apply lookup_app_Some in Hx' as [Hx'|[Hge Hx']]; [by apply Hq|]. apply lookup_lt_Some in Hp. lia.
        -- apply list_lookup_singleton_Some in Hk' as [_ <-]. assert (x ∈ col) as Hx by (apply IH2; by eapply elem_of_list_lookup_2).
           apply elem_of_list_lookup in Hx as [p Hp]. exists p. split; [by apply lookup_app_l_Some|].
           intros q Hq. apply lookup_app_Some in Hq as [Hq|[Hge1 _]].
           ++ apply elem_of_list_lookup_2 in Hq. apply IH2 in Hq. by apply value_id_None in E.
           ++ apply lookup_lt_Some in Hp. lia.
Qed.

(** ** One line *)
Definition grow_all (ds : list (list str)) (cells : list str) : list (list str) := zip_with grow ds cells.
Definition row_codes (ds : list (list str)) (cells : list str) : rowv :=
  imap (fun i p => (i, Z.of_nat (snd (code_value (fst p) (snd p))))) (zip ds cells).
Lemma seq_split {n : nat} {dn : list nat} {i : nat} {rest : list nat} :
  seq 0 n = dn ++ i :: rest -> i = length dn /\ i < n.
Proof.
  intros H. assert (seq 0 n !! length dn = Some i) as Hi by (rewrite H, lookup_app_r, Nat.sub_diag by lia; done).
  apply lookup_seq in Hi as [Hi Hlt]. lia.
Qed.
Lemma train_line n r ds : n <> 0 -> csv_row n r -> length ds = n ->
  csv_train_line n (glue comma r) ds = Ok (grow_all ds r, row_codes ds r).
Proof.
  intros Hn Hr Hds. pose proof (csv_row_cells n r Hn Hr) as Hc. destruct Hr as (Hl & _). unfold csv_train_line.
  destruct (trim_right (glue comma r)) as [s|e]; [|done]. cbn [mbind outcome_bind] in *. rewrite Hc. cbn [mbind outcome_bind].
  set (P := fun (dn : list nat) (st : list (list str) * rowv) =>
    st = (take (length dn) (grow_all ds r) ++ drop (length dn) ds, take (length dn) (row_codes ds r))).
  assert (length (grow_all ds r) = n) as Hg by (unfold grow_all; rewrite zip_with_length; lia).
  assert (length (row_codes ds r) = n) as Hrc by (unfold row_codes; rewrite imap_length, zip_with_length; lia).
  match goal with |- mfor ?l ?b ?st = _ => destruct (mfor_inv P l b st) as (st' & -> & HP) end.
  - unfold P. cbn [length]. by rewrite !take_0, drop_0.
  - intros dn i rest st Hsplit ->. destruct (seq_split Hsplit) as [Hi Hlt]. subst i. set (k := length dn) in *.
    destruct (lookup_lt_is_Some_2 r k) as [c Hck]; [lia|]. destruct (lookup_lt_is_Some_2 ds k) as [d Hdk]; [lia|].
    rewrite (vget_ok _ _ _ Hck). cbn [mbind outcome_bind].
    rewrite (vget_ok _ k d); cycle 1.
    { rewrite lookup_app_r by (rewrite take_length; lia). rewrite take_length, lookup_drop, Hg.
      replace (k + (k - k `min` n)) with k by lia. done. }
    cbn [mbind outcome_bind]. destruct (code_value d c) as [d' v] eqn:E.
    rewrite vset_ok by (rewrite app_length, take_length, drop_length; lia). cbn [mbind outcome_bind].
    eexists. split; [done|]. unfold P. rewrite app_length. cbn [length]. fold k. f_equal.
    + assert (grow_all ds r !! k = Some d') as Hgk.
      { unfold grow_all. rewrite lookup_zip_with, Hdk. cbn. rewrite Hck. cbn. unfold grow. by rewrite E. }
      rewrite Nat.add_1_r, (take_S_r _ _ _ Hgk), (drop_S ds d k Hdk).
      replace k with (length (take k (grow_all ds r)) + 0) at 1 by (rewrite take_length; lia).
      rewrite insert_app_r. cbn. by rewrite <-app_assoc.
    + rewrite Nat.add_1_r. rewrite (take_S_r _ k (k, Z.of_nat v)); [done|].
      unfold row_codes. rewrite list_lookup_imap, lookup_zip_with, Hdk. cbn. rewrite Hck. cbn. by rewrite E.
  - unfold P in HP. rewrite HP, seq_length, !take_ge, drop_ge, app_nil_r by lia. done.
Qed.
Definition test_code (i : nat) (p : list str * str) : rowv :=
  if bool_decide (snd p = []) then [] else match value_id (fst p) (snd p) with Some v => [(i, Z.of_nat v)] | None => [] end.
Definition test_codes (ds : list (list str)) (cells : list str) : rowv :=
  concat (imap test_code (zip ds cells)).
Lemma test_line n r ds : n <> 0 -> csv_row n r -> length ds = n -> csv_test_line n (glue comma r) ds = Ok (test_codes ds r).
Proof.
  intros Hn Hr Hds. pose proof (csv_row_cells n r Hn Hr) as Hc. destruct Hr as (Hl & _). unfold csv_test_line.
  destruct (trim_right (glue comma r)) as [s|e]; [|done]. cbn [mbind outcome_bind] in *. rewrite Hc. cbn [mbind outcome_bind].
  unfold test_codes. set (f := test_code).
  set (P := fun (dn : list nat) (row : rowv) => row = concat (take (length dn) (imap f (zip ds r)))).
  assert (length (imap f (zip ds r)) = n) as Hfl by (rewrite imap_length, zip_with_length; lia).
  match goal with |- mfor ?l ?b ?st = _ => destruct (mfor_inv P l b st) as (st' & -> & HP) end.
  - done.
  - intros dn i rest st Hsplit ->. destruct (seq_split Hsplit) as [Hi Hlt]. subst i. set (k := length dn) in *.
    destruct (lookup_lt_is_Some_2 r k) as [c Hck]; [lia|]. destruct (lookup_lt_is_Some_2 ds k) as [d Hdk]; [lia|].
    rewrite (vget_ok (A:=list Z) _ _ _ Hck). cbn [mbind outcome_bind].
    assert (P (dn ++ [k]) (concat (take k (imap f (zip ds r))) ++ f k (d, c))) as HP.
    { unfold P. rewrite app_length. cbn [length]. fold k. rewrite Nat.add_1_r. rewrite (take_S_r _ k (f k (d, c))).
      - rewrite concat_app. cbn. by rewrite app_nil_r.
      - rewrite list_lookup_imap, lookup_zip_with, Hdk. cbn. by rewrite Hck. }
    unfold f in HP at 2. unfold test_code in HP. cbn [fst snd] in HP. destruct (decide (c = [])) as [Hc0|Hc0].
    + rewrite bool_decide_true in HP by done. rewrite bool_decide_true by done. rewrite app_nil_r in HP. eexists. by split.
    + rewrite bool_decide_false in HP by done. rewrite bool_decide_false by done.
      rewrite (vget_ok _ _ _ Hdk). cbn [mbind outcome_bind]. destruct (value_id d c).
      * eexists. by split.
      * rewrite app_nil_r in HP. eexists. by split.
  - unfold P in HP. rewrite HP, seq_length, !take_ge by lia. done.
Qed.

(** ** All lines *)
Fixpoint all_codes (ds : list (list str)) (rows : list (list str)) : list rowv :=
  match rows with [] => [] | r :: rs => row_codes ds r :: all_codes (grow_all ds r) rs end.
Lemma grow_all_length ds r : length ds = length r -> length (grow_all ds r) = length ds.
Proof. intros H. unfold grow_all. rewrite zip_with_length. lia. Qed.
Lemma train_loop n fuel r rows rest ds acc :
  n <> 0 -> csv_row n r -> (forall r, r ∈ rows -> csv_row n r) -> length ds = n -> reads rest (glue comma <$> rows) -> length rows < fuel ->
  csv_train_loop fuel n (glue comma r) rest ds acc = Ok (foldl grow_all ds (r :: rows), acc ++ all_codes ds (r :: rows)).
Proof.
  intros Hn. revert r rows rest ds acc; induction fuel as [|fuel IH]; intros r rows rest ds acc Hr Hrows Hds Hread Hf; [lia|].
  cbn [csv_train_loop]. rewrite train_line by done. cbn [mbind outcome_bind].
  destruct rows as [|r' rows].
  - cbn in Hread. subst rest. rewrite getline_nil. cbn. done.
  - cbn [fmap list_fmap reads] in Hread. destruct Hread as (rest' & b & -> & _ & Hread).
    rewrite (IH r' rows); try done.
    + cbn [foldl all_codes]. by rewrite <-app_assoc.
    + apply Hrows. left.
    + intros x Hx. apply Hrows. by right.
    + rewrite grow_all_length; [done|]. destruct Hr as (-> & _). done.
    + cbn in Hf. lia.
Qed.
Lemma test_loop n fuel r rows rest ds acc :
  n <> 0 -> csv_row n r -> (forall r, r ∈ rows -> csv_row n r) -> length ds = n -> reads rest (glue comma <$> rows) -> length rows < fuel ->
  csv_test_loop fuel n (glue comma r) rest ds acc = Ok (acc ++ (test_codes ds <$> r :: rows)).
Proof.
  intros Hn. revert r rows rest acc; induction fuel as [|fuel IH]; intros r rows rest acc Hr Hrows Hds Hread Hf; [lia|].
  cbn [csv_test_loop]. rewrite test_line by done. cbn [mbind outcome_bind].
  destruct rows as [|r' rows].
  - cbn in Hread. subst rest. rewrite getline_nil. cbn. done.
  - cbn [fmap list_fmap reads] in Hread. destruct Hread as (rest' & b & -> & _ & Hread).
    rewrite (IH r' rows); try done.
    + cbn [fmap list_fmap]. by rewrite <-app_assoc.
    + apply Hrows. left.
    + intros x Hx. apply Hrows. by right.
    + cbn in Hf. lia.
Qed.
Lemma grow_rows_lookup n ds rows i d :
  (forall r, r ∈ rows -> length r = n) -> length ds = n -> ds !! i = Some d ->
  foldl grow_all ds rows !! i = Some (dict_of d (column i rows)).
Proof.
  revert ds d; induction rows as [|r rows IH]; intros ds d Hr Hds Hi; [done|]. cbn [foldl].
  assert (length r = n) as Hlr by (apply Hr; left). destruct (lookup_lt_is_Some_2 r i) as [c Hc]; [apply lookup_lt_Some in Hi; lia|].
  rewrite (IH _ (grow d c)).
  - unfold column. cbn. by rewrite Hc.
  - intros x Hx. apply Hr. by right.
  - rewrite grow_all_length; lia.
  - unfold grow_all. rewrite lookup_zip_with, Hi. cbn. by rewrite Hc.
Qed.
Lemma all_codes_length ds rows : length (all_codes ds rows) = length rows.
Proof. revert ds; induction rows as [|r rows IH]; intros ds; cbn; [done|]. by rewrite IH. Qed.
Lemma all_codes_lookup ds rows j r : rows !! j = Some r -> all_codes ds rows !! j = Some (row_codes (foldl grow_all ds (take j rows)) r).
Proof.
  revert ds j; induction rows as [|r0 rows IH]; intros ds [|j] H; try done; cbn in *; [by injection H as ->|]. by apply IH.
Qed.
Lemma column_take_drop {A} i j (rows : list (list A)) r c : rows !! j = Some r -> r !! i = Some c ->
  column i rows = column i (take j rows) ++ c :: column i (drop (S j) rows).
Proof.
  intros H Hc. unfold column. rewrite <-(take_drop_middle rows j r H) at 1. rewrite omap_app. cbn. by rewrite Hc.
Qed.
Lemma all_codes_ok n ds rows : (forall r, r ∈ rows -> length r = n) -> length ds = n -> (forall d, d ∈ ds -> NoDup d) ->
  forall j r row, rows !! j = Some r -> all_codes ds rows !! j = Some row -> codes (foldl grow_all ds rows) r row.
Proof.
  intros Hr Hds Hnd j r row Hj Hrow. rewrite (all_codes_lookup _ _ _ _ Hj) in Hrow. injection Hrow as <-.
  assert (length r = n) as Hlr by (eapply Hr, elem_of_list_lookup_2, Hj).
  assert (forall l, (forall r, r ∈ l -> length r = n) -> length (foldl grow_all ds l) = n) as Hlen.
  { clear - Hds. revert ds Hds. intros ds Hds l. revert ds Hds; induction l as [|x l IH]; intros ds Hds Hl; [done|]. cbn. apply IH.
    - rewrite grow_all_length; [done|]. rewrite Hds. symmetry. apply Hl. left.
    - intros y Hy. apply Hl. by right. }
  assert (forall r, r ∈ take j rows -> length r = n) as Hrt.
  { intros x Hx. apply Hr. apply elem_of_list_lookup in Hx as [p Hp]. apply lookup_take_Some in Hp as [Hp _]. by eapply elem_of_list_lookup_2. }
  split.
  - unfold row_codes. rewrite imap_length, zip_with_length, Hlen by done. lia.
  - intros i c Hc. assert (i < n) as Hi by (apply lookup_lt_Some in Hc; lia). destruct (lookup_lt_is_Some_2 ds i) as [d Hd]; [lia|].
    assert (NoDup (dict_of d (column i (take j rows)))) as Hnd' by (apply dict_NoDup, Hnd; by eapply elem_of_list_lookup_2).
    exists (dict_of d (column i rows)), (snd (code_value (dict_of d (column i (take j rows))) c)). split_and!.
    + by eapply grow_rows_lookup.
    + rewrite (column_take_drop i j rows r c Hj Hc), dict_app.
      change (dict_of ?x (c :: ?y)) with (dict_of (grow x c) y).
      destruct (dict_prefix (grow (dict_of d (column i (take j rows))) c) (column i (drop (S j) rows))) as [w Hw].
      rewrite Hw. apply lookup_app_l_Some. by apply code_lookup.
    + unfold row_codes. rewrite list_lookup_imap, lookup_zip_with, (grow_rows_lookup n ds (take j rows) i d) by done. cbn. by rewrite Hc.
Qed.
