From Coq Require Import Ascii String.
From Verif Require Import DataProofs UtilProofs StringProofs SVMTheorems.
From Verif Require Export BIFSpec.
Local Open Scope nat_scope.

(** ** Lines and words *)
Definition good_words (ws : list str) : Prop :=
  (exists c w ws', ws = (c :: w) :: ws' /\ (33 <= c)%Z) /\ Forall (fun w : str => blank ∉ w /\ newline ∉ w) ws.
Definition tokens (l : str) (ws : list str) : Prop := good_words ws /\ indented (words ws) l.
Lemma trim_left_loop_blanks (b l : str) n : Forall (fun c => (c < 33)%Z) b -> (exists c l', l = c :: l' /\ (33 <= c)%Z) -> length b <= n ->
  trim_left_loop n (b ++ l) = Ok l.
Proof.
  intros Hb (c & l' & -> & Hc). revert n; induction Hb as [|x b Hx Hb IH]; intros n Hn.
  - cbn [app]. destruct n; cbn; rewrite bool_decide_false by lia; done.
  - cbn [length] in Hn. destruct n as [|n]; [lia|]. cbn [app trim_left_loop]. rewrite bool_decide_false by done.
    cbn [vget lookup list_lookup mbind outcome_bind]. rewrite bool_decide_true by done. cbn [drop]. rewrite drop_0. apply IH. lia.
Qed.
Lemma words_head c w ws : exists l', words ((c :: w) :: ws) = c :: l'.
Proof. unfold words. destruct ws; cbn; eauto. Qed.
Lemma tokens_read l ws : tokens l ws -> exists s, trim_left l = Ok s /\ split_str s [blank] = Ok ws /\ s = words ws.
Proof.
  intros [[(c & w & ws' & -> & Hc) Hw] (b & Hb & ->)]. exists (words ((c :: w) :: ws')). split_and!; [| |done].
  - unfold trim_left. destruct (words_head c w ws') as [l' ->]. apply trim_left_loop_blanks; [|eauto|rewrite app_length; lia].
    eapply Forall_impl; [exact Hb|]. by intros ? [? _].
  - apply split_glue; [done|]. intros x Hx. rewrite Forall_forall in Hw. by apply Hw.
Qed.
Lemma tokens_newline l ws : tokens l ws -> newline ∉ l.
Proof.
  intros [[_ Hw] (b & Hb & ->)] [H|H]%elem_of_app.
  - rewrite Forall_forall in Hb. by apply Hb in H as [_ []].
  - apply elem_of_glue in H as [H|(w & Hin & H)]; [done|]. rewrite Forall_forall in Hw. by apply Hw in Hin as [_ []].
Qed.
Lemma tokens_words ws : good_words ws -> tokens (words ws) ws.
Proof. intros H. split; [done|]. exists []. split; [by constructor|done]. Qed.
Lemma next_line_text l l2 ls : newline ∉ l2 -> next_line l (text_of (l2 :: ls)) false = (l2, text_of ls, false).
Proof. intros H. unfold next_line. rewrite text_of_cons, getline_line by done. done. Qed.
Lemma next_line_end l : next_line l (text_of []) false = ([], [], true).
Proof. done. Qed.
Lemma text_length ls : length ls <= length (text_of ls).
Proof. induction ls as [|l ls IH]; [cbn; lia|]. rewrite text_of_cons, app_length. cbn [length]. lia. Qed.

(** ** The two loops, line by line *)
Definition prob_step (stod : str -> outcome Qc) (toks : list str) (st : loaded * option nat * list nat) : outcome (loaded * option nat * list nat) :=
  let '(L, this, ps) := st in
  t0 ← vat toks 0;
  if bool_decide (t0 = lit "probability") then bif_head toks L
  else if bool_decide (t0 = lit "}") then Ok (L, this, ps)
  else L' ← bif_row stod toks this ps L; Ok (L', this, ps).
Lemma prob_loop_lines stod ls tss : Forall2 tokens ls tss -> forall l ts n this ps L, tokens l ts -> length ls < n ->
  bif_prob_loop n stod l (text_of ls) false this ps L = (st ← mfor (ts :: tss) (prob_step stod) (L, this, ps); Ok st.1.1).
Proof.
  induction 1 as [|l2 ts2 ls tss H2 Hls IH]; intros l ts n this ps L Hl Hn; (destruct n as [|n]; [cbn in Hn; lia|]);
    destruct (tokens_read _ _ Hl) as (s & Ht & Hs & _); cbn [bif_prob_loop]; rewrite Ht; cbn [mbind outcome_bind]; rewrite Hs; cbn [mbind outcome_bind].
  - cbn [mfor]. destruct (prob_step stod ts (L, this, ps)) as [[[L' this'] ps']|] eqn:E; unfold prob_step in E; (destruct (vat ts 0) as [t0|]; [|first [done|by injection E as ->]]); cbn [mbind outcome_bind] in E |- *;
      setoid_rewrite E; cbn [mbind outcome_bind]; [|done]. rewrite next_line_end. destruct n; done.
  - cbn [mfor]. destruct (prob_step stod ts (L, this, ps)) as [[[L' this'] ps']|] eqn:E; unfold prob_step in E; (destruct (vat ts 0) as [t0|]; [|first [done|by injection E as ->]]); cbn [mbind outcome_bind] in E |- *;
      setoid_rewrite E; cbn [mbind outcome_bind]; [|done]. rewrite next_line_text by (by eapply tokens_newline). rewrite (IH l2 ts2) by (try done; cbn in Hn; lia). done.
Qed.
Lemma var_loop_lines ls tss lp wp rest : Forall2 tokens ls tss -> Forall (fun ts => ts !! 0 <> Some (lit "probability")) tss -> tokens lp wp -> wp !! 0 = Some (lit "probability") ->
  forall vs vs', mfor tss bif_var_line vs = Ok vs' ->
  match ls ++ lp :: rest with
  | l :: r => forall n, length ls < n -> bif_var_loop n l (text_of r) false vs = Ok (words wp, text_of rest, false, vs')
  | [] => True
  end.
Proof.
  intros Hls Hno Hlp Hwp. induction Hls as [|l ts ls tss Hl Hls IH]; intros vs vs' H.
  - cbn [app]. intros n Hn. destruct (tokens_read _ _ Hlp) as (s & Ht & Hs & ->). destruct n as [|n]; [lia|]. cbn [bif_var_loop]. rewrite Ht. cbn [mbind outcome_bind]. rewrite Hs.
    cbn [mbind outcome_bind]. unfold vat. rewrite Hwp. cbn [mbind outcome_bind]. rewrite bool_decide_true by done. by injection H as ->.
  - apply Forall_cons in Hno as [Hno1 Hno]. cbn [app]. intros n Hn. destruct n as [|n]; [cbn in Hn; lia|].
    destruct (tokens_read _ _ Hl) as (s & Ht & Hs & _). cbn [bif_var_loop]. rewrite Ht. cbn [mbind outcome_bind]. rewrite Hs. cbn [mbind outcome_bind].
    cbn [mfor] in H. destruct (bif_var_line ts vs) as [vs1|] eqn:E; [|done]. cbn [mbind outcome_bind] in H.
    destruct Hl as [[(c & w & ws' & -> & _) _] _]. cbn [lookup list_lookup] in Hno1. unfold vat. cbn [lookup list_lookup mbind outcome_bind].
    rewrite bool_decide_false by congruence. cbn [mbind outcome_bind].
    specialize (IH Hno vs1 vs' H). destruct (ls ++ lp :: rest) as [|l2 r] eqn:E2; [by destruct ls|].
    assert (newline ∉ l2) as Hn2.
    { destruct ls as [|l2' ls']; cbn in E2; injection E2 as -> _; [by eapply tokens_newline|]. inversion Hls; subst. by eapply tokens_newline. }
    rewrite next_line_text by done. apply IH. cbn in Hn. lia.
Qed.

(** ** Values *)
Lemma xml_ids_snoc l v : xml_ids (l ++ [v]) = <[v := length l]> (xml_ids l).
Proof. unfold xml_ids. rewrite imap_app, foldl_app. cbn. by rewrite Nat.add_0_r. Qed.
Lemma xml_ids_spec l : NoDup l -> size (xml_ids l) = length l /\ forall v i, xml_ids l !! v = Some i <-> l !! i = Some v.
Proof.
  induction l as [|v l IH] using rev_ind; intros Hd.
  - split; [apply map_size_empty|]. intros v i. unfold xml_ids. cbn. rewrite lookup_empty. by split.
  - apply NoDup_app in Hd as (Hd & Hv & _). destruct (IH Hd) as [Hs Hl]. rewrite xml_ids_snoc.
    assert (xml_ids l !! v = None) as HN.
    { destruct (xml_ids l !! v) as [i|] eqn:E; [|done]. apply Hl in E. apply elem_of_list_lookup_2 in E. by destruct (Hv _ E); left. }
    split; [rewrite map_size_insert_None, Hs, app_length by done; cbn; lia|]. intros w i. destruct (decide (w = v)) as [->|Hne].
    + rewrite lookup_insert. split.
      * intros [= <-]. by apply list_lookup_middle.
      * intros H. destruct (decide (i < length l)) as [Hi|Hi].
        { rewrite lookup_app_l in H by done. apply elem_of_list_lookup_2 in H. by destruct (Hv _ H); left. }
        rewrite lookup_app_r in H by lia. apply list_lookup_singleton_Some in H as [H _]. f_equal. lia.
    + rewrite lookup_insert_ne by done. rewrite Hl. split.
      * intros H. by apply lookup_app_l_Some.
      * intros [H|[H1 H2]]%lookup_app_Some; [done|]. by apply list_lookup_singleton_Some in H2 as [_ ->].
Qed.

(** ** Words with separators *)
Lemma comma_list_length e l : length (comma_list e l) = length l.
Proof. induction l as [|w l IH]; [done|]. destruct l as [|w' l]; [done|]. cbn [comma_list length] in *. by rewrite IH. Qed.
Lemma comma_list_lookup e l i w : l !! i = Some w -> exists s, comma_list e l !! i = Some (w ++ s) /\ (s = [comma] \/ s = e).
Proof.
  revert i; induction l as [|x l IH]; intros i H; [done|]. destruct l as [|y l].
  - destruct i; [|done]. cbn in H |- *. injection H as ->. exists e. split; [done|by right].
  - destruct i as [|i].
    + cbn in H |- *. injection H as ->. exists [comma]. split; [done|by left].
    + change ((y :: l) !! i = Some w) in H. destruct (IH _ H) as (s & H1 & H2). exists s. done.
Qed.
Lemma comma_list_elem e l x : x ∈ comma_list e l -> exists w s, w ∈ l /\ x = w ++ s /\ (s = [comma] \/ s = e).
Proof.
  intros [i Hi]%elem_of_list_lookup. assert (i < length l) as Hl by (rewrite <-(comma_list_length e l); by eapply lookup_lt_Some).
  destruct (lookup_lt_is_Some_2 _ _ Hl) as [w Hw]. destruct (comma_list_lookup e _ _ _ Hw) as (s & H & Hs). assert (Some x = Some (w ++ s)) as [= ->] by (etransitivity; [symmetry; exact Hi|exact H]).
  exists w, s. split_and!; [by eapply elem_of_list_lookup_2|done|done].
Qed.
Lemma trim_right_one_snoc set (w : str) c : c ∈ set -> trim_right_one set (w ++ [c]) = Ok w.
Proof.
  intros Hc. unfold trim_right_one. rewrite bool_decide_false by (by destruct w). rewrite app_length. cbn [length]. replace (length w + 1 - 1) with (length w) by lia.
  unfold vget. rewrite list_lookup_middle by done. cbn [mbind outcome_bind]. rewrite bool_decide_true by done. by rewrite take_app.
Qed.
Lemma trim_right_one_keep set (w : str) : w <> [] -> (forall c, last w = Some c -> c ∉ set) -> trim_right_one set w = Ok w.
Proof.
  intros Hne Hc. unfold trim_right_one. rewrite bool_decide_false by done. unfold vget. replace (length w - 1) with (pred (length w)) by lia. rewrite <-last_lookup.
  destruct (last w) as [c|] eqn:E; [|by apply last_None in E]. cbn [mbind outcome_bind]. by rewrite bool_decide_false by (by apply Hc).
Qed.
Lemma trim_comma_name (w s : str) : word w -> last w <> Some comma -> s = [comma] \/ s = [] -> trim_right_one [44%Z] (w ++ s) = Ok w.
Proof.
  intros Hw Hl [-> | ->]; [apply trim_right_one_snoc; left|]. rewrite app_nil_r. apply trim_right_one_keep; [apply Hw|].
  intros c Hc Hin. apply elem_of_list_singleton in Hin as ->. by apply Hl.
Qed.

(** ** The variables *)
Definition type_words (w : bvar) : list str := [lit "type"; lit "discrete"; lit "["; to_string (Z.of_nat (length (bv_values w))); lit "]"; lit "{"] ++ comma_list [] (bv_values w) ++ [lit "};"].
Definition var_words (w : bvar) : list (list str) := [[lit "variable"; bv_name w; lit "{"]; type_words w; [lit "}"]].
Definition var_ok (w : bvar) : Prop :=
  name_ok (bv_name w) /\ bv_values w <> [] /\ (Z.of_nat (length (bv_values w)) <= 2147483647)%Z /\ NoDup (bv_values w) /\ Forall value_ok (bv_values w).
Definition decl_of (w : bvar) : bif_decl := (bv_name w, Z.of_nat (length (bv_values w)), xml_ids (bv_values w)).
Lemma var_line_values (w : bvar) toks : Forall value_ok (bv_values w) -> (forall i v, comma_list [] (bv_values w) !! i = Some v -> toks !! (6 + i) = Some v) ->
  mfor (seq 0 (length (bv_values w))) (fun i ids => t ← vat toks (6 + i); v ← trim_right_one [44%Z] t; Ok (<[v := i]> ids)) ∅ = Ok (xml_ids (bv_values w)).
Proof.
  intros Hv Ht. destruct (mfor_inv (fun done ids => ids = xml_ids (take (length done) (bv_values w))) (seq 0 (length (bv_values w)))
    (fun i ids => t ← vat toks (6 + i); v ← trim_right_one [44%Z] t; Ok (<[v := i]> ids)) ∅) as (r & Hr & ->).
  - done.
  - intros d i rest s Hs ->. assert (i = length d /\ i < length (bv_values w)) as [-> Hi].
    { assert (seq 0 (length (bv_values w)) !! length d = Some i) as H by (rewrite Hs; by apply list_lookup_middle). apply lookup_seq in H. cbn in H. lia. }
    destruct (lookup_lt_is_Some_2 _ _ Hi) as [v Hw]. destruct (comma_list_lookup [] _ _ _ Hw) as (sf & H & Hsf).
    eexists. unfold vat. rewrite (Ht _ _ H). cbn [mbind outcome_bind]. rewrite Forall_forall in Hv. destruct (Hv v (elem_of_list_lookup_2 _ _ _ Hw)) as (Hv1 & Hv2 & _).
    rewrite trim_comma_name by done. cbn [mbind outcome_bind]. split; [done|].
    rewrite app_length. cbn [length]. rewrite Nat.add_1_r. rewrite (take_S_r _ _ _ Hw), xml_ids_snoc, take_length. by rewrite Nat.min_l by lia.
  - rewrite Hr. rewrite seq_length, take_ge by done. done.
Qed.
Lemma type_lookup w i v : comma_list [] (bv_values w) !! i = Some v -> type_words w !! (6 + i) = Some v.
Proof. intros H. unfold type_words. rewrite lookup_app_r by (cbn; lia). cbn [length]. replace (6 + i - 6) with i by lia. by apply lookup_app_l_Some. Qed.
Lemma variable_line n vs : bif_var_line [lit "variable"; n; lit "{"] vs = Ok (vs ++ [(n, (-1)%Z, ∅)]).
Proof. reflexivity. Qed.
Lemma brace_line vs : bif_var_line [lit "}"] vs = Ok vs.
Proof. reflexivity. Qed.
Lemma type_line d rest vs : bif_var_line (lit "type" :: lit "discrete" :: lit "[" :: d :: rest) vs =
  (d ← stoi d;
   match last vs with
   | None => Err NullDeref
   | Some (nm, _, ids) =>
       ids' ← mfor (seq 0 (Z.to_nat d)) (fun i ids => t ← vat (lit "type" :: lit "discrete" :: lit "[" :: lit "0" :: rest) (6 + i); v ← trim_right_one [44%Z] t; Ok (<[v := i]> ids)) ids;
       vset vs (length vs - 1) (nm, d, ids')
   end).
Proof. reflexivity. Qed.
Lemma var_lines_run w vs : var_ok w -> mfor (var_words w) bif_var_line vs = Ok (vs ++ [decl_of w]).
Proof.
  intros (_ & Hne & Hlen & _ & Hv). unfold var_words. cbn [mfor]. rewrite variable_line. cbn [mbind outcome_bind].
  unfold type_words at 1. cbn [app]. rewrite type_line. rewrite stoi_to_string by lia. cbn [mbind outcome_bind].
  rewrite last_snoc, Nat2Z.id. rewrite var_line_values by (try done; apply type_lookup). cbn [mbind outcome_bind].
  rewrite vset_ok by (rewrite app_length; cbn; lia). cbn [mbind outcome_bind]. rewrite app_length. cbn [length]. replace (length vs + 1 - 1) with (length vs + 0) by lia.
  rewrite insert_app_r. cbn [insert list_insert]. by rewrite brace_line.
Qed.
Lemma vars_run ws vs : Forall var_ok ws -> mfor (concat (var_words <$> ws)) bif_var_line vs = Ok (vs ++ (decl_of <$> ws)).
Proof.
  intros H. revert vs; induction H as [|w ws Hw Hws IH]; intros vs; [cbn; by rewrite app_nil_r|]. cbn [fmap list_fmap concat]. rewrite mfor_app, var_lines_run by done.
  cbn [mbind outcome_bind]. rewrite IH. by rewrite <-app_assoc.
Qed.
Lemma bif_nodes_run ws : bif_nodes (decl_of <$> ws) =
  Ok (mkLoaded (bv_name <$> ws) (xml_ids ∘ bv_values <$> ws) (new_network ((fun w => length (bv_values w)) <$> ws)) (replicate (length ws) new_counters)).
Proof.
  unfold bif_nodes. assert (forallb (fun v => bool_decide (0 <= v.1.2)%Z) (decl_of <$> ws) = true) as ->.
  { apply forallb_forall. intros v [w [-> _]]%elem_of_list_In%elem_of_list_fmap. apply bool_decide_eq_true. cbn. lia. }
  rewrite <-!list_fmap_compose, fmap_length. do 2 f_equal. f_equal. apply list_fmap_ext. intros i w _. unfold decl_of. cbn. by rewrite Nat2Z.id.
Qed.

(** ** The words of the lines *)
Lemma word_clean w : word w -> blank ∉ w /\ newline ∉ w.
Proof. by intros (_ & ? & ?). Qed.
Lemma clean_app (w s : str) : blank ∉ w /\ newline ∉ w -> blank ∉ s /\ newline ∉ s -> blank ∉ w ++ s /\ newline ∉ w ++ s.
Proof. intros [] []. rewrite !not_elem_of_app. done. Qed.
Lemma comma_list_clean e l : blank ∉ e /\ newline ∉ e -> Forall (fun w : str => blank ∉ w /\ newline ∉ w) l -> Forall (fun w : str => blank ∉ w /\ newline ∉ w) (comma_list e l).
Proof.
  intros He Hl. apply Forall_forall. intros x (w & s & Hw & -> & Hs)%comma_list_elem. rewrite Forall_forall in Hl. apply clean_app; [by apply Hl|].
  destruct Hs as [-> | ->]; [|done]. unfold comma, blank, newline. rewrite !not_elem_of_cons. split_and!; try lia; apply not_elem_of_nil.
Qed.
Ltac clean_lit := split; refine (bool_decide_unpack _ _); vm_compute; exact I.
Lemma nil_clean : blank ∉ ([] : str) /\ newline ∉ ([] : str). Proof. split; apply not_elem_of_nil. Qed.
Lemma var_words_good w : var_ok w -> Forall good_words (var_words w).
Proof.
  intros (Hn & _ & _ & _ & Hv). unfold var_words. repeat (apply Forall_cons; split); [| | |by constructor].
  - split; [do 3 eexists; split; [reflexivity|vm_compute; done]|]. repeat (apply Forall_cons; split); [clean_lit|by apply word_clean, Hn|clean_lit|by constructor].
  - split; [do 3 eexists; split; [reflexivity|vm_compute; done]|]. unfold type_words. rewrite !Forall_app. split_and!.
    + repeat (apply Forall_cons; split); try clean_lit; [|by constructor].
      split; intros H%to_string_chars; unfold blank, newline in H; lia.
    + apply comma_list_clean; [apply nil_clean|]. eapply Forall_impl; [exact Hv|]. intros x (Hx & _). by apply word_clean.
    + repeat (apply Forall_cons; split); [clean_lit|by constructor].
  - split; [do 3 eexists; split; [reflexivity|vm_compute; done]|]. repeat (apply Forall_cons; split); [clean_lit|by constructor].
Qed.
Lemma var_words_first w ts : ts ∈ var_words w -> ts !! 0 <> Some (lit "probability").
Proof. unfold var_words. rewrite !elem_of_cons. intros [->|[->|[->|H]]]; [vm_compute; done..|by apply elem_of_nil in H]. Qed.
Lemma var_lines_words w : var_lines w = words <$> var_words w.
Proof. done. Qed.
Definition dist_words (B : bnet) (D : bdist) : list (list str) := head_words B D :: (row_words B (bd_parents D) <$> bd_rows D) ++ [[lit "}"]].
Lemma dist_lines_words B D : dist_lines B D = words <$> dist_words B D.
Proof. unfold dist_lines, dist_words. rewrite fmap_cons, fmap_app, <-list_fmap_compose. done. Qed.
