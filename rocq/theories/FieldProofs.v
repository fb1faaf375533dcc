(** Fields of LIBSVM files. *)
From Verif Require Import FieldSpec DataProofs UtilProofs EvalProofs SVMTheorems ParProofs.
Local Open Scope nat_scope.

(** ** Numbers *)
Lemma is_digit_iff c : is_digit c = true <-> digit c.
Proof. unfold is_digit, digit. by rewrite bool_decide_eq_true. Qed.
Lemma is_space_iff c : is_space c = true <-> white c.
Proof. unfold is_space, white. rewrite orb_true_iff, !bool_decide_eq_true. done. Qed.
Lemma read_digits_spec s : forall acc seen z, read_digits acc seen s = Some z <->
  exists ds rest, s = ds ++ rest /\ Forall digit ds /\ (forall c, head rest = Some c -> ~ digit c) /\ (seen = true \/ ds <> []) /\ z = foldl (fun acc c => acc * 10 + (c - 48))%Z acc ds.
Proof.
  induction s as [|c s IH]; intros acc seen z; cbn [read_digits].
  - split.
    + destruct seen; [|done]. intros [= <-]. exists [], []. split_and!; try done. by left.
    + intros (ds & rest & E & _ & _ & Hs & ->). symmetry in E. apply app_nil in E as [-> ->]. destruct Hs as [->|?]; done.
  - destruct (is_digit c) eqn:Hc.
    + rewrite IH. apply is_digit_iff in Hc. split.
      * intros (ds & rest & -> & H1 & H2 & _ & ->). exists (c :: ds), rest. split_and!; try done; [by constructor|by right].
      * intros (ds & rest & E & H1 & H2 & H3 & ->). destruct ds as [|d ds].
        { cbn in E. subst rest. exfalso. by apply (H2 c). }
        cbn in E. injection E as <- ->. inversion H1; subst. exists ds, rest. split_and!; try done. by left.
    + assert (~ digit c) as Hn by (rewrite <-is_digit_iff; congruence). split.
      * intros H. destruct seen; [|done]. injection H as <-. exists [], (c :: s). split_and!; try done; [|by left]. by intros d [= <-].
      * intros (ds & rest & E & H1 & H2 & H3 & ->). destruct ds as [|d ds]; [destruct H3 as [->|?]; done|]. cbn in E. injection E as <- ->. by inversion H1.
Qed.
Lemma drop_spaces_spec s : exists sp, s = sp ++ drop_spaces s /\ Forall white sp /\ forall c, head (drop_spaces s) = Some c -> ~ white c.
Proof.
  induction s as [|c s (sp & E & H1 & H2)]; [by exists []|]. cbn [drop_spaces]. destruct (is_space c) eqn:Hc.
  - exists (c :: sp). split_and!; [cbn; by rewrite <-E|constructor; [by apply is_space_iff|done]|done].
  - exists []. split_and!; [done|constructor|]. intros d [= <-]. rewrite <-is_space_iff. congruence.
Qed.
Lemma drop_spaces_unique sp r : Forall white sp -> (forall c, head r = Some c -> ~ white c) -> drop_spaces (sp ++ r) = r.
Proof.
  intros H Hr. induction H as [|c sp Hc _ IH]; cbn.
  - destruct r as [|c r]; [done|]. cbn. destruct (is_space c) eqn:E; [|done]. exfalso. apply (Hr c); [done|by apply is_space_iff].
  - apply is_space_iff in Hc. by rewrite Hc.
Qed.
Lemma sign_cases s : (exists r, s = 45%Z :: r /\ read_int s = Z.opp <$> read_digits 0 false r) \/ (exists r, s = 43%Z :: r /\ read_int s = read_digits 0 false r) \/
  ((forall r, s <> 45%Z :: r) /\ (forall r, s <> 43%Z :: r)).
Proof.
  destruct s as [|c s]; [by right; right|]. destruct (decide (c = 45%Z)) as [->|H1]; [left; by exists s|]. destruct (decide (c = 43%Z)) as [->|H2]; [right; left; by exists s|]. right; right. split; intros r; congruence.
Qed.
Lemma read_int_plain s : (forall c, head s = Some c -> ~ white c) -> (forall r, s <> 45%Z :: r) -> (forall r, s <> 43%Z :: r) -> read_int s = read_digits 0 false s.
Proof.
  intros Hw H1 H2. unfold read_int. pose proof (drop_spaces_unique [] s (Forall_nil_2 _) Hw) as E. cbn [app] in E. rewrite E. clear E. destruct s as [|c s]; [done|].
  destruct c as [|c|c]; try done. do 6 (destruct c as [c|c|]; try done); solve [by destruct (H1 s)|by destruct (H2 s)].
Qed.
Lemma read_int_drop s : read_int s = read_int (drop_spaces s).
Proof. unfold read_int. destruct (drop_spaces_spec s) as (sp & _ & _ & H2). pose proof (drop_spaces_unique [] _ (Forall_nil_2 _) H2) as E. cbn [app] in E. by rewrite E. Qed.
Lemma not_white_digit c : digit c -> ~ white c.
Proof. unfold digit, white. lia. Qed.
Lemma read_int_spec s z : read_int s = Some z <-> starts_with_int s z.
Proof.
  rewrite read_int_drop. destruct (drop_spaces_spec s) as (sp & E & Hsp & Hh). remember (drop_spaces s) as r eqn:Edef. unfold starts_with_int.
  assert (forall t, read_digits 0 false t = Some z <-> exists ds rest, t = ds ++ rest /\ ds <> [] /\ Forall digit ds /\ (forall c, head rest = Some c -> ~ digit c) /\ z = decimal ds) as Hrd.
  { intros t. rewrite read_digits_spec. split; intros (ds & rest & H1 & H2 & H3 & H4 & H5); exists ds, rest; split_and!; try done; [by destruct H4|by right]. }
  assert (forall t y, read_digits 0 false t = Some y -> exists ds rest, t = ds ++ rest /\ ds <> [] /\ Forall digit ds /\ (forall c, head rest = Some c -> ~ digit c) /\ y = decimal ds) as Hrd2.
  { intros t y. rewrite read_digits_spec. intros (ds & rest & H1 & H2 & H3 & H4 & H5); exists ds, rest; split_and!; try done. by destruct H4. }
  split.
  - intros H. destruct (sign_cases r) as [(t & Et & Er)|[(t & Et & Er)|[N1 N2]]].
    + rewrite Er in H. destruct (read_digits 0 false t) as [y|] eqn:Ey; [|done]. injection H as <-. apply Hrd2 in Ey as (ds & rest & -> & H1 & H2 & H3 & ->). exists sp, [45%Z], ds, rest. split_and!; try done; [|by right]. by rewrite E, Et.
    + rewrite Er in H. apply Hrd in H as (ds & rest & -> & H1 & H2 & H3 & ->). exists sp, [43%Z], ds, rest. split_and!; try done; [by rewrite E, Et|]. left. split; [by right|done].
    + rewrite read_int_plain in H by done. apply Hrd in H as (ds & rest & Et & H1 & H2 & H3 & ->). exists sp, [], ds, rest. split_and!; try done; [by rewrite E, Et|]. left. split; [by left|done].
  - intros (sp' & sign & ds & rest & E' & Hsp' & Hne & Hds & Hrest & Hz).
    assert (exists d ds', ds = d :: ds' /\ digit d) as (d & ds' & Ed & Hd). { destruct ds as [|d ds']; [done|]. inversion Hds; subst. eauto. }
    assert (r = sign ++ ds ++ rest) as Er.
    { rewrite Edef, E'. apply drop_spaces_unique; [done|]. intros c Hc. destruct Hz as [[[->| ->] _]|[-> _]]; cbn in Hc.
      - rewrite Ed in Hc. cbn in Hc. injection Hc as <-. by apply not_white_digit.
      - injection Hc as <-. unfold white. lia.
      - injection Hc as <-. unfold white. lia. }
    destruct (sign_cases r) as [(t & Et & Eq)|[(t & Et & Eq)|[N1 N2]]].
    + rewrite Eq. destruct Hz as [[[->| ->] _]|[-> ->]]; rewrite Et in Er; cbn in Er; [rewrite Ed in Er; cbn in Er; injection Er as <- _; unfold digit in Hd; lia|done|]. injection Er as ->.
      assert (read_digits 0 false (ds ++ rest) = Some (decimal ds)) as ->; [|done]. apply read_digits_spec. exists ds, rest. split_and!; try done. by right.
    + rewrite Eq. destruct Hz as [[[->| ->] ->]|[-> ->]]; rewrite Et in Er; cbn in Er; [rewrite Ed in Er; cbn in Er; injection Er as <- _; unfold digit in Hd; lia| |done]. injection Er as ->.
      apply Hrd. exists ds, rest. done.
    + rewrite read_int_plain by done. destruct Hz as [[[->| ->] ->]|[-> ->]]; cbn in Er; [|by destruct (N2 (ds ++ rest))|by destruct (N1 (ds ++ rest))]. rewrite Er. apply Hrd. by exists ds, rest.
Qed.
Lemma stoi_spec s : (forall z, stoi s = Ok z <-> int_field s z) /\ ((forall z, ~ int_field s z) -> stoi s = Err Thrown).
Proof.
  assert (forall z, stoi s = Ok z <-> int_field s z) as H.
  { intros z. unfold stoi, int_field. rewrite <-read_int_spec. destruct (read_int s) as [y|]; [|by split; [|intros [? _]]]. unfold fits_int. case_bool_decide as Hf; split.
    - by intros [= ->].
    - by intros [[= ->] _].
    - done.
    - by intros [[= ->] ?]. }
  split; [done|]. intros Hn. destruct (stoi s) as [z|e] eqn:E; [by destruct (Hn z); apply H|]. unfold stoi in E. destruct (read_int s) as [y|]; [|by injection E as <-]. destruct (fits_int y); [done|by injection E as <-].
Qed.
Lemma integer_field s z : integer s z -> starts_with_int s z.
Proof. intros (sign & ds & -> & H1 & H2 & H3). exists [], sign, ds, []. rewrite app_nil_r. done. Qed.

(** ** Words *)
Lemma parts_exist sep s : exists ps, parts sep s ps.
Proof.
  induction s as [|c s (ps & -> & Hne & Hp)].
  - exists [[]]. split_and!; [done|done|]. intros p ->%elem_of_list_singleton. apply not_elem_of_nil.
  - destruct ps as [|p ps]; [done|]. destruct (decide (c = sep)) as [->|Hc].
    + exists ([] :: p :: ps). split_and!; [done|done|]. intros q [->|Hq]%elem_of_cons; [apply not_elem_of_nil|by apply Hp].
    + exists ((c :: p) :: ps). split_and!; [by destruct ps|done|]. intros q [->|Hq]%elem_of_cons; [|apply Hp; by right]. apply not_elem_of_cons. split; [done|]. apply Hp. left.
Qed.
Lemma parts_split sep s ps : parts sep s ps -> split_str s [sep] = Ok ps.
Proof. intros (-> & Hne & Hp). by apply split_glue. Qed.
Lemma words_of l : exists ws, line_words l ws /\ (s ← trim_right l; split_str s [blank]) = Ok ws.
Proof.
  destruct (trim_right_spec l) as (r & w & Et & -> & Hw & Hr). destruct (parts_exist blank r) as [ws Hws]. exists ws. split; [by exists r, w|]. rewrite Et. cbn [mbind outcome_bind]. by apply parts_split.
Qed.
Lemma words_unique l ws : line_words l ws -> (s ← trim_right l; split_str s [blank]) = Ok ws.
Proof. intros (s & trail & -> & Ht & Hs & Hp). rewrite trim_unique by done. cbn [mbind outcome_bind]. by apply parts_split. Qed.

Lemma stoi_error s e : stoi s = Err e -> e = Thrown.
Proof. unfold stoi. destruct (read_int s) as [y|]; [destruct (fits_int y)|]; congruence. Qed.
Lemma svm_feature_spec w : (forall f, svm_feature w = Ok f <-> feature_field w f) /\ (forall e, svm_feature w = Err e -> refusal e).
Proof.
  destruct (parts_exist colon w) as [ps Hps]. unfold svm_feature. rewrite (parts_split _ _ _ Hps). cbn [mbind outcome_bind].
  assert (forall f, feature_field w f <-> exists a b more, ps = a :: b :: more /\ int_field a (Z.of_nat (fst f)) /\ int_field b (snd f)) as Hff.
  { intros f. split; intros (a & b & more & H1 & H2 & H3); exists a, b, more; split_and!; try done; [|by subst ps].
    change 58%Z with colon in H1. apply parts_split in H1. apply parts_split in Hps. congruence. }
  destruct ps as [|a ps]; [by destruct Hps as (_ & ? & _)|]. change (vget (a :: ps) 0) with (Ok a). cbn [mbind outcome_bind].
  destruct (stoi a) as [i|e] eqn:Ea.
  2:{ split; [|intros e' [= <-]; left; by eapply stoi_error]. intros f. split; [done|]. intros (a' & b & more & E & H2 & _)%Hff. injection E as <- _. apply stoi_spec in H2. congruence. }
  cbn [mbind outcome_bind]. apply stoi_spec in Ea as Hi. destruct ps as [|b ps].
  { split; [|intros e' [= <-]; by right]. intros f. split; [done|]. by intros (a' & b & more & E & _)%Hff. }
  change (vget (a :: b :: ps) 1) with (Ok b). cbn [mbind outcome_bind]. destruct (stoi b) as [x|e] eqn:Eb.
  2:{ split; [|intros e' [= <-]; left; by eapply stoi_error]. intros f. split; [done|]. intros (a' & b' & more & E & _ & H3)%Hff. injection E as <- <- _. apply stoi_spec in H3. congruence. }
  cbn [mbind outcome_bind]. apply stoi_spec in Eb as Hx. case_bool_decide as Hneg.
  - split; [|intros e' [= <-]; by right]. intros f. split; [done|]. intros (a' & b' & more & E & H2 & _)%Hff. injection E as <- <- _. apply stoi_spec in H2. rewrite Ea in H2. injection H2 as ->. lia.
  - split; [|done]. intros f. rewrite Hff. split.
    + intros [= <-]. exists a, b, ps. cbn [fst snd]. rewrite Z2Nat.id by lia. done.
    + intros (a' & b' & more & E & H2 & H3). injection E as <- <- _. apply stoi_spec in H2, H3. rewrite Ea in H2. rewrite Eb in H3. injection H2 as ->. injection H3 as ->. rewrite Nat2Z.id. by destruct f.
Qed.
Lemma mcollect_spec {A B} (f : A -> outcome B) (R : A -> B -> Prop) (bad : err -> Prop) : (forall a, (forall b, f a = Ok b <-> R a b) /\ (forall e, f a = Err e -> bad e)) ->
  forall l, (forall bs, mcollect l f = Ok bs <-> Forall2 R l bs) /\ (forall e, mcollect l f = Err e -> bad e).
Proof.
  intros H l. induction l as [|a l [IH1 IH2]]; cbn [mcollect].
  - split; [|done]. intros bs. split; [intros [= <-]; constructor|]. intros F. by inversion F.
  - destruct (H a) as [Ha1 Ha2]. destruct (f a) as [b|e] eqn:E; cbn [mbind outcome_bind].
    + destruct (mcollect l f) as [bs|e] eqn:E2; cbn [mbind outcome_bind].
      * split; [|done]. intros bs'. split; [intros [= <-]; constructor; [by apply Ha1|by apply IH1]|]. intros F. inversion F as [|? b' ? bs2 Hb Hbs]; subst. apply Ha1 in Hb. apply IH1 in Hbs. congruence.
      * split; [|intros e' [= <-]; by apply IH2]. intros bs'. split; [done|]. intros F. inversion F as [|? b' ? bs2 Hb Hbs]; subst. apply IH1 in Hbs. done.
    + split; [|intros e' [= <-]; by apply Ha2]. intros bs'. split; [done|]. intros F. inversion F as [|? b' ? bs2 Hb Hbs]; subst. by apply Ha1 in Hb.
Qed.
Lemma train_line_spec cls l : (forall row, svm_train_line cls l = Ok row <-> training_line cls l row) /\ (forall e, svm_train_line cls l = Err e -> refusal e).
Proof.
  destruct (words_of l) as (ws & Hws & E). unfold svm_train_line.
  assert (forall X (k : list str -> outcome X), (s ← trim_right l; ps ← split_str s [blank]; k ps) = k ws) as Ek.
  { intros X k. destruct (trim_right l) as [s|]; [|done]. cbn [mbind outcome_bind] in *. by rewrite E. }
  rewrite Ek. assert (forall w' ws', line_words l (w' :: ws') -> ws = w' :: ws') as Hu. { intros w' ws' H%words_unique. congruence. }
  destruct ws as [|w ws]; [by destruct Hws as (? & ? & _ & _ & _ & _ & ? & _)|]. change (vget (w :: ws) 0) with (Ok w). change (drop 1 (w :: ws)) with ws. cbn [mbind outcome_bind].
  destruct (stoi w) as [v|e] eqn:Ev; cbn [mbind outcome_bind].
  2:{ split; [|intros e' [= <-]; left; by eapply stoi_error]. intros row. split; [done|]. intros (w' & ws' & label & fs & H1 & H2 & _). apply Hu in H1. injection H1 as <- <-. apply stoi_spec in H2. congruence. }
  apply stoi_spec in Ev as Hv. destruct (mcollect_spec svm_feature feature_field refusal svm_feature_spec ws) as [M1 M2].
  destruct (mcollect ws svm_feature) as [fs|e] eqn:Ef; cbn [mbind outcome_bind].
  - split; [|done]. intros row. split.
    + intros [= <-]. exists w, ws, v, fs. split_and!; try done. by apply M1.
    + intros (w' & ws' & label & fs' & H1 & H2 & H3 & ->). apply Hu in H1. injection H1 as <- <-. apply stoi_spec in H2. rewrite Ev in H2. injection H2 as ->. apply M1 in H3. by injection H3 as ->.
  - split; [|intros e' [= <-]; by apply M2]. intros row. split; [done|]. intros (w' & ws' & label & fs' & H1 & _ & H3 & _). apply Hu in H1. injection H1 as <- <-. by apply M1 in H3.
Qed.
