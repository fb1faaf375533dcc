From Verif Require Import ParamSpec DataProofs SVMTheorems.
Local Open Scope nat_scope.

Lemma atoi_to_string z : (-2147483648 <= z <= 2147483647)%Z -> atoi (to_string z) = Ok z.
Proof.
  intros H. pose proof (stoi_to_string z H) as Hs. unfold stoi in Hs. unfold atoi. destruct (read_int (to_string z)) as [y|]; [|discriminate Hs].
  destruct (fits_int y); [done|discriminate Hs].
Qed.
Lemma char_at_2 s : 2 <= length s -> exists c, char_at s 2 = Ok c /\ (c = 0%Z \/ s !! 2 = Some c).
Proof.
  intros H. unfold char_at. case_bool_decide as E; [exists 0%Z; tauto|]. destruct (lookup_lt_is_Some_2 s 2) as [c Hc]; [lia|].
  exists c. rewrite (vget_ok _ _ _ Hc). tauto.
Qed.
Lemma file_option_none c : ~ (48 <= c <= 52)%Z -> file_option c = None.
Proof.
  intros H. destruct (file_option c) eqn:E; [|done]. exfalso. unfold file_option in E.
  assert (c = 48 \/ c = 49 \/ c = 50 \/ c = 51 \/ c = 52)%Z; [|lia].
  destruct (decide (c = 48)%Z), (decide (c = 49)%Z), (decide (c = 50)%Z), (decide (c = 51)%Z), (decide (c = 52)%Z); try tauto.
  exfalso. destruct c as [|c|c]; try discriminate E. do 6 (destruct c as [c|c|]; try discriminate E; try lia).
Qed.
Lemma file_case_skip {D} (p : params D) s rest : 2 <= length s -> (forall c, s !! 2 = Some c -> ~ (48 <= c <= 52)%Z) -> file_case p s rest = Ok (p, rest).
Proof.
  intros Hl Hc. unfold file_case. destruct (char_at_2 s Hl) as (c & -> & H). cbn [mbind outcome_bind].
  rewrite file_option_none; [done|]. destruct H as [->|H]; [lia|by apply Hc].
Qed.
Lemma option_step {D} (stod : str -> outcome D) p o rest : good_option stod o ->
  exists q, parse_option stod p (option_name o) (option_value o :: rest) = Ok (q, rest) /\
    forall f, (field_of o = f -> asks stod o (get p f) (get q f)) /\ (field_of o <> f -> get q f = get p f).
Proof.
  destruct o as [f z|s|f s|b s]; intros Hg; cbn [good_option] in Hg; unfold parse_option; cbn [option_name option_value].
  - assert (parse_option stod p [45; int_letter f]%Z (to_string z :: rest) = Ok (set_int p f z, rest)) as H.
    { unfold parse_option. cbn [char_at]. change (char_at [45%Z; int_letter f] 1) with (Ok (int_letter f)). cbn [mbind outcome_bind].
      assert (int_option (int_letter f) = Some f) as -> by (by destruct f). cbn [next_arg mbind outcome_bind fst snd].
      rewrite atoi_to_string by done. done. }
    exists (set_int p f z). split; [exact H|]. intros g. destruct p. split; intros Hf; destruct f; cbn in *; subst; cbn; try done.
    all: destruct g as [[]| |[]| |]; cbn; done.
  - destruct Hg as [a Ha]. exists (set_alpha p a). split; [cbn; rewrite Ha; done|]. intros g. destruct p. split; intros Hf; cbn in *; subst; cbn.
    + by exists a.
    + destruct g as [[]| |[]| |]; cbn; done.
  - exists (set_file p f s). split; [destruct f; cbn; done|]. intros g. destruct p. split; intros Hf; destruct f; cbn in *; subst; cbn; try done.
    all: destruct g as [[]| |[]| |]; cbn; done.
  - destruct Hg as ([z Hz] & Hl & Hc). destruct b.
    + exists (if bool_decide (z = 0)%Z then clear_param p else p). split.
      * cbn. rewrite Hz. cbn [mbind outcome_bind]. by apply file_case_skip.
      * intros g. destruct p. split; intros Hf; cbn in *; subst.
        -- exists z. split; [done|]. by case_bool_decide.
        -- case_bool_decide; [|done]. destruct g as [[]| |[]| |]; cbn; done.
    + exists (if bool_decide (z = 0)%Z then clear_struct p else p). split.
      * cbn. rewrite Hz. cbn [mbind outcome_bind]. by apply file_case_skip.
      * intros g. destruct p. split; intros Hf; cbn in *; subst.
        -- exists z. split; [done|]. by case_bool_decide.
        -- case_bool_decide; [|done]. destruct g as [[]| |[]| |]; cbn; done.
Qed.
Lemma option_dash o : char_at (option_name o) 0 = Ok 45%Z.
Proof. by destruct o. Qed.
Global Instance int_field_eq_dec : EqDecision int_field. Proof. solve_decision. Defined.
Global Instance file_field_eq_dec : EqDecision file_field. Proof. solve_decision. Defined.
Global Instance field_eq_dec : EqDecision field. Proof. solve_decision. Defined.
Lemma options_loop {D} (stod : str -> outcome D) p os (tail : list str) fuel :
  (forall o, o ∈ os -> good_option stod o) ->
  exists q, parse_loop (length os + fuel) stod p (command_line os ++ tail) = parse_loop fuel stod q tail /\
    forall f, outcome_of stod f os (get p f) (get q f).
Proof.
  revert p; induction os as [|o os IH]; intros p Hg.
  - exists p. split; [done|]. intros f. constructor.
  - destruct (option_step stod p o (command_line os ++ tail)) as (p' & Hp' & Hf); [apply Hg; left|].
    destruct (IH p') as (q & Hq & Hqf); [intros x Hx; apply Hg; by right|].
    exists q. split.
    + cbn [length Nat.add]. change (command_line (o :: os) ++ tail) with (option_name o :: option_value o :: command_line os ++ tail).
      cbn [parse_loop]. rewrite option_dash. cbn [mbind outcome_bind]. rewrite bool_decide_true by done. rewrite Hp'. exact Hq.
    + intros f. destruct (Hf f) as [H1 H2]. destruct (decide (field_of o = f)) as [E|E].
      * eapply oo_set; [done|by apply H1|done].
      * apply oo_other; [done|]. rewrite <-H2 by done. done.
Qed.
Lemma command_line_length os : length (command_line os) = 2 * length os.
Proof. unfold command_line. induction os as [|o os IH]; [done|]. cbn [fmap list_fmap concat app length]. rewrite IH. lia. Qed.
Lemma parse_loop_more {D} (stod : str -> outcome D) n p args r : parse_loop n stod p args = Ok r -> forall k, parse_loop (n + k) stod p args = Ok r.
Proof.
  revert p args; induction n as [|n IH]; intros p args H k; [done|]. cbn [parse_loop Nat.add] in *. destruct args as [|a rest]; [done|].
  destruct (char_at a 0) as [c|]; [|done]. cbn [mbind outcome_bind] in *. case_bool_decide; [|done].
  destruct (parse_option stod p a rest) as [x|]; [|done]. cbn [mbind outcome_bind] in *. by apply IH.
Qed.

(** Good options, followed by nothing or by an argument that does not start with a dash. *)
Theorem parse_good {D} (stod : str -> outcome D) p os (tail : list str) :
  (forall o, o ∈ os -> good_option stod o) -> (forall a : str, head tail = Some a -> head a <> Some 45%Z) ->
  exists q, (forall f, outcome_of stod f os (get p f) (get q f)) /\
    parse_parameters stod p (command_line os ++ tail) = if bool_decide (0 <= p_job q <= 5)%Z then Ok q else Err Exit0.
Proof.
  intros Hg Ht. destruct (options_loop stod p os tail (S (length os + length tail)) Hg) as (q & Hq & Hf). exists q. split; [done|].
  unfold parse_parameters. rewrite app_length, command_line_length.
  replace (S (2 * length os + length tail)) with (length os + S (length os + length tail)) by lia. rewrite Hq.
  assert (parse_loop (S (length os + length tail)) stod q tail = Ok q) as ->.
  { cbn [parse_loop]. destruct tail as [|a tail]; [done|]. destruct a as [|c a]; [done|]. change (char_at (c :: a) 0) with (Ok c).
    cbn [mbind outcome_bind]. rewrite bool_decide_false; [done|]. intros ->. by apply (Ht (45%Z :: a)). }
  cbn [mbind outcome_bind]. destruct (decide (0 <= p_job q <= 5)%Z) as [H|H].
  - rewrite !bool_decide_false by lia. rewrite bool_decide_true by done. done.
  - rewrite (bool_decide_false (0 <= p_job q <= 5)%Z) by done.
    destruct (decide (p_job q < 0)%Z); [by rewrite bool_decide_true|]. rewrite (bool_decide_true (5 < p_job q)%Z) by lia. by rewrite orb_true_r.
Qed.

(** What happens to a field is determined by the options on that field. *)
Lemma outcome_of_det {D} (stod : str -> outcome D) f os v w w' : outcome_of stod f os v w -> outcome_of stod f os v w' -> w = w'.
Proof.
  intros H. revert w'. induction H as [v|o os v w Hf H IH|o os v v' w Hf Ha H IH]; intros w' H'; inversion H'; subst; try done.
  - by apply IH.
  - apply IH. assert (v'0 = v') as ->; [|done]. destruct o; cbn in *.
    + congruence.
    + destruct Ha as (a & Ha & ->). match goal with K : exists _, _ |- _ => destruct K as (b & Hb & ->) end. rewrite Ha in Hb. by injection Hb as ->.
    + congruence.
    + destruct Ha as (a & Ha & ->). match goal with K : exists _, _ |- _ => destruct K as (b & Hb & ->) end. rewrite Ha in Hb. by injection Hb as ->.
Qed.
Lemma outcome_of_perm {D} (stod : str -> outcome D) f os os' v w :
  os ≡ₚ os' -> NoDup (field_of <$> os) -> outcome_of stod f os v w -> outcome_of stod f os' v w.
Proof.
  intros HP. revert v w. induction HP as [|o os os' HP IH|o o' os|os1 os2 os3 HP1 IH1 HP2 IH2]; intros v w Hnd H.
  - done.
  - cbn in Hnd. apply NoDup_cons in Hnd as [_ Hnd]. inversion H; subst; [apply oo_other|eapply oo_set]; eauto.
  - cbn in Hnd. apply NoDup_cons in Hnd as [Hn _]. apply not_elem_of_cons in Hn as [Hn _].
    inversion H; subst; match goal with K : outcome_of _ _ (_ :: _) _ _ |- _ => inversion K; subst end.
    + by repeat apply oo_other.
    + eapply oo_set; [done|done|]. by apply oo_other.
    + apply oo_other; [done|]. by eapply oo_set.
    + exfalso. congruence.
  - apply IH2; [|by apply IH1]. by rewrite <-HP1.
Qed.
Lemma get_inj {D} (p q : params D) : (forall f, get p f = get q f) -> p = q.
Proof.
  intros H. destruct p, q. pose proof (H (FInt Job)) as H1. pose proof (H (FInt Method)) as H2. pose proof (H (FInt Threads)) as H3.
  pose proof (H (FInt Samples)) as H4. pose proof (H (FInt Group)) as H5. pose proof (H (FInt Class)) as H6. pose proof (H FAlpha) as H7.
  pose proof (H (FFile Net)) as H8. pose proof (H (FFile Ref)) as H9. pose proof (H (FFile Train)) as H10. pose proof (H (FFile Test)) as H11.
  pose proof (H (FFile Pt)) as H12. pose proof (H FStruct) as H13. pose proof (H FParam) as H14. cbn in *. congruence.
Qed.
Theorem parse_order {D} (stod : str -> outcome D) p os os' :
  (forall o, o ∈ os -> good_option stod o) -> NoDup (field_of <$> os) -> os ≡ₚ os' ->
  parse_parameters stod p (command_line os) = parse_parameters stod p (command_line os').
Proof.
  intros Hg Hnd HP. destruct (parse_good stod p os [] Hg) as (q & Hq & E); [done|].
  destruct (parse_good stod p os' []) as (q' & Hq' & E'); [intros o Ho; apply Hg; by rewrite HP|done|].
  rewrite app_nil_r in E, E'. rewrite E, E'. assert (q = q') as ->; [|done]. apply get_inj. intros f.
  eapply outcome_of_det; [|apply Hq']. by eapply outcome_of_perm.
Qed.
(** Missing value. *)
Theorem parse_missing {D} (stod : str -> outcome D) p os o :
  (forall o, o ∈ os -> good_option stod o) -> parse_parameters stod p (command_line os ++ [option_name o]) = Err NullDeref.
Proof.
  intros Hg. destruct (options_loop stod p os [option_name o] (S (length os + 1)) Hg) as (q & Hq & _).
  unfold parse_parameters. rewrite app_length, command_line_length. cbn [length].
  replace (S (2 * length os + 1)) with (length os + S (length os + 1)) by lia. rewrite Hq. cbn [parse_loop]. rewrite option_dash.
  cbn [mbind outcome_bind]. rewrite bool_decide_true by done.
  assert (parse_option stod q (option_name o) [] = Err NullDeref) as ->; [|done].
  destruct o as [[]| |[]|[]]; done.
Qed.
(** The value of "-ss" and "-sp" is one character. *)
Theorem parse_save {D} (stod : str -> outcome D) p os b c (rest : list str) :
  (forall o, o ∈ os -> good_option stod o) ->
  parse_parameters stod p (command_line os ++ option_name (SaveOpt b [c]) :: [c] :: rest) = Err OutOfBounds.
Proof.
  intros Hg. destruct (options_loop stod p os (option_name (SaveOpt b [c]) :: [c] :: rest) (S (length os + S (S (length rest)))) Hg) as (q & Hq & _).
  unfold parse_parameters. rewrite app_length, command_line_length. cbn [length].
  replace (S (2 * length os + S (S (length rest)))) with (length os + S (length os + S (S (length rest)))) by lia. rewrite Hq. cbn [parse_loop]. rewrite option_dash.
  cbn [mbind outcome_bind]. rewrite bool_decide_true by done.
  assert (exists z, atoi [c] = Ok z) as [z Hz].
  { assert (is_space c = false -> c <> 45%Z -> c <> 43%Z -> read_int [c] = read_digits 0 false [c]) as Hr.
    { intros Hs N1 N2. unfold read_int. cbn [drop_spaces]. rewrite Hs. clear Hs. destruct c as [|c|c]; try done. do 6 (destruct c as [c|c|]; try done). }
    unfold atoi. destruct (is_space c) eqn:Esp; [exists 0%Z; unfold read_int; cbn [drop_spaces]; by rewrite Esp|].
    assert (forall s, s = [c] \/ s = [] -> exists o, read_digits 0 false s = o /\ (o = None \/ exists d, o = Some d /\ (0 <= d <= 9)%Z)) as Hd.
    { intros s [->| ->]; [|by exists None; split; [|left]]. cbn [read_digits]. destruct (is_digit c) eqn:E; [|by exists None; split; [|left]].
      unfold is_digit in E. apply bool_decide_eq_true in E. eexists. split; [done|]. right. exists (0 * 10 + (c - 48))%Z. split; [done|lia]. }
    assert (forall o, (o = None \/ exists d, o = Some d /\ (-9 <= d <= 9)%Z) -> exists z, match o with Some z => if fits_int z then Ok z else Err Uninit | None => Ok 0%Z end = Ok z) as Hfin.
    { intros o [->|(d & -> & H)]; [by exists 0%Z|]. assert (fits_int d = true) as -> by (apply bool_decide_eq_true; lia). by exists d. }
    destruct (Hd [c]) as (o1 & H1 & H1'); [by left|]. destruct (Hd []) as (o2 & H2 & H2'); [by right|].
    assert ((o1 = None \/ exists d, o1 = Some d /\ (-9 <= d <= 9)%Z)) as G1 by (destruct H1' as [->|(d & -> & ?)]; [by left|right; exists d; split; [done|lia]]).
    destruct (decide (c = 45)%Z) as [->|N1]; [by exists 0%Z|]. destruct (decide (c = 43)%Z) as [->|N2]; [by exists 0%Z|].
    rewrite (Hr eq_refl N1 N2), H1. by apply Hfin. }
  assert (parse_option stod q (option_name (SaveOpt b [c])) ([c] :: rest) = Err OutOfBounds) as ->; [|done].
  destruct b; unfold parse_option; cbn -[atoi]; rewrite Hz; done.
Qed.
