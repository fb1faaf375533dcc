(** Proofs about Split, Trim and NaryCount. *)
From Verif Require Export UtilSpec TableProofs4.
Local Open Scope nat_scope.

(** ** Split *)
Lemma find_first_of_none s delim i begin :
  find_first_of s delim i begin = None ->
  forall k c, s !! k = Some c -> begin <= i + k -> c ∉ delim.
Proof.
  revert i; induction s as [|c s IH]; intros i H k d Hk Hb; [done|]. cbn in H.
  destruct k as [|k]; cbn in Hk.
  - injection Hk as <-. intros Hd. rewrite Nat.add_0_r in Hb.
    rewrite !bool_decide_true in H by done. done.
  - destruct (bool_decide (begin <= i) && bool_decide (c ∈ delim)); [done|].
    apply (IH _ H k d Hk). lia.
Qed.
Lemma find_first_of_some s delim i begin e :
  find_first_of s delim i begin = Some e ->
  exists k d, e = i + k /\ s !! k = Some d /\ d ∈ delim /\ begin <= e /\
    forall k' c, k' < k -> s !! k' = Some c -> begin <= i + k' -> c ∉ delim.
Proof.
  revert i; induction s as [|c s IH]; intros i H; [done|]. cbn in H.
  destruct (bool_decide (begin <= i) && bool_decide (c ∈ delim)) eqn:E.
  - injection H as <-. apply andb_prop in E as [E1%bool_decide_eq_true_1 E2%bool_decide_eq_true_1].
    exists 0, c. split_and!; try done; lia.
  - apply IH in H as (k & d & -> & Hk & Hd & Hb & Hmin). exists (S k), d. split_and!; try done; [lia|].
    intros [|k'] c' Hlt Hc' Hb'; cbn in Hc'.
    + injection Hc' as <-. intros Hin. rewrite Nat.add_0_r in Hb'. by rewrite !bool_decide_true in E by done.
    + apply (Hmin k'); [lia|done|lia].
Qed.

Lemma split_loop_spec fuel s delim begin :
  begin <= length s -> length s - begin <= fuel ->
  exists pieces, split_loop fuel s delim begin = Ok pieces /\
    length pieces = S (length (filter (.∈ delim) (drop begin s))) /\
    (forall p c, p ∈ pieces -> c ∈ p -> c ∉ delim) /\
    weave pieces (filter (.∈ delim) (drop begin s)) = drop begin s.
Proof.
  revert begin; induction fuel as [|fuel IH]; intros begin Hb Hf.
  - assert (begin = length s) as -> by lia.
    assert (drop (length s) s = []) as E by (apply drop_ge; lia). cbn [split_loop].
    destruct (find_first_of s delim 0 (length s)) as [e|] eqn:Ef.
    { apply find_first_of_some in Ef as (k & d & -> & Hk & _ & Hle & _). apply lookup_lt_Some in Hk. lia. }
    unfold substr. rewrite bool_decide_false by lia. cbn [mbind outcome_bind]. rewrite E, take_nil.
    exists [[]]. split_and!; try done. intros p c ->%elem_of_list_singleton Hc. by apply elem_of_nil in Hc.
  - cbn [split_loop]. destruct (find_first_of s delim 0 begin) as [e|] eqn:Ef.
    + apply find_first_of_some in Ef as (k & d & -> & Hk & Hd & Hle & Hmin). cbn [Nat.add] in *.
      pose proof (lookup_lt_Some _ _ _ Hk) as Hlt.
      unfold substr. rewrite bool_decide_false by lia. cbn [mbind outcome_bind].
      destruct (IH (S k)) as (ps & -> & Hlen & Hpc & Hw); [lia|lia|]. cbn [mbind outcome_bind].
      set (p := take (k - begin) (drop begin s)).
      assert (drop begin s = p ++ d :: drop (S k) s) as Edrop.
      { unfold p. rewrite <-(take_drop (k - begin) (drop begin s)) at 1. f_equal.
        rewrite drop_drop. replace (begin + (k - begin)) with k by lia. by apply drop_S. }
      assert (forall c, c ∈ p -> c ∉ delim) as Hp.
      { intros c Hc. apply elem_of_list_lookup in Hc as [j Hj]. unfold p in Hj.
        apply lookup_take_Some in Hj as [Hj Hjlt]. rewrite lookup_drop in Hj.
        apply (Hmin (begin + j) c); [lia|done|lia]. }
      assert (filter (.∈ delim) (drop begin s) = d :: filter (.∈ delim) (drop (S k) s)) as Efil.
      { rewrite Edrop, filter_app, filter_cons_True by done.
        assert (filter (.∈ delim) p = []) as ->; [|done].
        clear -Hp. induction p as [|c p IHp]; [done|].
        rewrite filter_cons_False by (apply Hp; left). apply IHp. intros c' Hc'. apply Hp. by right. }
      exists (p :: ps). split_and!; [done| | |].
      * cbn. by rewrite Efil, Hlen.
      * intros p' c Hp' Hc. apply elem_of_cons in Hp' as [->|Hp']; [by apply Hp|by apply (Hpc p')].
      * rewrite Efil. cbn. by rewrite Hw, Edrop.
    + pose proof (find_first_of_none _ _ _ _ Ef) as Hnone.
      unfold substr. rewrite bool_decide_false by lia. cbn [mbind outcome_bind].
      rewrite take_ge by (rewrite drop_length; lia).
      assert (forall c, c ∈ drop begin s -> c ∉ delim) as Hp.
      { intros c Hc. apply elem_of_list_lookup in Hc as [j Hj]. rewrite lookup_drop in Hj.
        apply (Hnone (begin + j) c); [done|lia]. }
      assert (filter (.∈ delim) (drop begin s) = []) as ->.
      { clear -Hp. induction (drop begin s) as [|c p IHp]; [done|].
        rewrite filter_cons_False by (apply Hp; left). apply IHp. intros c' Hc'. apply Hp. by right. }
      exists [drop begin s]. split_and!; try done. intros p c ->%elem_of_list_singleton. apply Hp.
Qed.

Theorem split_spec_full s delim :
  exists pieces, split_str s delim = Ok pieces /\
    length pieces = S (length (filter (.∈ delim) s)) /\
    (forall p c, p ∈ pieces -> c ∈ p -> c ∉ delim) /\
    weave pieces (filter (.∈ delim) s) = s.
Proof. destruct (split_loop_spec (length s) s delim 0) as (ps & H); [lia|lia|]. by exists ps. Qed.

(** ** Trim *)
Lemma trim_right_loop_spec fuel s :
  length s <= fuel -> exists r w, trim_right_loop fuel s = Ok r /\ s = r ++ w /\
    Forall (fun c => (c < 33)%Z) w /\ (forall c, last r = Some c -> (33 <= c)%Z).
Proof.
  revert s; induction fuel as [|fuel IH]; intros s Hf.
  - destruct s; [|cbn in Hf; lia]. exists [], []. by split_and!.
  - destruct s as [|x s] using rev_ind; [exists [], []; by split_and!|]. clear IHs.
    cbn [trim_right_loop]. rewrite bool_decide_false by (by intros ?%app_eq_nil; naive_solver).
    rewrite app_length. cbn [length]. replace (length s + 1 - 1) with (length s) by lia.
    rewrite (vget_ok _ _ x) by (by rewrite lookup_app_r, Nat.sub_diag). cbn [mbind outcome_bind].
    case_bool_decide as Hx.
    + rewrite take_app. destruct (IH s) as (r & w & Hr & -> & Hw & Hl).
      { rewrite app_length in Hf. cbn in Hf. lia. }
      exists r, (w ++ [x]). split_and!; [done|by rewrite app_assoc| |done].
      apply Forall_app. split; [done|]. by constructor.
    + exists (s ++ [x]), []. split_and!; [done|by rewrite app_nil_r|constructor|].
      intros c Hc. rewrite last_snoc in Hc. injection Hc as <-. lia.
Qed.
Lemma trim_right_spec s :
  exists r w, trim_right s = Ok r /\ s = r ++ w /\
    Forall (fun c => (c < 33)%Z) w /\ (forall c, last r = Some c -> (33 <= c)%Z).
Proof. by apply trim_right_loop_spec. Qed.

Lemma trim_left_loop_spec fuel s :
  length s <= fuel -> exists r w, trim_left_loop fuel s = Ok r /\ s = w ++ r /\
    Forall (fun c => (c < 33)%Z) w /\ (forall c, head r = Some c -> (33 <= c)%Z).
Proof.
  revert s; induction fuel as [|fuel IH]; intros s Hf.
  - destruct s; [|cbn in Hf; lia]. exists [], []. by split_and!.
  - destruct s as [|x s]; [exists [], []; by split_and!|].
    cbn [trim_left_loop]. rewrite bool_decide_false by done.
    change (vget (x :: s) 0) with (Ok x). cbn [mbind outcome_bind].
    case_bool_decide as Hx.
    + cbn [drop]. destruct (IH s) as (r & w & Hr & -> & Hw & Hl); [cbn in Hf; lia|].
      exists r, (x :: w). split_and!; try done. by constructor.
    + exists (x :: s), []. split_and!; try done.
      intros c [= <-]. lia.
Qed.
Lemma trim_left_spec s :
  exists r w, trim_left s = Ok r /\ s = w ++ r /\
    Forall (fun c => (c < 33)%Z) w /\ (forall c, head r = Some c -> (33 <= c)%Z).
Proof. by apply trim_left_loop_spec. Qed.

Lemma trim_spec s :
  exists w1 r w2, trim s = Ok r /\ s = w1 ++ r ++ w2 /\
    Forall (fun c => (c < 33)%Z) w1 /\ Forall (fun c => (c < 33)%Z) w2 /\
    (forall c, head r = Some c -> (33 <= c)%Z) /\ (forall c, last r = Some c -> (33 <= c)%Z).
Proof.
  unfold trim. destruct (trim_right_spec s) as (r & w & -> & -> & Hw & Hl). cbn [mbind outcome_bind].
  destruct (trim_left_spec r) as (r' & w' & -> & -> & Hw' & Hl').
  exists w', r', w. split_and!; try done; [by rewrite app_assoc|].
  intros c Hc. apply Hl. destruct r' as [|x r'']; [done|]. by rewrite last_app, Hc.
Qed.

(** Idempotence. *)
Lemma trim_right_fix s : (forall c, last s = Some c -> (33 <= c)%Z) -> trim_right s = Ok s.
Proof.
  intros H. unfold trim_right. destruct s as [|x s] using rev_ind; [done|]. clear IHs.
  rewrite app_length. cbn [length]. rewrite Nat.add_1_r. cbn [trim_right_loop].
  rewrite bool_decide_false by (by intros ?%app_eq_nil; naive_solver).
  rewrite app_length. cbn [length]. replace (length s + 1 - 1) with (length s) by lia.
  rewrite (vget_ok _ _ x) by (by rewrite lookup_app_r, Nat.sub_diag). cbn [mbind outcome_bind].
  rewrite bool_decide_false; [done|]. specialize (H x). rewrite last_snoc in H. specialize (H eq_refl). lia.
Qed.
Lemma trim_left_fix s : (forall c, head s = Some c -> (33 <= c)%Z) -> trim_left s = Ok s.
Proof.
  intros H. unfold trim_left. destruct s as [|x s]; [done|]. cbn [length trim_left_loop].
  rewrite bool_decide_false by done. change (vget (x :: s) 0) with (Ok x). cbn [mbind outcome_bind].
  rewrite bool_decide_false; [done|]. specialize (H x eq_refl). lia.
Qed.
Theorem trim_idempotent s : exists r, trim s = Ok r /\ trim r = Ok r.
Proof.
  destruct (trim_spec s) as (w1 & r & w2 & H & _ & _ & _ & Hh & Hl). exists r. split; [done|].
  unfold trim. rewrite trim_right_fix by done. cbn. by apply trim_left_fix.
Qed.

(** ** NaryCount *)
(** Little-endian increment with the top digit allowed to overflow. *)
Fixpoint le_inc (rs ds : list nat) : list nat :=
  match rs, ds with
  | r :: rs', d :: ds' =>
      if decide (S d < r) then S d :: ds'
      else match ds' with [] => [S d] | _ => 0 :: le_inc rs' ds' end
  | _, _ => ds
  end.
Fixpoint le_val (rs ds : list nat) : nat :=
  match rs, ds with
  | r :: rs', d :: ds' => d + r * le_val rs' ds'
  | _, _ => 0
  end.

Lemma le_inc_length rs ds : length (le_inc rs ds) = length ds.
Proof.
  revert ds; induction rs as [|r rs IH]; intros [|d ds]; cbn; try done. case_decide; [done|].
  destruct ds as [|d' ds']; [done|]. cbn [length]. by rewrite IH.
Qed.
Lemma le_val_lt rs ds : in_range rs ds -> le_val rs ds < prod_list rs.
Proof.
  intros H. induction H as [|d r ds rs Hlt H IH]; [cbn; lia|].
  change (d + r * le_val rs ds < r * prod_list rs). nia.
Qed.
Lemma le_inc_val rs ds :
  in_range rs ds -> S (le_val rs ds) < prod_list rs ->
  in_range rs (le_inc rs ds) /\ le_val rs (le_inc rs ds) = S (le_val rs ds).
Proof.
  intros H. induction H as [|d r ds rs Hlt H IH]; [cbn; lia|]. intros Hv.
  change (S (d + r * le_val rs ds) < r * prod_list rs) in Hv.
  cbn [le_inc]. case_decide as Hd.
  - split; [by constructor|]. done.
  - assert (S d = r) as Hr by lia.
    inversion H as [|d' r' ds' rs' Hlt' H' E1 E2].
    + subst. cbn in Hv. lia.
    + rewrite E1, E2 in *. destruct IH as [IH1 IH2]; [nia|].
      split; [constructor; [lia|done]|]. cbn [le_val] in IH2 |- *. nia.
Qed.
Lemma lex_index_snoc dims cfg d c :
  length cfg = length dims -> lex_index (dims ++ [d]) (cfg ++ [c]) = lex_index dims cfg * d + c.
Proof. intros H. rewrite lex_index_app by done. cbn. lia. Qed.
Lemma le_val_lex rs ds : length ds = length rs -> le_val rs ds = lex_index (reverse rs) (reverse ds).
Proof.
  revert ds; induction rs as [|r rs IH]; intros [|d ds] Hl; try done.
  rewrite !reverse_cons, lex_index_snoc by (rewrite !reverse_length; cbn in Hl; lia).
  cbn [le_val]. rewrite IH by (cbn in Hl; lia). lia.
Qed.

(** The carry loop on the rotated list [top :: low digits].  State: digits before [pos] have been
    set to 0 and digit number [pos] incremented. *)
Definition rot (ds : list nat) : list nat :=
  match last ds with Some x => x :: removelast ds | None => [] end.
Lemma rot_snoc ds x : rot (ds ++ [x]) = x :: ds.
Proof. unfold rot. rewrite last_snoc. by rewrite removelast_last. Qed.

(** Index of little-endian digit [p] in the rotated list of [n] digits. *)
Definition rpos (n p : nat) : nat := if decide (S p < n) then S p else 0.
Lemma order_lookup n p : p < n -> (seq 1 (n - 1) ++ [0]) !! p = Some (rpos n p).
Proof.
  intros Hp. unfold rpos. case_decide.
  - rewrite lookup_app_l by (rewrite seq_length; lia). rewrite lookup_seq_lt by lia. f_equal.
  - rewrite lookup_app_r by (rewrite seq_length; lia). rewrite seq_length.
    by replace (p - (n - 1)) with 0 by lia.
Qed.
Lemma rot_lookup (ds : list nat) p : p < length ds -> rot ds !! rpos (length ds) p = ds !! p.
Proof.
  destruct ds as [|x ds] using rev_ind; [cbn; lia|]. clear IHds. rewrite rot_snoc, app_length. cbn [length].
  intros Hp. unfold rpos. case_decide.
  - cbn. by rewrite lookup_app_l by lia.
  - cbn. assert (p = length ds) as -> by lia. by rewrite lookup_app_r, Nat.sub_diag.
Qed.
Lemma rot_insert (ds : list nat) p y :
  p < length ds -> <[rpos (length ds) p:=y]> (rot ds) = rot (<[p:=y]> ds).
Proof.
  destruct ds as [|x ds] using rev_ind; [cbn; lia|]. clear IHds. rewrite rot_snoc, app_length. cbn [length].
  intros Hp. unfold rpos. case_decide.
  - rewrite insert_app_l by lia. by rewrite rot_snoc.
  - assert (p = length ds) as -> by lia. rewrite insert_app_r_alt, Nat.sub_diag by lia. cbn. by rewrite rot_snoc.
Qed.
Lemma rot_lookup_n n (ds : list nat) p : n = length ds -> p < n -> rot ds !! rpos n p = ds !! p.
Proof. intros ->. apply rot_lookup. Qed.
Lemma rot_insert_n n (ds : list nat) p y :
  n = length ds -> p < n -> <[rpos n p:=y]> (rot ds) = rot (<[p:=y]> ds).
Proof. intros ->. apply rot_insert. Qed.
Lemma rot_length ds : length (rot ds) = length ds.
Proof. destruct ds as [|x ds] using rev_ind; [done|]. rewrite rot_snoc, app_length. cbn. lia. Qed.
Lemma rpos_lt n p : p < n -> rpos n p < n.
Proof. unfold rpos. case_decide; lia. Qed.

(** [hi] are the digits from position [pos] on, already incremented at its head. *)
Fixpoint le_carry (rs ds : list nat) : list nat :=
  match rs, ds with
  | r :: rs', d :: ds' =>
      if decide (d < r) then d :: ds'
      else match ds' with [] => [d] | d' :: ds'' => 0 :: le_carry rs' (S d' :: ds'') end
  | _, _ => ds
  end.
Lemma le_inc_carry rs d ds : length rs = length (d :: ds) -> le_inc rs (d :: ds) = le_carry rs (S d :: ds).
Proof.
  revert d ds; induction rs as [|r rs IH]; intros d ds Hl; [done|]. cbn [le_inc le_carry]. case_decide; [done|].
  destruct ds as [|d' ds']; [done|]. f_equal. apply IH. cbn in *. lia.
Qed.

Lemma nary_carry_spec fuel (los rlos rs ds : list nat) d r :
  length los = length rlos -> length ds = length rs ->
  let n := length (los ++ d :: ds) in
  length (d :: ds) <= S fuel ->
  nary_carry fuel n (rot (rlos ++ r :: rs)) (seq 1 (n - 1) ++ [0]) (bool_decide (r <= d)) (length los)
     (rpos n (length los)) (rot (los ++ d :: ds))
  = Ok (rot (los ++ le_carry (r :: rs) (d :: ds))).
Proof.
  revert los rlos rs ds d r; induction fuel as [|fuel IH]; intros los rlos rs ds d r Hlo Hl n Hf.
  - destruct ds as [|? ?]; [|cbn in Hf; lia]. destruct rs; [|done]. cbn [nary_carry le_carry].
    assert (n = S (length los)) as -> by (unfold n; rewrite app_length; cbn; lia).
    rewrite (bool_decide_false (length los < S (length los) - 1)) by lia. rewrite andb_false_r.
    by case_decide.
  - cbn [nary_carry le_carry].
    case_bool_decide as Hrd; cbn [andb].
    2: { rewrite decide_True by lia. done. }
    rewrite (decide_False (P := d < r)) by lia.
    destruct ds as [|d' ds'].
    + rewrite bool_decide_false; [done|]. unfold n. rewrite app_length. cbn. lia.
    + destruct rs as [|r' rs']; [done|].
      assert (n = length los + S (S (length ds'))) as Hn by (unfold n; rewrite app_length; cbn; lia).
      rewrite bool_decide_true by lia.
      rewrite vset_ok by (rewrite rot_length; apply rpos_lt; unfold n in *; rewrite app_length; cbn; lia).
      cbn [mbind outcome_bind].
      rewrite (rot_insert_n n) by (done || lia).
      rewrite insert_app_r_alt, Nat.sub_diag by lia. cbn [insert list_insert].
      rewrite (vget_ok _ _ _ (order_lookup n (S (length los)) ltac:(lia))). cbn [mbind outcome_bind].
      replace (los ++ 0 :: d' :: ds') with ((los ++ [0]) ++ d' :: ds') by (by rewrite <-app_assoc).
      assert (n = length ((los ++ [0]) ++ d' :: ds')) as Hn' by (rewrite !app_length; cbn; lia).
      assert (S (length los) = length (los ++ [0])) as Hpos by (rewrite app_length; cbn; lia).
      rewrite Hpos.
      rewrite (vget_ok (rot ((los ++ [0]) ++ d' :: ds')) _ d').
      2: { rewrite (rot_lookup_n n) by (done || lia). by rewrite lookup_app_r, Nat.sub_diag. }
      cbn [mbind outcome_bind].
      rewrite vset_ok by (rewrite rot_length, <-Hn'; apply rpos_lt; lia).
      cbn [mbind outcome_bind].
      rewrite (rot_insert_n n) by (done || lia).
      rewrite insert_app_r_alt, Nat.sub_diag by lia. cbn [insert list_insert].
      replace (rlos ++ r :: r' :: rs') with ((rlos ++ [r]) ++ r' :: rs') by (by rewrite <-app_assoc).
      rewrite (vget_ok (rot ((rlos ++ [r]) ++ r' :: rs')) _ r').
      2: { assert (n = length ((rlos ++ [r]) ++ r' :: rs')) as -> by (rewrite !app_length in *; cbn in *; lia).
           assert (length (los ++ [0]) = length (rlos ++ [r])) as -> by (rewrite !app_length; cbn; lia).
           rewrite rot_lookup by (rewrite app_length; cbn; lia). by rewrite lookup_app_r, Nat.sub_diag. }
      cbn [mbind outcome_bind].
      pose proof (IH (los ++ [0]) (rlos ++ [r]) rs' ds' (S d') r') as IH'. cbn zeta in IH'.
      replace (length ((los ++ [0]) ++ S d' :: ds')) with n in IH' by (rewrite Hn', !app_length; cbn; lia).
      rewrite IH'; [|rewrite !app_length; cbn; lia|cbn in Hl; lia|cbn in *; lia].
      f_equal. by rewrite <-app_assoc.
Qed.

Lemma nary_step_spec rs ds :
  rs ≠ [] -> length ds = length rs ->
  nary_step (length rs) (rot rs) (seq 1 (length rs - 1) ++ [0]) (rot ds) = Ok (rot (le_inc rs ds)).
Proof.
  intros Hne Hl. destruct rs as [|r rs]; [done|]. destruct ds as [|d ds]; [done|]. unfold nary_step.
  rewrite (vget_ok _ _ _ (order_lookup (length (r :: rs)) 0 ltac:(cbn; lia))). cbn [mbind outcome_bind].
  rewrite (vget_ok (rot (d :: ds)) _ d).
  2: { rewrite (rot_lookup_n (length (r :: rs))) by (done || (cbn; lia)). done. }
  cbn [mbind outcome_bind].
  rewrite vset_ok by (rewrite rot_length, Hl; apply rpos_lt; cbn; lia). cbn [mbind outcome_bind].
  rewrite (rot_insert_n (length (r :: rs))) by (done || (cbn; lia)). cbn [insert list_insert].
  rewrite (vget_ok (rot (r :: rs)) _ r).
  2: { rewrite rot_lookup by (cbn; lia). done. }
  cbn [mbind outcome_bind].
  pose proof (nary_carry_spec (length (r :: rs)) [] [] rs ds (S d) r eq_refl ltac:(cbn in Hl; lia)) as H.
  cbn zeta in H. cbn [app] in H.
  change (length (@nil nat)) with 0 in H. replace (length (S d :: ds)) with (length (r :: rs)) in H by (cbn in *; lia).
  rewrite H by lia. f_equal. f_equal. symmetry. apply le_inc_carry. cbn in *; lia.
Qed.

Lemma nary_loop_spec rs k ds :
  rs ≠ [] -> in_range rs ds -> le_val rs ds + k = prod_list rs -> 
  exists L, nary_loop k (length rs) (rot rs) (seq 1 (length rs - 1) ++ [0]) (rot ds) = Ok L /\
    length L = k /\ forall i, i < k -> exists c, in_range rs c /\ le_val rs c = le_val rs ds + i /\ L !! i = Some (rot c).
Proof.
  intros Hne. revert ds; induction k as [|k IH]; intros ds Hr Hk.
  - exists []. split_and!; first [done|lia|idtac].
  - cbn [nary_loop]. rewrite nary_step_spec by (try done; by apply in_range_length). cbn [mbind outcome_bind].
    destruct k as [|k].
    + cbn. exists [rot ds]. split_and!; try done. intros [|i] Hi; [|lia]. exists ds. split_and!; first [done|lia|idtac].
    + destruct (le_inc_val rs ds Hr) as [Hr' Hv']; [lia|].
      destruct (IH (le_inc rs ds) Hr') as (L & HL & Hlen & Hall); [lia|].
      rewrite HL. cbn [mbind outcome_bind]. exists (rot ds :: L). split_and!; [done|cbn; lia|].
      intros [|i] Hi.
      * exists ds. split_and!; first [done|lia|idtac].
      * destruct (Hall i) as (c & Hc & Hv & Hi'); [lia|]. exists c. split_and!; [done|lia|done].
Qed.

Lemma foldl_mul_prod l acc : foldl Nat.mul acc l = acc * prod_list l.
Proof.
  revert acc; induction l as [|x l IH]; intros acc; cbn [foldl]; [unfold prod_list; cbn; lia|].
  rewrite IH. change (prod_list (x :: l)) with (x * prod_list l). lia.
Qed.
Lemma prod_list_rot l : prod_list (rot l) = prod_list l.
Proof.
  apply prod_list_perm. destruct l as [|x l] using rev_ind; [done|]. rewrite rot_snoc. apply Permutation_cons_append.
Qed.
Lemma rot_replicate n : rot (replicate n 0) = replicate n 0.
Proof.
  destruct n as [|n]; [done|]. replace (replicate (S n) 0) with (replicate n 0 ++ [0]) at 1.
  - by rewrite rot_snoc.
  - change [0] with (replicate 1 0). rewrite <-replicate_add. by rewrite Nat.add_1_r.
Qed.

(** Little-endian order of a range list [r0 :: rest]: the rest first, then r0. *)
Theorem nary_count_spec r0 rest :
  Forall (fun d => 0 < d) (r0 :: rest) ->
  nary_count (r0 :: rest)
  = Ok ((fun c => match c with [] => [] | c0 :: cs => c0 :: reverse cs end) <$> configs (r0 :: reverse rest)).
Proof.
  intros Hpos. set (rs := rest ++ [r0]).
  assert (rot rs = r0 :: rest) as Hrot by apply rot_snoc.
  assert (length rs = length (r0 :: rest)) as Hlen by (unfold rs; rewrite app_length; cbn; lia).
  assert (rs ≠ []) as Hne by (unfold rs; by destruct rest).
  assert (in_range rs (replicate (length rs) 0)) as Hz.
  { apply Forall2_same_length_lookup. split; [by rewrite replicate_length|]. intros i x y Hx Hy.
    apply lookup_replicate in Hx as [-> _].
    assert (y ∈ r0 :: rest) as Hin.
    { apply elem_of_list_lookup_2 in Hy. unfold rs in Hy. apply elem_of_app in Hy as [Hy|Hy]; [by right|].
      apply elem_of_list_singleton in Hy as ->. by left. }
    rewrite Forall_forall in Hpos. by apply Hpos. }
  assert (le_val rs (replicate (length rs) 0) = 0) as Hv0.
  { generalize rs. intros l. induction l as [|r l IH]; [done|]. cbn. rewrite IH. lia. }
  destruct (nary_loop_spec rs (prod_list rs) (replicate (length rs) 0)) as (L & HL & HlenL & Hall); [done|done|lia|].
  unfold nary_count. rewrite foldl_mul_prod, Nat.mul_1_l.
  rewrite <-Hrot at 1. rewrite prod_list_rot. rewrite <-Hlen.
  rewrite rot_replicate in HL. rewrite <-Hrot. rewrite HL. f_equal. clear HL.
  apply list_eq. intros i. rewrite list_lookup_fmap.
  assert (prod_list (r0 :: reverse rest) = prod_list rs) as Hprod.
  { apply prod_list_perm. unfold rs. rewrite reverse_Permutation. apply Permutation_cons_append. }
  destruct (decide (i < prod_list rs)) as [Hi|Hi].
  - destruct (Hall i Hi) as (c & Hr & Hv & ->). rewrite Hv0 in Hv. cbn in Hv.
    destruct c as [|c0 cs] using rev_ind; [by apply in_range_length in Hr; cbn in Hr; rewrite Hlen in Hr|]. clear IHcs.
    rewrite rot_snoc.
    assert (configs (r0 :: reverse rest) !! i = Some (c0 :: reverse cs)) as ->.
    { apply configs_lookup. unfold rs in Hr. pose proof (in_range_length _ _ Hr) as Hl'.
      rewrite !app_length in Hl'. cbn in Hl'.
      apply Forall2_app_inv in Hr as [Hr1 Hr2]; [|lia]. split.
      - constructor; [by inversion Hr2|]. by apply Forall2_reverse.
      - unfold rs in Hv. rewrite le_val_lex in Hv by (rewrite !app_length; cbn; lia).
        by rewrite !reverse_snoc in Hv. }
    cbn. by rewrite reverse_involutive.
  - rewrite (lookup_ge_None_2 L) by lia. rewrite lookup_ge_None_2; [done|]. rewrite configs_length. lia.
Qed.
Lemma nary_count_empty : nary_count [] = Err OutOfBounds.
Proof. reflexivity. Qed.
