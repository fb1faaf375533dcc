(** Proofs about the choice generator. *)
From Verif Require Export UtilSpec.
Local Open Scope nat_scope.

(** *** The specification list *)
Lemma combs_0 n lo : combs n lo 0 = [[]].
Proof. by destruct n. Qed.

Lemma elem_of_combs n lo r c :
  c ∈ combs n lo r <-> length c = r /\ StronglySorted lt c /\ Forall (fun x => lo <= x < lo + n) c.
Proof.
  revert lo r c; induction n as [|n IH]; intros lo [|r] c; cbn [combs].
  - rewrite elem_of_list_singleton. split.
    + intros ->. split_and!; [done|constructor|constructor].
    + intros (H & _). by destruct c.
  - rewrite elem_of_nil. split; [done|]. intros (H & _ & HF).
    destruct c as [|x c]; [done|]. apply Forall_cons in HF as [Hx _]. lia.
  - rewrite elem_of_list_singleton. split.
    + intros ->. split_and!; [done|constructor|constructor].
    + intros (H & _). by destruct c.
  - rewrite elem_of_app, elem_of_list_fmap. split.
    + intros [(c' & -> & Hc)|Hc].
      * apply IH in Hc as (Hl & Hs & Hf). split_and!; [cbn; lia| |].
        -- constructor; [done|]. eapply Forall_impl; [exact Hf|]. cbn. intros; lia.
        -- constructor; [lia|]. eapply Forall_impl; [exact Hf|]. cbn. intros; lia.
      * apply IH in Hc as (Hl & Hs & Hf). split_and!; [done|done|].
        eapply Forall_impl; [exact Hf|]. cbn. intros; lia.
    + intros (Hl & Hs & Hf). destruct c as [|x c]; [done|].
      apply Forall_cons in Hf as [Hx Hf]. inversion Hs as [|? ? Hs' Hall]; subst.
      destruct (decide (x = lo)) as [->|Hne].
      * left. exists c. split; [done|]. apply IH. split_and!; [cbn in Hl; lia|done|].
        rewrite Forall_forall in Hf, Hall |- *. intros y Hy. specialize (Hf y Hy).
        specialize (Hall y Hy). cbn in *. lia.
      * right. apply IH. split_and!; [done|done|]. constructor; [lia|].
        rewrite Forall_forall in Hf, Hall |- *. intros y Hy. specialize (Hf y Hy).
        specialize (Hall y Hy). cbn in *. lia.
Qed.

Lemma combs_nonempty n lo r : r <= n -> combs n lo r ≠ [].
Proof.
  revert lo r; induction n as [|n IH]; intros lo [|r] H; cbn [combs]; try done; [lia|].
  assert (combs n (S lo) r ≠ []) as Hne by (apply IH; lia).
  destruct (combs n (S lo) r); [done|]. done.
Qed.
Lemma combs_empty n lo r : n < r -> combs n lo r = [].
Proof.
  revert lo r; induction n as [|n IH]; intros lo [|r] H; cbn [combs]; try lia; [done|].
  rewrite (IH (S lo) r) by lia. cbn. apply IH. lia.
Qed.

Lemma combs_lex_sorted n lo r : StronglySorted lex_lt (combs n lo r).
Proof.
  revert lo r; induction n as [|n IH]; intros lo [|r]; cbn [combs]; try (repeat constructor; fail).
  assert (forall L, StronglySorted lex_lt L -> StronglySorted lex_lt (cons lo <$> L)) as Hm.
  { induction 1 as [|c L HL IHL Hall]; [constructor|]. cbn. constructor; [done|].
    rewrite Forall_fmap. eapply Forall_impl; [exact Hall|]. intros d Hd. cbn. by apply lex_tail. }
  assert (forall A B, StronglySorted lex_lt A -> StronglySorted lex_lt B ->
    (forall x y, x ∈ A -> y ∈ B -> lex_lt x y) -> StronglySorted lex_lt (A ++ B)) as Happ.
  { induction 1 as [|c L HL IHL Hall]; intros HB Hx; [done|]. cbn. constructor.
    - apply IHL; [done|]. intros x y Hx' Hy'. apply Hx; [by right|done].
    - apply Forall_app. split; [done|]. apply Forall_forall. intros y Hy. apply Hx; [by left|done]. }
  apply Happ; [apply Hm, IH|apply IH|].
  intros x y Hx Hy. apply elem_of_list_fmap in Hx as (x' & -> & _).
  apply elem_of_combs in Hy as (Hl & _ & Hf). destruct y as [|y0 y]; [done|].
  apply Forall_cons in Hf as [Hy0 _]. apply lex_head. lia.
Qed.
Lemma lex_lt_irrefl l : ¬ lex_lt l l.
Proof. induction l as [|x l IH]; intros H; inversion H; subst; [lia|auto]. Qed.
Lemma combs_NoDup n lo r : NoDup (combs n lo r).
Proof.
  pose proof (combs_lex_sorted n lo r) as H. induction H as [|c L HL IH Hall]; constructor; [|done].
  intros Hin. rewrite Forall_forall in Hall. by apply (lex_lt_irrefl c), Hall.
Qed.

(** *** The successor function *)
Fixpoint csucc (a : nat) (c : list nat) : option (list nat) :=
  match c with
  | [] => None
  | x :: c' => match csucc a c' with
               | Some c'' => Some (x :: c'')
               | None => if decide (x + length (x :: c') < a) then Some (seq (S x) (length (x :: c'))) else None
               end
  end.

(** [L] is the sequence of all successors from [c] on. *)
Inductive chain (a : nat) : list nat -> list (list nat) -> Prop :=
| chain_last c : csucc a c = None -> chain a c [c]
| chain_step c c' L : csucc a c = Some c' -> chain a c' L -> chain a c (c :: L).

Lemma chain_app a c A d x B :
  chain a c A ->
  (B ≠ [] -> chain a d B) -> (B = [] -> forall l, csucc a l = None -> last A = Some l -> csucc a (x :: l) = None) ->
  (B ≠ [] -> forall l, csucc a l = None -> last A = Some l -> csucc a (x :: l) = Some d) ->
  chain a (x :: c) ((cons x <$> A) ++ B).
Proof.
  intros HA HB Hnil Hcons. induction HA as [c Hc|c c' L Hc HL IH].
  - cbn. destruct (decide (B = [])) as [->|Hne].
    + apply chain_last. by apply Hnil.
    + eapply chain_step; [by apply Hcons|by apply HB].
  - cbn. eapply chain_step.
    + cbn. by rewrite Hc.
    + apply IH.
      * intros He l Hl Hlast. apply Hnil; [done|done|]. destruct L; [by inversion HL|]. done.
      * intros He l Hl Hlast. apply Hcons; [done|done|]. destruct L; [by inversion HL|]. done.
Qed.

Lemma combs_chain n lo r : r <= n -> chain (lo + n) (seq lo r) (combs n lo r).
Proof.
  revert lo r; induction n as [|n IH]; intros lo [|r] Hr; cbn [combs]; try lia; [by apply chain_last|by apply chain_last|].
  cbn [seq]. replace (lo + S n) with (S lo + n) by lia.
  assert (forall l, l ∈ combs n (S lo) r -> length l = r) as Hlen.
  { intros l Hl. by apply elem_of_combs in Hl as [? _]. }
  assert (forall l, last (combs n (S lo) r) = Some l -> length l = r) as Hlast.
  { intros l Hl. apply Hlen. apply last_Some in Hl as [L ->]. apply elem_of_app. right. left. }
  assert (forall l, csucc (S lo + n) l = None -> last (combs n (S lo) r) = Some l ->
     csucc (S lo + n) (lo :: l) = if decide (S r <= n) then Some (seq (S lo) (S r)) else None) as Hs.
  { intros l Hl Hla. cbn [csucc]. rewrite Hl. cbn [length]. rewrite (Hlast l Hla).
    destruct (decide (S r <= n)), (decide (lo + S r < S lo + n)); try done; lia. }
  apply chain_app with (d := seq (S lo) (S r)).
  - apply IH. lia.
  - intros Hne. apply IH. destruct (decide (S r <= n)); [done|]. by rewrite combs_empty in Hne by lia.
  - intros He l Hl Hla. rewrite Hs by done. case_decide as Hd; [|done].
    by apply (combs_nonempty n (S lo) (S r)) in Hd.
  - intros Hne l Hl Hla. rewrite Hs by done. case_decide as Hd; [done|].
    by rewrite combs_empty in Hne by lia.
Qed.

(** *** The code computes the successor *)
Definition zs (c : list nat) : list Z := Z.of_nat <$> c.

Lemma fill_loop (pre : list Z) (x : Z) (m b : nat) (post : list Z) :
  length post = m -> b = length pre + 1 + m ->
  mfor (seq (length pre + 1) m) (fun i c => y ← vget c (i - 1); vset c i (y + 1)%Z) (pre ++ x :: post)
  = Ok (pre ++ ((fun k => x + Z.of_nat k)%Z <$> seq 0 (S m))).
Proof.
  revert pre x b post; induction m as [|m IH]; intros pre x b post Hl Hb.
  - destruct post; [|done]. cbn. by rewrite Z.add_0_r.
  - destruct post as [|p post]; [done|]. cbn [seq mfor].
    rewrite (vget_ok _ _ x).
    2: { rewrite lookup_app_r by lia. replace (length pre + 1 - 1 - length pre) with 0 by lia. done. }
    cbn [mbind outcome_bind]. rewrite vset_ok by (rewrite app_length; cbn in *; lia). cbn [mbind outcome_bind].
    rewrite insert_app_r_alt by lia. replace (length pre + 1 - length pre) with 1 by lia. cbn [insert list_insert].
    replace (pre ++ x :: (x + 1)%Z :: post) with ((pre ++ [x]) ++ (x + 1)%Z :: post) by (by rewrite <-app_assoc).
    replace (S (length pre + 1)) with (length (pre ++ [x]) + 1) by (rewrite app_length; cbn; lia).
    rewrite (IH (pre ++ [x]) (x + 1)%Z b post); [|cbn in Hl; lia|rewrite app_length; cbn; lia].
    f_equal. rewrite <-app_assoc. f_equal. cbn [app seq fmap list_fmap]. f_equal; [lia|]. f_equal; [lia|].
    rewrite <-!(fmap_S_seq). rewrite <-!list_fmap_compose.
    apply list_fmap_ext. intros _ k _. cbn. lia.
Qed.

Lemma fill_spec (pre : list Z) (x : Z) (post : list Z) :
  cgen_fill (length (pre ++ x :: post)) (pre ++ x :: post) (length pre)
  = Ok (pre ++ ((fun k => x + 1 + Z.of_nat k)%Z <$> seq 0 (S (length post)))).
Proof.
  unfold cgen_fill. rewrite (vget_ok _ _ x) by (by rewrite lookup_app_r, Nat.sub_diag).
  cbn [mbind outcome_bind]. rewrite vset_ok by (rewrite app_length; cbn; lia). cbn [mbind outcome_bind].
  rewrite insert_app_r_alt, Nat.sub_diag by lia. cbn [insert list_insert].
  rewrite app_length. cbn [length].
  replace (length pre + S (length post) - (length pre + 1)) with (length post) by lia.
  by rewrite (fill_loop pre (x + 1)%Z (length post) (length pre + 1 + length post)).
Qed.

(** Scanning skips a suffix of maximal digits. *)
Lemma scan_spec diff (pre : list Z) (post : list Z) :
  (forall k y, post !! k = Some y -> (Z.of_nat (length pre + k) + diff <= y)%Z) ->
  cgen_scan diff (pre ++ post) (length (pre ++ post)) = cgen_scan diff (pre ++ post) (length pre).
Proof.
  intros H. rewrite app_length.
  assert (forall m, m <= length post ->
     cgen_scan diff (pre ++ post) (length pre + m) = cgen_scan diff (pre ++ post) (length pre)) as Hm.
  { induction m as [|m IHm]; intros Hle; [by rewrite Nat.add_0_r|].
    replace (length pre + S m) with (S (length pre + m)) by lia. cbn [cgen_scan].
    destruct (lookup_lt_is_Some_2 post m) as [y Hy]; [lia|].
    rewrite (vget_ok _ _ y).
    2: { rewrite lookup_app_r by lia. by replace (length pre + m - length pre) with m by lia. }
    cbn [mbind outcome_bind]. rewrite bool_decide_false by (specialize (H m y Hy); lia).
    apply IHm. lia. }
  by apply Hm.
Qed.

(** With [b] digits chosen from [a], the digit at position [i] is maximal at [i + (a - b)]. *)
Lemma next_spec a (pre c : list nat) :
  length (pre ++ c) <= a ->
  let b := length (pre ++ c) in
  let diff := (Z.of_nat a - Z.of_nat b)%Z in
  match csucc a c with
  | Some c' => exists i, cgen_scan diff (zs (pre ++ c)) b = Ok (Some i) /\
                 cgen_fill b (zs (pre ++ c)) i = Ok (zs (pre ++ c'))
  | None => cgen_scan diff (zs (pre ++ c)) b = cgen_scan diff (zs (pre ++ c)) (length pre) /\
            (forall k y, c !! k = Some y -> a <= y + length c - k)
  end.
Proof.
  revert pre; induction c as [|x c IH]; intros pre Hle b diff.
  - cbn [csucc]. split; [|done]. subst b. by rewrite app_nil_r.
  - specialize (IH (pre ++ [x])). rewrite <-app_assoc in IH. cbn [app] in IH. specialize (IH Hle).
    fold b in IH. fold diff in IH. cbn [csucc]. destruct (csucc a c) as [c'|] eqn:E.
    + destruct IH as (i & H1 & H2). exists i. split; [done|]. rewrite <-app_assoc in H2. done.
    + destruct IH as [Hscan Hmax]. rewrite app_length in Hscan. cbn [length] in Hscan.
      replace (length pre + 1) with (S (length pre)) in Hscan by lia. cbn [cgen_scan] in Hscan.
      rewrite (vget_ok _ _ (Z.of_nat x)) in Hscan.
      2: { unfold zs. by rewrite list_lookup_fmap, lookup_app_r, Nat.sub_diag. }
      cbn [mbind outcome_bind] in Hscan.
      assert (b = length pre + S (length c)) as Hb by (unfold b; by rewrite app_length).
      destruct (decide (x + length (x :: c) < a)) as [Hd|Hd].
      * exists (length pre). cbn [length] in Hd. rewrite bool_decide_true in Hscan by (unfold diff; lia).
        split; [done|]. unfold zs. rewrite fmap_app. cbn [fmap list_fmap].
        replace b with (length ((Z.of_nat <$> pre) ++ Z.of_nat x :: (Z.of_nat <$> c)))
          by (rewrite app_length; cbn; rewrite !fmap_length; lia).
        replace (length pre) with (length (Z.of_nat <$> pre)) by apply fmap_length.
        rewrite fill_spec. f_equal. rewrite fmap_app. f_equal. rewrite fmap_length.
        replace (seq (S x) (length (x :: c))) with ((fun k => S x + k) <$> seq 0 (S (length c)))
          by (cbn [length]; by rewrite fmap_add_seq, Nat.add_0_r).
        rewrite <-list_fmap_compose. apply list_fmap_ext. intros _ k _. cbn. lia.
      * cbn [length] in Hd. rewrite bool_decide_false in Hscan by (unfold diff; lia).
        split; [done|]. intros [|k] y Hk; cbn in Hk.
        -- injection Hk as <-. cbn. lia.
        -- specialize (Hmax k y Hk). cbn. lia.
Qed.

Lemma cgen_next_step a c c' :
  0 < length c <= a -> csucc a c = Some c' ->
  cgen_next (mkCG (length c) (Z.of_nat a - Z.of_nat (length c)) (zs c))
  = Ok (mkCG (length c) (Z.of_nat a - Z.of_nat (length c)) (zs c'), zs c').
Proof.
  intros [H0 Hle] Hs. pose proof (next_spec a [] c Hle) as H. cbn zeta in H. cbn [app] in H. rewrite Hs in H.
  destruct H as (i & H1 & H2). unfold cgen_next. cbn [cg_choice cg_diff cg_b].
  rewrite bool_decide_false by (by destruct c; cbn in *; [lia|]).
  rewrite H1. cbn [mbind outcome_bind]. by rewrite H2.
Qed.
Lemma cgen_next_end a c :
  0 < length c <= a -> csucc a c = None ->
  let g := mkCG (length c) (Z.of_nat a - Z.of_nat (length c)) (zs c) in cgen_next g = Ok (g, []).
Proof.
  intros [H0 Hle] Hs. pose proof (next_spec a [] c Hle) as H. cbn zeta in H. cbn [app] in H. rewrite Hs in H.
  destruct H as [H1 _]. unfold cgen_next. cbn [cg_choice cg_diff cg_b].
  rewrite bool_decide_false by (by destruct c; cbn in *; [lia|]).
  rewrite H1. done.
Qed.

Lemma csucc_length a c c' : csucc a c = Some c' -> length c' = length c.
Proof.
  revert c'; induction c as [|x c IH]; intros c'; cbn [csucc]; [done|].
  destruct (csucc a c) as [c''|].
  - intros [= <-]. cbn. by rewrite (IH c'').
  - case_decide; [|done]. intros [= <-]. cbn. by rewrite seq_length.
Qed.

(** Calling [cgen_next] [n] times from a state at [c]. *)
Lemma calls_chain a c L :
  chain a c L -> 0 < length c <= a -> forall n,
  exists g', calls cgen_next n (mkCG (length c) (Z.of_nat a - Z.of_nat (length c)) (zs c))
    = Ok (g', (fun k => match L !! S k with Some d => zs d | None => [] end) <$> seq 0 n).
Proof.
  induction 1 as [c Hc|c c' L Hc HL IH]; intros Hl n.
  - induction n as [|n IHn]; cbn [calls]; [eexists; done|].
    rewrite (cgen_next_end a c) by done. cbn [mbind outcome_bind fst snd]. destruct IHn as (g' & ->).
    cbn [mbind outcome_bind fst snd]. eexists. f_equal. f_equal. cbn [seq fmap list_fmap].
    f_equal. rewrite <-fmap_S_seq, <-list_fmap_compose. apply list_fmap_ext. intros ? k _. done.
  - destruct n as [|n]; cbn [calls]; [eexists; done|].
    rewrite (cgen_next_step a c c') by done. cbn [mbind outcome_bind fst snd].
    pose proof (csucc_length _ _ _ Hc) as Hlen. rewrite <-Hlen.
    destruct (IH ltac:(lia) n) as (g' & ->). cbn [mbind outcome_bind fst snd]. exists g'. f_equal. f_equal.
    cbn [seq fmap list_fmap]. f_equal.
    + destruct L as [|d L]; [by inversion HL|]. inversion HL; subst; done.
    + rewrite <-fmap_S_seq, <-list_fmap_compose. apply list_fmap_ext. intros ? k _. cbn. done.
Qed.

Theorem choice_enumeration a b :
  0 < b <= a -> exists g, cgen_init (Z.of_nat a) (Z.of_nat b) = Ok g /\
  forall n, exists g', calls cgen_next n g
    = Ok (g', (fun k => match combs a 0 b !! k with Some c => Z.of_nat <$> c | None => [] end) <$> seq 0 n).
Proof.
  intros Hb. unfold cgen_init.
  rewrite !bool_decide_false by lia. cbn [orb]. eexists; split; [done|]. intros n.
  rewrite Nat2Z.id. replace (Z.to_nat (Z.of_nat b - 1)) with (b - 1) by lia.
  destruct n as [|n]; [by eexists|]. cbn [calls].
  pose proof (combs_chain a 0 b ltac:(lia)) as HC. cbn [Nat.add] in HC.
  assert (cgen_next (mkCG b (Z.of_nat a - Z.of_nat b) ((Z.of_nat <$> seq 0 (b - 1)) ++ [(Z.of_nat b - 2)%Z]))
    = Ok (mkCG b (Z.of_nat a - Z.of_nat b) (zs (seq 0 b)), zs (seq 0 b))) as ->.
  { unfold cgen_next. cbn [cg_choice cg_diff cg_b].
    rewrite bool_decide_false by (by intros ?%app_eq_nil; naive_solver).
    assert (length (Z.of_nat <$> seq 0 (b - 1)) = b - 1) as Hlen by (by rewrite fmap_length, seq_length).
    assert (forall ch, ch !! (b - 1) = Some (Z.of_nat b - 2)%Z ->
       cgen_scan (Z.of_nat a - Z.of_nat b) ch b = Ok (Some (b - 1))) as ->.
    { intros ch Hch. destruct b as [|b']; [lia|]. replace (S b' - 1) with b' in Hch |- * by lia. cbn [cgen_scan].
      rewrite (vget_ok _ _ _ Hch). cbn [mbind outcome_bind]. by rewrite bool_decide_true by lia. }
    2: { rewrite lookup_app_r by lia. by rewrite Hlen, Nat.sub_diag. }
    cbn [mbind outcome_bind].
    pose proof (fill_spec (Z.of_nat <$> seq 0 (b - 1)) (Z.of_nat b - 2)%Z []) as Hf.
    rewrite app_length, Hlen in Hf. cbn [length] in Hf. replace (b - 1 + 1) with b in Hf by lia. rewrite Hf.
    cbn [mbind outcome_bind]. unfold zs.
    assert ((Z.of_nat <$> seq 0 (b - 1)) ++ ((fun k => Z.of_nat b - 2 + 1 + Z.of_nat k)%Z <$> seq 0 1)
      = Z.of_nat <$> seq 0 b) as ->; [|done].
    replace (seq 0 b) with (seq 0 (b - 1) ++ seq (b - 1) 1) by (rewrite <-seq_app; f_equal; lia).
    rewrite fmap_app. f_equal. cbn. f_equal. lia. }
  cbn [mbind outcome_bind fst snd].
  assert (length (seq 0 b) = b) as Hlen by apply seq_length.
  destruct (calls_chain a (seq 0 b) _ HC ltac:(lia) n) as (g' & Hg). rewrite Hlen in Hg. rewrite Hg.
  cbn [mbind outcome_bind fst snd]. exists g'. f_equal. f_equal. cbn [seq fmap list_fmap]. f_equal.
  - inversion HC; subst; done.
  - rewrite <-(fmap_S_seq 0), <-list_fmap_compose. apply list_fmap_ext. intros ? k _. done.
Qed.

(** Groups: [NextN] is [n] calls of [Next], so asking for groups chops the same sequence. *)
Lemma nextn_calls n g : cgen_nextn n g = calls cgen_next n g.
Proof. revert g; induction n as [|n IH]; intros g; cbn; [done|]. destruct (cgen_next g); cbn; [by rewrite IH|done]. Qed.

Lemma calls_app {S R} (step : S -> outcome (S * R)) m n s s' l :
  calls step (m + n) s = Ok (s', l) <->
  exists s1 l1 l2, calls step m s = Ok (s1, l1) /\ calls step n s1 = Ok (s', l2) /\ l = l1 ++ l2.
Proof.
  revert s l; induction m as [|m IH]; intros s l; cbn [calls Nat.add].
  - split; [intros H; by exists s, [], l|]. by intros (s1 & l1 & l2 & [= <- <-] & H & ->).
  - destruct (step s) as [[s1 r]|e]; cbn [mbind outcome_bind fst snd].
    2: { split; [done|]. by intros (? & ? & ? & [=] & _). }
    split.
    + intros H. apply bind_ok in H as ([s2 l2] & H & [= <- <-]). apply IH in H as (s3 & l3 & l4 & H1 & H2 & ->).
      exists s3, (r :: l3), l4. rewrite H1. cbn. by split_and!.
    + intros (s3 & l3 & l4 & H1 & H2 & ->). apply bind_ok in H1 as ([s5 l5] & H1 & [= <- <-]).
      cbn [fst snd] in *. assert (calls step (m + n) s1 = Ok (s', l5 ++ l4)) as -> by (apply IH; eauto 10). done.
Qed.
Lemma calls_length {S R} (step : S -> outcome (S * R)) n s s' l : calls step n s = Ok (s', l) -> length l = n.
Proof.
  revert s l; induction n as [|n IH]; intros s l; cbn [calls]; [by intros [= <- <-]|].
  destruct (step s) as [[s1 r]|]; cbn; [|done]. intros H. apply bind_ok in H as ([s2 l2] & H & [= <- <-]).
  cbn. by rewrite (IH _ _ H).
Qed.

Theorem choice_groups a b n m :
  0 < b <= a -> exists g g', cgen_init (Z.of_nat a) (Z.of_nat b) = Ok g /\
  calls (cgen_nextn n) m g = Ok (g', (fun i => (fun k =>
     match combs a 0 b !! (i * n + k) with Some c => Z.of_nat <$> c | None => [] end) <$> seq 0 n) <$> seq 0 m).
Proof.
  intros Hb. destruct (choice_enumeration a b Hb) as (g & Hg & Hall). exists g.
  set (f := fun k => match combs a 0 b !! k with Some c => Z.of_nat <$> c | None => [] end) in *.
  assert (forall m, exists g', calls (cgen_nextn n) m g = Ok (g', (fun i => (fun k => f (i * n + k)) <$> seq 0 n) <$> seq 0 m)
     /\ exists l, calls cgen_next (m * n) g = Ok (g', l)) as H.
  { clear m. induction m as [|m (g1 & H1 & l1 & H2)].
    - exists g. split; [done|]. by exists [].
    - destruct (Hall (m * n + n)) as (g2 & H3).
      apply calls_app in H3 as (s1 & l3 & l4 & H4 & H5 & Hl). rewrite H2 in H4. injection H4 as <- <-.
      exists g2. split.
      + replace (S m) with (m + 1) by lia. apply calls_app. exists g1, ((fun i => (fun k => f (i * n + k)) <$> seq 0 n) <$> seq 0 m), [l4].
        split_and!; [done| |].
        * cbn [calls]. rewrite nextn_calls, H5. done.
        * rewrite seq_app, fmap_app. f_equal. cbn. f_equal.
          rewrite seq_app, fmap_app in Hl. apply app_inj_1 in Hl as [_ Hl].
          2: { rewrite fmap_length, seq_length. by rewrite (calls_length _ _ _ _ _ H2). }
          rewrite <-Hl. cbn [Nat.add].
          replace (seq (m * n) n) with (Nat.add (m * n) <$> seq 0 n) by (by rewrite fmap_add_seq, Nat.add_0_r).
          rewrite <-list_fmap_compose. done.
      + exists (l1 ++ l4). replace (S m * n) with (m * n + n) by lia. apply calls_app. eauto 10. }
  destruct (H m) as (g' & H1 & _). exists g'. done.
Qed.

(** b = 0: never yields anything; invalid arguments: exit. *)
Lemma choice_zero a : exists g, cgen_init (Z.of_nat a) 0 = Ok g /\ cgen_next g = Ok (g, []).
Proof. unfold cgen_init. rewrite !bool_decide_false by lia. cbn [orb]. eexists; split; [done|]. done. Qed.
Lemma choice_invalid a b : (a < 0 \/ b < 0 \/ a < b)%Z -> cgen_init a b = Err Exit1.
Proof.
  intros H. unfold cgen_init.
  assert (bool_decide (a < 0)%Z || bool_decide (b < 0)%Z || bool_decide (a < b)%Z = true) as ->; [|done].
  destruct H as [H|[H|H]]; rewrite (bool_decide_true _ H); by rewrite ?orb_true_r.
Qed.
