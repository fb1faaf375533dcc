(** Proofs about ArgMax, Accuracy, Round, the complete graph and the data transposition. *)
From Verif Require Export UtilSpec TableProofs4.
From Coq Require Import QArith Qcanon Qround.
Local Open Scope nat_scope.

(** ** ArgMax *)
Lemma argmax_loop (array : list Qc) :
  exists m o, mfor (seq 0 (length array)) (fun i (st : Qc * option nat) =>
        x ← vget array i;
        if bool_decide (fst st < x)%Qc then Ok (x, Some i) else Ok st) (0%Qc, None) = Ok (m, o) /\
    (forall j y, array !! j = Some y -> (y <= m)%Qc) /\ (0 <= m)%Qc /\
    match o with
    | Some i => array !! i = Some m /\ (0 < m)%Qc /\ forall j y, j < i -> array !! j = Some y -> (y < m)%Qc
    | None => m = 0%Qc
    end.
Proof.
  set (P := fun (dn : list nat) (st : Qc * option nat) =>
    (forall j y, j < length dn -> array !! j = Some y -> (y <= fst st)%Qc) /\ (0 <= fst st)%Qc /\
    match snd st with
    | Some i => i < length dn /\ array !! i = Some (fst st) /\ (0 < fst st)%Qc /\
                forall j y, j < i -> array !! j = Some y -> (y < fst st)%Qc
    | None => fst st = 0%Qc
    end).
  match goal with |- exists m o, mfor _ ?b _ = _ /\ _ => destruct (mfor_inv P (seq 0 (length array)) b (0%Qc, None)) as ([m o] & Hok & HP) end.
  - split_and!; [cbn; lia|apply Qcle_refl|done].
  - intros dn i rest [m o] Hl (H1 & H2 & H3). apply seq_split_length in Hl as [-> Hlt].
    destruct (lookup_lt_is_Some_2 array (length dn) Hlt) as [x Hx].
    rewrite (vget_ok _ _ _ Hx). cbn [mbind outcome_bind fst snd] in *. unfold P. rewrite app_length. cbn [length].
    case_bool_decide as Hm; eexists; (split; [done|]); cbn [fst snd].
    + split_and!.
      * intros j y Hj Hy. destruct (decide (j = length dn)) as [->|]; [rewrite Hx in Hy; injection Hy as <-; apply Qcle_refl|].
        eapply Qcle_trans; [apply (H1 j); [lia|done]|]. by apply Qclt_le_weak.
      * eapply Qcle_trans; [exact H2|]. by apply Qclt_le_weak.
      * lia.
      * done.
      * by eapply Qcle_lt_trans.
      * intros j y Hj Hy. eapply Qcle_lt_trans; [by apply (H1 j)|done].
    + split_and!; [|done|].
      * intros j y Hj Hy. destruct (decide (j = length dn)) as [->|]; [rewrite Hx in Hy; injection Hy as <-; by apply Qcnot_lt_le|].
        apply (H1 j); [lia|done].
      * destruct o as [i|]; [|done]. destruct H3 as (Hi & ?). split; [lia|done].
  - exists m, o. destruct HP as (H1 & H2 & H3). cbn in *. split_and!; try done.
    + intros j y Hy. apply (H1 j); [|done]. rewrite seq_length. by apply lookup_lt_Some in Hy.
    + destruct o; [|done]. naive_solver.
Qed.

Theorem argmax_spec (array : list Qc) :
  (exists k x, array !! k = Some x /\ (0 < x)%Qc) ->
  exists i m, argmax array = Ok i /\ array !! i = Some m /\
    (forall j y, array !! j = Some y -> (y <= m)%Qc) /\
    (forall j y, j < i -> array !! j = Some y -> (y < m)%Qc).
Proof.
  intros (k & x & Hk & Hx). unfold argmax. destruct (argmax_loop array) as (m & o & -> & Hmax & Hm & Ho).
  cbn [mbind outcome_bind snd]. destruct o as [i|].
  - exists i, m. naive_solver.
  - exfalso. subst m. apply (Qclt_not_le _ _ Hx). by apply (Hmax k).
Qed.
Theorem argmax_uninit (array : list Qc) :
  (forall k x, array !! k = Some x -> (x <= 0)%Qc) -> argmax array = Err Uninit.
Proof.
  intros H. unfold argmax. destruct (argmax_loop array) as (m & o & -> & Hmax & Hm & Ho).
  cbn [mbind outcome_bind snd]. destruct o as [i|]; [|done]. destruct Ho as (Hi & Hm0 & _).
  exfalso. apply (Qclt_not_le _ _ Hm0). by apply (H i).
Qed.

(** ** Accuracy *)
Lemma accuracy_loop (truths preds : list Z) :
  length truths <= length preds ->
  mfor (seq 0 (length truths)) (fun i (st : nat * nat) =>
        g ← vat truths i; p ← vat preds i;
        if bool_decide (g = p) then Ok (S (fst st), snd st) else Ok (fst st, S (snd st))) (0, 0)
  = let c := length (filter (fun gp : Z * Z => fst gp = snd gp) (zip truths preds)) in
    Ok (c, length truths - c).
Proof.
  intros Hlen.
  set (cnt := fun k => length (filter (fun gp : Z * Z => fst gp = snd gp) (zip (take k truths) preds))).
  set (P := fun (dn : list nat) (st : nat * nat) => st = (cnt (length dn), length dn - cnt (length dn)) /\ cnt (length dn) <= length dn).
  match goal with |- mfor _ ?b _ = _ => destruct (mfor_inv P (seq 0 (length truths)) b (0, 0)) as (st & Hok & HP) end.
  - split; [done|]. done.
  - intros dn i rest st Hl [-> Hle]. apply seq_split_length in Hl as [-> Hlt].
    destruct (lookup_lt_is_Some_2 truths (length dn) Hlt) as [g Hg].
    destruct (lookup_lt_is_Some_2 preds (length dn)) as [p Hp]; [lia|].
    unfold vat. rewrite Hg, Hp. cbn [mbind outcome_bind fst snd].
    assert (zip (take (S (length dn)) truths) preds = zip (take (length dn) truths) preds ++ [(g, p)]) as Hz.
    { apply list_eq. intros k. rewrite !lookup_zip_with.
      destruct (decide (k < length dn)).
      - rewrite lookup_app_l by (rewrite zip_with_length, take_length; lia).
        rewrite lookup_zip_with. by rewrite !lookup_take by lia.
      - rewrite lookup_app_r by (rewrite zip_with_length, take_length; lia).
        rewrite zip_with_length, take_length. replace (k - Init.Nat.min (length dn `min` length truths) (length preds)) with (k - length dn) by lia.
        destruct (decide (k = length dn)) as [->|].
        + rewrite Nat.sub_diag. rewrite lookup_take by lia. by rewrite Hg, Hp.
        + rewrite lookup_take_ge by lia. cbn. destruct (k - length dn) eqn:E; [lia|]. done. }
    assert (cnt (S (length dn)) = cnt (length dn) + (if bool_decide (g = p) then 1 else 0)) as Hc.
    { unfold cnt. rewrite Hz, filter_app, app_length. f_equal. rewrite filter_cons. cbn [fst snd].
      case_decide; case_bool_decide; done. }
    unfold P. rewrite app_length. cbn [length]. rewrite Nat.add_1_r.
    case_bool_decide; eexists; (split; [done|]); rewrite Hc; split; try lia; f_equal; lia.
  - rewrite Hok. destruct HP as [-> Hle]. rewrite seq_length. cbn zeta. unfold cnt.
    by rewrite firstn_all.
Qed.
Lemma count_le {A} (P : A -> Prop) `{forall x, Decision (P x)} (l : list A) : length (filter P l) <= length l.
Proof. induction l as [|x l IH]; [done|]. rewrite filter_cons. case_decide; cbn; lia. Qed.

Theorem accuracy_spec (truths preds : list Z) :
  truths ≠ [] -> length preds = length truths ->
  accuracy truths preds = Ok (qz (Z.of_nat (length (filter (fun gp : Z * Z => fst gp = snd gp) (zip truths preds))))
                              / qz (Z.of_nat (length truths)))%Qc.
Proof.
  intros Hne Hlen. unfold accuracy. rewrite accuracy_loop by lia. cbn zeta. cbn [mbind outcome_bind].
  set (c := length _). assert (c <= length truths) as Hc.
  { unfold c. etransitivity; [apply count_le|]. rewrite zip_with_length. lia. }
  replace (c + (length truths - c)) with (length truths) by lia.
  rewrite bool_decide_false; [done|]. by destruct truths.
Qed.
Theorem accuracy_short (truths preds : list Z) :
  length preds < length truths -> accuracy truths preds = Err Thrown.
Proof.
  intros H. unfold accuracy.
  assert (mfor (seq 0 (length truths)) (fun i (st : nat * nat) =>
        g ← vat truths i; p ← vat preds i;
        if bool_decide (g = p) then Ok (S (fst st), snd st) else Ok (fst st, S (snd st))) (0, 0) = Err Thrown) as ->; [|done].
  replace (length truths) with (length preds + (length truths - length preds)) by lia.
  rewrite seq_app, mfor_app.
  assert (exists s, mfor (seq 0 (length preds)) (fun i (st : nat * nat) =>
        g ← vat truths i; p ← vat preds i;
        if bool_decide (g = p) then Ok (S (fst st), snd st) else Ok (fst st, S (snd st))) (0, 0) = Ok s) as [s ->].
  { match goal with |- exists s, mfor _ ?b _ = _ => destruct (mfor_inv (fun _ _ => True) (seq 0 (length preds)) b (0,0)) as (s & Hs & _) end.
    - done.
    - intros dn i rest st Hl _. apply seq_split_length in Hl as [-> Hlt].
      destruct (lookup_lt_is_Some_2 truths (length dn)) as [g Hg]; [lia|].
      destruct (lookup_lt_is_Some_2 preds (length dn)) as [p Hp]; [lia|].
      unfold vat. rewrite Hg, Hp. cbn. case_bool_decide; eauto.
    - eauto. }
  cbn [mbind outcome_bind]. destruct (length truths - length preds) eqn:E; [lia|]. cbn [seq mfor].
  destruct (lookup_lt_is_Some_2 truths (length preds)) as [g Hg]; [lia|].
  unfold vat. cbn [Nat.add]. rewrite Hg. cbn [mbind outcome_bind]. by rewrite (lookup_ge_None_2 preds) by lia.
Qed.

(** ** Round *)
Lemma qz_this z : (this (qz z) == inject_Z z)%Q.
Proof. unfold qz. cbn. apply Qred_correct. Qed.
Lemma qz_add a b : qz (a + b) = (qz a + qz b)%Qc.
Proof. apply Qc_is_canon. cbn. rewrite !Qred_correct. by rewrite inject_Z_plus. Qed.
Lemma qz_mul a b : qz (a * b) = (qz a * qz b)%Qc.
Proof. apply Qc_is_canon. cbn. rewrite !Qred_correct. by rewrite inject_Z_mult. Qed.
Lemma qz_le a b : (qz a <= qz b)%Qc <-> (a <= b)%Z.
Proof. unfold Qcle. rewrite !qz_this. by rewrite <-Zle_Qle. Qed.
Lemma qz_lt a b : (qz a < qz b)%Qc <-> (a < b)%Z.
Proof. unfold Qclt. rewrite !qz_this. by rewrite <-Zlt_Qlt. Qed.

Lemma qtrunc_spec (x : Qc) : (0 <= x)%Qc -> (qz (qtrunc x) <= x)%Qc /\ (x < qz (qtrunc x) + 1)%Qc /\ (0 <= qtrunc x)%Z.
Proof.
  intros Hx. assert (0 <= Qnum (this x))%Z as Hn.
  { unfold Qcle in Hx. change (this 0%Qc) with (0#1)%Q in Hx. unfold Qle in Hx. cbn [Qnum Qden] in Hx. lia. }
  assert (qtrunc x = Qfloor (this x)) as E.
  { unfold qtrunc, Qfloor. destruct (this x) as [n d]; cbn in *. by rewrite Z.quot_div_nonneg. }
  rewrite E. split_and!.
  - unfold Qcle. rewrite qz_this. apply Qfloor_le.
  - change 1%Qc with (qz 1). rewrite <-qz_add. unfold Qclt. rewrite qz_this. apply Qlt_floor.
  - rewrite <-E. unfold qtrunc. apply Z.quot_pos; lia.
Qed.

Lemma iter_mul n (c x : Qc) : Nat.iter n (fun y => y * c)%Qc x = (x * c ^ n)%Qc.
Proof. induction n as [|n IH]; [cbn; ring|]. rewrite Nat.iter_succ, IH. cbn [Qcpower]. ring. Qed.
Lemma iter_div n (c x : Qc) : Nat.iter n (fun y => y / c)%Qc x = (x * (/ c) ^ n)%Qc.
Proof. induction n as [|n IH]; [cbn; ring|]. rewrite Nat.iter_succ, IH. unfold Qcdiv. cbn [Qcpower]. ring. Qed.
Lemma pow_inv n (c : Qc) : c ≠ 0%Qc -> ((/ c) ^ n * c ^ n = 1)%Qc.
Proof.
  intros Hc. induction n as [|n IH]; cbn [Qcpower]; [ring|].
  replace (/ c * (/ c) ^ n * (c * c ^ n))%Qc with ((/ c * c) * ((/ c) ^ n * c ^ n))%Qc by ring.
  rewrite IH, (Qcmult_comm (/ c) c), Qcmult_inv_r by done. ring.
Qed.
Lemma pow_pos n (c : Qc) : (0 < c)%Qc -> (0 < c ^ n)%Qc.
Proof.
  intros Hc. induction n as [|n IH]; [done|]. cbn [Qcpower].
  replace 0%Qc with (0 * c ^ n)%Qc by ring. by apply Qcmult_lt_compat_r.
Qed.
Lemma pow_qz n z : (qz z ^ n)%Qc = qz (z ^ Z.of_nat n).
Proof.
  induction n as [|n IH]; [by vm_compute|]. rewrite Nat2Z.inj_succ, Z.pow_succ_r by lia.
  rewrite qz_mul. cbn [Qcpower]. by rewrite IH.
Qed.

(** Result: an integer multiple [z / 10^bits], at distance at most 1/2 unit (ties up). *)
Theorem qround_spec (x : Qc) (bits : nat) :
  (0 <= x)%Qc ->
  exists z : Z, (qround x bits * qz (10 ^ Z.of_nat bits) = qz z)%Qc /\
    (x * qz (10 ^ Z.of_nat bits) - 1 / qz 2 < qz z)%Qc /\
    (qz z <= x * qz (10 ^ Z.of_nat bits) + 1 / qz 2)%Qc.
Proof.
  intros Hx. unfold qround. set (ip := qtrunc x).
  destruct (qtrunc_spec x Hx) as (Hip1 & Hip2 & Hip0). fold ip in Hip1, Hip2, Hip0.
  rewrite iter_mul, iter_div, <-pow_qz. set (p := (qz 10 ^ bits)%Qc).
  set (fr := (x - qz ip)%Qc).
  assert (0 < p)%Qc as Hp by (apply pow_pos; by vm_compute).
  assert (0 <= fr)%Qc as Hfr.
  { unfold fr. apply Qcplus_le_mono_r with (z := qz ip). replace (0 + qz ip)%Qc with (qz ip) by ring.
    by replace (x - qz ip + qz ip)%Qc with x by ring. }
  assert (0 <= fr * p + 1 / qz 2)%Qc as Hy.
  { apply Qc_le_add_nonneg; [|by vm_compute]. apply Qc_le_mul_nonneg; [done|by apply Qclt_le_weak]. }
  destruct (qtrunc_spec _ Hy) as (H1 & H2 & _). set (t := qtrunc (fr * p + 1 / qz 2)) in *.
  exists (ip * 10 ^ Z.of_nat bits + t)%Z. rewrite qz_add, qz_mul, <-pow_qz. fold p.
  assert ((/ qz 10) ^ bits * p = 1)%Qc as Hinv by (apply pow_inv; by vm_compute).
  split_and!.
  - replace ((qz ip + qz t * (/ qz 10) ^ bits) * p)%Qc with (qz ip * p + qz t * ((/ qz 10) ^ bits * p))%Qc by ring.
    rewrite Hinv. ring.
  - apply Qcplus_lt_mono_r with (z := (1 / qz 2 - qz ip * p)%Qc).
    assert (1 = 1 / qz 2 + 1 / qz 2)%Qc as Hone by (apply Qc_is_canon; by vm_compute).
    eapply Qcplus_lt_mono_r with (z := (1 / qz 2)%Qc).
    replace (x * p - 1 / qz 2 + (1 / qz 2 - qz ip * p) + 1 / qz 2)%Qc with (fr * p + 1 / qz 2)%Qc by (unfold fr; ring).
    replace (qz ip * p + qz t + (1 / qz 2 - qz ip * p) + 1 / qz 2)%Qc with (qz t + (1 / qz 2 + 1 / qz 2))%Qc by ring.
    by rewrite <-Hone.
  - apply Qcplus_le_mono_r with (z := (- (qz ip * p))%Qc).
    replace (qz ip * p + qz t + - (qz ip * p))%Qc with (qz t) by ring.
    replace (x * p + 1 / qz 2 + - (qz ip * p))%Qc with (fr * p + 1 / qz 2)%Qc by (unfold fr; ring). done.
Qed.

(** ** Complete graph *)
Fixpoint row_start (n i : nat) : nat := match i with O => 0 | S i' => row_start n i' + (n - 1 - i') end.
Lemma row_start_closed n i : i <= n -> 2 * row_start n i = (2 * n - i - 1) * i.
Proof.
  induction i as [|i IH]; intros Hi; cbn [row_start]; [lia|].
  rewrite Nat.mul_add_distr_l, IH by lia. nia.
Qed.
Lemma edge_position_row n i j : i < j -> j < n -> edge_position n i j = row_start n i + (j - i - 1).
Proof.
  intros Hij Hj. unfold edge_position. rewrite <-row_start_closed by lia.
  rewrite Nat.mul_comm, Nat.div_mul by lia. lia.
Qed.
Lemma row_start_mono n i j : i < j -> j <= n -> row_start n i + (n - 1 - i) <= row_start n j.
Proof.
  intros Hij. induction j as [|j IH]; [lia|]. intros Hj. cbn [row_start].
  destruct (decide (i = j)) as [->|]; [lia|]. specialize (IH ltac:(lia) ltac:(lia)). lia.
Qed.
Lemma row_start_total n : row_start n n = (n - 1) * n / 2.
Proof.
  assert (2 * row_start n n = (n - 1) * n) as H by (rewrite row_start_closed by lia; f_equal; lia).
  rewrite <-H, Nat.mul_comm, Nat.div_mul; lia.
Qed.
Lemma edge_position_bound n i j : i < j -> j < n -> edge_position n i j < (n - 1) * n / 2.
Proof.
  intros Hij Hj. rewrite edge_position_row by done. rewrite <-row_start_total.
  pose proof (row_start_mono n i n ltac:(lia) ltac:(lia)). lia.
Qed.
Lemma edge_position_inj n i j i' j' :
  i < j -> j < n -> i' < j' -> j' < n -> edge_position n i j = edge_position n i' j' -> i = i' /\ j = j'.
Proof.
  intros H1 H2 H3 H4. rewrite !edge_position_row by done. intros E.
  destruct (decide (i = i')) as [->|]; [lia|].
  destruct (decide (i < i')).
  - pose proof (row_start_mono n i i' ltac:(lia) ltac:(lia)). lia.
  - pose proof (row_start_mono n i' i ltac:(lia) ltac:(lia)). lia.
Qed.
Lemma elem_of_upper_pairs n i j : (i, j) ∈ upper_pairs n <-> i < j /\ j < n.
Proof.
  unfold upper_pairs. rewrite elem_of_list_bind. split.
  - intros (i' & Hin & Hi). apply elem_of_list_fmap in Hin as (j' & [= -> ->] & Hj).
    apply elem_of_seq in Hi, Hj. lia.
  - intros [H1 H2]. exists i. split; [|apply elem_of_seq; lia].
    apply elem_of_list_fmap. exists j. split; [done|]. apply elem_of_seq. lia.
Qed.

(** Every position below the total is the position of some pair. *)
Lemma edge_position_surj n k : k < (n - 1) * n / 2 -> exists i j, i < j /\ j < n /\ edge_position n i j = k.
Proof.
  rewrite <-row_start_total. intros Hk.
  assert (forall m, m <= n -> k < row_start n m -> exists i, i < m /\ row_start n i <= k < row_start n (S i)) as H.
  { induction m as [|m IH]; intros Hm Hlt; [cbn in Hlt; lia|].
    destruct (decide (k < row_start n m)) as [H|H].
    - destruct (IH ltac:(lia) H) as (i & Hi & ?). exists i. split; [lia|done].
    - exists m. split; [lia|]. lia. }
  destruct (H n ltac:(lia) Hk) as (i & Hi & Hr). cbn [row_start] in Hr.
  exists i, (i + 1 + (k - row_start n i)).
  assert (i + 1 + (k - row_start n i) < n) by lia. split_and!; [lia|done|].
  rewrite edge_position_row by lia. lia.
Qed.

Theorem complete_graph_any_schedule n visit :
  visit ≡ₚ upper_pairs n ->
  exists edges, complete_graph_visit n visit = Ok edges /\
    length edges = (n - 1) * n / 2 /\
    (forall i j, i < j -> j < n -> edges !! edge_position n i j = Some (Some (i, j))) /\
    (forall k, k < length edges -> exists i j, i < j /\ j < n /\ edges !! k = Some (Some (i, j)) /\
        forall k' , edges !! k' = Some (Some (i, j)) -> k' = k).
Proof.
  intros Hperm. unfold complete_graph_visit. set (N := (n - 1) * n / 2).
  set (P := fun (dn : list (nat * nat)) (edges : list (option (nat * nat))) => length edges = N /\
     (forall i j, (i, j) ∈ dn -> edges !! edge_position n i j = Some (Some (i, j)))).
  assert (forall p, p ∈ visit -> fst p < snd p /\ snd p < n) as Hv.
  { intros [i j]. rewrite Hperm, elem_of_upper_pairs. done. }
  match goal with |- exists e, mfor _ ?b _ = _ /\ _ => destruct (mfor_inv P visit b (replicate N None)) as (edges & Hok & Hlen & HP) end.
  - split; [apply replicate_length|]. intros i j Hin. by apply elem_of_nil in Hin.
  - intros dn [i j] rest s Hl [Hls HPs].
    assert (forall i' j', (i', j') ∈ dn ++ [(i, j)] -> i' < j' /\ j' < n) as Hb.
    { intros i' j' Hin. apply (Hv (i', j')). rewrite Hl. apply elem_of_app in Hin as [?|Hin%elem_of_list_singleton].
      - apply elem_of_app; by left.
      - rewrite Hin. apply elem_of_app; right; left. }
    destruct (Hb i j) as [Hij Hj]; [apply elem_of_app; right; left|]. cbn [fst snd].
    rewrite vset_ok by (rewrite Hls; by apply edge_position_bound).
    eexists; split; [done|]. split; [by rewrite insert_length|].
    intros i' j' Hin. pose proof (Hb _ _ Hin) as [Hij' Hj'].
    destruct (decide ((i', j') = (i, j))) as [[= -> ->]|Hne].
    + apply list_lookup_insert. rewrite Hls. by apply edge_position_bound.
    + rewrite list_lookup_insert_ne.
      * apply HPs. apply elem_of_app in Hin as [?|Hin%elem_of_list_singleton]; done.
      * intros E. apply Hne. apply edge_position_inj in E as [-> ->]; done.
  - exists edges.
    assert (forall i j, i < j -> j < n -> edges !! edge_position n i j = Some (Some (i, j))) as Hall.
    { intros i j H1 H2. apply HP. rewrite Hperm. by apply elem_of_upper_pairs. }
    split_and!; try done. intros k Hk. rewrite Hlen in Hk.
    destruct (edge_position_surj n k Hk) as (i & j & H1 & H2 & <-). exists i, j. split_and!; try done; [by apply Hall|].
    intros k' Hk'. pose proof (lookup_lt_Some _ _ _ Hk') as Hlt. rewrite Hlen in Hlt.
    destruct (edge_position_surj n k' Hlt) as (i' & j' & H1' & H2' & <-).
    rewrite Hall in Hk' by done. injection Hk' as -> ->. done.
Qed.
Theorem complete_graph_schedule_independent n v1 v2 :
  v1 ≡ₚ upper_pairs n -> v2 ≡ₚ upper_pairs n -> complete_graph_visit n v1 = complete_graph_visit n v2.
Proof.
  intros H1 H2. destruct (complete_graph_any_schedule n v1 H1) as (e1 & -> & L1 & P1 & Q1).
  destruct (complete_graph_any_schedule n v2 H2) as (e2 & -> & L2 & P2 & Q2). f_equal.
  apply list_eq. intros k. destruct (decide (k < length e1)) as [Hk|Hk].
  - rewrite L1 in Hk. destruct (edge_position_surj n k Hk) as (i & j & Hi & Hj & <-). by rewrite P1, P2.
  - rewrite !lookup_ge_None_2; [done|lia|lia].
Qed.

(** ** Data layout *)
Theorem column_major_spec nv ni (rows : list (list Z)) :
  length rows = ni -> (forall r, r ∈ rows -> length r = nv) ->
  exists cols, column_major nv ni rows = Ok cols /\ length cols = nv /\
    (forall c, c ∈ cols -> length c = ni) /\
    forall i j, i < nv -> j < ni -> exists c r x, cols !! i = Some c /\ rows !! j = Some r /\
      c !! j = Some x /\ r !! i = Some x.
Proof.
  intros Hlen Hr. unfold column_major.
  set (g := fun i j => default 0%Z (r ← rows !! j; r !! i)).
  rewrite (mcollect_ok _ _ (fun i => g i <$> seq 0 ni)).
  - eexists; split; [done|]. split_and!.
    + by rewrite fmap_length, seq_length.
    + intros c Hc. apply elem_of_list_fmap in Hc as (i & -> & _). by rewrite fmap_length, seq_length.
    + intros i j Hi Hj. destruct (lookup_lt_is_Some_2 rows j) as [r Hrj]; [lia|].
      destruct (lookup_lt_is_Some_2 r i) as [x Hx].
      { rewrite (Hr r); [done|]. by eapply elem_of_list_lookup_2. }
      exists (g i <$> seq 0 ni), r, x. split_and!; try done.
      * by rewrite list_lookup_fmap, lookup_seq_lt.
      * rewrite list_lookup_fmap, lookup_seq_lt by done. cbn. unfold g. by rewrite Hrj; cbn; rewrite Hx.
  - intros i Hi. apply elem_of_seq in Hi. apply mcollect_ok. intros j Hj. apply elem_of_seq in Hj.
    destruct (lookup_lt_is_Some_2 rows j) as [r Hrj]; [lia|].
    destruct (lookup_lt_is_Some_2 r i) as [x Hx].
    { rewrite (Hr r); [lia|]. by eapply elem_of_list_lookup_2. }
    rewrite (vget_ok _ _ _ Hrj). cbn [mbind outcome_bind]. rewrite (vget_ok _ _ _ Hx).
    unfold g. rewrite Hrj. cbn. by rewrite Hx.
Qed.

Theorem dense_row_spec nv (row : list (nat * Z)) :
  NoDup (fst <$> row) -> (forall vv, vv ∈ row -> fst vv < nv) ->
  exists r, dense_row nv row = Ok r /\ length r = nv /\
    (forall v x, (v, x) ∈ row -> r !! v = Some x) /\
    (forall v, v < nv -> v ∉ fst <$> row -> r !! v = Some 0%Z).
Proof.
  intros Hnd Hb. unfold dense_row.
  set (P := fun (dn : list (nat * Z)) (r : list Z) => length r = nv /\
     (forall v x, (v, x) ∈ dn -> r !! v = Some x) /\
     (forall v, v < nv -> v ∉ fst <$> dn -> r !! v = Some 0%Z)).
  match goal with |- exists e, mfor _ ?b _ = _ /\ _ => destruct (mfor_inv P row b (replicate nv 0%Z)) as (r & Hok & HP) end.
  - split_and!; [apply replicate_length| |].
    + intros v x Hin. by apply elem_of_nil in Hin.
    + intros v Hv _. by apply lookup_replicate_2.
  - intros dn [v x] rest s Hl (H1 & H2 & H3). cbn [fst snd].
    assert (v < nv) as Hv. { apply (Hb (v, x)). rewrite Hl. apply elem_of_app; right; left. }
    rewrite vset_ok by lia. eexists; split; [done|]. rewrite Hl in Hnd.
    rewrite fmap_app in Hnd. apply NoDup_app in Hnd as (_ & Hdisj & _).
    split_and!; [by rewrite insert_length| |].
    + intros v' x' [Hin|Hin%elem_of_list_singleton]%elem_of_app.
      * rewrite list_lookup_insert_ne; [by apply H2|]. intros ->.
        apply (Hdisj v'); [apply elem_of_list_fmap; by exists (v', x')|]. cbn. left.
      * injection Hin as -> ->. apply list_lookup_insert. lia.
    + intros v' Hv' Hni. rewrite fmap_app in Hni. apply not_elem_of_app in Hni as [Hni Hne].
      cbn in Hne. rewrite list_lookup_insert_ne; [by apply H3|]. intros ->. apply Hne. left.
  - exists r. split; [done|]. apply HP.
Qed.

(** ** Corollaries in the form of the property list *)
From Verif Require Export ChoiceProofs StringProofs.

Lemma choice_combs_meaning a b :
  (forall c, c ∈ combs a 0 b <-> length c = b /\ StronglySorted lt c /\ Forall (fun x => x < a) c) /\
  NoDup (combs a 0 b) /\ StronglySorted lex_lt (combs a 0 b).
Proof.
  split_and!; [|apply combs_NoDup|apply combs_lex_sorted].
  intros c. rewrite elem_of_combs. split; intros (? & ? & H); split_and!; try done; (eapply Forall_impl; [exact H|]); cbn; lia.
Qed.

Lemma nary_count_exactly_once r0 rest :
  Forall (fun d => 0 < d) (r0 :: rest) ->
  exists cs, nary_count (r0 :: rest) = Ok cs /\ NoDup cs /\ forall c, c ∈ cs <-> in_range (r0 :: rest) c.
Proof.
  intros Hpos. rewrite nary_count_spec by done. eexists; split; [done|].
  assert (forall c, in_range (r0 :: reverse rest) c -> exists c0 cs, c = c0 :: cs) as Hshape.
  { intros c Hc. destruct c as [|c0 cs]; [inversion Hc|eauto]. }
  split.
  - apply NoDup_fmap_2_strong; [|apply NoDup_configs].
    intros c c' Hc Hc'. apply elem_of_configs, Hshape in Hc as (? & ? & ->). apply elem_of_configs, Hshape in Hc' as (? & ? & ->).
    intros [= -> E]. f_equal. by apply (inj reverse).
  - intros c. rewrite elem_of_list_fmap. split.
    + intros (c' & -> & Hc'). apply elem_of_configs in Hc'. destruct (Hshape _ Hc') as (c0 & cs & ->).
      inversion Hc'; subst. constructor; [done|]. rewrite <-(reverse_involutive rest). unfold in_range in *. by apply Forall2_reverse.
    + intros Hc. destruct c as [|c0 cs]; [inversion Hc|]. inversion Hc; subst. exists (c0 :: reverse cs).
      rewrite reverse_involutive. split; [done|]. apply elem_of_configs. constructor; [done|]. by apply Forall2_reverse.
Qed.

(** Trimming text without bytes above 127. *)
Lemma trim_ascii s :
  Forall (fun c => (0 <= c)%Z) s ->
  exists w1 r w2, trim s = Ok r /\ s = w1 ++ r ++ w2 /\
    Forall (fun c => (0 <= c < 33)%Z) w1 /\ Forall (fun c => (0 <= c < 33)%Z) w2 /\
    (forall c, head r = Some c -> ~ (0 <= c < 33)%Z) /\ (forall c, last r = Some c -> ~ (0 <= c < 33)%Z) /\ trim r = Ok r.
Proof.
  intros Hs. destruct (trim_spec s) as (w1 & r & w2 & H & -> & Hw1 & Hw2 & Hh & Hl). exists w1, r, w2.
  apply Forall_app in Hs as [Hs1 Hs]. apply Forall_app in Hs as [_ Hs2].
  split_and!; try done.
  - apply Forall_forall. intros c Hc. rewrite Forall_forall in Hw1, Hs1. split; [by apply Hs1|by apply Hw1].
  - apply Forall_forall. intros c Hc. rewrite Forall_forall in Hw2, Hs2. split; [by apply Hs2|by apply Hw2].
  - intros c Hc. apply Hh in Hc. lia.
  - intros c Hc. apply Hl in Hc. lia.
  - destruct (trim_idempotent (w1 ++ r ++ w2)) as (r' & Hr' & Hr''). by rewrite H in Hr'; injection Hr' as <-.
Qed.
Lemma trim_right_ascii s :
  Forall (fun c => (0 <= c)%Z) s ->
  exists r w, trim_right s = Ok r /\ s = r ++ w /\ Forall (fun c => (0 <= c < 33)%Z) w /\
    (forall c, last r = Some c -> ~ (0 <= c < 33)%Z) /\ trim_right r = Ok r.
Proof.
  intros Hs. destruct (trim_right_spec s) as (r & w & H & -> & Hw & Hl). exists r, w.
  apply Forall_app in Hs as [_ Hs]. split_and!; try done.
  - apply Forall_forall. intros c Hc. rewrite Forall_forall in Hw, Hs. split; [by apply Hs|by apply Hw].
  - intros c Hc. apply Hl in Hc. lia.
  - by apply trim_right_fix.
Qed.
Lemma trim_left_ascii s :
  Forall (fun c => (0 <= c)%Z) s ->
  exists r w, trim_left s = Ok r /\ s = w ++ r /\ Forall (fun c => (0 <= c < 33)%Z) w /\
    (forall c, head r = Some c -> ~ (0 <= c < 33)%Z) /\ trim_left r = Ok r.
Proof.
  intros Hs. destruct (trim_left_spec s) as (r & w & H & -> & Hw & Hl). exists r, w.
  apply Forall_app in Hs as [Hs _]. split_and!; try done.
  - apply Forall_forall. intros c Hc. rewrite Forall_forall in Hw, Hs. split; [by apply Hs|by apply Hw].
  - intros c Hc. apply Hl in Hc. lia.
  - by apply trim_left_fix.
Qed.
(** "été" in UTF-8 (bytes c3 a9 74 c3 a9 as signed chars) loses its accented letters. *)
Lemma trim_non_ascii_counterexample :
  exists s r c, trim s = Ok r /\ c ∈ s /\ ~ (0 <= c < 33)%Z /\ c ∉ r.
Proof.
  exists [(-61)%Z; (-87)%Z; 116%Z; (-61)%Z; (-87)%Z], [116%Z], (-61)%Z.
  split_and!; [done|left|lia|]. apply not_elem_of_cons. split; [done|]. apply not_elem_of_nil.
Qed.
Lemma accuracy_empty preds : accuracy [] preds = Err DivZero.
Proof. done. Qed.
Lemma dense_then_transpose nv (rows : list (list (nat * Z))) :
  (forall row, row ∈ rows -> NoDup (fst <$> row) /\ forall vv, vv ∈ row -> fst vv < nv) ->
  exists dense cols, dense_rows nv (length rows) rows = Ok dense /\ column_major nv (length rows) dense = Ok cols /\
    forall i j row, i < nv -> rows !! j = Some row -> exists c x, cols !! i = Some c /\ c !! j = Some x /\
      ((i, x) ∈ row \/ (i ∉ fst <$> row /\ x = 0%Z)).
Proof.
  intros Hrows. set (g := fun j => match rows !! j with Some row => match dense_row nv row with Ok r => r | Err _ => [] end | None => [] end).
  exists (g <$> seq 0 (length rows)).
  assert (forall j row, rows !! j = Some row -> dense_row nv row = Ok (g j)) as Hg.
  { intros j row Hj. unfold g. rewrite Hj. destruct (Hrows row) as [H1 H2]; [by eapply elem_of_list_lookup_2|].
    destruct (dense_row_spec nv row H1 H2) as (r & -> & _). done. }
  assert (forall j row, rows !! j = Some row -> length (g j) = nv) as Hglen.
  { intros j row Hj. destruct (Hrows row) as [H1 H2]; [by eapply elem_of_list_lookup_2|].
    destruct (dense_row_spec nv row H1 H2) as (r & Hr & Hlen & _). rewrite (Hg _ _ Hj) in Hr. by injection Hr as ->. }
  destruct (column_major_spec nv (length rows) (g <$> seq 0 (length rows))) as (cols & Hc & Hcl & Hcn & Hcv).
  { by rewrite fmap_length, seq_length. }
  { intros r Hr. apply elem_of_list_fmap in Hr as (j & -> & Hj). apply elem_of_seq in Hj.
    destruct (lookup_lt_is_Some_2 rows j) as [row Hj']; [lia|]. by eapply Hglen. }
  exists cols. split_and!; try done.
  - apply mcollect_ok. intros j Hj. apply elem_of_seq in Hj. destruct (lookup_lt_is_Some_2 rows j) as [row Hj']; [lia|].
    rewrite (vget_ok _ _ _ Hj'). cbn [mbind outcome_bind]. by apply Hg.
  - intros i j row Hi Hj. destruct (Hcv i j Hi) as (c & r & x & H1 & H2 & H3 & H4); [by eapply lookup_lt_Some|].
    exists c, x. split_and!; try done.
    rewrite list_lookup_fmap, lookup_seq_lt in H2 by (by eapply lookup_lt_Some). injection H2 as <-. cbn [Nat.add] in H4.
    destruct (Hrows row) as [Hn Hb]; [by eapply elem_of_list_lookup_2|].
    destruct (dense_row_spec nv row Hn Hb) as (r & Hr & Hlen & Hs1 & Hs2). rewrite (Hg _ _ Hj) in Hr. injection Hr as <-.
    destruct (decide (i ∈ fst <$> row)) as [Hin|Hni].
    + left. apply elem_of_list_fmap in Hin as ([i' x'] & -> & Hin). cbn [fst] in *. rewrite (Hs1 _ _ Hin) in H4. by injection H4 as ->.
    + right. split; [done|]. rewrite (Hs2 _ Hi Hni) in H4. by injection H4.
Qed.
