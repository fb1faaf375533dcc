(** Learned parameters maximise the likelihood. *)
From Coq Require Import Field QArith.
From Verif Require Import LikelihoodSpec SampleSpec NetProofs2 BuildProofs CountProofs RoundProofs Sums BeliefProofs GibbsProofs LearnProofs LearnTheorems TableProofs.
Local Open Scope nat_scope.

(** The same as [distributions], by nodes. *)
Definition parameters (N : network) (ts : list ptable) : Prop :=
  length ts = net_size N /\
  forall x nd, nt_nodes N !! x = Some nd -> exists t, ts !! x = Some t /\ TableSpec.wf (net_dom N) t /\ pt_vars t = x :: nd_parents nd /\
    forall a, valid (net_dom N) a -> (0 <= tval t a)%Qc /\ qsum (seq 0 (net_dom N x)) (fun y => tval t (upd a x y)) = 1%Qc.

(** ** Products over the slots of a table *)
Lemma qprod_swap {A B} (l1 : list A) (l2 : list B) (f : A -> B -> Qc) : qprod l1 (fun x => qprod l2 (f x)) = qprod l2 (fun y => qprod l1 (fun x => f x y)).
Proof. induction l1 as [|x l1 IH]; [by rewrite qprod_one|]. rewrite qprod_cons, IH, <-qprod_mul. apply qprod_ext. intros y _. by rewrite qprod_cons. Qed.
Lemma pow_count (g : nat -> Qc) (f : nat -> nat) (l : list nat) n : (forall j, j ∈ l -> f j < n) ->
  qprod l (fun j => g (f j)) = qprod (seq 0 n) (fun i => g i ^ length (filter (fun j => f j = i) l))%Qc.
Proof.
  induction l as [|j l IH]; intros H; [symmetry; apply qprod_one|]. rewrite qprod_cons, IH by (intros; apply H; by right).
  rewrite (qprod_ext _ (fun i => g i ^ length (filter (fun j0 => f j0 = i) (j :: l)))%Qc (fun i => ((if decide (i = f j) then g i else 1) * g i ^ length (filter (fun j0 => f j0 = i) l))%Qc)).
  - rewrite qprod_mul. f_equal. specialize (H j ltac:(left)). symmetry. clear IH l. replace n with (f j + S (n - S (f j))) by lia. rewrite seq_app, qprod_app. cbn [seq]. rewrite qprod_cons. cbn [Nat.add]. rewrite decide_True by done.
    rewrite (qprod_ext (seq 0 (f j)) _ (fun _ => 1%Qc)), qprod_one by (intros i Hi; apply elem_of_seq in Hi; by rewrite decide_False by lia).
    rewrite (qprod_ext (seq (S (f j)) _) _ (fun _ => 1%Qc)), qprod_one by (intros i Hi; apply elem_of_seq in Hi; by rewrite decide_False by lia). ring.
  - intros i _. rewrite filter_cons. destruct (decide (f j = i)) as [<-|Hne]; [by rewrite decide_True by done|]. rewrite decide_False by done. ring.
Qed.
Lemma qprod_grid c d (G : nat -> Qc) : qprod (seq 0 (d * c)) G = qprod (seq 0 c) (fun k => qprod (seq 0 d) (fun y => G (y * c + k))).
Proof.
  rewrite qprod_swap. induction d as [|d IH]; [done|]. rewrite seq_S, qprod_app, qprod_cons, qprod_nil, <-IH. cbn [Nat.add].
  replace (S d * c) with (d * c + c) by lia. rewrite seq_app, qprod_app. f_equal. rewrite Qcmult_1_r. cbn [Nat.add]. rewrite <-(Nat.add_0_r (d * c)) at 1.
  rewrite <-fmap_add_seq, qprod_map. done.
Qed.
Lemma qprod_index {A} (l : list A) (f : A -> Qc) (g : nat -> Qc) : (forall i x, l !! i = Some x -> g i = f x) -> qprod l f = qprod (seq 0 (length l)) g.
Proof.
  revert g. induction l as [|x l IH]; intros g H; [done|]. cbn [length seq]. rewrite !qprod_cons, (H 0 x) by done. f_equal. rewrite <-fmap_S_seq, qprod_map. apply IH. intros i y Hy. by apply (H (S i)).
Qed.
Lemma qpow_plus (x : Qc) j k : (x ^ (j + k) = x ^ j * x ^ k)%Qc.
Proof. induction j as [|j IH]; [by rewrite Qcmult_1_l|]. cbn [Nat.add Qcpower]. rewrite IH. ring. Qed.

(** The contribution of one table. *)
Definition weight (D : columns) (k : nat) (t : ptable) : Qc := (qprod (seq 0 (co_rows D)) (fun j => tval t (data_row D j)) * qprod (pt_pots t) (fun p => p ^ k))%Qc.
Lemma weights D k ts : (likelihood D ts * imagined k ts)%Qc = qprod ts (weight D k).
Proof. unfold likelihood, imagined, joint, weight. by rewrite qprod_swap, qprod_mul. Qed.

Section node.
Context (N : network) (HN : netinv N) (Hd : doms_positive N) (D : columns) (HD : complete N D) (Hsize : co_vars D = net_size N) (k : nat).
Notation dom := (net_dom N).
Set Default Proof Using "All".
Lemma data_entry v j : v < net_size N -> j < co_rows D -> exists y, entry (co_cols D) j v = Some y /\ y < dom v.
Proof.
  intros Hv Hj. destruct HD as (Hl & _ & Hc). destruct (lookup_lt_is_Some_2 (co_cols D) v) as [col Hcol]; [lia|]. destruct (Hc v col Hcol) as [Hlen Hall].
  destruct (lookup_lt_is_Some_2 col j) as [y Hy]; [lia|]. exists y. unfold entry. rewrite Hcol. cbn. split; [done|]. rewrite Forall_forall in Hall. apply Hall. by eapply elem_of_list_lookup_2.
Qed.
Lemma data_row_valid j : j < co_rows D -> valid dom (data_row D j).
Proof.
  intros Hj v. unfold data_row. destruct (decide (v < net_size N)) as [Hv|Hv]; [destruct (data_entry v j Hv Hj) as (y & -> & Hy); done|].
  unfold entry. rewrite lookup_ge_None_2; [cbn; by apply dpos|]. destruct HD as (Hl & _ & _). lia.
Qed.
Context (x : nat) (nd : node) (Hx : nt_nodes N !! x = Some nd).
Notation ps := (nd_parents nd).
Notation c := (prod_list (dom <$> ps)).
Notation d := (dom x).
Notation idx a := (lex_index (dom <$> x :: ps) (a <$> x :: ps)).
Lemma x_lt : x < net_size N.
Proof. by eapply lookup_lt_Some. Qed.
Lemma family_lt v : v ∈ x :: ps -> v < net_size N.
Proof. intros Hv. apply elem_of_cons in Hv as [->|Hv]; [apply x_lt|]. by eapply (parents_in N HN Hd). Qed.
Lemma x_not_parent : x ∉ ps.
Proof. intros Hp. by apply (parents_in N HN Hd x nd Hx) in Hp as (_ & ? & _). Qed.
(** How often a slot is met. *)
Definition met (i : nat) : nat := length (filter (fun j => idx (data_row D j) = i) (seq 0 (co_rows D))).
Definition slot (t : ptable) (i : nat) : Qc := default 0%Qc (pt_pots t !! i).
Lemma met_occurrences a : valid dom a -> met (idx a) = occurrences (co_cols D) (co_rows D) (x :: ps) a.
Proof.
  intros Ha. unfold met. apply (occurrences_lex dom); [by apply dpos|done|apply data_row_valid|]. intros j v Hj Hv. destruct (data_entry v j (family_lt v Hv) Hj) as (y & -> & _). by eexists.
Qed.
Context (t : ptable) (Hw : TableSpec.wf dom t) (Hv : pt_vars t = x :: ps).
Lemma size_grid : pt_size t = d * c /\ length (pt_pots t) = d * c.
Proof. rewrite (wf_size _ _ Hw), (wf_pots _ _ Hw), (wf_dims _ _ Hw), Hv, configs_length. done. Qed.
Lemma tval_slot a : tval t a = slot t (idx a).
Proof. unfold tval, slot. by rewrite (wf_dims _ _ Hw), Hv. Qed.
Lemma idx_lt a : valid dom a -> idx a < d * c.
Proof. intros Ha. change (d * c) with (prod_list (dom <$> x :: ps)). apply lex_index_lt. by apply (valid_in_range dom (dpos N HN Hd)). Qed.
Lemma idx_upd a y : valid dom a -> idx (upd a x y) = y * c + lex_index (dom <$> ps) (a <$> ps).
Proof.
  intros Ha. rewrite !fmap_cons. cbn [lex_index]. rewrite upd_same. do 2 f_equal. apply list_fmap_ext. intros i v Hiv. apply upd_other. intros ->. apply x_not_parent. by eapply elem_of_list_lookup_2.
Qed.
(** An assignment for each column. *)
Lemma column_asg i : i < c -> exists a, valid dom a /\ lex_index (dom <$> ps) (a <$> ps) = i.
Proof.
  intros Hi. destruct size_grid as [Hs _]. pose proof (dpos N HN Hd x) as Hdx. destruct (slot_asg dom (dpos N HN Hd) t i Hw) as (a & Ha & E & _); [nia|]. exists a. split; [done|].
  rewrite (wf_dims _ _ Hw), Hv, !fmap_cons in E. cbn [lex_index] in E. pose proof (lex_index_lt (dom <$> ps) (a <$> ps) ltac:(by apply (valid_in_range dom (dpos N HN Hd)))). destruct (a x); [lia|nia].
Qed.
Lemma weight_grid : weight D k t = qprod (seq 0 c) (fun i => qprod (seq 0 d) (fun y => slot t (y * c + i) ^ (met (y * c + i) + k)))%Qc.
Proof.
  unfold weight. rewrite (qprod_ext (seq 0 (co_rows D)) _ (fun j => slot t (idx (data_row D j)))) by (intros; apply tval_slot).
  rewrite (pow_count (slot t) (fun j => idx (data_row D j)) (seq 0 (co_rows D)) (d * c)) by (intros j Hj; apply elem_of_seq in Hj; apply idx_lt, data_row_valid; lia).
  rewrite (qprod_index (pt_pots t) _ (fun i => slot t i ^ k)%Qc) by (intros i p Hp; unfold slot; by rewrite Hp). rewrite (proj2 size_grid), <-qprod_mul, qprod_grid.
  apply qprod_ext. intros i _. apply qprod_ext. intros y _. symmetry. apply qpow_plus.
Qed.
(** The columns of a distribution. *)
Lemma column_sum i : i < c -> (forall a, valid dom a -> (0 <= tval t a)%Qc /\ qsum (seq 0 d) (fun y => tval t (upd a x y)) = 1%Qc) ->
  qsum (seq 0 d) (fun y => slot t (y * c + i)) = 1%Qc /\ forall y, y < d -> (0 <= slot t (y * c + i))%Qc.
Proof.
  intros Hi H. destruct (column_asg i Hi) as (a & Ha & <-). split.
  - rewrite <-(proj2 (H a Ha)). apply qsum_ext. intros y Hy. by rewrite tval_slot, idx_upd.
  - intros y Hy. rewrite <-idx_upd, <-tval_slot by done. apply H. by apply valid_upd.
Qed.
(** The columns of a learned table. *)
Lemma column_total a i : valid dom a -> lex_index (dom <$> ps) (a <$> ps) = i ->
  (forall z, z < d -> met (z * c + i) = occurrences (co_cols D) (co_rows D) (x :: ps) (upd a x z)) /\
  sum_list_with (fun y => met (y * c + i) + k) (seq 0 d) = occurrences (co_cols D) (co_rows D) ps a + k * d.
Proof.
  intros Ha Ei.
  assert (forall z, z < d -> met (z * c + i) = occurrences (co_cols D) (co_rows D) (x :: ps) (upd a x z)) as Hm.
  { intros z Hz. rewrite <-Ei, <-idx_upd by done. apply met_occurrences. by apply valid_upd. }
  split; [done|]. rewrite <-(occurrences_sum _ _ ps a x d x_not_parent) by (intros j Hj; apply data_entry; [apply x_lt|done]).
  replace (k * d) with (k * length (seq 0 d)) by (by rewrite seq_length). assert (forall z, z ∈ seq 0 d -> z < d) as Hin by (intros z Hz; apply elem_of_seq in Hz; lia). revert Hin. clear -Hm. induction (seq 0 d) as [|z l IH]; intros Hin; [cbn; lia|].
  cbn [sum_list_with length]. rewrite IH, (Hm z) by (intros; apply Hin; set_solver). lia.
Qed.
Lemma column_learned i : i < c -> (forall a, valid dom a -> tval t a = smoothed N (co_cols D) (co_rows D) (Z.of_nat k) x ps a) ->
  forall y, y < d -> slot t (y * c + i) = (qn (met (y * c + i) + k) / qn (sum_list_with (fun y => met (y * c + i) + k)%nat (seq 0 d)))%Qc.
Proof.
  intros Hi H y Hy. destruct (column_asg i Hi) as (a & Ha & Ei). destruct (column_total a i Ha Ei) as [Hm ->].
  rewrite <-Ei at 1. rewrite <-idx_upd, <-tval_slot, H by (try done; by apply valid_upd). unfold smoothed.
  rewrite <-Hm by done. f_equal; [unfold qn; rewrite Nat2Z.inj_add, qz_add; done|].
  rewrite occurrences_upd by apply x_not_parent. unfold qn. rewrite Nat2Z.inj_add, Nat2Z.inj_mul, qz_add, qz_mul. done.
Qed.
End node.

Section best.
Context (N : network) (HN : netinv N) (Hd : doms_positive N) (D : columns) (HD : complete N D) (Hsize : co_vars D = net_size N) (k : nat).
Notation dom := (net_dom N).
Set Default Proof Using "All".
Lemma node_best x nd t q : nt_nodes N !! x = Some nd -> is_cpt N x (nd_parents nd) (smoothed N (co_cols D) (co_rows D) (Z.of_nat k) x (nd_parents nd)) t ->
  (forall a, valid dom a -> occurrences (co_cols D) (co_rows D) (nd_parents nd) a + k * dom x <> 0) ->
  TableSpec.wf dom q -> pt_vars q = x :: nd_parents nd -> (forall a, valid dom a -> (0 <= tval q a)%Qc /\ qsum (seq 0 (dom x)) (fun y => tval q (upd a x y)) = 1%Qc) ->
  (0 <= weight D k q)%Qc /\ (weight D k q <= weight D k t)%Qc /\ (0 < weight D k t)%Qc /\ (weight D k q = weight D k t -> forall a, valid dom a -> tval q a = tval t a).
Proof.
  intros Hx (Hw & Hv & Ht) Hden Hwq Hvq Hq.
  rewrite (weight_grid N HN Hd D HD Hsize k x nd Hx t Hw Hv), (weight_grid N HN Hd D HD Hsize k x nd Hx q Hwq Hvq).
  set (c := prod_list (dom <$> nd_parents nd)). set (G := fun t i => qprod (seq 0 (dom x)) (fun y => slot t (y * c + i) ^ (met N D x nd (y * c + i) + k))%Qc).
  change (0 <= qprod (seq 0 c) (G q) /\ qprod (seq 0 c) (G q) <= qprod (seq 0 c) (G t) /\ 0 < qprod (seq 0 c) (G t) /\ (qprod (seq 0 c) (G q) = qprod (seq 0 c) (G t) -> forall a, valid dom a -> tval q a = tval t a))%Qc.
  assert (forall i, i < c -> (0 <= G q i)%Qc /\ (G q i <= G t i)%Qc /\ (0 < G t i)%Qc /\ (G q i = G t i -> forall y, y < dom x -> slot q (y * c + i) = slot t (y * c + i))) as Hcol.
  { intros i Hi. destruct (column_sum N HN Hd D HD Hsize k x nd Hx q Hwq Hvq i Hi Hq) as [Hs Hn]. pose proof (column_learned N HN Hd D HD Hsize k x nd Hx t Hw Hv i Hi Ht) as HL. fold c in Hs, Hn, HL.
    set (w := fun y => met N D x nd (y * c + i) + k) in *.
    assert (0 < sum_list_with w (seq 0 (dom x))) as HW.
    { destruct (column_asg N HN Hd D HD Hsize k x nd Hx t Hw Hv i Hi) as (a & Ha & Ei). destruct (column_total N HN Hd D HD Hsize k x nd Hx t Hw Hv a i Ha Ei) as [_ E]. fold c in E. unfold w. rewrite E. specialize (Hden a Ha). lia. }
    assert (forall y, y ∈ seq 0 (dom x) -> y < dom x) as Hin by (intros y Hy; apply elem_of_seq in Hy; lia).
    assert (G t i = qprod (seq 0 (dom x)) (fun y => (qn (w y) / qn (sum_list_with w (seq 0 (dom x)))) ^ w y)%Qc) as EG by (apply qprod_ext; intros y Hy; rewrite HL by (by apply Hin); done).
    destruct (gibbs (seq 0 (dom x)) w (fun y => slot q (y * c + i)) HW (fun y Hy => Hn y (Hin y Hy)) Hs) as [B1 B2]. rewrite EG. split_and!.
    - apply qprod_nonneg. intros y Hy. apply qpow_nn, Hn, Hin, Hy.
    - exact B1.
    - exact (freq_pos (seq 0 (dom x)) w HW).
    - intros E y Hy. rewrite HL by done. apply B2; [exact E|]. apply elem_of_seq. lia. }
  assert (forall i, i ∈ seq 0 c -> i < c) as Hin by (intros i Hi; apply elem_of_seq in Hi; lia).
  destruct (qprod_compare (seq 0 c) (G q) (G t)) as [C1 C2]; [intros i Hi; destruct (Hcol i (Hin i Hi)) as (? & ? & ? & _); done|]. split_and!.
  - apply qprod_nonneg. intros i Hi. by apply Hcol, Hin.
  - exact C1.
  - apply qprod_pos. intros i Hi. by apply Hcol, Hin.
  - intros E a Ha. rewrite (tval_slot N HN Hd D HD Hsize k x nd Hx q Hwq Hvq), (tval_slot N HN Hd D HD Hsize k x nd Hx t Hw Hv). rewrite !fmap_cons. cbn [lex_index]. fold c.
    assert (lex_index (dom <$> nd_parents nd) (a <$> nd_parents nd) < c) as Hi by (apply lex_index_lt; by apply (valid_in_range dom (dpos N HN Hd))).
    apply (Hcol _ Hi); [|apply Ha]. apply C2; [done|]. apply elem_of_seq. lia.
Qed.
(** What learning returns. *)
Lemma learned_cpts coin ts : learn_params N D (Z.of_nat k) coin [] = Ok ts -> length ts = net_size N /\
  forall x nd, nt_nodes N !! x = Some nd -> exists t, ts !! x = Some t /\ is_cpt N x (nd_parents nd) (smoothed N (co_cols D) (co_rows D) (Z.of_nat k) x (nd_parents nd)) t /\
    forall a, valid dom a -> occurrences (co_cols D) (co_rows D) (nd_parents nd) a + k * dom x <> 0.
Proof.
  intros Hts. destruct (decide (k = 0)) as [->|Hk].
  - destruct (learn_params_zero N HN Hd D HD 0 Hsize coin eq_refl) as [H1 H2].
    assert (forall x nd a, nt_nodes N !! x = Some nd -> valid dom a -> occurrences (co_cols D) (co_rows D) (nd_parents nd) a <> 0) as Ho.
    { intros x nd a Hx Ha E. change (Z.of_nat 0) with 0%Z in Hts. rewrite H2 in Hts; [done|]. by exists x, nd, a. }
    destruct (H1 Ho) as (ts' & Hts' & Hl & Hall). change (Z.of_nat 0) with 0%Z in *. assert (ts' = ts) as -> by congruence. split; [done|]. intros x nd Hx. destruct (Hall x nd Hx) as (t & Ht & HC). exists t. split_and!; [done|done|]. intros a Ha. specialize (Ho x nd a Hx Ha). lia.
  - destruct (learn_params_plain N HN Hd D HD (Z.of_nat k) Hsize ltac:(lia) coin) as (ts' & Hts' & Hl & Hall). assert (ts' = ts) as -> by congruence. split; [done|]. intros x nd Hx. destruct (Hall x nd Hx) as (t & Ht & [HC _]). exists t. split_and!; [done|done|]. intros a _. pose proof (dpos N HN Hd x). nia.
Qed.
End best.

Lemma learned_best N : netinv N -> doms_positive N -> forall D, complete N D -> co_vars D = net_size N -> forall k coin ts, learn_params N D (Z.of_nat k) coin [] = Ok ts ->
  parameters N ts /\ (0 < likelihood D ts * imagined k ts)%Qc /\ forall qs, parameters N qs ->
  (likelihood D qs * imagined k qs <= likelihood D ts * imagined k ts)%Qc /\
  ((likelihood D qs * imagined k qs)%Qc = (likelihood D ts * imagined k ts)%Qc -> forall x q t a, qs !! x = Some q -> ts !! x = Some t -> valid (net_dom N) a -> tval q a = tval t a).
Proof.
  intros HN Hd D HD Hs k coin ts Hts. destruct (learned_cpts N HN Hd D HD Hs k coin ts Hts) as [Hl Hall].
  assert (forall x t, ts !! x = Some t -> exists nd, nt_nodes N !! x = Some nd /\ is_cpt N x (nd_parents nd) (smoothed N (co_cols D) (co_rows D) (Z.of_nat k) x (nd_parents nd)) t /\
    forall a, valid (net_dom N) a -> occurrences (co_cols D) (co_rows D) (nd_parents nd) a + k * net_dom N x <> 0) as Hinv.
  { intros x t Ht. destruct (lookup_lt_is_Some_2 (nt_nodes N) x) as [nd Hnd]; [apply lookup_lt_Some in Ht; unfold net_size in *; lia|]. exists nd. destruct (Hall x nd Hnd) as (t' & Ht' & HC). by replace t with t' by congruence. }
  assert (parameters N ts) as Hpar.
  { split; [done|]. intros x nd Hx. destruct (Hall x nd Hx) as (t & Ht & HC & Hden). exists t. destruct HC as (Hw & Hv & Hval). split_and!; [done|done|done|]. intros a Ha. split.
    - rewrite Hval by done. unfold smoothed, Qcdiv. apply Qcmul_nn; [|apply Qc_inv_nn]; apply Qc_le_add_nonneg; try apply qn_nonneg. apply Qcmul_nn; apply qn_nonneg.
    - pose proof (column_total N HN Hd D HD Hs k x nd Hx t Hw Hv a _ Ha eq_refl) as [Hm E].
      rewrite (qsum_ext _ _ (fun y => (qn (met N D x nd (y * prod_list (net_dom N <$> nd_parents nd) + lex_index (net_dom N <$> nd_parents nd) (a <$> nd_parents nd)) + k) / qn (occurrences (co_cols D) (co_rows D) (nd_parents nd) a + k * net_dom N x))%Qc)).
      + rewrite qsum_div, qsum_qn, E. unfold Qcdiv. apply Qcmult_inv_r. apply qn_ne. specialize (Hden a Ha). lia.
      + intros y Hy. apply elem_of_seq in Hy. rewrite <-E. rewrite (tval_slot N HN Hd D HD Hs k x nd Hx t Hw Hv), (idx_upd N HN Hd D HD Hs k x nd Hx t Hw Hv a y Ha).
        apply (column_learned N HN Hd D HD Hs k x nd Hx t Hw Hv); [|done|lia]. apply lex_index_lt. by apply (valid_in_range (net_dom N) (dpos N HN Hd)). }
  split; [done|]. rewrite weights.
  assert (forall x q t, ts !! x = Some t -> forall qs, parameters N qs -> qs !! x = Some q ->
    (0 <= weight D k q)%Qc /\ (weight D k q <= weight D k t)%Qc /\ (0 < weight D k t)%Qc /\ (weight D k q = weight D k t -> forall a, valid (net_dom N) a -> tval q a = tval t a)) as Hone.
  { intros x q t Ht qs [_ Hqs] Hq. destruct (Hinv x t Ht) as (nd & Hnd & HC & Hden). destruct (Hqs x nd Hnd) as (q' & Hq' & Hwq & Hvq & Hdist). replace q' with q in * by congruence. by apply (node_best N HN Hd D HD Hs k x nd t q). }
  assert (forall t, t ∈ ts -> (0 < weight D k t)%Qc) as Hpos. { intros t Ht. apply elem_of_list_lookup in Ht as [x Ht]. by apply (Hone x t t Ht ts Hpar Ht). }
  split; [by apply qprod_pos|]. intros qs Hqs. rewrite weights. pose proof (proj1 Hqs) as Hlq.
  assert (qprod qs (weight D k) = qprod (seq 0 (length ts)) (fun x => weight D k (default pt_default (qs !! x)))) as E1 by (rewrite Hl, <-Hlq; apply qprod_index; intros i q Hq; by rewrite Hq).
  assert (qprod ts (weight D k) = qprod (seq 0 (length ts)) (fun x => weight D k (default pt_default (ts !! x)))) as E2 by (apply qprod_index; intros i t Ht; by rewrite Ht).
  rewrite E1, E2. clear E1 E2.
  destruct (qprod_compare (seq 0 (length ts)) (fun x => weight D k (default pt_default (qs !! x))) (fun x => weight D k (default pt_default (ts !! x)))) as [C1 C2].
  - intros x Hx. apply elem_of_seq in Hx. destruct (lookup_lt_is_Some_2 ts x) as [t Ht]; [lia|]. destruct (lookup_lt_is_Some_2 qs x) as [q Hq]; [lia|]. rewrite Ht, Hq. cbn [default from_option id].
    destruct (Hone x q t Ht qs Hqs Hq) as (? & ? & ? & _). done.
  - split; [done|]. intros E x q t a Hq Ht Ha. apply (Hone x q t Ht qs Hqs Hq); [|done]. specialize (C2 E x). rewrite Ht, Hq in C2. cbn [default from_option id] in C2. apply C2. apply elem_of_seq. apply lookup_lt_Some in Ht. lia.
Qed.

(** ** The statements *)
Lemma parents_lookup N x nd : nt_nodes N !! x = Some nd -> parents_of N x = nd_parents nd.
Proof. intros H. unfold parents_of. by rewrite H. Qed.
Lemma distributions_parameters N ts : distributions N ts -> parameters N ts.
Proof.
  intros [Hl H]. split; [done|]. intros x nd Hx. destruct (lookup_lt_is_Some_2 ts x) as [t Ht]; [apply lookup_lt_Some in Hx; unfold net_size in Hl; lia|]. exists t. destruct (H x t Ht) as (Hw & Hv & Hn & Hsum). rewrite (parents_lookup N x nd Hx) in Hv.
  split_and!; [done|done|done|]. intros a Ha. split; [by apply Hn|by apply Hsum].
Qed.
Lemma parameters_distributions N ts : parameters N ts -> distributions N ts.
Proof.
  intros [Hl H]. split; [done|]. intros x t Ht. destruct (lookup_lt_is_Some_2 (nt_nodes N) x) as [nd Hx]; [apply lookup_lt_Some in Ht; unfold net_size in Hl; lia|]. destruct (H x nd Hx) as (t' & Ht' & Hw & Hv & Hd). replace t' with t in * by congruence.
  unfold distribution_of. rewrite (parents_lookup N x nd Hx). split_and!; [done|done| |]; intros a Ha; by apply Hd.
Qed.
Theorem learned_maximise N : netinv N -> doms_positive N -> forall D, complete N D -> co_vars D = net_size N -> forall k coin ts, learn_params N D (Z.of_nat k) coin [] = Ok ts ->
  distributions N ts /\ (0 < likelihood D ts * imagined k ts)%Qc /\ forall qs, distributions N qs ->
  (likelihood D qs * imagined k qs <= likelihood D ts * imagined k ts)%Qc /\
  ((likelihood D qs * imagined k qs)%Qc = (likelihood D ts * imagined k ts)%Qc -> forall x q t a, qs !! x = Some q -> ts !! x = Some t -> valid (net_dom N) a -> tval q a = tval t a).
Proof.
  intros HN Hd D HD Hs k coin ts Hts. destruct (learned_best N HN Hd D HD Hs k coin ts Hts) as (Hp & Hpos & Hb). split; [by apply parameters_distributions|]. split; [done|]. intros qs Hq. by apply Hb, distributions_parameters.
Qed.
Lemma imagined_none ts : imagined 0 ts = 1%Qc.
Proof. unfold imagined. rewrite <-(qprod_one ts). apply qprod_ext. intros t _. rewrite <-(qprod_one (pt_pots t)). apply qprod_ext. intros p _. reflexivity. Qed.
Theorem learned_likeliest N : netinv N -> doms_positive N -> forall D, complete N D -> co_vars D = net_size N -> forall coin ts, learn_params N D 0 coin [] = Ok ts ->
  distributions N ts /\ (0 < likelihood D ts)%Qc /\ forall qs, distributions N qs -> (likelihood D qs <= likelihood D ts)%Qc /\
  (likelihood D qs = likelihood D ts -> forall x q t a, qs !! x = Some q -> ts !! x = Some t -> valid (net_dom N) a -> tval q a = tval t a).
Proof.
  intros HN Hd D HD Hs coin ts Hts. destruct (learned_maximise N HN Hd D HD Hs 0 coin ts Hts) as (Hp & Hpos & Hb). rewrite imagined_none, Qcmult_1_r in Hpos. split; [done|]. split; [done|]. intros qs Hq. specialize (Hb qs Hq). by rewrite !imagined_none, !Qcmult_1_r in Hb.
Qed.
(** No parameters make complete data more than certain. *)
Lemma qsum_term {A} (l : list A) (f : A -> Qc) y : (forall z, z ∈ l -> (0 <= f z)%Qc) -> y ∈ l -> (f y <= qsum l f)%Qc.
Proof.
  induction l as [|z l IH]; intros Hn Hy; [by apply elem_of_nil in Hy|]. rewrite qsum_cons. apply elem_of_cons in Hy as [->|Hy].
  - rewrite <-(Qcplus_0_r (f z)) at 1. apply Qcplus_le_compat; [apply Qcle_refl|]. apply qsum_nonneg. intros w Hw. apply Hn. by right.
  - rewrite <-(Qcplus_0_l (f y)). apply Qcplus_le_compat; [apply Hn; by left|]. apply IH; [|done]. intros w Hw. apply Hn. by right.
Qed.
Lemma qprod_at_most_one {A} (l : list A) (f : A -> Qc) : (forall z, z ∈ l -> (0 <= f z)%Qc /\ (f z <= 1)%Qc) -> (0 <= qprod l f)%Qc /\ (qprod l f <= 1)%Qc.
Proof.
  induction l as [|z l IH]; intros H; [split; vm_compute; discriminate|]. rewrite qprod_cons. destruct IH as [I1 I2]; [intros w Hw; apply H; by right|]. destruct (H z ltac:(left)) as [J1 J2].
  split; [by apply Qcmul_nn|]. rewrite <-(Qcmult_1_l 1). apply Qcle_trans with (1 * qprod l f)%Qc; [by apply Qcmult_le_compat_r|]. by rewrite !Qcmult_1_l.
Qed.
Lemma likelihood_at_most_one N : netinv N -> doms_positive N -> forall D, complete N D -> co_vars D = net_size N -> forall qs, distributions N qs -> (likelihood D qs <= 1)%Qc.
Proof.
  intros HN Hd D HD Hs qs [Hl Hq]. apply qprod_at_most_one. intros j Hj. apply elem_of_seq in Hj. apply qprod_at_most_one. intros t Ht. apply elem_of_list_lookup in Ht as [x Ht]. destruct (Hq x t Ht) as (Hw & Hv & Hn & Hsum).
  assert (valid (net_dom N) (data_row D j)) as Hrow by (apply (data_row_valid N HN Hd D HD Hs 0); lia). split; [by apply Hn|]. rewrite <-(Hsum _ Hrow).
  rewrite (tval_dep t (data_row D j) (upd (data_row D j) x (data_row D j x))) by (intros v _; destruct (decide (v = x)) as [->|]; [by rewrite upd_same|by rewrite upd_other]). apply (qsum_term (seq 0 (net_dom N x)) (fun y => tval t (upd (data_row D j) x y))).
  - intros y Hy. apply elem_of_seq in Hy. apply Hn. apply valid_upd; [done|lia].
  - apply elem_of_seq. specialize (Hrow x). lia.
Qed.
