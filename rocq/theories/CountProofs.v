(** Counters of a node and the table built from them. *)
From Verif Require Import LearnModel LearnSpec TableProofs NetProofs2 StructProofs.
From Coq Require Import Field QArith.
Local Open Scope nat_scope.

(** ** Integers as rationals *)
Lemma qz_add a b : qz (a + b) = (qz a + qz b)%Qc.
Proof. apply Qc_is_canon. cbn. rewrite !Qred_correct, inject_Z_plus. reflexivity. Qed.
Lemma qz_mul a b : qz (a * b) = (qz a * qz b)%Qc.
Proof. apply Qc_is_canon. cbn. rewrite !Qred_correct, inject_Z_mult. reflexivity. Qed.
Lemma qz_le a b : (a <= b)%Z <-> (qz a <= qz b)%Qc.
Proof. unfold qz, Qcle. cbn. rewrite !Qred_correct. by rewrite Zle_Qle. Qed.
Lemma qz_lt a b : (a < b)%Z <-> (qz a < qz b)%Qc.
Proof. unfold qz, Qclt. cbn. rewrite !Qred_correct. by rewrite Zlt_Qlt. Qed.
Lemma qz_inj a b : qz a = qz b -> a = b.
Proof. intros H. apply Z.le_antisymm; apply qz_le; rewrite H; apply Qcle_refl. Qed.
Lemma qz_0 : qz 0 = 0%Qc. Proof. apply Qc_is_canon. reflexivity. Qed.
Lemma qz_1 : qz 1 = 1%Qc. Proof. apply Qc_is_canon. reflexivity. Qed.
Lemma qn_add a b : qn (a + b) = (qn a + qn b)%Qc.
Proof. unfold qn. by rewrite Nat2Z.inj_add, qz_add. Qed.
Lemma qn_S a : qn (S a) = (1 + qn a)%Qc.
Proof. change (S a) with (1 + a). rewrite qn_add. unfold qn at 1. change (Z.of_nat 1) with 1%Z. by rewrite qz_1. Qed.
Lemma qn_0 : qn 0 = 0%Qc. Proof. apply qz_0. Qed.
Lemma qn_nonneg a : (0 <= qn a)%Qc.
Proof. unfold qn. rewrite <-qz_0. apply (proj1 (qz_le 0 (Z.of_nat a))). lia. Qed.
Lemma qsum_const {A} (l : list A) (c : Qc) : qsum l (fun _ => c) = (c * qn (length l))%Qc.
Proof. induction l as [|x l IH]; cbn [length]; [rewrite qsum_nil, qn_0; ring|]. rewrite qsum_cons, IH, qn_S. ring. Qed.
Lemma qsum_div {A} (l : list A) (f : A -> Qc) (c : Qc) : qsum l (fun x => f x / c)%Qc = (qsum l f / c)%Qc.
Proof. unfold Qcdiv. apply qsum_scal_r. Qed.
Lemma qsum_qn {A} (l : list A) (f : A -> nat) : qsum l (fun x => qn (f x)) = qn (sum_list_with f l).
Proof. induction l as [|x l IH]; cbn [sum_list_with]; [by rewrite qsum_nil, qn_0|]. by rewrite qsum_cons, IH, qn_add. Qed.
Lemma Qc_div_pos (x y : Qc) : (0 < x)%Qc -> (0 < y)%Qc -> (0 < x / y)%Qc.
Proof.
  intros Hx Hy. apply Qcnot_le_lt. intros H. apply (Qclt_not_le _ _ Hx).
  replace x with (x / y * y)%Qc; [|field; intros ->; by apply Qclt_not_eq in Hy].
  rewrite <-(Qcmult_0_l y). apply Qcmult_le_compat_r; [done|]. by apply Qclt_le_weak.
Qed.
Lemma Qc_add_pos_r (x y : Qc) : (0 <= x)%Qc -> (0 < y)%Qc -> (0 < x + y)%Qc.
Proof. intros Hx Hy. apply Qclt_le_trans with (y := y); [done|]. rewrite <-(Qcplus_0_l y) at 1. apply Qcplus_le_compat; [done|apply Qcle_refl]. Qed.
Lemma Qc_pos_ne (x : Qc) : (0 < x)%Qc -> x <> 0%Qc.
Proof. intros H ->. by apply Qclt_not_eq in H. Qed.
Lemma qdiv_ok x y : y <> 0%Qc -> qdiv x y = Ok (x / y)%Qc.
Proof. intros H. unfold qdiv. by rewrite bool_decide_false. Qed.

(** ** Counters *)
Lemma read_insert {K} `{Countable K} (m : gmap K Z) k k' z : read (<[k := z]> m) k' = if bool_decide (k = k') then z else read m k'.
Proof. unfold read. destruct (decide (k = k')) as [<-|Hne]; [by rewrite bool_decide_true, lookup_insert|]. by rewrite bool_decide_false, lookup_insert_ne. Qed.
Lemma read_zeros {A K} `{Countable K} (f : A -> K) (l : list A) (m : gmap K Z) k : read m k = 0%Z -> read (foldl (fun m a => <[f a := 0%Z]> m) m l) k = 0%Z.
Proof. revert m. induction l as [|a l IH]; intros m Hm; [done|]. cbn. apply IH. rewrite read_insert. by case_bool_decide. Qed.
Definition zeroed (c : counters) : Prop := (forall k, read (ct_joint c) k = 0%Z) /\ forall u, read (ct_total c) u = 0%Z.
Lemma initialize_zeroed nd c : zeroed c -> zeroed (initialize_cpt nd c).
Proof.
  intros [H1 H2]. unfold initialize_cpt. split; cbn; [|intros u; by apply (read_zeros (fun u => u))].
  intros k. specialize (H1 k). clear H2. revert H1. generalize (ct_joint c). induction (if bool_decide (nd_parents nd = []) then [[]] else nd_combos nd) as [|u l IH]; intros m Hm; [done|].
  cbn. apply IH. by apply (read_zeros (fun i => (i, u))).
Qed.
Lemma sumz_cons {A} (x : A) l f : sumz (x :: l) f = (f x + sumz l f)%Z. Proof. done. Qed.
Lemma counted_cons e h x u : counted (e :: h) x u = ((if bool_decide (e.1 = (x, u)) then e.2 else 0) + counted h x u)%Z.
Proof.
  unfold counted. rewrite filter_cons. destruct e as [[y w] k]. cbn [fst snd].
  destruct (decide (y = x /\ w = u)) as [[-> ->]|Hn]; [rewrite bool_decide_true by done; by rewrite sumz_cons|]. rewrite bool_decide_false; [lia|]. intros [= -> ->]. by apply Hn.
Qed.
Lemma counted_under_cons e h u : counted_under (e :: h) u = ((if bool_decide (e.1.2 = u) then e.2 else 0) + counted_under h u)%Z.
Proof. unfold counted_under. rewrite filter_cons. destruct (decide (e.1.2 = u)); [rewrite bool_decide_true by done; by rewrite sumz_cons|]. by rewrite bool_decide_false. Qed.
Lemma add_counts_init nd h c : ct_init c = true ->
  (forall x u, read (ct_joint (add_counts nd h c)) (x, u) = (read (ct_joint c) (x, u) + counted h x u)%Z) /\
  (forall u, read (ct_total (add_counts nd h c)) u = (read (ct_total c) u + counted_under h u)%Z).
Proof.
  revert c. induction h as [|e h IH]; intros c Hi; [unfold counted, counted_under; cbn; split; intros; lia|].
  change (add_counts nd (e :: h) c) with (add_counts nd h (add_count nd e.1.1 e.1.2 e.2 c)).
  destruct (IH (add_count nd e.1.1 e.1.2 e.2 c)) as [I1 I2]; [unfold add_count; by rewrite Hi|]. split.
  - intros x u. rewrite I1, counted_cons. unfold add_count. rewrite Hi. cbn [ct_joint ct_total]. rewrite read_insert. rewrite <-surjective_pairing.
    destruct (decide (e.1 = (x, u))) as [->|Hn]; [rewrite bool_decide_true by done; lia|]. rewrite bool_decide_false by done. lia.
  - intros u. rewrite I2, counted_under_cons. unfold add_count. rewrite Hi. cbn [ct_joint ct_total]. rewrite read_insert.
    destruct (decide (e.1.2 = u)) as [->|Hn]; [rewrite bool_decide_true by done; lia|]. rewrite bool_decide_false by done. lia.
Qed.
Lemma add_counts_laplace nd h c : ct_laplace (add_counts nd h c) = ct_laplace c.
Proof. revert c. induction h as [|e h IH]; intros c; [done|]. cbn. fold (add_counts nd h (add_count nd e.1.1 e.1.2 e.2 c)). rewrite IH. unfold add_count. by destruct (ct_init c). Qed.
Lemma add_counts_read nd h a :
  (forall x u, read (ct_joint (add_counts nd h (set_laplace a new_counters))) (x, u) = counted h x u) /\
  (forall u, read (ct_total (add_counts nd h (set_laplace a new_counters))) u = counted_under h u).
Proof.
  set (c := set_laplace a new_counters). destruct h as [|e h]; [done|].
  assert (zeroed (initialize_cpt nd c)) as [Z1 Z2] by by apply initialize_zeroed.
  assert (add_counts nd (e :: h) c = add_counts nd (e :: h) (initialize_cpt nd c)) as -> by done.
  destruct (add_counts_init nd (e :: h) (initialize_cpt nd c) eq_refl) as [I1 I2]. split.
  - intros x u. rewrite I1, Z1. lia.
  - intros u. rewrite I2, Z2. lia.
Qed.
Lemma get_probability_counts nd h a x u : get_probability nd (add_counts nd h (set_laplace a new_counters)) x u =
  qdiv (qz (counted h x u) + a)%Qc (qz (counted_under h u) + a * qn (nd_dom nd))%Qc.
Proof. unfold get_probability. destruct (add_counts_read nd h a) as [-> ->]. by rewrite add_counts_laplace. Qed.

(** The sums over all values. *)
Lemma counted_sum r h u : Forall (fun e => e.1.1 < r) h -> qsum (seq 0 r) (fun x => qz (counted h x u)) = qz (counted_under h u).
Proof.
  induction 1 as [|e h He Hh IH].
  - unfold counted, counted_under. cbn. rewrite qsum_zero; [by rewrite qz_0|]. intros; apply qz_0.
  - rewrite counted_under_cons, qz_add, <-IH. rewrite (qsum_ext _ _ (fun x => qz (if bool_decide (e.1 = (x, u)) then e.2 else 0) + qz (counted h x u))%Qc) by (intros; by rewrite counted_cons, qz_add).
    rewrite qsum_add. f_equal. destruct (decide (e.1.2 = u)) as [<-|Hn].
    + rewrite bool_decide_true by done. rewrite (qsum_ext _ _ (fun x => if decide (x = e.1.1) then qz e.2 else 0%Qc)).
      * assert (forall n s, s <= e.1.1 < s + n -> qsum (seq s n) (fun x => if decide (x = e.1.1) then qz e.2 else 0%Qc) = qz e.2) as H; [|apply H; lia].
        induction n as [|n IHn]; intros s Hs; [lia|]. cbn [seq]. rewrite qsum_cons. destruct (decide (s = e.1.1)) as [->|Hne].
        -- rewrite qsum_zero; [ring|]. intros x Hx. apply elem_of_seq in Hx. by rewrite decide_False by lia.
        -- rewrite IHn by lia. ring.
      * intros x _. destruct (decide (x = e.1.1)) as [->|Hne]; [by rewrite bool_decide_true by by destruct e as [[? ?] ?]|]. rewrite bool_decide_false; [by rewrite qz_0|]. intros E. rewrite E in Hne. done.
    + rewrite bool_decide_false by done. rewrite qz_0. apply qsum_zero. intros x _. rewrite bool_decide_false; [by rewrite qz_0|]. intros E. by rewrite E in Hn.
Qed.

Section c39.
Context (nd : node) (a : Qc) (h : history).
Notation c := (add_counts nd h (set_laplace a new_counters)).
Notation den u := (qz (counted_under h u) + a * qn (nd_dom nd))%Qc.
Lemma counting x u : den u <> 0%Qc -> get_probability nd c x u = Ok ((qz (counted h x u) + a) / den u)%Qc.
Proof. intros H. rewrite get_probability_counts. by apply qdiv_ok. Qed.
Lemma counting_zero x u : den u = 0%Qc -> get_probability nd c x u = Err DivZero.
Proof. intros H. rewrite get_probability_counts. unfold qdiv. by rewrite bool_decide_true. Qed.
Lemma counting_sum u : Forall (fun e => e.1.1 < nd_dom nd) h -> den u <> 0%Qc ->
  exists p, (forall x, get_probability nd c x u = Ok (p x)) /\ qsum (seq 0 (nd_dom nd)) p = 1%Qc.
Proof.
  intros Hh H. exists (fun x => (qz (counted h x u) + a) / den u)%Qc. split; [intros x; by apply counting|].
  rewrite qsum_div, qsum_add, counted_sum by done. rewrite qsum_const, seq_length. field. done.
Qed.
Lemma counting_unseen x u : u ∉ (fun e => e.1.2) <$> h -> a <> 0%Qc -> nd_dom nd <> 0 -> get_probability nd c x u = Ok (1 / qn (nd_dom nd))%Qc.
Proof.
  intros Hu Ha Hd.
  assert (forall e, e ∈ h -> e.1.2 <> u) as Hne by (intros e He <-; apply Hu; by apply (elem_of_list_fmap_1 (fun e => e.1.2))).
  assert (counted h x u = 0%Z /\ counted_under h u = 0%Z) as [H1 H2].
  { clear -Hne. induction h as [|e h' IH]; [done|]. rewrite counted_cons, counted_under_cons. destruct IH as [-> ->]; [intros; apply Hne; by right|].
    specialize (Hne e ltac:(left)). rewrite !bool_decide_false; [done|done|]. intros E. by rewrite E in Hne. }
  assert (qn (nd_dom nd) <> 0%Qc) as Hr by (intros E; rewrite <-qz_0 in E; apply qz_inj in E; lia).
  rewrite counting; rewrite H2, qz_0; [rewrite H1, qz_0; f_equal; field; done|].
  intros E. rewrite Qcplus_0_l in E. apply Qcmult_integral in E as [?|?]; done.
Qed.
Lemma counting_positive x u : (0 < a)%Qc -> nd_dom nd <> 0 -> Forall (fun e => 0 <= e.2)%Z h -> exists p, get_probability nd c x u = Ok p /\ (0 < p)%Qc.
Proof.
  intros Ha Hd Hh.
  assert (0 <= counted h x u /\ 0 <= counted_under h u)%Z as [H1 H2].
  { induction Hh as [|e h' He _ IH]; [done|]. rewrite counted_cons, counted_under_cons. destruct IH. case_bool_decide; case_bool_decide; lia. }
  apply qz_le in H1, H2. rewrite qz_0 in H1, H2.
  assert (0 < den u)%Qc as Hp.
  { apply Qc_add_pos_r; [done|]. rewrite <-(Qcmult_0_l (qn (nd_dom nd))). apply Qcmult_lt_compat_r; [|done]. rewrite <-qz_0. apply (proj1 (qz_lt 0 _)). lia. }
  eexists. split; [apply counting; by apply Qc_pos_ne|]. apply Qc_div_pos; [|done]. by apply Qc_add_pos_r.
Qed.
End c39.
