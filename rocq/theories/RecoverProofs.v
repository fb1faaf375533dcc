(** Learning from data that look like draws from a network. *)
From Coq Require Import Field QArith Lqa.
From Verif Require Import RecoverSpec EssentialSpec NetProofs2 BuildProofs CountProofs QueryProofs Sums BeliefProofs LearnProofs LearnTheorems JTTheorems ShdTheorems SampleProofs GibbsProofs LikelihoodProofs CoverProofs EquivTheorems TableProofs2 TableProofs.
Local Open Scope nat_scope.

(** Linear arithmetic over [Qc]. *)
Lemma this_plus (x y : Qc) : (this (x + y)%Qc == this x + this y)%Q.
Proof. apply Qred_correct. Qed.
Lemma this_mult (x y : Qc) : (this (x * y)%Qc == this x * this y)%Q.
Proof. apply Qred_correct. Qed.
Lemma this_opp (x : Qc) : (this (- x)%Qc == - this x)%Q.
Proof. apply Qred_correct. Qed.
Lemma this_minus (x y : Qc) : (this (x - y)%Qc == this x - this y)%Q.
Proof. unfold Qcminus. rewrite this_plus, this_opp. reflexivity. Qed.
Ltac to_q := unfold Qcle, Qclt in *; repeat rewrite ?this_plus, ?this_mult, ?this_opp, ?this_minus in *; change (this 0%Qc) with 0%Q in *; change (this 1%Qc) with 1%Q in *.

(** ** The probability of a family *)
Lemma topo_exists N : netinv N -> exists topo, topological (has_directed N) (net_size N) topo.
Proof.
  intros HN. destruct (fresh_dag_dag N HN) as [_ [ord [HP HO]]]. exists ord. split; [done|]. intros i j x y Hi Hj Hxy. apply (HO i j x y Hi Hj). by apply arcs_of_spec.
Qed.
Section chance.
Context (N : network) (HN : netinv N) (Hd : doms_positive N) (ts : list ptable) (Hts : distributions N ts)
  (topo : list nat) (Htopo : topological (has_directed N) (net_size N) topo).
Notation dom := (net_dom N).
Notation n := (net_size N).
Let tab (v : nat) : ptable := default pt_default (ts !! v).
Let G (P : list nat) (b : asg) : Qc := qprod P (fun v => tval (tab v) b).
Set Default Proof Using "All".
Lemma one_uniform : uniform (fun _ => 1%Qc).
Proof. intros k; split; by vm_compute. Qed.
Lemma G_step P v b : (P ++ [v]) `prefix_of` topo -> valid dom b -> sumv dom [v] (G (P ++ [v])) b = G P b.
Proof.
  intros Hl Hb. pose proof one_uniform as Hu.
  assert (topo !! length P = Some v) as Hv. { destruct Hl as [r ->]. rewrite <-app_assoc. by apply list_lookup_middle. }
  pose proof (topo_lt N HN Hd ts Hts topo Htopo (fun _ => 1%Qc) Hu _ _ Hv) as Hvn. pose proof (tab_dist N HN Hd ts Hts topo Htopo v Hvn) as Hdist.
  assert (forall k w, P !! k = Some w -> topo !! k = Some w /\ k < length P) as Hin.
  { intros k w Hk. split; [|by eapply lookup_lt_Some]. destruct Hl as [r ->]. rewrite <-app_assoc. by apply lookup_app_l_Some. }
  assert (sumv dom [v] (G (P ++ [v])) b = sumv dom [v] (fun b0 => (G P b0 * tval (tab v) b0)%Qc) b) as ->.
  { cbn [sumv]. apply qsum_ext. intros x _. unfold G. rewrite qprod_app. cbn. ring. }
  rewrite (sumv_mul_l dom [v] (fun b0 => tval (tab v) b0) (G P)).
  - rewrite sumv_one_var. destruct Hdist as (_ & _ & _ & Hone). unfold tab. rewrite Hone by done. ring.
  - intros b1 b2 Hbb. apply qprod_ext. intros w Hw. apply tval_dep. intros p Hp. apply Hbb. intros ->%elem_of_list_singleton.
    apply elem_of_list_lookup in Hw as [k Hk]. destruct (Hin k w Hk) as [Hkw Hkl].
    pose proof (topo_lt N HN Hd ts Hts topo Htopo (fun _ => 1%Qc) Hu _ _ Hkw) as Hwn. destruct (tab_dist N HN Hd ts Hts topo Htopo w Hwn) as (_ & Hvars & _). unfold tab in Hp. rewrite Hvars in Hp.
    apply elem_of_cons in Hp as [<-|Hp].
    + pose proof (topo_inj N HN Hd ts Hts topo Htopo (fun _ => 1%Qc) Hu _ _ _ Hv Hkw). lia.
    + destruct (parent_first N HN Hd ts Hts topo Htopo (fun _ => 1%Qc) Hu k w v Hkw Hp) as (j & Hj & Hjv).
      pose proof (topo_inj N HN Hd ts Hts topo Htopo (fun _ => 1%Qc) Hu _ _ _ Hv Hjv). lia.
Qed.
Lemma G_suffix P R b : (P ++ R) `prefix_of` topo -> valid dom b -> sumv dom R (G (P ++ R)) b = G P b.
Proof.
  revert b. induction R as [|v R IH] using rev_ind; intros b Hl Hb; [by rewrite app_nil_r|].
  rewrite app_assoc in Hl |- *. rewrite sumv_app. rewrite <-(IH b (prefix_app_l _ _ _ Hl) Hb). apply sumv_ext; [done|]. intros b' Hb' _. by apply G_step.
Qed.
Lemma joint_G a : joint ts a = G topo a.
Proof. rewrite (joint_tab N HN Hd ts Hts topo Htopo). unfold G. apply qprod_perm. symmetry. apply Htopo. Qed.
Lemma joint_proper : proper (joint ts).
Proof. intros a b H. apply qprod_ext. intros t _. by apply tval_proper. Qed.
(** The variables before [x], [x], and the variables after it. *)
Lemma split_at x : x < n -> exists L R, topo = L ++ x :: R /\ forall p, p ∈ parents_of N x -> p ∈ L.
Proof.
  intros Hx. destruct (topo_at N HN Hd ts Hts topo Htopo (fun _ => 1%Qc) one_uniform x Hx) as [k Hk]. exists (take k topo), (drop (S k) topo).
  split; [by rewrite take_drop_middle|]. intros p Hp. destruct (parent_first N HN Hd ts Hts topo Htopo (fun _ => 1%Qc) one_uniform k x p Hk Hp) as (j & Hj & Hjp).
  apply elem_of_list_lookup. exists j. by rewrite lookup_take.
Qed.
Lemma chance_family x t a : ts !! x = Some t -> valid dom a -> chance N ts (x :: parents_of N x) a = (tval t a * chance N ts (parents_of N x) a)%Qc.
Proof.
  intros Ht Ha. pose proof (lookup_lt_Some _ _ _ Ht) as Hx. rewrite (proj1 Hts) in Hx. destruct (split_at x Hx) as (L & R & E & HL). set (ps := parents_of N x) in *.
  destruct Htopo as [HP _]. assert (NoDup topo) as Hnd by (rewrite HP; apply NoDup_seq). rewrite E in Hnd. apply NoDup_app in Hnd as (HndL & Hdis & HndR). apply NoDup_cons in HndR as [HxR HndR].
  assert (x ∉ ps) as Hxp. { intros Hin. apply (Hdis x (HL x Hin)). left. }
  assert (forall w, w ∈ R -> w ∉ ps) as HR. { intros w Hw Hin. apply (Hdis w (HL w Hin)). by right. }
  set (L' := filter (fun v => v ∉ ps) L).
  assert (filter (fun v => v ∉ ps) (seq 0 n) ≡ₚ L' ++ x :: R) as P1.
  { rewrite <-HP, E, filter_app, filter_cons_True by done. unfold L'. rewrite (TableProofs2.filter_all _ R); [done|]. done. }
  assert (filter (fun v => v ∉ x :: ps) (seq 0 n) ≡ₚ L' ++ R) as P2.
  { rewrite <-HP, E, filter_app, filter_cons_False by (intros H; apply H; left). unfold L'. f_equiv.
    - apply Permutation_refl'. apply LearnProofs.filter_ext_in. intros w Hw. rewrite not_elem_of_cons. split; [by intros [? ?]|]. intros ?. split; [|done]. intros ->. apply (Hdis x Hw). left.
    - rewrite TableProofs2.filter_all; [done|]. intros w Hw. apply not_elem_of_cons. split; [by intros ->|by apply HR]. }
  assert (forall b, valid dom b -> sumv dom R (joint ts) b = G (L ++ [x]) b) as S2.
  { intros b Hb. rewrite <-(G_suffix (L ++ [x]) R b); [|rewrite <-app_assoc; cbn; by rewrite E|done]. apply sumv_ext; [done|]. intros b' _ _. rewrite joint_G, E, <-app_assoc. done. }
  assert (forall b, valid dom b -> sumv dom (x :: R) (joint ts) b = G L b) as S1.
  { intros b Hb. rewrite <-(G_step L x b); [|rewrite E; exists R; by rewrite <-app_assoc|done]. change (x :: R) with ([x] ++ R). rewrite sumv_app. apply sumv_ext; [done|]. intros b' Hb' _. by apply S2. }
  unfold chance. rewrite (sumv_perm dom _ _ _ a joint_proper (NoDup_filter _ _ (NoDup_seq _ _)) P1), (sumv_perm dom _ _ _ a joint_proper (NoDup_filter _ _ (NoDup_seq _ _)) P2), !sumv_app.
  assert (tval t a = tval (tab x) a) as ->. { unfold tab. by rewrite Ht. }
  rewrite (sumv_ext dom L' _ (fun b => (tval (tab x) b * G L b)%Qc)), (sumv_mul_l dom L' (G L) (fun b => tval (tab x) b)); [f_equal| |done|].
  - apply sumv_ext; [done|]. intros b Hb _. by rewrite S1.
  - intros b b' Hbb. apply tval_dep. intros v Hv. apply Hbb. destruct (tab_dist N HN Hd ts Hts topo Htopo x Hx) as (_ & Hvars & _). unfold tab in Hv. rewrite Hvars in Hv. unfold L'. rewrite elem_of_list_filter. intros [Hvp HvL].
    apply elem_of_cons in Hv as [->|Hv]; [|done]. apply (Hdis x HvL). left.
  - intros b Hb _. rewrite S2 by done. unfold G. rewrite qprod_app. cbn. ring.
Qed.
End chance.

(** ** Frequencies of representative data *)
Lemma sumv_qsum {A} dom vs (l : list A) (F : A -> asg -> Qc) a : sumv dom vs (fun b => qsum l (fun j => F j b)) a = qsum l (fun j => sumv dom vs (F j) a).
Proof.
  induction l as [|j l IH].
  - rewrite qsum_nil. rewrite <-(Qcmult_0_l (sumv dom vs (fun _ => 0%Qc) a)), <-sumv_scal. clear. induction vs as [|v vs IH] in a |- *; cbn; [ring|]. apply qsum_ext. intros x _. apply IH.
  - rewrite qsum_cons, <-IH, <-sumv_add. done.
Qed.
Lemma qn_filter {A} (P : A -> Prop) `{forall x, Decision (P x)} (l : list A) : qn (length (filter P l)) = qsum l (fun j => if bool_decide (P j) then 1%Qc else 0%Qc).
Proof.
  induction l as [|j l IH]; [done|]. rewrite qsum_cons, <-IH. destruct (decide (P j)) as [HP|HP].
  - rewrite filter_cons_True, bool_decide_true by done. cbn [length]. by rewrite qn_S.
  - rewrite filter_cons_False, bool_decide_false by done. ring.
Qed.
Section frequencies.
Context (N : network) (HN : netinv N) (Hd : doms_positive N) (D : columns) (HD : complete N D) (Hsize : co_vars D = net_size N).
Notation dom := (net_dom N).
Notation n := (net_size N).
Set Default Proof Using "All".
Lemma agrees_row l a j : (forall v, v ∈ l -> v < n) -> j < co_rows D -> agrees (co_cols D) l a j <-> a <$> l = data_row D j <$> l.
Proof.
  intros Hl Hj. unfold agrees. rewrite Forall_forall. split.
  - intros H. apply list_eq. intros i. rewrite !list_lookup_fmap. destruct (l !! i) as [v|] eqn:E; [|done]. cbn. f_equal. unfold data_row. apply elem_of_list_lookup_2 in E. by rewrite (H v E).
  - intros H v Hv. destruct (data_entry N HN Hd D HD Hsize 0 v j (Hl v Hv) Hj) as (y & Hy & _). rewrite Hy. f_equal. apply elem_of_list_lookup in Hv as [i Hi]. assert ((a <$> l) !! i = (data_row D j <$> l) !! i) as E by (by rewrite H).
    rewrite !list_lookup_fmap, Hi in E. cbn in E. injection E as E. rewrite E. unfold data_row. by rewrite Hy.
Qed.
Lemma occurrences_margin l a : (forall v, v ∈ l -> v < n) -> valid dom a ->
  qn (occurrences (co_cols D) (co_rows D) l a) = sumv dom (filter (fun v => v ∉ l) (seq 0 n)) (fun b => qn (occurrences (co_cols D) (co_rows D) (seq 0 n) b)) a.
Proof.
  intros Hl Ha. set (others := filter (fun v => v ∉ l) (seq 0 n)). unfold occurrences. rewrite qn_filter.
  rewrite (sumv_ext dom others _ (fun b => qsum (seq 0 (co_rows D)) (fun j => if bool_decide (agrees (co_cols D) (seq 0 n) b j) then 1%Qc else 0%Qc)) a Ha) by (intros b _ _; apply qn_filter).
  rewrite sumv_qsum. apply qsum_ext. intros j Hj. apply elem_of_seq in Hj.
  set (F := fun b : asg => if bool_decide (b <$> l = data_row D j <$> l) then 1%Qc else 0%Qc).
  assert (forall b, (if bool_decide (agrees (co_cols D) (seq 0 n) b j) then 1%Qc else 0%Qc) = (if bool_decide (b <$> others = data_row D j <$> others) then F b else 0%Qc)) as HF.
  { intros b. assert (forall vs : list nat, b <$> vs = data_row D j <$> vs <-> forall v, v ∈ vs -> b v = data_row D j v) as Hmap.
    { intros vs. split.
      - intros H v Hv. apply elem_of_list_lookup in Hv as [i Hi]. assert ((b <$> vs) !! i = (data_row D j <$> vs) !! i) as E by (by rewrite H). rewrite !list_lookup_fmap, Hi in E. cbn in E. congruence.
      - intros H. apply list_eq. intros i. rewrite !list_lookup_fmap. destruct (vs !! i) as [v|] eqn:E; [|done]. cbn. f_equal. apply H. by eapply elem_of_list_lookup_2. }
    unfold F. destruct (decide (agrees (co_cols D) (seq 0 n) b j)) as [H|H].
    - rewrite bool_decide_true by done. apply agrees_row in H; [|intros v Hv; apply elem_of_seq in Hv; lia|lia]. rewrite Hmap in H. rewrite !bool_decide_true; [done| |]; apply Hmap.
      + intros v Hv. apply H, elem_of_seq. specialize (Hl v Hv). lia.
      + intros v Hv. apply H. unfold others in Hv. apply elem_of_list_filter in Hv. apply Hv.
    - rewrite bool_decide_false by done. case_bool_decide as H1; [|done]. rewrite bool_decide_false; [done|]. intros H2. apply H. apply agrees_row; [intros v Hv; apply elem_of_seq in Hv; lia|lia|].
      rewrite Hmap in H1, H2 |- *. intros v Hv. destruct (decide (v ∈ l)) as [Hin|Hin]; [by apply H2|]. apply H1. unfold others. by apply elem_of_list_filter. }
  rewrite (sumv_ext dom others _ _ a Ha (fun b _ _ => HF b)). rewrite sumv_select.
  - assert (F (upds a others (data_row D j <$> others)) = F a) as ->.
    { unfold F. assert (upds a others (data_row D j <$> others) <$> l = a <$> l) as ->; [|done]. apply list_fmap_ext. intros i v Hv. apply upds_notin. unfold others. rewrite elem_of_list_filter. intros [H _]. apply H. by eapply elem_of_list_lookup_2. }
    unfold F. apply (f_equal (fun b : bool => if b then 1%Qc else 0%Qc)). apply bool_decide_ext. by rewrite agrees_row by (done || lia).
  - intros b b' H. unfold F. assert (b <$> l = b' <$> l) as ->; [|done]. apply list_fmap_ext. intros i v _. apply H.
  - apply NoDup_filter, NoDup_seq.
  - apply (data_row_valid N HN Hd D HD Hsize 0). lia.
Qed.
Lemma representative_chance ts l a : representative N ts D -> (forall v, v ∈ l -> v < n) -> valid dom a -> fraction D l a = chance N ts l a.
Proof.
  intros [Hm HR] Hl Ha. unfold fraction, chance. rewrite (occurrences_margin l a Hl Ha). unfold Qcdiv. rewrite Qcmult_comm, <-sumv_scal. apply sumv_ext; [done|]. intros b Hb _. rewrite <-(HR b Hb). unfold fraction, Qcdiv. ring.
Qed.
End frequencies.
