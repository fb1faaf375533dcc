(** Rounding errors of learned parameters. *)
From Coq Require Import Field QArith.
From Verif Require Import LearnRoundModel LearnSpec RoundModel RoundSpec RoundProofs ParProofs RoundTheorems NetProofs2 GraphModel2 Sums BuildProofs QueryProofs JTTheorems CountProofs LearnProofs LearnTheorems TableProofs.
Local Open Scope nat_scope.

(** No rounding. *)
Lemma estimate_exact alpha n1 n2 d0 : estimate_r (fun x => x) alpha n1 n2 d0 = qdiv (qn n1 + qz alpha)%Qc (qn n2 + qz alpha * qn d0)%Qc.
Proof. unfold estimate_r, qn. rewrite qz_mul. by destruct (qdiv _ _). Qed.
Lemma learn_exact N D alpha coin pts : learn_params_r (fun x => x) N D alpha coin pts = learn_params N D alpha coin pts.
Proof.
  unfold learn_params_r, learn_params.
  assert (forall root coin x, learn_node_r (fun x => x) N D alpha root coin x = learn_node N D alpha root coin x) as Hn.
  { intros root coin' x. unfold learn_node_r, learn_node. destruct (empty_node_table N x) as [t|]; [|done]. cbn [mbind outcome_bind]. destruct (vget (pt_cum t) 0) as [c0|]; [|done]. cbn [mbind outcome_bind].
    destruct (mfor _ _ _) as [st|]; [|done]. cbn [mbind outcome_bind].
    erewrite (mcollect_ext (seq 0 (pt_size t))); [reflexivity|]. intros j _. cbn beta.
    destruct (vget st.1 j) as [n1|]; [|done]. cbn [mbind outcome_bind].
    destruct (if bool_decide (pt_nv t = 1) then vget st.2 0 else _) as [n2|]; [|done]. cbn [mbind outcome_bind].
    destruct (vget (pt_dims t) 0) as [d0|]; [|done]. cbn [mbind outcome_bind]. apply estimate_exact. }
  assert (forall r, learn_root_r (fun x => x) N D alpha r = learn_root N D alpha r) as Hr.
  { intros r. unfold learn_root_r, learn_root. destruct (empty_node_table N r) as [t|]; [|done]. cbn [mbind outcome_bind]. destruct (vget (pt_dims t) 0) as [d0|]; [|done]. cbn [mbind outcome_bind]. by rewrite estimate_exact. }
  erewrite mfor_ext; [|intros x p _; cbn beta; by rewrite Hn]. destruct (mfor _ _ _) as [p|]; [|done]. cbn [mbind outcome_bind]. destruct (if bool_decide _ then _ else _) as [r|]; [|done]. by rewrite Hr.
Qed.

Lemma qz_nonneg z : (0 <= z)%Z -> (0 <= qz z)%Qc.
Proof. intros H. rewrite <-(Z2Nat.id z) by done. apply qn_nonneg. Qed.
Section near.
Context (c : Qc) (rnd : Qc -> Qc) (Hr : rounds c rnd).
Set Default Proof Using "All".


Lemma estimate_near alpha n1 n2 d0 : (0 <= alpha)%Z ->
  orel (within_factor (c ^ 3)%Qc) (qdiv (qn n1 + qz alpha)%Qc (qn n2 + qz alpha * qn d0)%Qc) (estimate_r rnd alpha n1 n2 d0).
Proof.
  intros Ha. unfold estimate_r. unfold qn at 3. rewrite <-qz_mul. set (x := (qn n1 + qz alpha)%Qc). set (y := (qn n2 + _)%Qc).
  assert (0 <= x)%Qc as Hx by (apply Qc_le_add_nonneg; [apply qn_nonneg|by apply qz_nonneg]).
  assert (0 <= y)%Qc as Hy by (apply Qc_le_add_nonneg; [apply qn_nonneg|apply qz_nonneg; lia]).
  pose proof (apart_rnd c rnd Hr 0 x x (apart_refl c rnd Hr 0 x Hx)) as Hx'. pose proof (apart_rnd c rnd Hr 0 y y (apart_refl c rnd Hr 0 y Hy)) as Hy'.
  unfold qdiv. destruct (decide (y = 0%Qc)) as [Hz|Hz].
  - rewrite !bool_decide_true by (try done; by apply (apart_zero c _ _ _ Hy')). done.
  - rewrite !bool_decide_false by (try done; intros Hq; by apply Hz, (apart_zero c _ _ _ Hy')). cbn [mbind outcome_bind orel]. by apply (apart_div c rnd Hr 1 1).
Qed.
Lemma within_zero_zero : within_factor (c ^ 3)%Qc 0 0.
Proof. apply (apart_refl c rnd Hr 3). done. Qed.
Lemma set_pots_near t ps ps' : Forall2 (within_factor (c ^ 3)%Qc) ps ps' -> table_within (c ^ 3)%Qc (set_pots t ps) (set_pots t ps').
Proof. intros H. by split_and!. Qed.
Lemma learn_node_near N D alpha root coin x : (0 <= alpha)%Z -> orel (table_within (c ^ 3)%Qc) (learn_node N D alpha root coin x) (learn_node_r rnd N D alpha root coin x).
Proof.
  intros Ha. unfold learn_node, learn_node_r. apply orel_same. intros t _. apply orel_same. intros c0 _. apply orel_same. intros st _.
  eapply orel_bind; [|intros ps ps' H; by apply set_pots_near].
  apply (orel_mcollect eq); [by apply Forall_Forall2_diag, Forall_forall|]. intros j ? <-. apply orel_same. intros n1 _. apply orel_same. intros n2 _. apply orel_same. intros d0 _. by apply estimate_near.
Qed.
Lemma learn_root_near N D alpha r : (0 <= alpha)%Z -> orel (table_within (c ^ 3)%Qc) (learn_root N D alpha r) (learn_root_r rnd N D alpha r).
Proof.
  intros Ha. unfold learn_root, learn_root_r. apply orel_same. intros t Ht. apply orel_same. intros d0 _. eapply orel_bind; [by apply estimate_near|]. intros p p' Hp.
  assert (Forall2 (within_factor (c ^ 3)%Qc) (pt_pots t) (pt_pots t)) as H0.
  { assert (exists n, pt_pots t = replicate n 0%Qc) as [n ->].
    { revert Ht. unfold empty_node_table. destruct (find_node N r) as [nd|]; [|done]. cbn [mbind outcome_bind]. case_bool_decide; [intros [= <-]; by eexists|].
      destruct (construct_var_dims_and_cum_levels _ _) as [[[? ?] ?]|]; [|done]. intros [= <-]. by eexists. }
    induction n; constructor; [apply within_zero_zero|done]. }
  eapply orel_bind; [by eapply orel_vset|]. intros l l' Hl. eapply orel_bind; [by eapply orel_vset|]. intros q q' Hq. by apply set_pots_near.
Qed.
Lemma learn_near N D alpha coin pts pts' : (0 <= alpha)%Z -> Forall2 (table_within (c ^ 3)%Qc) pts pts' ->
  orel (Forall2 (table_within (c ^ 3)%Qc)) (learn_params N D alpha coin pts) (learn_params_r rnd N D alpha coin pts').
Proof.
  intros Ha Hp. unfold learn_params, learn_params_r. set (root := if bool_decide _ then _ else _).
  apply (orel_bind (Forall2 (table_within (c ^ 3)%Qc))).
  - apply orel_mfor_plain; [done|]. intros x s s' _ Hs. eapply orel_bind; [by apply learn_node_near|]. intros t t' Ht. apply Forall2_app; [done|constructor; [done|constructor]].
  - intros s s' Hs. destruct root as [r|]; [|done]. eapply orel_bind; [by apply learn_root_near|]. intros t t' Ht. apply Forall2_app; [done|constructor; [done|constructor]].
Qed.
End near.

(** ** Learned tables *)
Lemma qsum_within {A} f (l : list A) g h : (1 <= f)%Qc -> (forall x, x ∈ l -> within_factor f (g x) (h x)) -> within_factor f (qsum l g) (qsum l h).
Proof.
  intros Hf H. induction l as [|x l IH]; [by apply within_refl|]. rewrite !qsum_cons. apply within_add; [apply H; left|]. apply IH. intros y Hy. apply H. by right.
Qed.
Lemma learned_tables c rnd : rounds c rnd -> forall N, netinv N -> doms_positive N -> forall D, complete N D -> forall alpha, co_vars D = net_size N -> (0 < alpha)%Z -> forall coin,
  exists ts, learn_params_r rnd N D alpha coin [] = Ok ts /\ length ts = net_size N /\
    forall x nd, nt_nodes N !! x = Some nd -> exists t, ts !! x = Some t /\ pt_vars t = x :: nd_parents nd /\
      forall a, valid (net_dom N) a ->
        within_factor (c ^ 3)%Qc (smoothed N (co_cols D) (co_rows D) alpha x (nd_parents nd) a) (tval t a) /\ (0 < tval t a)%Qc /\
        within_factor (c ^ 3)%Qc 1%Qc (qsum (seq 0 (net_dom N x)) (fun y => tval t (upd a x y))).
Proof.
  intros Hr N HN Hd D HD alpha Hs Hal coin. destruct (learn_params_plain N HN Hd D HD alpha Hs Hal coin) as (ts & Hts & Hlen & Hall).
  pose proof (learn_near c rnd Hr N D alpha coin [] [] ltac:(lia) ltac:(constructor)) as Ho. rewrite Hts in Ho. destruct (learn_params_r rnd N D alpha coin []) as [ts'|]; [|done]. cbn in Ho.
  exists ts'. split; [done|]. split; [by rewrite <-(Forall2_length _ _ _ Ho)|]. intros x nd Hx. destruct (Hall x nd Hx) as (t & Ht & (HC & Hpos & Hsum)). destruct (Forall2_lookup_l _ _ _ _ _ Ho Ht) as (t' & Ht' & Hw).
  pose proof (pow_one c 3 (proj1 Hr)) as H1.
  exists t'. split; [done|]. split; [destruct Hw as (-> & _); apply HC|]. intros a Ha. pose proof (tval_within (c ^ 3)%Qc H1 t t' a Hw) as Hwa. split_and!.
  - by rewrite <-(proj2 (proj2 HC) a Ha).
  - apply Qc_nn_pos; [apply Hwa|]. intros Hz. apply (within_zero _ _ _ Hwa) in Hz. specialize (Hpos a Ha). rewrite Hz in Hpos. by apply Qclt_not_eq in Hpos.
  - rewrite <-(Hsum a Ha). apply qsum_within; [done|]. intros y _. by apply tval_within.
Qed.

(** ** Learning and then asking *)
Section query.
Context (c : Qc) (rnd : Qc -> Qc) (Hr : rounds c rnd) (N : network) (HN : net_ok N) (Hn : 0 < net_size N) (Hc : weakly_connected N) (o : mem_order) (Ho : valid_order o).
Context (ts ts' : list ptable) (Hf : Forall (table_of_family N) ts) (Hp : forall t a, t ∈ ts -> valid (net_dom N) a -> (0 < tval t a)%Qc).
Context (k : nat) (Hw : Forall2 (table_within (c ^ k)%Qc) ts ts').
Lemma positive_queries_r : exists T, jt_build_r rnd o N ts' = Ok T /\ forall sch E, valid_scheduler sch -> evidence_in_range N E ->
  (exists ps, query_probs_r rnd sch T E (jt_backup T) = Ok (jt_backup T, ps) /\
     Forall2 (fun p p' => p' = p \/ within_factor (c ^ errors_of answer_errors T (length ts) k)%Qc p p') (answer_all N ts E) ps) /\
  forall q w, q < net_size N -> q ∉ fst <$> E -> w < net_dom N q ->
    (forall x, x < net_dom N q -> x <> w -> (c ^ (2 * errors_of marginal_errors T (length ts) k) * posterior N ts E q x < posterior N ts E q w)%Qc) ->
    query_label_r rnd sch T q E (jt_backup T) = Ok (jt_backup T, w).
Proof using All.
  destruct (proj2 (rounded_built N HN Hn o Ho c rnd Hr k ts ts' Hf Hw) Hc) as [T HT]. exists T. split; [done|]. intros sch E Hs HE.
  assert (evidence_weight N ts E <> 0%Qc) as He by (by apply evidence_weight_positive). split.
  - by apply (rounded_probs N HN Hn o Ho c rnd Hr k ts ts' Hf Hw T HT).
  - intros q w Hq Hqe Hwq Hl. by apply (rounded_winner N HN Hn o Ho c rnd Hr k ts ts' Hf Hw T HT sch E q w).
Qed.
End query.

Section learned.
Context (c : Qc) (rnd : Qc -> Qc) (Hr : rounds c rnd).
Lemma learned_pair N D alpha coin ts : (0 <= alpha)%Z -> learn_params N D alpha coin [] = Ok ts -> exists ts', learn_params_r rnd N D alpha coin [] = Ok ts' /\ Forall2 (table_within (c ^ 3)%Qc) ts ts'.
Proof using All.
  intros Ha Hts. pose proof (learn_near c rnd Hr N D alpha coin [] [] Ha ltac:(constructor)) as Hx. rewrite Hts in Hx. destruct (learn_params_r rnd N D alpha coin []) as [ts'|]; [|done]. by exists ts'.
Qed.
Lemma learn_then_query_r N D alpha coin o : netinv N -> doms_positive N -> 0 < net_size N -> complete N D -> co_vars D = net_size N -> (0 < alpha)%Z -> weakly_connected N -> valid_order o ->
  exists ts ts' T, learn_params N D alpha coin [] = Ok ts /\ learn_params_r rnd N D alpha coin [] = Ok ts' /\ jt_build_r rnd o N ts' = Ok T /\
    forall sch E, valid_scheduler sch -> evidence_in_range N E ->
    (exists ps, query_probs_r rnd sch T E (jt_backup T) = Ok (jt_backup T, ps) /\
       Forall2 (fun p p' => p' = p \/ within_factor (c ^ errors_of answer_errors T (net_size N) 3)%Qc p p') (answer_all N ts E) ps) /\
    forall q w, q < net_size N -> q ∉ fst <$> E -> w < net_dom N q ->
      (forall x, x < net_dom N q -> x <> w -> (c ^ (2 * errors_of marginal_errors T (net_size N) 3) * posterior N ts E q x < posterior N ts E q w)%Qc) ->
      query_label_r rnd sch T q E (jt_backup T) = Ok (jt_backup T, w).
Proof using All.
  intros HN Hd Hn HD Hs Hal Hc Ho. destruct (learn_params_plain N HN Hd D HD alpha Hs Hal coin) as (ts & Hts & Hlen & Hall).
  destruct (learned_pair N D alpha coin ts ltac:(lia) Hts) as (ts' & Hts' & Hw).
  assert (forall t, t ∈ ts -> exists x nd f, nt_nodes N !! x = Some nd /\ cpt_ok N x (nd_parents nd) f t) as Hinv.
  { intros t Ht. apply elem_of_list_lookup in Ht as [x Ht]. destruct (lookup_lt_is_Some_2 (nt_nodes N) x) as [nd Hnd]; [apply lookup_lt_Some in Ht; unfold net_size in *; lia|]. destruct (Hall x nd Hnd) as (t' & Ht' & HC). exists x, nd. eexists. split; [done|]. replace t with t' by congruence. exact HC. }
  destruct (positive_queries_r c rnd Hr N (netinv_ok N HN Hd) Hn Hc o Ho ts ts') with (k := 3) as (T & HT & HQ); try done.
  - apply Forall_forall. intros t Ht. destruct (Hinv t Ht) as (x & nd & f & Hnd & [HC _]). by eapply is_cpt_family.
  - intros t a Ht Ha. destruct (Hinv t Ht) as (x & nd & f & Hnd & (_ & HC & _)). by apply HC.
  - rewrite Hlen in HQ. by exists ts, ts', T.
Qed.
Lemma learn_with_root_then_query_r N D alpha coin o : netinv N -> doms_positive N -> complete N D -> co_vars D = net_size N -> (0 < alpha)%Z -> (forall x j, coin x j < 2) -> valid_order o ->
  exists roots N' ts ts' T, find_roots N = Ok roots /\ add_root_node N roots = Ok N' /\ learn_params N' D alpha coin [] = Ok ts /\ learn_params_r rnd N' D alpha coin [] = Ok ts' /\ jt_build_r rnd o N' ts' = Ok T /\
    forall sch E, valid_scheduler sch -> evidence_in_range N' E ->
    (exists ps, query_probs_r rnd sch T E (jt_backup T) = Ok (jt_backup T, ps) /\
       Forall2 (fun p p' => p' = p \/ within_factor (c ^ errors_of answer_errors T (net_size N') 3)%Qc p p') (answer_all N' ts E) ps) /\
    forall q w, q < net_size N' -> q ∉ fst <$> E -> w < net_dom N' q ->
      (forall x, x < net_dom N' q -> x <> w -> (c ^ (2 * errors_of marginal_errors T (net_size N') 3) * posterior N' ts E q x < posterior N' ts E q w)%Qc) ->
      query_label_r rnd sch T q E (jt_backup T) = Ok (jt_backup T, w).
Proof using All.
  intros HN Hd HD Hs Hal Hcoin Ho. destruct (learn_params_root N HN Hd D HD Hs alpha coin Hcoin Hal) as (roots & N' & ts & HR & Hts & Hlen & Hall & tr & Htr & Hcr).
  destruct (rooted_facts N HN Hd D HD Hs roots N' HR) as (HN' & Hd' & _ & Hs' & _ & Hconn & (ndr & Hndr & Hpr) & _).
  destruct (learned_pair N' D alpha coin ts ltac:(lia) Hts) as (ts' & Hts' & Hw).
  assert (0 < root_half (co_rows D) alpha)%Qc as Hrp.
  { assert (0 < qz alpha)%Qc as H0 by (rewrite <-qz_0; by apply (proj1 (qz_lt 0 _))). apply Qc_div_pos; [by apply Qc_add_pos_r; [apply qn_nonneg|]|]. apply Qc_add_pos_r; [apply qn_nonneg|]. unfold qn. rewrite <-qz_mul, <-qz_0. apply (proj1 (qz_lt 0 _)). lia. }
  assert (forall t, t ∈ ts -> table_of_family N' t /\ forall a, valid (net_dom N') a -> (0 < tval t a)%Qc) as Hinv.
  { intros t Ht. apply elem_of_list_lookup in Ht as [x Ht]. destruct (decide (x < net_size N)) as [Hx|Hx].
    - destruct (lookup_lt_is_Some_2 (nt_nodes N') x) as [nd Hnd]; [unfold net_size in *; lia|]. destruct (Hall x nd Hnd Hx) as (t' & Ht' & HC). replace t' with t in HC by congruence. destruct HC as (HC & Hp & _). split; [by eapply is_cpt_family|]. intros a Ha. by apply Hp.
    - assert (x = net_size N) as -> by (apply lookup_lt_Some in Ht; lia). replace tr with t in Hcr by congruence. split; [rewrite <-Hpr in Hcr; by eapply is_cpt_family|]. intros a Ha. destruct Hcr as (_ & _ & Hcr). by rewrite Hcr. }
  destruct (positive_queries_r c rnd Hr N' (netinv_ok N' HN' Hd') ltac:(lia) Hconn o Ho ts ts') with (k := 3) as (T & HT & HQ); try done.
  - apply Forall_forall. intros t Ht. by apply Hinv.
  - intros t a Ht Ha. by apply Hinv.
  - destruct HR as [HR1 HR2]. rewrite Hlen, <-Hs' in HQ. exists roots, N', ts, ts', T. by split_and!.
Qed.
End learned.

(** ** Success and failure *)
Lemma learned_outcome c rnd : rounds c rnd -> forall N D alpha coin, (0 <= alpha)%Z ->
  (forall e, learn_params_r rnd N D alpha coin [] = Err e <-> learn_params N D alpha coin [] = Err e) /\
  forall ts, learn_params N D alpha coin [] = Ok ts -> exists ts', learn_params_r rnd N D alpha coin [] = Ok ts' /\ Forall2 (table_within (c ^ 3)%Qc) ts ts'.
Proof.
  intros Hr N D alpha coin Ha. split; [|intros ts; by apply learned_pair]. intros e. pose proof (learn_near c rnd Hr N D alpha coin [] [] Ha ltac:(constructor)) as Hx.
  destruct (learn_params N D alpha coin []), (learn_params_r rnd N D alpha coin []); cbn in Hx; try done. by subst.
Qed.
