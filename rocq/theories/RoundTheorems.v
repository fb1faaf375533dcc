(** Queries in rounded arithmetic (C65). *)
From Coq Require Import Field QArith.
From Verif Require Import RoundModel RoundSpec JTSpec ParProofs PassProofs EvidenceProofs BeliefSpec FlowProofs UtilProofs StructProofs BuildProofs JTTheorems RoundProofs RoundTables RoundState RoundLevels RoundFlow RoundQuery RoundBuild TableSpec TableProofs.

(** ** No rounding at all *)
Lemma no_rounding : jt_build_r (fun x => x) = jt_build /\ query_probs_r (fun x => x) = query_probs /\ query_label_r (fun x => x) = query_label.
Proof. split_and!; reflexivity. Qed.

(** ** The tree of the rounded construction only differs in its tables *)
Lemma same_tree rnd sch E T T' st : jt_doms T' = jt_doms T -> jt_levels T' = jt_levels T -> jt_marks T' = jt_marks T ->
  propagate_r rnd sch T' E st = propagate_r rnd sch T E st /\ probabilities_all_r rnd T' st E = probabilities_all_r rnd T st E /\ forall q, calculate_marginal_r rnd T' st q = calculate_marginal_r rnd T st q.
Proof. destruct T as [a b d e], T' as [a' b' d' e']. cbn. intros -> -> ->. split_and!; reflexivity. Qed.

Section rounded.
Context (N : network) (HN : net_ok N) (Hn : 0 < net_size N) (o : mem_order) (Ho : valid_order o).
Context (c : Qc) (rnd : Qc -> Qc) (Hr : rounds c rnd).
Notation dom := (net_dom N).
Context (k0 : nat) (pts pts' : list ptable) (Hf : Forall (table_of_family N) pts) (Hw : Forall2 (table_within (c ^ k0)%Qc) pts pts').
Set Default Proof Using "All".

Lemma rounded_built : (exists T', jt_build_r rnd o N pts' = Ok T') <-> weakly_connected N.
Proof.
  pose proof (inputs_nonneg N HN c k0 pts pts' Hf Hw) as Hnn. destruct (build_iff N o pts HN Hn Ho Hf Hnn) as [<- _]. pose proof (build_rel N HN Hn o Ho c rnd Hr k0 pts pts' Hf Hw) as HB.
  destruct (jt_build o N pts) as [T|], (jt_build_r rnd o N pts') as [T'|]; cbn [orel] in HB; try done; naive_solver.
Qed.
Context (T' : jtree) (HT' : jt_build_r rnd o N pts' = Ok T').
Notation K := (errors_of answer_errors T' (length pts) k0).

Lemma exact_tree : exists T, jt_build o N pts = Ok T /\ jt_doms T' = jt_doms T /\ jt_levels T' = jt_levels T /\ jt_marks T' = jt_marks T /\
  forall sch E, valid_scheduler sch ->
    orel (cliques_near dom c (errors_of clique_errors T' (length pts) k0) (largest_table (jt_backup T'))) (propagate sch T E (jt_backup T)) (propagate_r rnd sch T' E (jt_backup T')).
Proof.
  pose proof (net_dom_pos N HN) as dom_pos. pose proof (inputs_nonneg N HN c k0 pts pts' Hf Hw) as Hnn. pose proof (build_rel N HN Hn o Ho c rnd Hr k0 pts pts' Hf Hw) as HB. rewrite HT' in HB.
  destruct (jt_build o N pts) as [T|] eqn:HT; [|done]. cbn [orel] in HB. destruct HB as (B1 & B2 & B3 & B4 & B5 & B6). exists T. split_and!; try done.
  pose proof (built_usable N HN Hn o Ho pts Hf Hnn T HT) as [_ (r & Ls & HT0 & sc & ss & Hrd)].
  intros sch E Hs. destruct (same_tree rnd sch E T T' (jt_backup T') B1 B2 B3) as (-> & _).
  unfold errors_of. rewrite B4, B5. assert (length (t_c (jt_backup T)) = length (seen r (concat Ls))) as ->.
  { pose proof (Permutation_length (rd_cs _ _ _ _ _ _ _ _ Hrd)) as E0. rewrite seq_length in E0. done. }
  apply (propagate_rel dom dom_pos c rnd Hr T r Ls HT0 sc ss (rd_tail _ _ _ _ _ _ _ _ Hrd) (rooted_ups r Ls sc ss (rd_root _ _ _ _ _ _ _ _ Hrd))); done.
Qed.

Lemma doms_agree T : jt_build o N pts = Ok T -> forall i d, jt_doms T !! i = Some d -> dom i = d.
Proof.
  intros HT i d Hd. pose proof (inputs_nonneg N HN c k0 pts pts' Hf Hw) as Hnn. pose proof (built_usable N HN Hn o Ho pts Hf Hnn T HT) as [E _]. rewrite E in Hd. unfold net_dom, dom_of. by rewrite Hd.
Qed.

(** ** All posteriors *)
Lemma rounded_probs sch E : valid_scheduler sch -> evidence_in_range N E -> evidence_weight N pts E <> 0%Qc ->
  exists ps, query_probs_r rnd sch T' E (jt_backup T') = Ok (jt_backup T', ps) /\ Forall2 (fun p p' => p' = p \/ within_factor (c ^ K)%Qc p p') (answer_all N pts E) ps.
Proof.
  intros Hs HE Hwt. pose proof (net_dom_pos N HN) as dom_pos. pose proof (inputs_nonneg N HN c k0 pts pts' Hf Hw) as Hnn. destruct exact_tree as (T & HT & B1 & B2 & B3 & Hp).
  pose proof (exact_probs N HN Hn o Ho pts Hf Hnn T HT sch E Hs HE Hwt) as Hex. unfold query_probs in Hex. unfold query_probs_r. specialize (Hp sch E Hs).
  destruct (propagate sch T E (jt_backup T)) as [u|]; [|done]. destruct (propagate_r rnd sch T' E (jt_backup T')) as [u'|]; [|done]. cbn [mbind outcome_bind orel] in *.
  destruct (same_tree rnd sch E T T' u' B1 B2 B3) as (_ & -> & _).
  pose proof (built_usable N HN Hn o Ho pts Hf Hnn T HT) as [_ (r & Ls & HT0 & sc & ss & Hrd)].
  pose proof (probabilities_rel dom dom_pos c rnd Hr T r Ls HT0 sc ss (rd_tail _ _ _ _ _ _ _ _ Hrd) (rooted_ups r Ls sc ss (rd_root _ _ _ _ _ _ _ _ Hrd)) (doms_agree T HT) _ _ u u' E Hp) as HR.
  destruct (probabilities_all T u E) as [ps|]; [|done]. destruct (probabilities_all_r rnd T u' E) as [ps'|]; [|done]. cbn [mbind outcome_bind orel] in *. injection Hex as <-.
  exists ps'. split; [done|]. exact HR.
Qed.

(** ** One posterior, and the label *)
Lemma rounded_marginal sch E q : valid_scheduler sch -> evidence_in_range N E -> evidence_weight N pts E <> 0%Qc -> q < net_size N -> q ∉ fst <$> E ->
  exists st p s, propagate_r rnd sch T' E (jt_backup T') = Ok st /\ calculate_marginal_r rnd T' st q = Ok p /\ (0 < s)%Qc /\
    Forall2 (fun x y => within_factor (c ^ errors_of marginal_errors T' (length pts) k0)%Qc (s * x) y) (posterior N pts E q <$> seq 0 (dom q)) (pt_pots p).
Proof.
  intros Hs HE Hwt Hq Hnq. pose proof (net_dom_pos N HN) as dom_pos. pose proof (inputs_nonneg N HN c k0 pts pts' Hf Hw) as Hnn. destruct exact_tree as (T & HT & B1 & B2 & B3 & Hp).
  destruct (exact_marginal N HN Hn o Ho pts Hf Hnn T HT sch E q Hs HE Hwt Hq Hnq) as (u & p & Hu & Hm & Hpp). specialize (Hp sch E Hs). rewrite Hu in Hp.
  destruct (propagate_r rnd sch T' E (jt_backup T')) as [u'|]; [|done]. cbn [orel] in Hp. destruct (same_tree rnd sch E T T' u' B1 B2 B3) as (_ & _ & Hcm).
  pose proof (built_usable N HN Hn o Ho pts Hf Hnn T HT) as [_ (r & Ls & HT0 & sc & ss & Hrd)].
  pose proof (marginal_rel dom dom_pos c rnd Hr T r Ls HT0 sc ss (rd_tail _ _ _ _ _ _ _ _ Hrd) (rooted_ups r Ls sc ss (rd_root _ _ _ _ _ _ _ _ Hrd)) (doms_agree T HT) _ _ u u' q Hp) as HR.
  rewrite Hm in HR. destruct (calculate_marginal_r rnd T u' q) as [p'|] eqn:Hp'; [|done]. cbn [orel] in HR. destruct HR as (s & Hpos & A & HR). exists u', p', s. split_and!; [done|by rewrite Hcm|done|].
  rewrite <-Hpp. pose proof (alike_fields dom p p' A) as (_ & _ & _ & _ & _ & L1 & L2). apply Forall2_same_length_lookup_2; [congruence|]. intros i x y Hx Hy. by apply (HR i).
Qed.
Lemma rounded_label sch E q : valid_scheduler sch -> evidence_in_range N E -> evidence_weight N pts E <> 0%Qc -> q < net_size N -> q ∉ fst <$> E ->
  exists l, query_label_r rnd sch T' q E (jt_backup T') = Ok (jt_backup T', l) /\ l < dom q /\
    forall x, x < dom q -> (posterior N pts E q x <= c ^ (2 * errors_of marginal_errors T' (length pts) k0) * posterior N pts E q l)%Qc.
Proof.
  intros Hs HE Hwt Hq Hnq. pose proof (net_dom_pos N HN) as dom_pos. pose proof (inputs_nonneg N HN c k0 pts pts' Hf Hw) as Hnn. destruct exact_tree as (T & HT & _).
  destruct (rounded_marginal sch E q Hs HE Hwt Hq Hnq) as (u & p & s & Hu & Hm & Hpos & HF). set (F := errors_of marginal_errors T' (length pts) k0) in *.
  destruct (posterior_distribution N HN Hn o Ho pts Hf Hnn T HT E q HE Hwt Hq Hnq) as [Hsum Hge].
  assert (exists k x, pt_pots p !! k = Some x /\ (0 < x)%Qc) as Hsome.
  { assert (exists x, x < dom q /\ posterior N pts E q x <> 0%Qc) as (x & Hx & Hne).
    { destruct (decide (Exists (fun x => posterior N pts E q x <> 0%Qc) (seq 0 (dom q)))) as [Hex|Hno].
      - apply Exists_exists in Hex as (x & Hx & ?). apply elem_of_seq in Hx. exists x. split; [lia|done].
      - exfalso. assert (qsum (seq 0 (dom q)) (posterior N pts E q) = 0%Qc) as H0; [|rewrite Hsum in H0; done]. apply not_Exists_Forall in Hno; [|apply _]. clear -Hno.
        induction Hno as [|x l H _ IH]; [done|]. cbn. unfold qsum in IH. rewrite IH. apply dec_stable in H. rewrite H. ring. }
    assert ((posterior N pts E q <$> seq 0 (dom q)) !! x = Some (posterior N pts E q x)) as Hl. { rewrite list_lookup_fmap, lookup_seq_lt by done. done. }
    destruct (Forall2_lookup_l _ _ _ _ _ HF Hl) as (y & Hy & H1 & H2 & H3 & H4). exists x, y. split; [done|]. apply Qcle_lt_or_eq in H2 as [H2|H2]; [done|exfalso]. subst y. apply Hne.
    replace (c ^ F * 0)%Qc with 0%Qc in H4 by ring. assert (s * posterior N pts E q x = 0)%Qc as H0 by (by apply Qcle_antisym). apply Qcmult_integral in H0 as [H0|H0]; [|done]. rewrite H0 in Hpos. done. }
  destruct (argmax_spec (pt_pots p) Hsome) as (l & m & Ha & Hl & Hmax & _). exists l. assert (l < dom q) as Hld. { apply lookup_lt_Some in Hl. apply Forall2_length in HF. rewrite fmap_length, seq_length in HF. lia. }
  split_and!; [|done|].
  - unfold query_label_r. rewrite Hu. cbn [mbind outcome_bind]. rewrite Hm. cbn [mbind outcome_bind]. rewrite Ha. done.
  - assert (forall x, x < dom q -> exists y, pt_pots p !! x = Some y /\ within_factor (c ^ F)%Qc (s * posterior N pts E q x) y) as Hat.
    { intros x Hx. apply (Forall2_lookup_l _ _ _ _ _ HF). rewrite list_lookup_fmap, lookup_seq_lt by done. done. }
    intros x Hx. destruct (Hat x Hx) as (y & Hy & _ & _ & _ & Hle). destruct (Hat l Hld) as (y' & Hy' & _ & _ & Hle' & _). replace y' with m in * by congruence. specialize (Hmax x y Hy).
    apply (Qcmult_lt_0_le_reg_r _ _ s Hpos). rewrite (Qcmult_comm _ s), (Qcmult_comm _ s). eapply Qcle_trans; [exact Hle|]. replace (s * (c ^ (2 * F) * posterior N pts E q l))%Qc with (c ^ F * (c ^ F * (s * posterior N pts E q l)))%Qc.
    2:{ replace (2 * F)%nat with (F + F)%nat by lia. rewrite pow_add. ring. }
    assert (0 <= c ^ F)%Qc as Hc0 by (apply one_nn, (p_one c rnd Hr)). apply Qcmul_le_l; [done|]. by eapply Qcle_trans.
Qed.
(** The exact label, when it leads by enough. *)
Lemma rounded_winner sch E q w : valid_scheduler sch -> evidence_in_range N E -> evidence_weight N pts E <> 0%Qc -> q < net_size N -> q ∉ fst <$> E -> w < dom q ->
  (forall x, x < dom q -> x <> w -> (c ^ (2 * errors_of marginal_errors T' (length pts) k0) * posterior N pts E q x < posterior N pts E q w)%Qc) ->
  query_label_r rnd sch T' q E (jt_backup T') = Ok (jt_backup T', w).
Proof.
  intros Hs HE Hwt Hq Hnq Hwd Hlead. destruct (rounded_label sch E q Hs HE Hwt Hq Hnq) as (l & -> & Hl & Hbest). destruct (decide (l = w)) as [->|Hne]; [done|exfalso].
  specialize (Hbest w Hwd). specialize (Hlead l Hl Hne). by apply (Qclt_not_le _ _ Hlead).
Qed.

(** ** Impossible evidence *)
Lemma rounded_impossible sch E q : valid_scheduler sch ->
  (evidence_in_range N E /\ evidence_weight N pts E = 0%Qc) \/ (exists E1 v x E2, E = E1 ++ (v, x) :: E2 /\ v < net_size N /\ v ∉ fst <$> E1 /\ dom v <= x) ->
  query_probs_r rnd sch T' E (jt_backup T') = Err DivZero /\ query_label_r rnd sch T' q E (jt_backup T') = Err DivZero.
Proof.
  intros Hs Hc. pose proof (inputs_nonneg N HN c k0 pts pts' Hf Hw) as Hnn. destruct exact_tree as (T & HT & B1 & B2 & B3 & Hp). specialize (Hp sch E Hs).
  assert (propagate sch T E (jt_backup T) = Err DivZero) as Hpr.
  { pose proof (built_usable N HN Hn o Ho pts Hf Hnn T HT) as Hu. destruct Hc as [[HE Hz]|(E1 & v & x & E2 & -> & Hv & Hn1 & Hx)].
    - destruct (QueryProofs.propagate_net N HN pts Hf Hnn T Hu sch E Hs HE) as [(st & _ & Hwt & _)|[? _]]; done.
    - by apply (QueryProofs.propagate_net_out N HN pts Hf Hnn T Hu). }
  rewrite Hpr in Hp. destruct (propagate_r rnd sch T' E (jt_backup T')) as [?|e] eqn:Hq; [done|]. cbn in Hp. subst e. unfold query_probs_r, query_label_r. rewrite Hq. done.
Qed.
End rounded.

(** ** Reading the factor as a relative error *)
Section relative.
Local Open Scope Qc_scope.
Lemma nat_Qc_S k : nat_Qc (S k) = nat_Qc k + 1.
Proof. unfold nat_Qc. apply Qc_is_canon. unfold Qcplus. cbn [this Q2Qc]. rewrite !Qred_correct. rewrite Nat2Z.inj_succ, <-Z.add_1_r, inject_Z_plus. reflexivity. Qed.
Lemma nat_Qc_0 : nat_Qc 0 = 0.
Proof. by apply Qc_is_canon. Qed.
Lemma nat_Qc_nn k : 0 <= nat_Qc k.
Proof. induction k as [|k IH]; [rewrite nat_Qc_0; apply Qcle_refl|]. rewrite nat_Qc_S. replace 0 with (0 + 0) by ring. by apply Qcplus_le_compat. Qed.
Lemma power_bound u k : 0 <= u -> (1 + u) ^ k * (1 - nat_Qc k * u) <= 1.
Proof.
  intros Hu. assert (1 <= 1 + u) as H1. { replace 1 with (1 + 0) at 1 by ring. apply Qcplus_le_compat; [apply Qcle_refl|done]. }
  induction k as [|k IH]; [rewrite nat_Qc_0; cbn; replace (1 * (1 - 0 * u)) with 1 by ring; apply Qcle_refl|].
  eapply Qcle_trans; [|exact IH]. rewrite nat_Qc_S. cbn [Qcpower]. replace ((1 + u) * (1 + u) ^ k * (1 - (nat_Qc k + 1) * u)) with ((1 + u) ^ k * ((1 - nat_Qc k * u) + - (nat_Qc k * u * u + u * u))) by ring.
  apply Qcmul_le_l; [by apply one_nn, pow_one|]. replace (1 - nat_Qc k * u) with (1 - nat_Qc k * u + - 0) at 2 by ring. apply Qcplus_le_compat; [apply Qcle_refl|]. apply Qcopp_le_compat.
  replace 0 with (0 + 0) by ring. apply Qcplus_le_compat; apply Qcmul_nn; try done. apply Qcmul_nn; [apply nat_Qc_nn|done].
Qed.
Lemma factor_relative u k x y : 0 <= u -> nat_Qc k * u < 1 -> within_factor ((1 + u) ^ k) x y -> y - x <= relative_error k u * x /\ x - y <= relative_error k u * x.
Proof.
  intros Hu Hk (Hx & Hy & H1 & H2). set (d := nat_Qc k * u) in *. assert (0 <= d) as Hd by (apply Qcmul_nn; [apply nat_Qc_nn|done]).
  assert (0 < 1 - d) as Hpos by (by apply Qclt_minus_iff in Hk). assert (1 - d <> 0) as Hne by (intros E; rewrite E in Hpos; done).
  pose proof (power_bound u k Hu) as Hb. fold d in Hb. set (f := (1 + u) ^ k) in *. unfold relative_error. fold d. assert (0 <= / (1 - d)) as Hi by (apply Qc_inv_nn; by apply Qclt_le_weak).
  assert (0 <= 1 - d) as Hpos' by (by apply Qclt_le_weak). split.
  - apply (Qcmult_lt_0_le_reg_r _ _ (1 - d) Hpos). replace (d / (1 - d) * x * (1 - d)) with (x - x * (1 - d)) by (field; done).
    replace ((y - x) * (1 - d)) with (y * (1 - d) - x * (1 - d)) by ring. unfold Qcminus at 1 3. apply Qcplus_le_compat; [|apply Qcle_refl].
    eapply Qcle_trans; [apply Qcmult_le_compat_r; [exact H1|done]|]. replace (f * x * (1 - d)) with (x * (f * (1 - d))) by ring. replace x with (x * 1) at 2 by ring. by apply Qcmul_le_l.
  - assert (x * (1 - d) <= y) as H3.
    { eapply Qcle_trans; [apply Qcmult_le_compat_r; [exact H2|done]|]. replace (f * y * (1 - d)) with (y * (f * (1 - d))) by ring. replace y with (y * 1) at 2 by ring. by apply Qcmul_le_l. }
    apply (Qcle_trans _ (d * x)).
    + replace (d * x) with (x + - (x * (1 - d))) by ring. unfold Qcminus. apply Qcplus_le_compat; [apply Qcle_refl|]. by apply Qcopp_le_compat.
    + replace (d * x) with (1 * (d * x)) by ring. replace (d / (1 - d) * x) with (/ (1 - d) * (d * x)) by (field; done). apply Qcmult_le_compat_r; [|by apply Qcmul_nn].
      apply (Qcmult_lt_0_le_reg_r _ _ (1 - d) Hpos). rewrite Qcmult_inv_l by done. replace (1 * (1 - d)) with (1 + - d) by ring. replace 1 with (1 + - 0) at 2 by ring. apply Qcplus_le_compat; [apply Qcle_refl|by apply Qcopp_le_compat].
Qed.
End relative.

(** ** Changed parameters *)
Section parameters.
Local Open Scope Qc_scope.
Context (f : Qc) (Hf1 : 1 <= f).
Lemma tval_within t t' a : table_within f t t' -> within_factor f (tval t a) (tval t' a).
Proof using Hf1.
  intros (H1 & H2 & _ & _ & _ & H6). unfold tval. rewrite H1, H2. set (i := lex_index _ _). clearbody i.
  destruct (pt_pots t !! i) as [x|] eqn:Hx.
  - destruct (Forall2_lookup_l _ _ _ _ _ H6 Hx) as (y & -> & Hy). done.
  - assert (pt_pots t' !! i = None) as ->. { apply lookup_ge_None. rewrite <-(Forall2_length _ _ _ H6). by apply lookup_ge_None. } cbn. apply within_refl; [done|apply Qcle_refl].
Qed.
Lemma joint_within pts pts' a : Forall2 (table_within f) pts pts' -> within_factor (f ^ length pts) (joint pts a) (joint pts' a).
Proof using Hf1.
  intros HF. unfold joint. induction HF as [|t t' pts pts' Ht HF IH]; [cbn; apply within_refl; done|]. cbn [length Qcpower qprod foldr]. apply within_mul; [done|by apply pow_one|by apply tval_within|exact IH].
Qed.
Lemma qsum_within {A} g (l : list A) F F' : 1 <= g -> (forall x, x ∈ l -> within_factor g (F x) (F' x)) -> within_factor g (qsum l F) (qsum l F').
Proof using.
  intros Hg H. unfold qsum. induction l as [|x l IH]; [cbn; apply within_refl; [done|apply Qcle_refl]|]. cbn. apply within_add; [apply H; left|apply IH; intros; apply H; by right].
Qed.
Lemma sumv_within g dom vs F F' a : 1 <= g -> (forall b, within_factor g (F b) (F' b)) -> within_factor g (sumv dom vs F a) (sumv dom vs F' a).
Proof using.
  intros Hg H. revert a. induction vs as [|v vs IH]; intros a; [apply H|]. cbn [sumv]. apply qsum_within; [done|]. intros x _. apply IH.
Qed.
Lemma posterior_within N pts pts' E q x : Forall2 (table_within f) pts pts' -> evidence_weight N pts E <> 0 ->
  evidence_weight N pts' E <> 0 /\ within_factor (f ^ (2 * length pts)) (posterior N pts E q x) (posterior N pts' E q x).
Proof using Hf1.
  intros HF Hw. assert (within_factor (f ^ length pts) (evidence_weight N pts E) (evidence_weight N pts' E)) as He by (apply sumv_within; [by apply pow_one|]; intros b; by apply joint_within).
  split; [intros H0; by apply Hw, (within_zero _ _ _ He)|]. unfold posterior. replace (2 * length pts)%nat with (length pts + length pts)%nat by lia. rewrite pow_add.
  apply within_div; [by apply pow_one|by apply pow_one|done| |done]. apply sumv_within; [by apply pow_one|]. intros b. by apply joint_within.
Qed.
End parameters.

Lemma rounded_relative N : net_ok N -> 0 < net_size N -> forall o, valid_order o -> forall u rnd, (0 <= u)%Qc -> rounds (1 + u)%Qc rnd -> forall k pts pts',
  Forall (table_of_family N) pts -> Forall2 (table_within ((1 + u) ^ k)%Qc) pts pts' -> forall T', jt_build_r rnd o N pts' = Ok T' ->
  forall sch E, valid_scheduler sch -> evidence_in_range N E -> evidence_weight N pts E <> 0%Qc ->
  forall K, K = errors_of answer_errors T' (length pts) k -> (nat_Qc K * u < 1)%Qc ->
  exists ps, query_probs_r rnd sch T' E (jt_backup T') = Ok (jt_backup T', ps) /\
    Forall2 (fun p p' => p' = p \/ (p' - p <= relative_error K u * p)%Qc /\ (p - p' <= relative_error K u * p)%Qc) (answer_all N pts E) ps.
Proof.
  intros HN Hn o Ho u rnd Hu Hr k pts pts' Hf Hw T' HT' sch E Hs HE Hwt K -> HK.
  destruct (rounded_probs N HN Hn o Ho (1 + u)%Qc rnd Hr k pts pts' Hf Hw T' HT' sch E Hs HE Hwt) as (ps & H1 & H2). exists ps. split; [done|].
  eapply Forall2_impl; [exact H2|]. cbn beta. intros p p' [?|Hp]; [by left|right]. by apply factor_relative.
Qed.
