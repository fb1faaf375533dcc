(** Theorems about counting, table construction and parameter learning. *)
From Coq Require Import Field QArith.
From Verif Require Import LearnModel LearnSpec NetProofs2 GraphModel2 GraphSpec2 RootProofs StructProofs BuildProofs QueryProofs JTTheorems CountProofs LearnProofs TableProofs.
Local Open Scope nat_scope.

(** ** Without ROOT *)
Lemma count_row_coin D coin coin' t j st : count_row D None coin t j st = count_row D None coin' t j st.
Proof. unfold count_row. case_bool_decide; [done|]. destruct (vget (pt_vars t) 1) as [p|]; [|done]. cbn [mbind outcome_bind]. done. Qed.
Lemma learn_node_coin N D alpha coin coin' x : learn_node N D alpha None coin x = learn_node N D alpha None coin' x.
Proof.
  unfold learn_node. destruct (empty_node_table N x) as [t|]; [|done]. cbn [mbind outcome_bind]. destruct (vget (pt_cum t) 0) as [c0|]; [|done]. cbn [mbind outcome_bind].
  rewrite (mfor_ext _ (count_row D None coin t) (count_row D None coin' t)); [done|]. intros j st _. apply count_row_coin.
Qed.
Lemma agrees_column D col vs a j : (forall v, v ∈ vs -> v < length (co_cols D)) -> agrees (with_column D col) vs a j <-> agrees (co_cols D) vs a j.
Proof. intros H. unfold agrees. rewrite !Forall_forall. unfold entry, with_column. split; intros Hv v Hin; specialize (Hv v Hin); rewrite lookup_app_l in * by (by apply H); done. Qed.
Lemma occurrences_column D col rows vs a : (forall v, v ∈ vs -> v < length (co_cols D)) -> occurrences (with_column D col) rows vs a = occurrences (co_cols D) rows vs a.
Proof. intros H. unfold occurrences. f_equal. apply LearnProofs.filter_ext_in. intros j _. by apply agrees_column. Qed.
Lemma smoothed_column N D col rows alpha x ps a : (forall v, v ∈ x :: ps -> v < length (co_cols D)) -> smoothed N (with_column D col) rows alpha x ps a = smoothed N (co_cols D) rows alpha x ps a.
Proof. intros H. unfold smoothed. rewrite !occurrences_column; [done| |done]. intros v Hv. apply H. by right. Qed.

(** A loop that appends one table per index. *)
Lemma append_loop (n : nat) (f : nat -> outcome ptable) (g : nat -> ptable) pts : (forall x, x < n -> f x = Ok (g x)) ->
  mfor (seq 0 n) (fun x pts => t ← f x; Ok (pts ++ [t])) pts = Ok (pts ++ (g <$> seq 0 n)).
Proof.
  intros Hf. enough (forall l pts, (forall x, x ∈ l -> x < n) -> mfor l (fun x pts => t ← f x; Ok (pts ++ [t])) pts = Ok (pts ++ (g <$> l))) as H by (apply H; intros x Hx; apply elem_of_seq in Hx; lia).
  clear pts. induction l as [|x l IH]; intros pts Hl; cbn; [by rewrite app_nil_r|]. rewrite Hf by (apply Hl; left). cbn [mbind outcome_bind]. rewrite IH by (intros; apply Hl; by right). by rewrite <-app_assoc.
Qed.
Lemma append_loop_err (n x : nat) (f : nat -> outcome ptable) e pts : x < n -> f x = Err e -> (forall y, y < n -> (exists t, f y = Ok t) \/ f y = Err e) ->
  mfor (seq 0 n) (fun x pts => t ← f x; Ok (pts ++ [t])) pts = Err e.
Proof.
  intros Hx Hf Hall. enough (forall l pts, (forall y, y ∈ l -> y < n) -> x ∈ l -> mfor l (fun x pts => t ← f x; Ok (pts ++ [t])) pts = Err e) as H by (apply H; [intros y Hy; apply elem_of_seq in Hy; lia|apply elem_of_seq; lia]).
  clear pts. induction l as [|y l IH]; intros pts Hl Hin; [by apply elem_of_nil in Hin|]. cbn. destruct (Hall y) as [[t Ht]|Ht]; [apply Hl; left| |by rewrite Ht].
  rewrite Ht. cbn [mbind outcome_bind]. apply IH; [intros; apply Hl; by right|]. apply elem_of_cons in Hin as [->|Hin]; [congruence|done].
Qed.
Lemma choose_tables (n : nat) (f : nat -> outcome ptable) (P : nat -> ptable -> Prop) : (forall x, x < n -> exists t, f x = Ok t /\ P x t) ->
  exists ts, length ts = n /\ (forall pts, mfor (seq 0 n) (fun x pts => t ← f x; Ok (pts ++ [t])) pts = Ok (pts ++ ts)) /\ forall x, x < n -> exists t, ts !! x = Some t /\ P x t.
Proof.
  intros H. set (g := fun x => match f x with Ok t => t | Err _ => pt_default end).
  assert (forall x, x < n -> f x = Ok (g x)) as Hg by (intros x Hx; unfold g; by destruct (H x Hx) as (t & -> & _)).
  exists (g <$> seq 0 n). split_and!; [by rewrite fmap_length, seq_length|intros pts; by apply append_loop|].
  intros x Hx. exists (g x). split; [by rewrite list_lookup_fmap, lookup_seq_lt by done|]. destruct (H x Hx) as (t & Ht & HP). unfold g. by rewrite Ht.
Qed.

Lemma cpt_ok_intro N x ps f t : is_cpt N x ps f t -> (forall a, valid (net_dom N) a -> (0 < f a)%Qc) ->
  (forall a, valid (net_dom N) a -> qsum (seq 0 (net_dom N x)) (fun y => f (upd a x y)) = 1%Qc) -> cpt_ok N x ps f t.
Proof.
  intros Ht Hp Hs. split; [done|]. destruct Ht as (_ & _ & Ht). split; [intros a Ha; rewrite Ht by done; by apply Hp|].
  intros a Ha. rewrite <-(Hs a Ha). apply qsum_ext. intros y Hy. apply elem_of_seq in Hy. apply Ht. apply valid_upd; [done|lia].
Qed.

Section plain.
Context (N : network) (HN : netinv N) (Hd : doms_positive N) (D : columns) (HD : complete N D) (alpha : Z).
Notation dom := (net_dom N).
Set Default Proof Using "All".
Context (Hsize : co_vars D = net_size N).
Lemma dom_beyond : 0 < dom (co_vars D).
Proof. by apply dpos. Qed.
Lemma plain_parents x nd : nt_nodes N !! x = Some nd -> plain_or_root D None (nd_parents nd) /\ x < co_vars D /\ forall v, v ∈ x :: nd_parents nd -> v < length (co_cols D).
Proof.
  intros Hx. assert (x < co_vars D) as Hxl by (rewrite Hsize; by eapply lookup_lt_Some). assert (forall p, p ∈ nd_parents nd -> p < co_vars D) as Hp by (intros p Hp; rewrite Hsize; by eapply parents_in).
  split; [by left|]. split; [done|]. destruct HD as (-> & _ & _). intros v Hv. apply elem_of_cons in Hv as [->|Hv]; [done|by apply Hp].
Qed.
Lemma learn_params_plain : (0 < alpha)%Z -> forall coin,
  exists ts, learn_params N D alpha coin [] = Ok ts /\ length ts = net_size N /\
    forall x nd, nt_nodes N !! x = Some nd -> exists t, ts !! x = Some t /\ cpt_ok N x (nd_parents nd) (smoothed N (co_cols D) (co_rows D) alpha x (nd_parents nd)) t.
Proof.
  intros Hal coin. unfold learn_params. rewrite bool_decide_true by done. pose proof dom_beyond as Hb.
  destruct (choose_tables (co_vars D) (fun x => learn_node N D alpha None (coin x) x) (fun x t => forall nd, nt_nodes N !! x = Some nd -> cpt_ok N x (nd_parents nd) (smoothed N (co_cols D) (co_rows D) alpha x (nd_parents nd)) t)) as (ts & Hl & Hts & Hall).
  - intros x Hx. rewrite Hsize in Hx. destruct (lookup_lt_is_Some_2 _ _ Hx) as [nd Hnd]. destruct (plain_parents x nd Hnd) as (Hps & Hxv & Hv).
    rewrite (learn_node_coin _ _ _ (coin x) (fun _ => 0)).
    destruct (learn_node_ok N HN Hd D HD None (fun _ => 0) (or_introl eq_refl) (fun _ => Hb) alpha x nd Hnd Hxv Hps) as (t & -> & Ht); [intros a Ha; by apply (smoothed_pos N HN Hd D HD None (fun _ => 0) (or_introl eq_refl) (fun _ => Hb) alpha)|].
    exists t. split; [done|]. intros nd' Hnd'. assert (nd' = nd) as -> by congruence.
    assert (is_cpt N x (nd_parents nd) (smoothed N (co_cols D) (co_rows D) alpha x (nd_parents nd)) t) as Hc.
    { destruct Ht as (H1 & H2 & H3). split_and!; [done|done|]. intros a Ha. rewrite H3 by done. by apply smoothed_column. }
    apply cpt_ok_intro; [done| |].
    + intros a Ha. rewrite <-(smoothed_column N D ((fun _ => 0) <$> seq 0 (co_rows D))) by done. by apply (smoothed_pos N HN Hd D HD None (fun _ => 0) (or_introl eq_refl) (fun _ => Hb) alpha).
    + intros a Ha. rewrite (qsum_ext _ _ (fun y => smoothed N (with_column D ((fun _ => 0) <$> seq 0 (co_rows D))) (co_rows D) alpha x (nd_parents nd) (upd a x y))) by (intros; by rewrite smoothed_column).
      apply (smoothed_sum N HN Hd D HD None (fun _ => 0) (or_introl eq_refl) (fun _ => Hb) alpha); [done| |by apply (smoothed_pos N HN Hd D HD None (fun _ => 0) (or_introl eq_refl) (fun _ => Hb) alpha)]. intros Hin. by apply (parents_in N HN Hd x nd Hnd) in Hin as (_ & ? & _).
  - rewrite Hts. cbn [mbind outcome_bind app]. exists ts. split; [done|]. split; [lia|]. intros x nd Hnd. destruct (Hall x) as (t & Ht & HP); [rewrite Hsize; by eapply lookup_lt_Some|]. exists t. split; [done|]. by apply HP.
Qed.
(** No smoothing. *)
Lemma learn_params_zero coin : alpha = 0%Z ->
  ((forall x nd a, nt_nodes N !! x = Some nd -> valid dom a -> occurrences (co_cols D) (co_rows D) (nd_parents nd) a <> 0) ->
   exists ts, learn_params N D alpha coin [] = Ok ts /\ length ts = net_size N /\
    forall x nd, nt_nodes N !! x = Some nd -> exists t, ts !! x = Some t /\ is_cpt N x (nd_parents nd) (smoothed N (co_cols D) (co_rows D) 0 x (nd_parents nd)) t) /\
  ((exists x nd a, nt_nodes N !! x = Some nd /\ valid dom a /\ occurrences (co_cols D) (co_rows D) (nd_parents nd) a = 0) -> learn_params N D alpha coin [] = Err DivZero).
Proof.
  intros Hal. pose proof dom_beyond as Hb. unfold learn_params. rewrite bool_decide_true by done.
  assert (forall n x, (qn n + qz alpha * qn (dom x))%Qc = 0%Qc <-> n = 0) as Hden.
  { intros n x. rewrite Hal, qz_0, Qcmult_0_l, Qcplus_0_r. split; [intros E; unfold qn in E; rewrite <-qz_0 in E; apply qz_inj in E; lia|intros ->; apply qn_0]. }
  assert (forall x nd a, nt_nodes N !! x = Some nd -> occurrences (with_column D ((fun _ => 0) <$> seq 0 (co_rows D))) (co_rows D) (nd_parents nd) a = occurrences (co_cols D) (co_rows D) (nd_parents nd) a) as Hoc.
  { intros x nd a Hnd. apply occurrences_column. intros v Hv. eapply plain_parents; [done|]. by right. }
  split.
  - intros Hocc.
    destruct (choose_tables (co_vars D) (fun x => learn_node N D alpha None (coin x) x) (fun x t => forall nd, nt_nodes N !! x = Some nd -> is_cpt N x (nd_parents nd) (smoothed N (co_cols D) (co_rows D) 0 x (nd_parents nd)) t)) as (ts & Hl & Hts & Hall).
    + intros x Hx. rewrite Hsize in Hx. destruct (lookup_lt_is_Some_2 _ _ Hx) as [nd Hnd]. destruct (plain_parents x nd Hnd) as (Hps & Hxv & Hv).
      rewrite (learn_node_coin _ _ _ (coin x) (fun _ => 0)).
      destruct (learn_node_ok N HN Hd D HD None (fun _ => 0) (or_introl eq_refl) (fun _ => Hb) alpha x nd Hnd Hxv Hps) as (t & -> & Ht); [intros a Ha; rewrite Hden; rewrite (Hoc x nd a Hnd); by eapply Hocc|].
      exists t. split; [done|]. intros nd' Hnd'. assert (nd' = nd) as -> by congruence. destruct Ht as (H1 & H2 & H3). split_and!; [done|done|]. intros a Ha. rewrite H3, Hal by done. by apply smoothed_column.
    + rewrite Hts. cbn [mbind outcome_bind app]. exists ts. split; [done|]. split; [lia|]. intros x nd Hnd. destruct (Hall x) as (t & Ht & HP); [rewrite Hsize; by eapply lookup_lt_Some|]. exists t. split; [done|]. by apply HP.
  - intros (x & nd & a & Hnd & Ha & Hz). destruct (plain_parents x nd Hnd) as (Hps & Hxv & Hv).
    rewrite (append_loop_err _ x _ DivZero); [done|done| |].
    + rewrite (learn_node_coin _ _ _ (coin x) (fun _ => 0)). eapply (learn_node_err N HN Hd D HD None (fun _ => 0) (or_introl eq_refl) (fun _ => Hb) alpha x nd a); try done. rewrite Hden. by rewrite (Hoc x nd a Hnd).
    + intros y Hy. rewrite Hsize in Hy. destruct (lookup_lt_is_Some_2 _ _ Hy) as [nd' Hnd']. destruct (plain_parents y nd' Hnd') as (Hps' & Hxv' & _).
      rewrite (learn_node_coin _ _ _ (coin y) (fun _ => 0)). destruct (learn_node_body N HN Hd D HD None (fun _ => 0) (or_introl eq_refl) (fun _ => Hb) alpha y nd' Hnd' Hxv' Hps') as (body & -> & Hbody).
      pose proof (ftab_wf N HN Hd y nd' Hnd') as Hw. set (t := TableProofs.fresh dom (y :: nd_parents nd')) in *.
      assert (forall k, k ∈ seq 0 (pt_size t) -> (exists q, body k = Ok q) \/ body k = Err DivZero) as Hk.
      { intros k Hk. apply elem_of_seq in Hk. destruct (slot_asg dom (dpos N HN Hd) t k Hw) as (b & Hb' & <- & _); [lia|]. rewrite Hbody by done. unfold qdiv. case_bool_decide; [by right|left; by eexists]. }
      assert ((exists ps, mcollect (seq 0 (pt_size t)) body = Ok ps) \/ mcollect (seq 0 (pt_size t)) body = Err DivZero) as [[ps ->]| ->]; [|left; by eexists|by right].
      clear -Hk. induction (seq 0 (pt_size t)) as [|k l IH]; [left; by exists []|]. cbn. destruct (Hk k) as [[q ->]| ->]; [left| |by right]. cbn. destruct IH as [[ps ->]| ->]; [intros; apply Hk; by right|left; by eexists|by right].
Qed.
End plain.

(** ** With ROOT *)
Section rooted.
Context (N : network) (HN : netinv N) (Hd : doms_positive N) (D : columns) (HD : complete N D) (Hsize : co_vars D = net_size N).
Set Default Proof Using "All".
Notation n := (net_size N).
Definition rooted_net (roots : list nat) (N' : network) : Prop := find_roots N = Ok roots /\ add_root_node N roots = Ok N'.
Lemma rooted_facts roots N' : rooted_net roots N' -> netinv N' /\ doms_positive N' /\ complete N' D /\ net_size N' = S n /\ net_dom N' n = 2 /\ weakly_connected N' /\
  (exists nd, nt_nodes N' !! n = Some nd /\ nd_parents nd = []) /\
  forall x nd, nt_nodes N' !! x = Some nd -> x < n -> plain_or_root D (Some (co_vars D)) (nd_parents nd).
Proof.
  intros [Hf Ha]. destruct (root_connects N HN) as (roots' & N2 & Hf' & Ha' & Hlen & R1 & R2 & R3 & Hhd & _ & _ & Hconn). assert (roots' = roots) as -> by congruence. assert (N2 = N') as -> by congruence.
  assert (forall r, r ∈ roots -> r < length (nt_nodes N)) as Hr by (intros r Hr; by apply R1).
  pose proof (add_root_netinv N HN roots N' R2 Hr Ha) as HN'.
  destruct (add_root_spec N HN roots R2 Hr) as (N2 & Ha2 & _ & _ & _ & Hnodes & root & Hroot & Rd & Rp & _). assert (N2 = N') as -> by congruence.
  assert (forall nd, nd_dom (node_add_parent n 2 nd) = nd_dom nd) as Hnd by (intros nd; unfold node_add_parent; by case_bool_decide).
  assert (forall v, v < n -> net_dom N' v = net_dom N v) as Hdom.
  { intros v Hv. destruct (lookup_lt_is_Some_2 _ _ Hv) as [nd Hnd']. unfold net_dom, dom_of, domain_sizes. rewrite !list_lookup_fmap, Hnd', (Hnodes _ _ Hnd'). cbn. case_decide; [apply Hnd|done]. }
  assert (net_dom N' n = 2) as Hd2. { unfold net_dom, dom_of, domain_sizes. rewrite list_lookup_fmap. unfold net_size. rewrite Hroot. cbn. done. }
  split_and!; try done.
  - unfold doms_positive. apply Forall_lookup. intros v d Hv. unfold domain_sizes in Hv. rewrite list_lookup_fmap in Hv. destruct (nt_nodes N' !! v) as [nd|] eqn:Hnv; [|done]. cbn in Hv. injection Hv as <-.
    assert (v < n \/ v = n) as [Hlt| ->] by (apply lookup_lt_Some in Hnv; unfold net_size in *; lia).
    + pose proof (dpos N HN Hd v) as Hp. rewrite <-(Hdom v Hlt) in Hp. unfold net_dom, dom_of, domain_sizes in Hp. by rewrite list_lookup_fmap, Hnv in Hp.
    + unfold net_size in Hnv. rewrite Hroot in Hnv. injection Hnv as <-. lia.
  - destruct HD as (H1 & H2 & H3). split_and!; [done|unfold net_size in *; lia|]. intros v col Hv. destruct (H3 v col Hv) as [Hl Hall]. split; [done|]. rewrite Hdom; [done|]. apply lookup_lt_Some in Hv. lia.
  - intros x y Hx Hy. eapply rtc_subrel; [|by apply Hconn]. intros u w [H|H]; [left|right]; by apply netinv_child.
  - by exists root.
  - intros x nd Hx Hlt. destruct (lookup_lt_is_Some_2 _ _ Hlt) as [nd0 Hx0]. rewrite (Hnodes _ _ Hx0) in Hx. injection Hx as <-. rewrite Hsize. case_decide as Hin.
    + right. split; [by rewrite Hsize|]. rewrite Hsize. destruct (R1 x Hin) as [_ Hnone]. apply (parentless N HN x nd0 Hx0) in Hnone. unfold node_add_parent. rewrite Hnone. rewrite bool_decide_false by apply not_elem_of_nil. done.
    + left. intros p Hp. rewrite Hsize. by eapply parents_in.
Qed.
Lemma rooted_exists : exists roots N', rooted_net roots N'.
Proof. destruct (root_connects N HN) as (roots & N' & Hf & Ha & _). by exists roots, N'. Qed.

Context (alpha : Z) (coin : nat -> nat -> nat) (Hcoin : forall x j, coin x j < 2).
Lemma learn_root_ok N' : netinv N' -> doms_positive N' -> net_dom N' n = 2 -> (exists nd, nt_nodes N' !! n = Some nd /\ nd_parents nd = []) -> (0 < alpha)%Z ->
  exists t, learn_root N' D alpha n = Ok t /\ is_cpt N' n [] (fun _ => root_half (co_rows D) alpha) t.
Proof.
  intros HN' Hd' Hd2 (nd & Hnd & Hps) Hal. unfold learn_root. rewrite (empty_table_ok N' HN' Hd' n nd Hnd), Hps. cbn [mbind outcome_bind].
  set (t := TableProofs.fresh (net_dom N') [n]). assert (TableSpec.wf (net_dom N') t) as Hw by (apply wf_fresh; [by apply dpos|apply NoDup_singleton]).
  assert (vget (pt_dims t) 0 = Ok 2) as -> by (unfold t; cbn; by rewrite Hd2). cbn [mbind outcome_bind].
  assert (pt_pots t = [0%Qc; 0%Qc]) as Hpots. { unfold t, TableProofs.fresh. cbn [pt_pots]. rewrite configs_length. cbn. by rewrite Hd2. }
  rewrite qdiv_ok.
  2:{ apply Qc_pos_ne. apply Qc_add_pos_r; [apply qn_nonneg|]. unfold qn. rewrite <-qz_mul, <-qz_0. apply (proj1 (qz_lt 0 _)). lia. }
  cbn [mbind outcome_bind]. rewrite Hpots. cbn [vset length]. rewrite !vset_ok by (cbn; lia). cbn [mbind outcome_bind]. rewrite vset_ok by (cbn; lia). cbn [mbind outcome_bind insert list_insert].
  eexists. split; [reflexivity|]. split_and!.
  - apply wf_set_pots; [by apply dpos|done|]. rewrite (wf_size _ _ Hw), (wf_dims _ _ Hw), configs_length. cbn. by rewrite Hd2.
  - done.
  - intros a Ha. unfold tval. cbn [set_pots pt_pots pt_dims pt_vars]. unfold t. cbn. specialize (Ha n). rewrite Hd2 in Ha. rewrite Nat.mul_1_r, Nat.add_0_r. destruct (a n) as [|[|k]]; [done|done|lia].
Qed.
Lemma learn_params_root : (0 < alpha)%Z ->
  exists roots N' ts, rooted_net roots N' /\ learn_params N' D alpha coin [] = Ok ts /\ length ts = S n /\
    (forall x nd, nt_nodes N' !! x = Some nd -> x < n -> exists t, ts !! x = Some t /\
       cpt_ok N' x (nd_parents nd) (smoothed N' (with_column D (coin x <$> seq 0 (co_rows D))) (co_rows D) alpha x (nd_parents nd)) t) /\
    exists t, ts !! n = Some t /\ is_cpt N' n [] (fun _ => root_half (co_rows D) alpha) t.
Proof.
  intros Hal. destruct rooted_exists as (roots & N' & HR). exists roots, N'. destruct (rooted_facts roots N' HR) as (HN' & Hd' & HD' & Hs' & Hd2 & _ & Hroot & Hps).
  assert (forall x j, coin x j < net_dom N' (co_vars D)) as Hc by (intros; rewrite Hsize, Hd2; apply Hcoin).
  unfold learn_params. change (length (nt_nodes N')) with (net_size N'). rewrite Hs', Hsize. rewrite bool_decide_false by lia. rewrite <-Hsize.
  destruct (choose_tables (co_vars D) (fun x => learn_node N' D alpha (Some (co_vars D)) (coin x) x)
    (fun x t => forall nd, nt_nodes N' !! x = Some nd -> cpt_ok N' x (nd_parents nd) (smoothed N' (with_column D (coin x <$> seq 0 (co_rows D))) (co_rows D) alpha x (nd_parents nd)) t)) as (ts & Hl & Hts & Hall).
  - intros x Hx. destruct (lookup_lt_is_Some_2 (nt_nodes N') x) as [nd Hnd]; [unfold net_size in *; lia|].
    destruct (learn_node_ok N' HN' Hd' D HD' (Some (co_vars D)) (coin x) (or_intror eq_refl) (Hc x) alpha x nd Hnd Hx (Hps x nd Hnd ltac:(lia))) as (t & -> & Ht).
    { intros a Ha. by apply (smoothed_pos N' HN' Hd' D HD' (Some (co_vars D)) (coin x) (or_intror eq_refl) (Hc x) alpha). }
    exists t. split; [done|]. intros nd' Hnd'. assert (nd' = nd) as -> by congruence. apply cpt_ok_intro; [done| |].
    + intros a Ha. by apply (smoothed_pos N' HN' Hd' D HD' (Some (co_vars D)) (coin x) (or_intror eq_refl) (Hc x) alpha).
    + intros a Ha. apply (smoothed_sum N' HN' Hd' D HD' (Some (co_vars D)) (coin x) (or_intror eq_refl) (Hc x) alpha); [done| |by apply (smoothed_pos N' HN' Hd' D HD' (Some (co_vars D)) (coin x) (or_intror eq_refl) (Hc x) alpha)].
      intros Hin. by apply (parents_in N' HN' Hd' x nd Hnd) in Hin as (_ & ? & _).
  - destruct (learn_root_ok N' HN' Hd' Hd2 Hroot Hal) as (t & Ht & Hct). exists (ts ++ [t]). split; [done|]. rewrite Hts. cbn [mbind outcome_bind app]. rewrite Hsize, Ht. cbn [mbind outcome_bind]. split_and!; [done|rewrite app_length; cbn; lia| |].
    + intros x nd Hnd Hx. destruct (Hall x) as (t' & Ht' & HP); [lia|]. exists t'. split; [|by apply HP]. rewrite lookup_app_l by lia. done.
    + exists t. split; [|done]. rewrite lookup_app_r by lia. rewrite Hl, Hsize, Nat.sub_diag. done.
Qed.
End rooted.

(** ** ROOT's own distribution *)
Lemma root_half_even rows alpha : (0 < alpha)%Z -> Nat.Even rows -> root_half rows alpha = (1 / qn 2)%Qc.
Proof.
  intros Hal [k ->]. unfold root_half. replace (2 * k / 2) with k by (rewrite Nat.mul_comm, Nat.div_mul; lia).
  assert (qn 2 <> 0%Qc) as H2 by (intros E; unfold qn in E; rewrite <-qz_0 in E; by apply qz_inj in E).
  assert (qn (2 * k) = (qn 2 * qn k)%Qc) as -> by (unfold qn; rewrite Nat2Z.inj_mul, qz_mul; done).
  assert (qn k + qz alpha <> 0)%Qc as Hne. { apply Qc_pos_ne. apply Qc_add_pos_r; [apply qn_nonneg|]. rewrite <-qz_0. by apply (proj1 (qz_lt 0 _)). }
  field. split; [done|]. intros E. apply Hne. replace (qn 2 * qn k + qz alpha * qn 2)%Qc with (qn 2 * (qn k + qz alpha))%Qc in E by ring. by apply Qcmult_integral in E as [E|E].
Qed.
Lemma root_half_sum rows alpha : (0 < alpha)%Z -> (root_half rows alpha + root_half rows alpha = 1)%Qc <-> Nat.Even rows.
Proof.
  intros Hal. unfold root_half.
  assert (qn rows + qz alpha * qn 2 <> 0)%Qc as Hne. { apply Qc_pos_ne. apply Qc_add_pos_r; [apply qn_nonneg|]. unfold qn. rewrite <-qz_mul, <-qz_0. apply (proj1 (qz_lt 0 _)). lia. }
  assert ((qn (rows / 2) + qz alpha) / (qn rows + qz alpha * qn 2) + (qn (rows / 2) + qz alpha) / (qn rows + qz alpha * qn 2) = (qn (rows / 2 + rows / 2) + qz alpha * qn 2) / (qn rows + qz alpha * qn 2))%Qc as ->.
  { rewrite qn_add. assert (qn 2 = 1 + 1)%Qc as -> by (apply Qc_is_canon; reflexivity). assert (qn 2 = 1 + 1)%Qc as E2 by (apply Qc_is_canon; reflexivity). rewrite E2 in Hne. by field. }
  split.
  - intros E. assert (qn (rows / 2 + rows / 2) = qn rows) as Hq.
    { assert ((qn (rows / 2 + rows / 2) + qz alpha * qn 2) = (qn rows + qz alpha * qn 2))%Qc as E'.
      { transitivity ((qn (rows / 2 + rows / 2) + qz alpha * qn 2) / (qn rows + qz alpha * qn 2) * (qn rows + qz alpha * qn 2))%Qc; [by field|]. rewrite E. ring. }
      transitivity (qn (rows / 2 + rows / 2) + qz alpha * qn 2 - qz alpha * qn 2)%Qc; [ring|]. rewrite E'. ring. }
    apply qz_inj in Hq. exists (rows / 2). lia.
  - intros [k ->]. replace (2 * k / 2) with k by (rewrite Nat.mul_comm, Nat.div_mul; lia). replace (k + k) with (2 * k) by lia. by field.
Qed.

(** ** Queries on a network with positive tables *)
Lemma evidence_weight_positive N pts E : net_ok N -> Forall (table_of_family N) pts -> (forall t a, t ∈ pts -> valid (net_dom N) a -> (0 < tval t a)%Qc) ->
  evidence_in_range N E -> evidence_weight N pts E <> 0%Qc.
Proof.
  intros HN Hf Hp HE. pose proof (net_dom_pos N HN) as Hpos.
  set (clip := fun (a : asg) v => if decide (v < net_size N) then a v else 0).
  assert (forall a, valid (net_dom N) a -> (0 < joint pts (set_evidence E a))%Qc) as Hj.
  { intros a Ha. rewrite (joint_dep N pts HN Hf (set_evidence E a) (clip (set_evidence E a))) by (intros v Hv; apply elem_of_seq in Hv; unfold clip; by rewrite decide_True by lia).
    apply BeliefProofs.qprod_pos. intros t Ht. apply Hp; [done|]. intros v. unfold clip. case_decide as Hv; [|apply Hpos].
    clear -HE Ha Hv. induction E as [|[w x] E IH]; [apply Ha|]. cbn. unfold upd. case_bool_decide as Hw; [subst w; apply HE; [left|done]|]. apply IH. intros v' x' Hin. apply HE. by right. }
  unfold evidence_weight. intros Hz.
  assert (proper (fun a => joint pts (set_evidence E a))) as Hprop.
  { intros a b Hab. apply (joint_dep N pts HN Hf). intros v _. clear -Hab. induction E as [|[w x] E IH]; [apply Hab|]. cbn. unfold upd. by case_bool_decide. }
  assert (valid (net_dom N) (fun _ => 0)) as H0 by (intros v; apply Hpos).
  specialize (Hj _ H0) as Hj0. apply (Qc_pos_ne _ Hj0).
  apply (sumv_nonneg_zero (net_dom N) (filter (fun v => v ∉ E.*1) (seq 0 (net_size N))) (fun a => joint pts (set_evidence E a)) (fun _ => 0) H0); try done.
  - intros b Hb. apply Qclt_le_weak. by apply Hj.
  - apply NoDup_filter, NoDup_seq.
Qed.
(** Building the engine and asking, for positive tables of a connected network. *)
Lemma positive_queries N pts o : net_ok N -> 0 < net_size N -> weakly_connected N -> valid_order o -> Forall (table_of_family N) pts ->
  (forall t a, t ∈ pts -> valid (net_dom N) a -> (0 < tval t a)%Qc) ->
  exists T, jt_build o N pts = Ok T /\ forall sch E, valid_scheduler sch -> evidence_in_range N E -> query_probs sch T E (jt_backup T) = Ok (jt_backup T, answer_all N pts E).
Proof.
  intros HN Hn Hc Ho Hf Hp. assert (Forall (nonneg (net_dom N)) pts) as Hnn by (apply Forall_forall; intros t Ht a Ha; apply Qclt_le_weak; by apply Hp).
  destruct (build_iff N o pts HN Hn Ho Hf Hnn) as [Hb _]. destruct (proj2 Hb Hc) as [T HT]. exists T. split; [done|]. intros sch E Hs HE.
  apply (exact_probs N HN Hn o Ho pts Hf Hnn T HT sch E Hs HE). by apply evidence_weight_positive.
Qed.

Lemma joint_product (ts : list ptable) (f : nat -> asg -> Qc) a : (forall x t, ts !! x = Some t -> tval t a = f x a) -> joint ts a = qprod (seq 0 (length ts)) (fun x => f x a).
Proof.
  unfold joint. intros H. enough (forall s, (forall x t, ts !! x = Some t -> tval t a = f (s + x) a) -> qprod ts (fun t => tval t a) = qprod (seq s (length ts)) (fun x => f x a)) as Hg by (by apply Hg).
  clear H. induction ts as [|t ts IH]; intros s H; [done|]. cbn [length seq]. rewrite !BeliefProofs.qprod_cons. rewrite (H 0 t) by done. rewrite Nat.add_0_r. f_equal. apply IH. intros x t' Ht'. rewrite (H (S x) t') by done. f_equal. lia.
Qed.
Lemma learn_then_query N D alpha coin o : netinv N -> doms_positive N -> 0 < net_size N -> complete N D -> co_vars D = net_size N -> (0 < alpha)%Z -> weakly_connected N -> valid_order o ->
  exists ts T, learn_params N D alpha coin [] = Ok ts /\ jt_build o N ts = Ok T /\
    (forall a, valid (net_dom N) a -> joint ts a = qprod (seq 0 (net_size N)) (fun x => smoothed N (co_cols D) (co_rows D) alpha x (parents_of N x) a)) /\
    forall sch E, valid_scheduler sch -> evidence_in_range N E -> query_probs sch T E (jt_backup T) = Ok (jt_backup T, answer_all N ts E).
Proof.
  intros HN Hd Hn HD Hs Hal Hc Ho. destruct (learn_params_plain N HN Hd D HD alpha Hs Hal coin) as (ts & Hts & Hlen & Hall).
  assert (forall x t, ts !! x = Some t -> exists nd, nt_nodes N !! x = Some nd /\ cpt_ok N x (nd_parents nd) (smoothed N (co_cols D) (co_rows D) alpha x (nd_parents nd)) t) as Hinv.
  { intros x t Ht. destruct (lookup_lt_is_Some_2 (nt_nodes N) x) as [nd Hnd]; [apply lookup_lt_Some in Ht; unfold net_size in *; lia|]. destruct (Hall x nd Hnd) as (t' & Ht' & HC). exists nd. split; [done|]. by replace t with t' by congruence. }
  destruct (positive_queries N ts o) as (T & HT & HQ); try done; [by apply netinv_ok| | |].
  - apply Forall_forall. intros t Ht. apply elem_of_list_lookup in Ht as [x Ht]. destruct (Hinv x t Ht) as (nd & Hnd & [HC _]). by eapply is_cpt_family.
  - intros t a Ht Ha. apply elem_of_list_lookup in Ht as [x Ht]. destruct (Hinv x t Ht) as (nd & Hnd & (_ & HC & _)). by apply HC.
  - exists ts, T. split_and!; [done|done| |done]. intros a Ha. rewrite <-Hlen. apply (joint_product ts (fun x => smoothed N (co_cols D) (co_rows D) alpha x (parents_of N x))).
    intros x t Ht. destruct (Hinv x t Ht) as (nd & Hnd & [(_ & _ & HC) _]). unfold parents_of. rewrite Hnd. by apply HC.
Qed.
Lemma learn_with_root_then_query N D alpha coin o : netinv N -> doms_positive N -> complete N D -> co_vars D = net_size N -> (0 < alpha)%Z -> (forall x j, coin x j < 2) -> valid_order o ->
  exists roots N' ts T, find_roots N = Ok roots /\ add_root_node N roots = Ok N' /\ learn_params N' D alpha coin [] = Ok ts /\ jt_build o N' ts = Ok T /\
    (forall a, valid (net_dom N') a -> joint ts a = (qprod (seq 0 (net_size N)) (fun x => smoothed N' (with_column D (coin x <$> seq 0 (co_rows D))) (co_rows D) alpha x (parents_of N' x) a) * root_half (co_rows D) alpha)%Qc) /\
    forall sch E, valid_scheduler sch -> evidence_in_range N' E -> query_probs sch T E (jt_backup T) = Ok (jt_backup T, answer_all N' ts E).
Proof.
  intros HN Hd HD Hs Hal Hcoin Ho. destruct (learn_params_root N HN Hd D HD Hs alpha coin Hcoin Hal) as (roots & N' & ts & HR & Hts & Hlen & Hall & tr & Htr & Hcr).
  destruct (rooted_facts N HN Hd D HD Hs roots N' HR) as (HN' & Hd' & _ & Hs' & _ & Hconn & (ndr & Hndr & Hpr) & _).
  set (f := fun x a => if decide (x < net_size N) then smoothed N' (with_column D (coin x <$> seq 0 (co_rows D))) (co_rows D) alpha x (parents_of N' x) a else root_half (co_rows D) alpha).
  assert (0 < root_half (co_rows D) alpha)%Qc as Hrp.
  { assert (0 < qz alpha)%Qc as H0 by (rewrite <-qz_0; by apply (proj1 (qz_lt 0 _))). apply Qc_div_pos; [by apply Qc_add_pos_r; [apply qn_nonneg|]|]. apply Qc_add_pos_r; [apply qn_nonneg|]. unfold qn. rewrite <-qz_mul, <-qz_0. apply (proj1 (qz_lt 0 _)). lia. }
  assert (forall x t, ts !! x = Some t -> table_of_family N' t /\ forall a, valid (net_dom N') a -> tval t a = f x a /\ (0 < tval t a)%Qc) as Hinv.
  { intros x t Ht. unfold f. case_decide as Hx.
    - destruct (lookup_lt_is_Some_2 (nt_nodes N') x) as [nd Hnd]; [unfold net_size in *; lia|]. destruct (Hall x nd Hnd Hx) as (t' & Ht' & HC). replace t' with t in HC by congruence. destruct HC as (HC & Hp & _). split; [by eapply is_cpt_family|].
      intros a Ha. split; [|by apply Hp]. unfold parents_of. rewrite Hnd. by apply HC.
    - assert (x = net_size N) as -> by (apply lookup_lt_Some in Ht; lia). replace tr with t in Hcr by congruence. split; [rewrite <-Hpr in Hcr; by eapply is_cpt_family|]. intros a Ha. destruct Hcr as (_ & _ & Hcr). rewrite Hcr by done. done. }
  destruct (positive_queries N' ts o) as (T & HT & HQ); try done; [by apply netinv_ok|lia| | |].
  - apply Forall_forall. intros t Ht. apply elem_of_list_lookup in Ht as [x Ht]. by apply (Hinv x).
  - intros t a Ht Ha. apply elem_of_list_lookup in Ht as [x Ht]. by apply (Hinv x).
  - destruct HR as [HR1 HR2]. exists roots, N', ts, T. split_and!; try done. intros a Ha. rewrite (joint_product ts f) by (intros x t Ht; by apply (Hinv x t Ht)).
    rewrite Hlen, seq_S, BeliefProofs.qprod_app, BeliefProofs.qprod_cons, BeliefProofs.qprod_nil. cbn [Nat.add]. f_equal.
    + apply BeliefProofs.qprod_ext. intros x Hx. apply elem_of_seq in Hx. unfold f. by rewrite decide_True by lia.
    + unfold f. rewrite decide_False by lia. ring.
Qed.

(** ** Tables from counters *)
Lemma tables_from_counts N hs : netinv N -> doms_positive N -> length hs = net_size N ->
  (forall x h, hs !! x = Some h -> Forall (fun e => e.1.1 < net_dom N x /\ (0 <= e.2)%Z) h) ->
  exists ts, node_tables N (imap (fun x h => add_counts (default (new_node 0) (nt_nodes N !! x)) h new_counters) hs) = Ok ts /\ length ts = net_size N /\
    forall x nd h, nt_nodes N !! x = Some nd -> hs !! x = Some h -> exists t, ts !! x = Some t /\
      cpt_ok N x (nd_parents nd) (fun a => let u := (fun v => (v, a v)) <$> nd_parents nd in (qz (counted h (a x) u) + 1) / (qz (counted_under h u) + 1 * qn (net_dom N x)))%Qc t.
Proof.
  intros HN Hd Hl Hh. unfold node_tables.
  assert (forall x nd h, nt_nodes N !! x = Some nd -> hs !! x = Some h -> exists t, node_table N x (add_counts nd h new_counters) = Ok t /\
    cpt_ok N x (nd_parents nd) (fun a => let u := (fun v => (v, a v)) <$> nd_parents nd in (qz (counted h (a x) u) + 1) / (qz (counted_under h u) + 1 * qn (net_dom N x)))%Qc t) as H1.
  { intros x nd h Hnd Hx. specialize (Hh x h Hx). rewrite (dom_node N HN Hd x nd Hnd) in *. change new_counters with (set_laplace 1%Qc new_counters).
    assert (nd_dom nd <> 0) as Hnz by (pose proof (dpos N HN Hd x) as Hp; rewrite (dom_node N HN Hd x nd Hnd) in Hp; lia).
    assert (forall u, (qz (counted_under h u) + 1 * qn (nd_dom nd))%Qc <> 0%Qc) as Hden.
    { intros u. destruct (decide (qz (counted_under h u) + 1 * qn (nd_dom nd) = 0)%Qc) as [E|]; [|done]. destruct (counting_positive nd 1%Qc h 0 u) as (p & Hp & _); [done|done|eapply Forall_impl; [exact Hh|]; by intros ? [_ ?]|]. rewrite (counting_zero nd 1%Qc h 0 u E) in Hp. done. }
    destruct (node_table_ok N HN Hd x nd (add_counts nd h (set_laplace 1%Qc new_counters)) (fun a => let u := (fun v => (v, a v)) <$> nd_parents nd in (qz (counted h (a x) u) + 1) / (qz (counted_under h u) + 1 * qn (nd_dom nd)))%Qc Hnd) as (t & Ht & HC).
    { intros a Ha. by apply counting. }
    exists t. split; [done|]. apply cpt_ok_intro; [done| |].
    - intros a Ha. cbn. destruct (counting_positive nd 1%Qc h (a x) ((fun v => (v, a v)) <$> nd_parents nd)) as (p & Hp & Hpos); [done|done|eapply Forall_impl; [exact Hh|]; by intros ? [_ ?]|].
      rewrite counting in Hp by done. injection Hp as <-. exact Hpos.
    - intros a Ha. cbn. rewrite (dom_node N HN Hd x nd Hnd). destruct (counting_sum nd 1%Qc h ((fun v => (v, a v)) <$> nd_parents nd)) as (p & Hp & Hsum); [eapply Forall_impl; [exact Hh|]; by intros ? [? _]|done|].
      etransitivity; [|exact Hsum]. apply qsum_ext. intros y _. specialize (Hp y). rewrite counting in Hp by done. injection Hp as <-. rewrite upd_same.
      assert ((fun v => (v, upd a x y v)) <$> nd_parents nd = (fun v => (v, a v)) <$> nd_parents nd) as ->; [|done]. apply list_fmap_ext. intros i v Hv. f_equal. apply upd_other. apply (parents_in N HN Hd x nd Hnd v). by eapply elem_of_list_lookup_2. }
  set (cs := imap (fun x h => add_counts (default (new_node 0) (nt_nodes N !! x)) h new_counters) hs).
  set (g := fun x => match (c ← vget cs x; node_table N x c) with Ok t => t | Err _ => pt_default end).
  assert (forall x, x ∈ seq 0 (length (nt_nodes N)) -> exists nd h, nt_nodes N !! x = Some nd /\ hs !! x = Some h /\ (c ← vget cs x; node_table N x c) = node_table N x (add_counts nd h new_counters)) as H2.
  { intros x Hx. apply elem_of_seq in Hx. destruct (lookup_lt_is_Some_2 (nt_nodes N) x) as [nd Hnd]; [lia|]. destruct (lookup_lt_is_Some_2 hs x) as [h Hx']; [unfold net_size in *; lia|]. exists nd, h. split_and!; [done|done|].
    rewrite (vget_ok cs x (add_counts nd h new_counters)); [done|]. unfold cs. rewrite list_lookup_imap, Hx'. cbn. by rewrite Hnd. }
  exists (g <$> seq 0 (length (nt_nodes N))). split_and!.
  - apply mcollect_ok. intros x Hx. destruct (H2 x Hx) as (nd & h & Hnd & Hh' & E). unfold g. rewrite E. by destruct (H1 x nd h Hnd Hh') as (t & -> & _).
  - by rewrite fmap_length, seq_length.
  - intros x nd h Hnd Hx. assert (x ∈ seq 0 (length (nt_nodes N))) as Hin by (apply elem_of_seq; apply lookup_lt_Some in Hnd; lia). destruct (H2 x Hin) as (nd' & h' & Hnd' & Hh' & E). assert (nd' = nd /\ h' = h) as [-> ->] by (split; congruence).
    destruct (H1 x nd h Hnd Hx) as (t & Ht & HC). exists t. split; [|done]. rewrite list_lookup_fmap, lookup_seq_lt by (by eapply lookup_lt_Some). cbn. f_equal. unfold g. rewrite E. by rewrite Ht.
Qed.

(** ** ROOT's own table *)
Lemma root_table_sum N : netinv N -> doms_positive N -> forall D, complete N D -> co_vars D = net_size N ->
  forall alpha coin, (forall x j, coin x j < 2) -> (0 < alpha)%Z ->
  exists roots N' ts t p, (find_roots N = Ok roots /\ add_root_node N roots = Ok N') /\ learn_params N' D alpha coin [] = Ok ts /\
    ts !! net_size N = Some t /\ pt_vars t = [net_size N] /\ pt_pots t = [p; p] /\ (0 < p)%Qc /\ (qsum (pt_pots t) (fun p => p) = 1%Qc <-> Nat.Even (co_rows D)).
Proof.
  intros HN Hd D HD Hs alpha coin Hcoin Hal. destruct (learn_params_root N HN Hd D HD Hs alpha coin Hcoin Hal) as (roots & N' & ts & HR & Hts & _ & _ & t & Ht & Hw & Hv & Hval).
  destruct (rooted_facts N HN Hd D HD Hs roots N' HR) as (HN' & Hd' & _ & _ & Hd2 & _). exists roots, N', ts, t, (root_half (co_rows D) alpha).
  assert (forall v, 0 < net_dom N' v) as Hpos by (apply net_dom_pos; by apply netinv_ok).
  pose proof (wf_pots _ _ Hw) as Hlen. rewrite (wf_dims _ _ Hw), Hv in Hlen. rewrite configs_length in Hlen. cbn in Hlen. rewrite Hd2 in Hlen. cbn in Hlen.
  assert (forall y, y < 2 -> pt_pots t !! y = Some (root_half (co_rows D) alpha)) as Hy.
  { intros y Hy. assert (valid (net_dom N') (upd (fun _ => 0) (net_size N) y)) as Ha by (apply valid_upd; [intros v; apply Hpos|lia]). specialize (Hval _ Ha). unfold tval in Hval. rewrite (wf_dims _ _ Hw), Hv in Hval.
    cbn in Hval. rewrite upd_same, Nat.mul_1_r, Nat.add_0_r in Hval. destruct (lookup_lt_is_Some_2 (pt_pots t) y) as [q Hq]; [lia|]. rewrite Hq in Hval. cbn in Hval. by rewrite Hq, Hval. }
  assert (pt_pots t = [root_half (co_rows D) alpha; root_half (co_rows D) alpha]) as Hp.
  { destruct (pt_pots t) as [|p0 [|p1 [|? ?]]]; try done. pose proof (Hy 0 ltac:(lia)) as [= ->]. pose proof (Hy 1 ltac:(lia)) as [= ->]. done. }
  destruct HR as [HR1 HR2]. split_and!; try done.
  - apply Qc_div_pos; [apply Qc_add_pos_r; [apply qn_nonneg|]|]. { rewrite <-qz_0. by apply (proj1 (qz_lt 0 _)). } apply Qc_add_pos_r; [apply qn_nonneg|]. unfold qn. rewrite <-qz_mul, <-qz_0. apply (proj1 (qz_lt 0 _)). lia.
  - rewrite Hp. rewrite <-(root_half_sum (co_rows D) alpha Hal). cbn. rewrite Qcplus_0_r. done.
Qed.
