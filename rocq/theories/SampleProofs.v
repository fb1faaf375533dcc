(** Forward sampling draws from the network. *)
From Coq Require Import Field QArith.
From Verif Require Import SampleSpec BeliefProofs NetProofs2 NetProofs3 LearnProofs CountProofs LearnTheorems UtilProofs TableProofs2 TableProofs.
Local Open Scope nat_scope.

(** ** Picking *)
Lemma qc_add_0 (w : Qc) : (0 + w = w)%Qc.
Proof. ring. Qed.
Lemma pick_from_spec ws k acc u : ws <> [] -> (forall w, w ∈ ws -> (0 <= w)%Qc) -> (acc < u)%Qc -> (u <= acc + foldr Qcplus 0 ws)%Qc ->
  exists i w, ws !! i = Some w /\ pick_from ws k acc u = k + i /\
    (acc + foldr Qcplus 0 (take i ws) < u)%Qc /\ (u <= acc + foldr Qcplus 0 (take i ws) + w)%Qc.
Proof.
  revert k acc. induction ws as [|w ws IH]; intros k acc Hne Hpos Ha Hu; [done|].
  destruct ws as [|w2 ws].
  - exists 0, w. cbn in *. split_and!; [done|lia| |].
    + replace (acc + 0)%Qc with acc by ring. done.
    + replace (acc + 0 + w)%Qc with (acc + (w + 0))%Qc by ring. done.
  - change (pick_from (w :: w2 :: ws) k acc u) with (if decide (u <= acc + w)%Qc then k else pick_from (w2 :: ws) (S k) (acc + w)%Qc u).
    destruct (decide (u <= acc + w)%Qc) as [Hle|Hgt].
    + exists 0, w. split_and!; [done|lia| |]; cbn.
      * replace (acc + 0)%Qc with acc by ring. done.
      * replace (acc + 0 + w)%Qc with (acc + w)%Qc by ring. done.
    + destruct (IH (S k) (acc + w)%Qc) as (i & x & Hi & Hp & H1 & H2).
      * done.
      * intros x Hx. apply Hpos. by right.
      * by apply Qcnot_le_lt.
      * cbn in Hu |- *. replace (acc + w + (w2 + foldr Qcplus 0 ws))%Qc with (acc + (w + (w2 + foldr Qcplus 0 ws)))%Qc by ring. done.
      * exists (S i), x. split_and!; [done|rewrite Hp; lia| |].
        -- change (take (S i) (w :: w2 :: ws)) with (w :: take i (w2 :: ws)). cbn [foldr].
           replace (acc + (w + foldr Qcplus 0 (take i (w2 :: ws))))%Qc with (acc + w + foldr Qcplus 0 (take i (w2 :: ws)))%Qc by ring. done.
        -- change (take (S i) (w :: w2 :: ws)) with (w :: take i (w2 :: ws)). cbn [foldr].
           replace (acc + (w + foldr Qcplus 0 (take i (w2 :: ws))) + x)%Qc with (acc + w + foldr Qcplus 0 (take i (w2 :: ws)) + x)%Qc by ring. done.
Qed.
Lemma pick_spec ws u : (forall w, w ∈ ws -> (0 <= w)%Qc) -> foldr Qcplus 0%Qc ws = 1%Qc -> (0 < u)%Qc -> (u <= 1)%Qc ->
  exists i w, pick ws u = Ok i /\ ws !! i = Some w /\ (foldr Qcplus 0 (take i ws) < u)%Qc /\ (u <= foldr Qcplus 0 (take i ws) + w)%Qc.
Proof.
  intros Hpos Hsum H0 H1. assert (ws <> []) as Hne by (intros ->; cbn in Hsum; discriminate Hsum).
  destruct (pick_from_spec ws 0 0%Qc u Hne Hpos H0) as (i & w & Hi & Hp & Ha & Hb).
  { rewrite Hsum, qc_add_0. done. }
  rewrite qc_add_0 in Ha. rewrite qc_add_0 in Hb. exists i, w. split; [|done]. unfold pick. case_bool_decide as Hlen.
  - destruct ws as [|w0 [|w1 ws]]; [done| |cbn in Hlen; lia]. apply lookup_lt_Some in Hi. cbn in Hi. f_equal. lia.
  - rewrite Hsum. rewrite bool_decide_false by done. cbv zeta. f_equal.
    assert ((fun w => (w / 1)%Qc) <$> ws = ws) as ->; [|by rewrite Hp]. rewrite <-(list_fmap_id ws) at 2. apply list_fmap_ext. intros _ x _. cbn. field. discriminate.
Qed.

Lemma take_seq x n : x <= n -> take x (seq 0 n) = seq 0 x.
Proof. intros H. replace n with (x + (n - x)) by lia. rewrite seq_app. apply take_app_alt. by rewrite seq_length. Qed.

(** ** One sample *)
Section sample.
Context (N : network) (HN : netinv N) (Hd : doms_positive N) (ts : list ptable) (Hts : distributions N ts)
  (topo : list nat) (Htopo : topological (has_directed N) (net_size N) topo) (u : nat -> Qc) (Hu : uniform u).
Notation dom := (net_dom N).
Set Default Proof Using "All".

Lemma dpos' v : 0 < dom v.
Proof. by apply dpos. Qed.
Lemma topo_lt k v : topo !! k = Some v -> v < net_size N.
Proof. intros Hk. destruct Htopo as [HP _]. apply elem_of_list_lookup_2 in Hk. rewrite HP in Hk. apply elem_of_seq in Hk. lia. Qed.
Lemma topo_inj j k v : topo !! j = Some v -> topo !! k = Some v -> j = k.
Proof. intros Hj Hk. destruct Htopo as [HP _]. eapply NoDup_lookup; [|done|done]. rewrite HP. apply NoDup_seq. Qed.
Lemma topo_at v : v < net_size N -> exists k, topo !! k = Some v.
Proof. intros Hv. destruct Htopo as [HP _]. apply elem_of_list_lookup_1. rewrite HP. apply elem_of_seq. lia. Qed.
Lemma table_at v : v < net_size N -> exists t, ts !! v = Some t /\ distribution_of N v t.
Proof. intros Hv. destruct Hts as [Hl Ht]. destruct (lookup_lt_is_Some_2 ts v) as [t Hv']; [lia|]. exists t. split; [done|]. by apply Ht. Qed.
Lemma parent_first k v p : topo !! k = Some v -> p ∈ parents_of N v -> exists j, j < k /\ topo !! j = Some p.
Proof.
  intros Hk Hp. assert (has_directed N p v) as Hpv. { apply netinv_parent; [done|]. unfold parents_of in Hp. destruct (nt_nodes N !! v) as [nd|] eqn:E; [by exists nd|by apply elem_of_nil in Hp]. }
  destruct (topo_at p) as [j Hj]; [by apply (has_directed_bound N p v HN) in Hpv as [? _]|]. exists j. split; [|done]. destruct Htopo as [_ H]. by eapply H.
Qed.

(** Samples that agree on a node and its parents. *)
Definition agree (s s' : list nat) (v : nat) : Prop := values s v = values s' v /\ forall p, p ∈ parents_of N v -> values s p = values s' p.
Lemma tval_parents t v (a b : asg) y : distribution_of N v t -> (forall p, p ∈ parents_of N v -> a p = b p) -> tval t (upd a v y) = tval t (upd b v y).
Proof.
  intros (_ & Hv & _) Hp. apply tval_dep. intros w Hw. rewrite Hv in Hw. destruct (decide (w = v)) as [->|Hne]; [by rewrite !upd_same|].
  rewrite !upd_other by done. apply Hp. by apply elem_of_cons in Hw as [->|Hw].
Qed.
Lemma tval_self t v (a : asg) : tval t (upd a v (a v)) = tval t a.
Proof. apply tval_dep. intros w _. destruct (decide (w = v)) as [->|Hne]; [by rewrite upd_same|by rewrite upd_other]. Qed.
Lemma interval_agree s s' v : v < net_size N -> agree s s' v -> interval ts s v = interval ts s' v.
Proof.
  intros Hv [H1 H2]. destruct (table_at v Hv) as (t & Ht & Hdist). unfold interval. rewrite Ht. assert (below t v s = below t v s') as ->.
  { unfold below. rewrite H1. apply qsum_ext. intros y _. by apply tval_parents. }
  do 2 f_equal. rewrite <-(tval_self t v (values s)), <-(tval_self t v (values s')), H1. by apply tval_parents.
Qed.
Definition inside (s : list nat) (v : nat) (x : Qc) : Prop := (fst (interval ts s v) < x)%Qc /\ (x <= snd (interval ts s v))%Qc.

Lemma sample_run : exists s, sample_once ts topo (net_size N) u = Ok s /\ full_sample N s /\ forall k v, topo !! k = Some v -> inside s v (u k).
Proof.
  unfold sample_once.
  destruct (mfor_inv (fun m s => full_sample N s /\ forall k v, k < length m -> topo !! k = Some v -> inside s v (u k)) (seq 0 (length topo)) (fun k s =>
    v ← vget topo k; t ← vget ts v; d0 ← vget (pt_dims t) 0;
    w ← get_reduced_potentials t d0 s; x ← pick w (u k); vset s v x) (replicate (net_size N) 0)) as (s & Hs & Hf & Hi).
  - split; [|intros k v Hk; cbn in Hk; lia]. split; [by rewrite replicate_length|]. intros v x Hx. apply lookup_replicate in Hx as [-> _]. apply dpos'.
  - intros m k rest s Hm [[Hlen Hval] Hin].
    assert (seq 0 (length topo) !! length m = Some k) as Hk by (rewrite Hm; by apply list_lookup_middle).
    apply lookup_seq in Hk as [Hmk Hk]. cbn in Hmk. subst k. rewrite app_length. cbn [length]. clear Hm. generalize dependent (length m). intros k Hin Hk.
    destruct (lookup_lt_is_Some_2 topo k Hk) as [v Hv]. pose proof (topo_lt k v Hv) as Hvn. destruct (table_at v Hvn) as (t & Ht & Hdist).
    pose proof Hdist as (Hwf & Hvars & Hnn & Hsum).
    assert (valid dom (values s)) as Hvalid.
    { intros w. unfold values. destruct (s !! w) as [x|] eqn:E; [by apply Hval|apply dpos']. }
    destruct (get_reduced_potentials_spec dom dpos' t v (parents_of N v) s (dom v) Hwf Hvars eq_refl) as (r & Hr & Hrl & Hrv).
    { intros p Hp. destruct (parent_first k v p Hv Hp) as (j & _ & Hj). rewrite Hlen. by eapply topo_lt. }
    { exact Hvalid. }
    assert (r = (fun y => tval t (upd (values s) v y)) <$> seq 0 (dom v)) as Hrr.
    { apply list_eq. intros y. rewrite list_lookup_fmap. destruct (decide (y < dom v)) as [Hy|Hy].
      - rewrite lookup_seq_lt by done. cbn. by apply Hrv.
      - rewrite (lookup_ge_None_2 r) by lia. rewrite (lookup_ge_None_2 (seq 0 (dom v))); [done|]. rewrite seq_length. lia. }
    assert (forall m, foldr Qcplus 0%Qc ((fun y => tval t (upd (values s) v y)) <$> m) = qsum m (fun y => tval t (upd (values s) v y))) as Hfold.
    { intros l. induction l as [|y l IHl]; [done|]. rewrite fmap_cons, qsum_cons, <-IHl. done. }
    destruct (pick_spec r (u k)) as (x & w & Hpick & Hxw & Hlo & Hhi).
    { intros w Hw. rewrite Hrr in Hw. apply elem_of_list_fmap in Hw as (y & -> & Hy). apply Hnn. apply valid_upd; [done|]. apply elem_of_seq in Hy. lia. }
    { rewrite Hrr, Hfold. by apply Hsum. }
    { apply Hu. } { apply Hu. }
    assert (x < dom v) as Hx by (rewrite <-Hrl; by eapply lookup_lt_Some).
    exists (<[v:=x]> s). rewrite (vget_ok _ _ _ Hv). cbn [mbind outcome_bind]. rewrite (vget_ok _ _ _ Ht). cbn [mbind outcome_bind].
    assert (pt_dims t !! 0 = Some (dom v)) as Hd0 by (rewrite (wf_dims _ _ Hwf), Hvars; done).
    rewrite (vget_ok _ _ _ Hd0). cbn [mbind outcome_bind]. rewrite Hr. cbn [mbind outcome_bind]. rewrite Hpick. cbn [mbind outcome_bind].
    split; [apply vset_ok; lia|].
    assert (forall w, values (<[v:=x]> s) w = upd (values s) v x w) as Hvals.
    { intros w0. unfold values. destruct (decide (w0 = v)) as [->|Hne].
      - rewrite list_lookup_insert by lia. by rewrite upd_same.
      - rewrite list_lookup_insert_ne by done. by rewrite upd_other. }
    split.
    + split; [by rewrite insert_length|]. intros w0 y Hy. destruct (decide (v = w0)) as [<-|Hne].
      * rewrite list_lookup_insert in Hy by lia. by injection Hy as <-.
      * rewrite list_lookup_insert_ne in Hy by done. by apply Hval.
    + intros j w0 Hj Hjw. destruct (decide (j = k)) as [->|Hne].
      * rewrite Hv in Hjw. injection Hjw as <-. unfold inside, interval. rewrite Ht. cbn [fst snd].
        assert (below t v (<[v:=x]> s) = foldr Qcplus 0%Qc (take x r)) as ->.
        { unfold below. rewrite Hvals, upd_same. rewrite Hrr, <-fmap_take, take_seq, Hfold by lia. apply qsum_ext. intros y _.
          apply tval_parents; [done|]. intros p Hp. rewrite Hvals. apply upd_other. intros ->. destruct (parent_first k v v Hv Hp) as (j & Hj' & Hjv). pose proof (topo_inj _ _ _ Hjv Hv). lia. }
        assert (tval t (values (<[v:=x]> s)) = w) as ->; [|done].
        rewrite (Hrv x Hx) in Hxw. injection Hxw as <-. apply tval_dep. intros w1 _. apply Hvals.
      * assert (inside s w0 (u j)) as Hold by (apply Hin; [lia|done]). unfold inside. rewrite (interval_agree (<[v:=x]> s) s w0); [done|by eapply topo_lt|].
        split.
        -- rewrite Hvals. apply upd_other. intros ->. pose proof (topo_inj _ _ _ Hjw Hv). lia.
        -- intros p Hp. rewrite Hvals. apply upd_other. intros ->. destruct (parent_first j w0 v Hjw Hp) as (j2 & Hj2 & Hjv). pose proof (topo_inj _ _ _ Hjv Hv). lia.
  - exists s. split; [exact Hs|]. split; [done|]. intros k v Hk. apply Hi; [|done]. rewrite seq_length. by eapply lookup_lt_Some.
Qed.

(** Two samples for the same draws are equal. *)
Lemma below_mono t v (a : asg) x y : distribution_of N v t -> valid dom a -> x < y -> y < dom v ->
  (qsum (seq 0 x) (fun z => tval t (upd a v z)) + tval t (upd a v x) <= qsum (seq 0 y) (fun z => tval t (upd a v z)))%Qc.
Proof.
  intros (_ & _ & Hnn & _) Ha Hxy Hy. replace y with (x + S (y - x - 1)) by lia. rewrite seq_app, qsum_app. cbn [seq]. rewrite qsum_cons, Nat.add_0_l.
  rewrite <-(Qcplus_0_r (qsum (seq 0 x) _ + tval t (upd a v x))%Qc). rewrite <-!Qcplus_assoc. apply Qcplus_le_compat; [apply Qcle_refl|].
  apply Qcplus_le_compat; [apply Qcle_refl|]. apply qsum_nonneg. intros z Hz. apply Hnn. apply valid_upd; [done|]. apply elem_of_seq in Hz. lia.
Qed.
Lemma full_valid s : full_sample N s -> valid dom (values s).
Proof. intros [_ Hval] w. unfold values. destruct (s !! w) as [x|] eqn:E; [by apply Hval|apply dpos']. Qed.
Lemma sample_unique s s' : full_sample N s -> full_sample N s' ->
  (forall k v, topo !! k = Some v -> inside s v (u k)) -> (forall k v, topo !! k = Some v -> inside s' v (u k)) -> s = s'.
Proof.
  intros Hs Hs' Hi Hi'. assert (forall k v, topo !! k = Some v -> values s v = values s' v) as Hall.
  { intros k. induction (lt_wf k) as [k _ IH]. intros v Hk. pose proof (topo_lt k v Hk) as Hv. destruct (table_at v Hv) as (t & Ht & Hdist).
    assert (forall p, p ∈ parents_of N v -> values s p = values s' p) as Hp. { intros p Hp. destruct (parent_first k v p Hk Hp) as (j & Hj & Hjp). by eapply IH. }
    specialize (Hi k v Hk). specialize (Hi' k v Hk). unfold inside, interval in Hi, Hi'. rewrite Ht in Hi, Hi'. cbn [fst snd] in Hi, Hi'.
    unfold below in Hi, Hi'. rewrite (qsum_ext _ _ (fun y => tval t (upd (values s) v y)) (fun y Hy => eq_sym (tval_parents t v (values s) (values s') y Hdist Hp))) in Hi'.
    rewrite <-(tval_self t v (values s')), <-(tval_parents t v (values s) (values s') _ Hdist Hp) in Hi'. rewrite <-(tval_self t v (values s)) in Hi.
    pose proof (full_valid s Hs) as Ha. pose proof (Ha v) as Hx. pose proof (full_valid s' Hs' v) as Hy.
    destruct (Nat.lt_trichotomy (values s v) (values s' v)) as [Hlt|[Heq|Hgt]]; [|done|]; exfalso.
    - pose proof (below_mono t v (values s) _ _ Hdist Ha Hlt Hy) as Hm. destruct Hi as [_ Hi], Hi' as [Hi' _].
      eapply Qclt_not_le; [exact Hi'|]. eapply Qcle_trans; [exact Hi|exact Hm].
    - pose proof (below_mono t v (values s) _ _ Hdist Ha Hgt Hx) as Hm. destruct Hi as [Hi _], Hi' as [_ Hi'].
      eapply Qclt_not_le; [exact Hi|]. eapply Qcle_trans; [exact Hi'|exact Hm]. }
  apply list_eq. intros v. destruct Hs as [Hl _], Hs' as [Hl' _]. destruct (decide (v < net_size N)) as [Hv|Hv].
  - destruct (topo_at v Hv) as [k Hk]. specialize (Hall k v Hk). unfold values in Hall. destruct (lookup_lt_is_Some_2 s v) as [x Hx]; [lia|].
    destruct (lookup_lt_is_Some_2 s' v) as [y Hy]; [lia|]. rewrite Hx, Hy in *. cbn in Hall. by subst.
  - rewrite !lookup_ge_None_2 by lia. done.
Qed.
Lemma sample_iff s : full_sample N s -> sample_once ts topo (net_size N) u = Ok s <-> in_box u (interval ts s <$> topo).
Proof.
  intros Hs. destruct sample_run as (s' & Hr & Hs' & Hi'). split.
  - intros E. rewrite E in Hr. injection Hr as <-. intros k b Hb. rewrite list_lookup_fmap in Hb. apply fmap_Some in Hb as (v & Hk & ->). by apply Hi'.
  - intros Hb. rewrite Hr. f_equal. symmetry. apply sample_unique; [done|done| |done]. intros k v Hk. apply (Hb k (interval ts s v)). by rewrite list_lookup_fmap, Hk.
Qed.
Lemma box_volume s : volume (interval ts s <$> topo) = joint ts (values s).
Proof.
  unfold volume, joint. rewrite qprod_map. destruct Htopo as [HP _]. rewrite (qprod_perm _ _ _ HP). destruct Hts as [Hl _].
  rewrite <-Hl. clear -Hl.
  assert (forall l k, (forall i t, l !! i = Some t -> ts !! (k + i) = Some t) ->
    qprod (seq k (length l)) (fun v => (snd (interval ts s v) - fst (interval ts s v))%Qc) = qprod l (fun t => tval t (values s))) as Hg.
  { induction l as [|t l IH]; intros k Hk; [done|]. cbn [length seq]. rewrite !qprod_cons. rewrite IH by (intros i t' Hi; rewrite <-(Hk (S i) t' Hi); f_equal; lia).
    f_equal. unfold interval. rewrite <-(Nat.add_0_r k), (Hk 0 t eq_refl). cbn [fst snd]. ring. }
  by apply (Hg ts 0).
Qed.
Lemma sample_positive s t v : sample_once ts topo (net_size N) u = Ok s -> ts !! v = Some t -> (0 < tval t (values s))%Qc.
Proof.
  intros E Ht. destruct sample_run as (s' & Hr & Hs' & Hi'). rewrite E in Hr. injection Hr as <-. destruct Hts as [Hl _].
  destruct (topo_at v) as [k Hk]; [rewrite <-Hl; by eapply lookup_lt_Some|]. specialize (Hi' k v Hk). unfold inside, interval in Hi'. rewrite Ht in Hi'. cbn [fst snd] in Hi'.
  destruct Hi' as [H1 H2]. pose proof (Qclt_le_trans _ _ _ H1 H2) as H. destruct (Qclt_le_dec 0%Qc (tval t (values s))) as [|Hle]; [done|]. exfalso.
  eapply Qclt_not_le; [exact H|]. rewrite <-(Qcplus_0_r (below t v s)) at 2. apply Qcplus_le_compat; [apply Qcle_refl|done].
Qed.
End sample.

(** ** The theorems *)
Theorem forward_sample N ts : netinv N -> nt_topo N = [] -> doms_positive N -> distributions N ts ->
  exists N' topo, get_topo_ord N = Ok (N', topo) /\ topological (has_directed N) (net_size N) topo /\
    (forall u, uniform u -> exists s, sample_once ts topo (net_size N) u = Ok s /\ full_sample N s /\ forall v t, ts !! v = Some t -> (0 < tval t (values s))%Qc) /\
    forall s, full_sample N s -> exists box, length box = net_size N /\ volume box = joint ts (values s) /\
      (forall k v lo hi, topo !! k = Some v -> box !! k = Some (lo, hi) -> exists t, ts !! v = Some t /\ (hi - lo = tval t (values s))%Qc) /\
      forall u, uniform u -> sample_once ts topo (net_size N) u = Ok s <-> in_box u box.
Proof.
  intros HN Ht Hd Hts. destruct (get_topo_ord_fresh N HN Ht) as (N' & topo & Hg & _ & _ & _ & Htopo). exists N', topo. split_and!; [done|done| |].
  - intros u Hu. destruct (sample_run N HN Hd ts Hts topo Htopo u Hu) as (s & Hs & Hf & _). exists s. split_and!; [done|done|].
    intros v t. by eapply sample_positive.
  - intros s Hs. exists (interval ts s <$> topo). split_and!.
    + rewrite fmap_length. destruct Htopo as [HP _]. by rewrite HP, seq_length.
    + eapply (box_volume N HN Hd ts Hts topo Htopo (fun _ => 1%Qc)). intros k. split; by vm_compute.
    + intros k v lo hi Hk Hb. rewrite list_lookup_fmap, Hk in Hb. injection Hb as Hb. unfold interval in Hb. destruct Hts as [Hl _].
      assert (v < net_size N) as Hv. { destruct Htopo as [HP _]. apply elem_of_list_lookup_2 in Hk. rewrite HP in Hk. apply elem_of_seq in Hk. unfold net_size. lia. }
      destruct (lookup_lt_is_Some_2 ts v) as [t Ht']; [lia|]. rewrite Ht' in Hb. injection Hb as <- <-. exists t. split; [done|]. ring.
    + intros u Hu. by eapply sample_iff.
Qed.

Theorem generated_samples N hs us : netinv N -> nt_topo N = [] -> doms_positive N -> length hs = net_size N ->
  (forall x h, hs !! x = Some h -> Forall (fun e => e.1.1 < net_dom N x /\ (0 <= e.2)%Z) h) -> 0 < net_size N ->
  exists ts N' topo samples,
    node_tables N (imap (fun x h => add_counts (default (new_node 0) (nt_nodes N !! x)) h new_counters) hs) = Ok ts /\ distributions N ts /\
    get_topo_ord N = Ok (N', topo) /\
    ((forall u, u ∈ us -> uniform u) ->
     generate_samples N (imap (fun x h => add_counts (default (new_node 0) (nt_nodes N !! x)) h new_counters) hs) us = Ok (if bool_decide (us = []) then N else N', samples) /\
     length samples = length us /\ forall j u s, us !! j = Some u -> samples !! j = Some s -> full_sample N s /\ sample_once ts topo (net_size N) u = Ok s).
Proof.
  intros HN Ht Hd Hl Hh Hpos. destruct (tables_from_counts N hs HN Hd Hl Hh) as (ts & Hts & Htl & Htt).
  assert (distributions N ts) as Hdist.
  { split; [done|]. intros x t Hx. destruct (lookup_lt_is_Some_2 (nt_nodes N) x) as [nd Hnd]; [unfold net_size in *; apply lookup_lt_Some in Hx; lia|].
    destruct (lookup_lt_is_Some_2 hs x) as [h Hh']; [apply lookup_lt_Some in Hx; lia|]. destruct (Htt x nd h Hnd Hh') as (t' & Ht' & (Hw & Hv & _) & Hp & Hs).
    rewrite Hx in Ht'. injection Ht' as <-. split_and!; [done|unfold parents_of; by rewrite Hnd| |done]. intros a Ha. apply Qclt_le_weak. by apply Hp. }
  destruct (get_topo_ord_fresh N HN Ht) as (N' & topo & Hg & Htopo' & _ & Hnodes & Htopo).
  set (smp := fun u => match sample_once ts topo (net_size N) u with Ok s => s | Err _ => [] end).
  exists ts, N', topo, (smp <$> us). split_and!; [done|done|done|]. intros Hu.
  assert (forall u, u ∈ us -> exists s, sample_once ts topo (net_size N) u = Ok s /\ full_sample N s) as Hrun.
  { intros u Hin. destruct (sample_run N HN Hd ts Hdist topo Htopo u (Hu u Hin)) as (s & Hs & Hf & _). by exists s. }
  split_and!.
  - unfold generate_samples. rewrite Hts. cbn [mbind outcome_bind].
    assert (topo <> []) as Htne. { intros ->. destruct Htopo as [HP _]. apply Permutation_length in HP. rewrite seq_length in HP. cbn in HP. unfold net_size in Hpos. lia. }
    assert (forall us M acc, (M = N \/ M = N') -> (forall u, u ∈ us -> exists s, sample_once ts topo (net_size N) u = Ok s /\ full_sample N s) ->
      mfor us (fun u st => nt ← get_topo_ord (fst st); s ← sample_once ts (snd nt) (length (nt_nodes N)) u; Ok (fst nt, snd st ++ [s])) (M, acc) =
      Ok (if bool_decide (us = []) then M else N', acc ++ (smp <$> us))) as Hloop.
    { clear us Hu Hrun. induction us as [|u us IH]; intros M acc HM Hrun; [cbn; by rewrite app_nil_r|]. cbn [mfor fst].
      assert (get_topo_ord M = Ok (N', topo)) as ->. { destruct HM as [->| ->]; [done|]. unfold get_topo_ord. rewrite Htopo'. by rewrite bool_decide_false. }
      cbn [mbind outcome_bind fst snd]. destruct (Hrun u) as (s & Hs & _); [left|]. unfold net_size in Hs. rewrite Hs. cbn [mbind outcome_bind].
      rewrite IH; [|by right|intros u' Hu'; apply Hrun; by right]. cbn [fmap list_fmap]. rewrite <-app_assoc. cbn [app].
      assert (smp u = s) as ->. { unfold smp, net_size. by rewrite Hs. } rewrite (bool_decide_false (u :: us = [])) by done. by case_bool_decide. }
    rewrite Hloop; [done|by left|done].
  - by rewrite fmap_length.
  - intros j u s Hj Hs. rewrite list_lookup_fmap, Hj in Hs. injection Hs as <-. destruct (Hrun u) as (s & Hs & Hf); [by eapply elem_of_list_lookup_2|].
    unfold smp. by rewrite Hs.
Qed.

(** The volumes sum to one. *)
Section total.
Context (N : network) (HN : netinv N) (Hd : doms_positive N) (ts : list ptable) (Hts : distributions N ts)
  (topo : list nat) (Htopo : topological (has_directed N) (net_size N) topo).
Notation dom := (net_dom N).
Let tab (v : nat) : ptable := default pt_default (ts !! v).
Set Default Proof Using "All".
Lemma tab_dist v : v < net_size N -> distribution_of N v (tab v).
Proof. intros Hv. destruct Hts as [Hl Ht]. destruct (lookup_lt_is_Some_2 ts v) as [t E]; [lia|]. unfold tab. rewrite E. by apply Ht. Qed.
Lemma prefix_total l : l `prefix_of` topo -> forall a, valid dom a -> sumv dom l (fun b => qprod l (fun v => tval (tab v) b)) a = 1%Qc.
Proof.
  induction l as [|v l IH] using rev_ind; intros Hl a Ha; [done|].
  assert (uniform (fun _ => 1%Qc)) as Hu by (intros k; split; by vm_compute).
  assert (topo !! length l = Some v) as Hv. { destruct Hl as [r ->]. rewrite <-app_assoc. by apply list_lookup_middle. }
  pose proof (topo_lt N HN Hd ts Hts topo Htopo (fun _ => 1%Qc) Hu _ _ Hv) as Hvn. pose proof (tab_dist v Hvn) as Hdist.
  assert (forall k w, l !! k = Some w -> topo !! k = Some w /\ k < length l) as Hin.
  { intros k w Hk. split; [|by eapply lookup_lt_Some]. destruct Hl as [r ->]. rewrite <-app_assoc. by apply lookup_app_l_Some. }
  rewrite sumv_app. rewrite <-(IH (prefix_app_l _ _ _ Hl) a Ha). apply sumv_ext; [done|]. intros b Hb _.
  assert (sumv dom [v] (fun b0 => qprod (l ++ [v]) (fun w => tval (tab w) b0)) b =
          sumv dom [v] (fun b0 => (qprod l (fun w => tval (tab w) b0) * tval (tab v) b0)%Qc) b) as ->.
  { cbn [sumv]. apply qsum_ext. intros x _. rewrite qprod_app. cbn. ring. }
  rewrite (sumv_mul_l dom [v] (fun b0 => tval (tab v) b0) (fun b0 => qprod l (fun w => tval (tab w) b0))).
  - rewrite sumv_one_var. destruct Hdist as (_ & _ & _ & ->); [|done]. ring.
  - intros b1 b2 Hbb. apply qprod_ext. intros w Hw. apply tval_dep. intros p Hp. apply Hbb. intros ->%elem_of_list_singleton.
    apply elem_of_list_lookup in Hw as [k Hk]. destruct (Hin k w Hk) as [Hkw Hkl].
    pose proof (topo_lt N HN Hd ts Hts topo Htopo (fun _ => 1%Qc) Hu _ _ Hkw) as Hwn. destruct (tab_dist w Hwn) as (_ & Hvars & _). rewrite Hvars in Hp.
    apply elem_of_cons in Hp as [<-|Hp].
    + pose proof (topo_inj N HN Hd ts Hts topo Htopo (fun _ => 1%Qc) Hu _ _ _ Hv Hkw). lia.
    + destruct (parent_first N HN Hd ts Hts topo Htopo (fun _ => 1%Qc) Hu k w v Hkw Hp) as (j & Hj & Hjv).
      pose proof (topo_inj N HN Hd ts Hts topo Htopo (fun _ => 1%Qc) Hu _ _ _ Hv Hjv). lia.
Qed.
Lemma joint_tab a : joint ts a = qprod (seq 0 (net_size N)) (fun v => tval (tab v) a).
Proof.
  unfold joint. destruct Hts as [Hl _]. rewrite <-Hl.
  assert (forall l k, (forall i t, l !! i = Some t -> ts !! (k + i) = Some t) -> qprod l (fun t => tval t a) = qprod (seq k (length l)) (fun v => tval (tab v) a)) as Hg.
  { induction l as [|t l IH]; intros k Hk; [done|]. cbn [length seq]. rewrite !qprod_cons. rewrite (IH (S k)) by (intros i t' Hi; rewrite <-(Hk (S i) t' Hi); f_equal; lia).
    f_equal. unfold tab. rewrite <-(Nat.add_0_r k), (Hk 0 t eq_refl). done. }
  by apply (Hg ts 0).
Qed.
Lemma joint_dep a b : (forall v, v < net_size N -> a v = b v) -> joint ts a = joint ts b.
Proof.
  intros Hab. rewrite !joint_tab. apply qprod_ext. intros v Hv. apply elem_of_seq in Hv. destruct (tab_dist v) as (_ & Hvars & _); [lia|].
  apply tval_dep. intros p Hp. apply Hab. rewrite Hvars in Hp. apply elem_of_cons in Hp as [->|Hp]; [lia|].
  unfold parents_of in Hp. destruct (nt_nodes N !! v) as [nd|] eqn:E; [|by apply elem_of_nil in Hp]. destruct (parents_in N HN Hd v nd E p Hp) as [? _]. done.
Qed.
Lemma total_one : qsum (configs (domain_sizes N)) (fun s => joint ts (values s)) = 1%Qc.
Proof.
  destruct Htopo as [HP _]. assert (valid dom (fun _ => 0)) as H0 by (intros v; by apply dpos).
  pose proof (prefix_total topo (reflexivity topo) (fun _ => 0) H0) as H.
  rewrite <-(sumv_perm dom (seq 0 (net_size N)) topo) in H.
  - rewrite sumv_configs in H. assert (dom <$> seq 0 (net_size N) = domain_sizes N) as Hdom.
    { apply list_eq. intros v. rewrite list_lookup_fmap. destruct (decide (v < net_size N)) as [Hv|Hv].
      - rewrite lookup_seq_lt by done. cbn. unfold net_dom, dom_of. destruct (lookup_lt_is_Some_2 (domain_sizes N) v) as [d Hd']; [unfold domain_sizes; by rewrite fmap_length|]. by rewrite Hd'.
      - rewrite (lookup_ge_None_2 (seq 0 _)) by (rewrite seq_length; lia). rewrite lookup_ge_None_2; [done|]. unfold domain_sizes. rewrite fmap_length. unfold net_size in Hv. lia. }
    rewrite Hdom in H. rewrite <-H. apply qsum_ext. intros s Hs. apply elem_of_configs in Hs.
    rewrite (qprod_perm _ _ _ HP), <-joint_tab. apply joint_dep. intros v Hv. unfold values.
    assert (length s = length (seq 0 (net_size N))) as Hlen. { rewrite seq_length. apply Forall2_length in Hs. rewrite Hs. unfold domain_sizes. by rewrite fmap_length. }
    pose proof (upds_map (fun _ => 0) (seq 0 (net_size N)) s (NoDup_seq _ _) Hlen) as Hm.
    assert ((upds (fun _ => 0) (seq 0 (net_size N)) s <$> seq 0 (net_size N)) !! v = s !! v) as E by (by rewrite Hm).
    rewrite list_lookup_fmap, lookup_seq_lt in E by done. cbn in E. by rewrite <-E.
  - intros a b Hab. apply qprod_ext. intros v _. by apply tval_proper.
  - apply NoDup_seq.
  - by symmetry.
Qed.
End total.
Theorem forward_total N ts : netinv N -> nt_topo N = [] -> doms_positive N -> distributions N ts ->
  qsum (configs (domain_sizes N)) (fun s => joint ts (values s)) = 1%Qc.
Proof. intros HN Ht Hd Hts. destruct (get_topo_ord_fresh N HN Ht) as (N' & topo & _ & _ & _ & _ & Htopo). by eapply total_one. Qed.
Theorem full_samples N s : full_sample N s <-> s ∈ configs (domain_sizes N).
Proof.
  rewrite elem_of_configs. unfold full_sample, in_range. rewrite Forall2_lookup. split.
  - intros [Hl Hv] i. destruct (decide (i < net_size N)) as [Hi|Hi].
    + destruct (lookup_lt_is_Some_2 s i) as [x Hx]; [lia|]. rewrite Hx. specialize (Hv i x Hx). unfold net_dom, dom_of in Hv.
      destruct (lookup_lt_is_Some_2 (domain_sizes N) i) as [d Hd]; [unfold domain_sizes; by rewrite fmap_length|]. rewrite Hd in *. by constructor.
    + rewrite !lookup_ge_None_2; [constructor| |unfold net_size in *; lia]. unfold domain_sizes. rewrite fmap_length. unfold net_size in Hi. lia.
  - intros H. split.
    + apply Forall2_lookup, Forall2_length in H. rewrite H. unfold domain_sizes. by rewrite fmap_length.
    + intros v x Hx. specialize (H v). rewrite Hx in H. inversion H as [? d Hlt E1 E2|]; subst. unfold net_dom, dom_of. by rewrite <-E2.
Qed.
