(** Answers of the junction tree to queries. *)
From Verif Require Import JTModel JTSpec UtilModel UtilProofs TableProofs TableProofs2 TreeProofs RootedProofs BeliefProofs StructProofs PassProofs FlowProofs EvidenceProofs BuildProofs.
Local Open Scope Qc_scope.

Lemma write_block {A} (pre xs : list A) m v (body : nat -> list A * nat -> outcome (list A * nat)) :
  (forall j x acc, xs !! j = Some x -> body j acc = (pr ← vset (fst acc) (snd acc) x; Ok (pr, S (snd acc)))) -> (length xs <= m)%nat ->
  mfor (seq 0 (length xs)) body (pre ++ replicate m v, length pre) = Ok (pre ++ xs ++ replicate (m - length xs) v, length (pre ++ xs)).
Proof.
  intros Hb Hm.
  assert (forall ys k p mm, drop k xs = ys -> (length ys <= mm)%nat -> mfor (seq k (length ys)) body (p ++ replicate mm v, length p) = Ok (p ++ ys ++ replicate (mm - length ys) v, length (p ++ ys))) as Hgen.
  { induction ys as [|y ys IH]; intros k p mm Hd Hl; cbn [length seq mfor].
    - rewrite Nat.sub_0_r, app_nil_r. done.
    - assert (xs !! k = Some y) as Hk. { rewrite <-(Nat.add_0_r k), <-lookup_drop, Hd. done. }
      rewrite (Hb _ _ _ Hk). cbn [fst snd]. destruct mm as [|mm]; [cbn in Hl; lia|]. cbn [replicate]. rewrite vset_ok by (rewrite app_length; cbn; lia). cbn [mbind outcome_bind].
      replace (length p) with (length p + 0)%nat at 1 by lia. rewrite insert_app_r. cbn [insert list_insert].
      replace (p ++ y :: replicate mm v) with ((p ++ [y]) ++ replicate mm v) by (by rewrite <-app_assoc).
      replace (S (length p)) with (length (p ++ [y])) by (rewrite app_length; cbn; lia).
      rewrite IH; [|pose proof (drop_S xs y k Hk); congruence|cbn in Hl; lia].
      by rewrite <-!app_assoc. }
  apply Hgen; [done|done].
Qed.
Lemma foldl_add_sum l k : foldl Nat.add k l = (k + sum_list l)%nat.
Proof. revert k. induction l as [|x l IH]; intros k; cbn; [lia|]. rewrite IH. cbn. lia. Qed.

Section query.
Context (dom : nat -> nat) (dom_pos : forall v, (0 < dom v)%nat).
Notation wf := (TableSpec.wf dom).
Set Default Proof Using "All".

Lemma smallest_clique_spec cs q : Forall wf cs ->
  exists b, smallest_clique cs q = Ok b /\ match b with None => forall t, t ∈ cs -> q ∉ pt_vars t | Some (nv, t) => t ∈ cs /\ q ∈ pt_vars t /\ nv = pt_nv t end.
Proof.
  intros Hw. rewrite Forall_forall in Hw. unfold smallest_clique.
  destruct (mfor_inv (fun (done : list ptable) (b : option (nat * ptable)) => match b with None => forall t, t ∈ done -> q ∉ pt_vars t | Some (nv, t) => t ∈ cs /\ q ∈ pt_vars t /\ nv = pt_nv t end) cs
    (fun t best => loc ← get_variable_index t q; let small := match best with None => true | Some (mn, _) => bool_decide (pt_nv t < mn)%nat end in
       Ok (if small && bool_decide (loc < pt_nv t)%nat then Some (pt_nv t, t) else best)) None) as (b & Hb & HI).
  - intros t Ht. by apply elem_of_nil in Ht.
  - intros done t rest best E I. assert (t ∈ cs) as Ht by (rewrite E; apply elem_of_app; right; left). specialize (Hw t Ht).
    destruct (decide (q ∈ pt_vars t)) as [Hq|Hq].
    + destruct (get_variable_index_in dom dom_pos t q Hw Hq) as (loc & -> & _ & Hl). cbn [mbind outcome_bind]. rewrite (bool_decide_true (loc < pt_nv t)%nat) by done. rewrite andb_true_r. eexists. split; [done|].
      destruct best as [[mn t']|]; [case_bool_decide; done|done].
    + rewrite (get_variable_index_out dom dom_pos t q Hw Hq). cbn [mbind outcome_bind]. rewrite (bool_decide_false (pt_nv t < pt_nv t)%nat) by lia. rewrite andb_false_r. eexists. split; [done|].
      destruct best as [[mn t']|]; [done|]. intros t' Ht'. apply elem_of_app in Ht' as [Ht'|Ht']; [by apply I|]. by apply elem_of_list_singleton in Ht' as ->.
  - exists b. done.
Qed.
Lemma pots_single p q : wf p -> pt_vars p = [q] -> pt_pots p = (fun x => tval p (upd zero_asg q x)) <$> seq 0 (dom q) /\ pt_size p = dom q.
Proof.
  intros Hp Hv. assert (pt_dims p = [dom q]) as Hd by (by rewrite (wf_dims _ _ Hp), Hv).
  assert (forall d, configs [d] = (fun x => [x]) <$> seq 0 d) as Hcf by (intros d; cbn; induction (seq 0 d) as [|x l IH]; [done|]; cbn; by f_equal).
  split.
  - rewrite (pots_as_map dom dom_pos p Hp), Hd, Hcf, <-list_fmap_compose. apply list_fmap_ext. intros k x _. unfold compose, tval. rewrite Hv, Hd. cbn [fmap list_fmap]. by rewrite upd_same.
  - rewrite (wf_size _ _ Hp), configs_length, Hd. unfold prod_list. cbn. lia.
Qed.
(** The marginal of a clique that represents the marginal of [J], as used by both query modes. *)
Lemma clique_marginal (U W : list nat) J t q : NoDup U -> (forall v, v ∈ W -> v ∈ U) -> proper J ->
  wf t -> pt_vars t = W -> q ∈ W -> propto dom (tval t) (marg dom U W J) -> (forall a, valid dom a -> sumv dom W (tval t) a = 1) ->
  exists p, (m ← (if bool_decide (1 < pt_nv t)%nat then table_marginalization t [q] [dom q] else Ok t); table_normalize m) = Ok p /\
    pt_size p = dom q /\ pt_pots p = (fun x => sumv dom (filter (fun v => v ∉ [q]) U) J (upd zero_asg q x) / sumv dom U J zero_asg) <$> seq 0 (dom q) /\
    (pt_nv t = 1%nat -> pt_pots t = pt_pots p).
Proof.
  intros HU HWU HJ Ht HW Hq (k & Hk & Hpr) Htot. pose proof (wf_nodup _ _ Ht) as HndW. rewrite HW in HndW.
  assert (valid dom zero_asg) as Hz by (intros v; apply dom_pos).
  set (es := filter (fun v => v ∉ [q]) W). assert (W ≡ₚ [q] ++ es) as Hp.
  { apply NoDup_Permutation; [done| |].
    - cbn. apply NoDup_cons. split; [|by apply NoDup_filter]. unfold es. rewrite elem_of_list_filter. intros [Hn _]. apply Hn. left.
    - intros v. cbn. rewrite elem_of_cons. unfold es. rewrite elem_of_list_filter. rewrite elem_of_list_singleton. destruct (decide (v = q)) as [->|]; naive_solver. }
  (* sums of the clique *)
  assert (forall a, valid dom a -> sumv dom es (tval t) a = k * sumv dom (filter (fun v => v ∉ [q]) U) J a) as Hes.
  { intros a Ha. rewrite (sumv_ext dom es (tval t) (fun b => k * marg dom U W J b)); [|done|intros b Hb _; by apply Hpr]. rewrite sumv_scal. f_equal.
    change (sumv dom (filter (fun v => v ∉ [q]) U) J a) with (marg dom U [q] J a). rewrite <-(marg_marg dom U HU W [q] J a HJ) by (intros v ->%elem_of_list_singleton; done).
    apply sumv_perm; [by apply sumv_proper|apply NoDup_filter; done|]. apply NoDup_Permutation; [by apply NoDup_filter|by apply NoDup_filter|]. intros v. unfold es. rewrite !elem_of_list_filter. naive_solver. }
  assert (forall a, valid dom a -> 1 = k * sumv dom U J a) as Hall.
  { intros a Ha. rewrite <-(Htot a Ha). rewrite (sumv_ext dom W (tval t) (fun b => k * marg dom U W J b)); [|done|intros b Hb _; by apply Hpr]. rewrite sumv_scal. f_equal.
    transitivity (marg dom U [] J a).
    - rewrite <-(marg_marg dom U HU W [] J a HJ) by (intros v Hv; by apply elem_of_nil in Hv).
      apply sumv_perm; [by apply sumv_proper|done|]. apply NoDup_Permutation; [done|by apply NoDup_filter|]. intros v. rewrite !elem_of_list_filter. split; [|tauto]. intros Hv. split_and!; [done|apply not_elem_of_nil|by apply HWU].
    - unfold marg. rewrite filter_all; [done|]. intros v _. apply not_elem_of_nil. }
  assert (sumv dom U J zero_asg <> 0) as HZ. { intros E. specialize (Hall _ Hz). rewrite E in Hall. replace (k * 0) with 0 in Hall by ring. discriminate. }
  assert (k = / sumv dom U J zero_asg) as Hk'. { specialize (Hall _ Hz). replace k with (k * sumv dom U J zero_asg * / sumv dom U J zero_asg) by (field; done). rewrite <-Hall. ring. }
  assert (exists m, (if bool_decide (1 < pt_nv t)%nat then table_marginalization t [q] [dom q] else Ok t) = Ok m /\ wf m /\ pt_vars m = [q] /\ (forall a, valid dom a -> tval m a = sumv dom es (tval t) a) /\ (pt_nv t = 1%nat -> m = t)) as (m & Hm & Hwm & Hvm & Htm & H1).
  { case_bool_decide as Hnv.
    - destruct (table_marginalization_spec dom dom_pos t [q] es Ht) as (m & Hm & Hwm & Hvm & Htm); [by rewrite HW|]. exists m. split_and!; try done. lia.
    - rewrite (wf_nv _ _ Ht), HW in Hnv. assert (W = [q]) as EW. { destruct W as [|w W']; [by apply elem_of_nil in Hq|]. destruct W' as [|w' W']; [|cbn in Hnv; lia]. apply elem_of_list_singleton in Hq. by subst. }
      exists t. split_and!; try done; [by rewrite HW|]. intros a Ha. assert (es = []) as ->; [|done]. unfold es. rewrite EW. apply filter_none. intros v Hv Hn. done. }
  rewrite Hm. cbn [mbind outcome_bind].
  assert (sumv dom (pt_vars m) (tval m) zero_asg = 1) as Hone.
  { rewrite Hvm. rewrite (sumv_ext dom [q] (tval m) (sumv dom es (tval t))); [|done|intros b Hb _; by apply Htm]. rewrite <-sumv_app. rewrite <-(Htot zero_asg Hz). apply sumv_perm; [apply tval_proper| |by symmetry]. by rewrite <-Hp. }
  destruct (table_normalize_spec dom dom_pos m zero_asg Hwm Hz) as (p & Hpn & Hwp & Hvp & Htp); [by rewrite Hone|]. exists p. split; [done|].
  rewrite Hvm in Hvp. destruct (pots_single p q Hwp Hvp) as [Hpp Hps]. split; [done|]. assert (pt_pots p = (fun x => tval m (upd zero_asg q x)) <$> seq 0 (dom q)) as Hpm.
  { rewrite Hpp. apply list_fmap_ext. intros i x Hi. apply lookup_seq in Hi as [-> Hi]. rewrite Htp by (apply valid_upd; [done|lia]). rewrite Hone. field. done. }
  split.
  - rewrite Hpm. apply list_fmap_ext. intros i x Hi. apply lookup_seq in Hi as [-> Hi]. assert (valid dom (upd zero_asg q (0 + i))) as Hva by (apply valid_upd; [done|lia]). rewrite Htm, Hes by done. rewrite Hk'. field. done.
  - intros Hnv. specialize (H1 Hnv) as ->. rewrite Hpm. by apply pots_single.
Qed.
End query.

(** ** Queries on a tree built from a network *)
Section net.
Context (N : network) (HN : net_ok N) (pts : list ptable) (Hf : Forall (table_of_family N) pts) (Hnn : Forall (nonneg (net_dom N)) pts).
Context (T : jtree) (HT : usable N pts T).
Notation n := (net_size N).
Notation dom := (net_dom N).
Set Default Proof Using "All".
Lemma dom_pos v : (0 < dom v)%nat.
Proof. by apply net_dom_pos. Qed.
Lemma joint_nonneg a : valid dom a -> 0 <= joint pts a.
Proof. intros Ha. apply qprod_nonneg. intros t Ht. rewrite Forall_forall in Hnn. by apply Hnn. Qed.
Lemma doms_length : length (jt_doms T) = n.
Proof. rewrite (us_doms _ _ _ HT). unfold domain_sizes, net_size. by rewrite fmap_length. Qed.
Lemma node_dim_ok q : (q < n)%nat -> node_dim (jt_doms T) q = Ok (dom q).
Proof.
  intros Hq. unfold node_dim, net_dom, dom_of. rewrite (us_doms _ _ _ HT). destruct (lookup_lt_is_Some_2 (domain_sizes N) q) as [d Hd]; [|by rewrite Hd].
  rewrite <-(us_doms _ _ _ HT), doms_length. done.
Qed.

(** Everything a query needs to know about the tables after message passing. *)
Definition answers (E : list (nat * nat)) (st : tabs) : Prop :=
  Forall (TableSpec.wf dom) (t_c st) /\
  (forall t v, t ∈ t_c st -> v ∈ pt_vars t -> (v < n)%nat /\ v ∉ fst <$> E) /\
  (forall q, (q < n)%nat -> q ∉ fst <$> E -> exists t, t ∈ t_c st /\ q ∈ pt_vars t) /\
  (forall t q, t ∈ t_c st -> q ∈ pt_vars t ->
     exists p, (m ← (if bool_decide (1 < pt_nv t)%nat then table_marginalization t [q] [dom q] else Ok t); table_normalize m) = Ok p /\
     pt_size p = dom q /\ pt_pots p = posterior N pts E q <$> seq 0 (dom q) /\ (pt_nv t = 1%nat -> pt_pots t = pt_pots p)).

Lemma evidence_weight_sum E : evidence_weight N pts E = sumv dom (drop_all E (seq 0 n)) (fun a => joint pts (set_evidence E a)) zero_asg.
Proof. unfold evidence_weight. by rewrite drop_all_filter. Qed.
Lemma weight_sum E q x : weight N pts E q x = sumv dom (filter (fun v => v ∉ [q]) (drop_all E (seq 0 n))) (fun a => joint pts (set_evidence E a)) (upd zero_asg q x).
Proof.
  unfold weight. rewrite drop_all_filter. rewrite list_filter_filter.
  rewrite (filter_iff_in (fun v => v ∉ [q] /\ v ∉ E.*1) (fun v => v ∉ q :: E.*1) (seq 0 n)); [done|]. intros v _. set_solver.
Qed.
Lemma set_evidence_range E a : evidence_in_range N E -> valid dom a -> forall v, (v < n)%nat -> (set_evidence E a v < dom v)%nat.
Proof.
  intros HE Ha v Hv. induction E as [|[w x] E IH]; cbn [set_evidence foldr fst snd]; [apply Ha|]. unfold upd. case_bool_decide as Hw.
  - subst w. apply HE; [left|done].
  - apply IH. intros u y Hu. apply HE. by right.
Qed.
Lemma set_evidence_nonneg E a : evidence_in_range N E -> valid dom a -> 0 <= joint pts (set_evidence E a).
Proof.
  intros HE Ha. set (b := fun v => if bool_decide (v < n)%nat then set_evidence E a v else 0%nat).
  replace (joint pts (set_evidence E a)) with (joint pts b).
  - apply joint_nonneg. intros v. unfold b. case_bool_decide; [by apply set_evidence_range|apply dom_pos].
  - apply (joint_dep N pts HN Hf). intros v Hv. apply elem_of_seq in Hv. unfold b. rewrite bool_decide_true; [done|lia].
Qed.
Lemma propagate_net sch E : valid_scheduler sch -> evidence_in_range N E ->
  (exists st, propagate sch T E (jt_backup T) = Ok st /\ evidence_weight N pts E <> 0 /\ answers E st) \/ (propagate sch T E (jt_backup T) = Err DivZero /\ evidence_weight N pts E = 0).
Proof.
  intros Hsch HE. destruct (us_ready _ _ _ HT) as (r & Ls & Htree & sc & ss & Hrd). pose proof dom_pos as Hdp. assert (valid dom zero_asg) as Hz by (intros v; apply Hdp).
  assert (forall a, absorb_all dom (seq 0 n) (joint pts) E a = joint pts (set_evidence E a)) as Habs.
  { intros a. rewrite (absorb_all_in dom Hdp T r Ls Htree); [done|]. intros v x Hin Hv. apply elem_of_seq in Hv. apply HE; [done|lia]. }
  assert (dep_on (drop_all E (seq 0 n)) (absorb_all dom (seq 0 n) (joint pts) E)) as Hdep.
  { clear -Htree Hdp HN Hf. generalize (joint_dep N pts HN Hf). generalize (seq 0 n) (joint pts). induction E as [|[v x] E IH]; intros U J HJ; [done|]. cbn [absorb_all drop_all foldl fst]. apply IH. by eapply absorb_dep. }
  destruct (propagate_spec dom Hdp T r Ls Htree sch E sc ss (seq 0 n) (joint pts) (jt_backup T) Hsch Hrd) as [(st & Hst & Hg & Htot & Hpr & Hnd)|[Herr Hdead]].
  { intros u Hu. rewrite doms_length. apply elem_of_seq in Hu. lia. }
  2: { right. split; [done|]. rewrite evidence_weight_sum. rewrite (sumv_ext dom _ _ (fun b => 0 * 0)); [rewrite (sumv_scal dom); ring|done|]. intros b Hb _. rewrite <-Habs. rewrite Hdead by done. ring. }
  left. exists st. split; [done|]. split.
  { intros Hw. apply Hnd. intros a Ha. rewrite evidence_weight_sum in Hw. set (b := fun v => if bool_decide (v ∈ drop_all E (seq 0 n)) then a v else 0%nat).
    transitivity (absorb_all dom (seq 0 n) (joint pts) E b); [apply Hdep; intros v Hv; unfold b; by rewrite bool_decide_true|]. rewrite Habs.
    apply (sumv_nonneg_zero dom (drop_all E (seq 0 n)) (fun a => joint pts (set_evidence E a)) zero_asg); [done| |done| | | |].
    - intros c Hc. by apply set_evidence_nonneg.
    - intros c d Hcd. rewrite <-!Habs. apply Hdep. intros v _. apply Hcd.
    - rewrite drop_all_filter. apply NoDup_filter, NoDup_seq.
    - intros v. unfold b. case_bool_decide; [apply Ha|apply Hdp].
    - intros v Hv. unfold b, zero_asg. by rewrite bool_decide_false. }
  assert (forall t, t ∈ t_c st -> exists i, i ∈ seen r (concat Ls) /\ t_c st !! i = Some t /\ TableSpec.wf dom t /\ pt_vars t = drop_all E (sc i)) as Hall.
  { intros t Ht. apply elem_of_list_lookup in Ht as [i Hi]. exists i. assert (i ∈ seen r (concat Ls)) as His.
    { rewrite (rd_cs _ _ _ _ _ _ _ _ Hrd). apply elem_of_seq. split; [lia|]. apply lookup_lt_Some in Hi. rewrite (gd_len _ _ _ _ _ _ _ Hg) in Hi. rewrite (rd_cs _ _ _ _ _ _ _ _ Hrd), seq_length in Hi. lia. }
    split; [done|]. destruct (gd_c _ _ _ _ _ _ _ Hg i His) as (C & HC & HwC & HvC). replace t with C by congruence. done. }
  assert (forall i v, i ∈ seen r (concat Ls) -> v ∈ drop_all E (sc i) -> v ∈ drop_all E (seq 0 n)) as Hsub.
  { intros i v Hi Hv. apply drop_all_elem in Hv as [Hv Hn]. apply drop_all_elem. split; [|done]. apply (rd_cov _ _ _ _ _ _ _ _ Hrd). apply elem_of_list_bind. by exists i. }
  split_and!.
  - apply Forall_forall. intros t Ht. by destruct (Hall t Ht) as (i & _ & _ & Hw & _).
  - intros t v Ht Hv. destruct (Hall t Ht) as (i & Hi & _ & _ & Hvt). rewrite Hvt in Hv. apply Hsub in Hv; [|done]. apply drop_all_elem in Hv as [Hv Hn]. apply elem_of_seq in Hv. split; [lia|done].
  - intros q Hq Hn. assert (q ∈ seq 0 n) as Hqs by (apply elem_of_seq; lia). apply (rd_cov _ _ _ _ _ _ _ _ Hrd) in Hqs. apply elem_of_list_bind in Hqs as (i & Hqi & Hi).
    destruct (gd_c _ _ _ _ _ _ _ Hg i Hi) as (C & HC & HwC & HvC). exists C. split; [by eapply elem_of_list_lookup_2|]. rewrite HvC. by apply drop_all_elem.
  - intros t q Ht Hq. destruct (Hall t Ht) as (i & Hi & HC & Hw & Hv).
    assert (forall a, ctab st i a = tval t a) as Hct by (intros a; by apply ctab_at).
    destruct (clique_marginal dom Hdp (drop_all E (seq 0 n)) (drop_all E (sc i)) (absorb_all dom (seq 0 n) (joint pts) E) t q) as (p & Hp & Hs & Hpp & H1); try done.
    + rewrite drop_all_filter. apply NoDup_filter, NoDup_seq.
    + intros v Hv'. by eapply Hsub.
    + by eapply dep_on_proper.
    + by rewrite <-Hv.
    + destruct (Hpr i Hi) as (k & Hk & Hke). exists k. split; [done|]. intros a Ha. rewrite <-Hct. by apply Hke.
    + intros a Ha. rewrite <-(Htot i Hi a Ha). apply sumv_ext; [done|]. intros b _ _. by rewrite Hct.
    + exists p. split_and!; try done. rewrite Hpp. apply list_fmap_ext. intros k x Hx. apply lookup_seq in Hx as [-> Hx]. unfold posterior. rewrite weight_sum, evidence_weight_sum. apply (f_equal2 Qcdiv).
      * apply sumv_ext; [apply valid_upd; [done|lia]|]. intros b _ _. apply Habs.
      * apply sumv_ext; [done|]. intros b _ _. apply Habs.
Qed.
(** A first value outside the range of its variable. *)
Lemma propagate_net_out sch E1 v x E2 : valid_scheduler sch -> (v < n)%nat -> v ∉ fst <$> E1 -> (dom v <= x)%nat ->
  propagate sch T (E1 ++ (v, x) :: E2) (jt_backup T) = Err DivZero.
Proof.
  intros Hsch Hv Hn Hx. destruct (us_ready _ _ _ HT) as (r & Ls & Htree & sc & ss & Hrd). pose proof dom_pos as Hdp.
  destruct (propagate_spec dom Hdp T r Ls Htree sch (E1 ++ (v, x) :: E2) sc ss (seq 0 n) (joint pts) (jt_backup T) Hsch Hrd) as [(st & Hst & Hg & Htot & Hpr & Hnd)|[Herr Hdead]]; [|exfalso|done].
  { intros u Hu. rewrite doms_length. apply elem_of_seq in Hu. lia. }
  apply Hnd. eapply absorb_all_out; [done|exact Htree|by apply joint_dep|apply elem_of_seq; lia|done|done].
Qed.

(** The part of it that concerns the variables without evidence. *)
Definition answers_free (E : list (nat * nat)) (st : tabs) : Prop :=
  Forall (TableSpec.wf dom) (t_c st) /\
  (forall q, (q < n)%nat -> q ∉ fst <$> E -> exists t, t ∈ t_c st /\ q ∈ pt_vars t) /\
  (forall t q, t ∈ t_c st -> q ∈ pt_vars t -> q ∉ fst <$> E ->
     exists p, (m ← (if bool_decide (1 < pt_nv t)%nat then table_marginalization t [q] [dom q] else Ok t); table_normalize m) = Ok p /\
     pt_size p = dom q /\ pt_pots p = posterior N pts E q <$> seq 0 (dom q) /\ (pt_nv t = 1%nat -> pt_pots t = pt_pots p)).
Lemma answers_are_free E st : answers E st -> answers_free E st.
Proof. intros (H1 & _ & H2 & H3). split_and!; [done|done|]. intros t q Ht Hq _. by apply H3. Qed.
Lemma calculate_marginal_free E st q : answers_free E st -> (q < n)%nat -> q ∉ fst <$> E ->
  exists p, calculate_marginal T st q = Ok p /\ pt_pots p = posterior N pts E q <$> seq 0 (dom q).
Proof.
  intros (Hw & Hcov & Hmar) Hq Hn. unfold calculate_marginal. destruct (smallest_clique_spec dom dom_pos (t_c st) q Hw) as (b & -> & Hb). cbn [mbind outcome_bind].
  destruct (Hcov q Hq Hn) as (t0 & Ht0 & Hq0). destruct b as [[nv t]|]; [|by destruct (Hb t0 Ht0)]. destruct Hb as (Ht & Hqt & ->). destruct (Hmar t q Ht Hqt Hn) as (p & Hp & Hs & Hpp & H1).
  destruct (decide (pt_nv t = 1%nat)) as [Hnv|Hnv].
  - rewrite (bool_decide_true (pt_nv t = 1%nat)) by done. exists t. split; [done|]. by rewrite H1.
  - rewrite (bool_decide_false (pt_nv t = 1%nat)) by done. rewrite node_dim_ok by done. cbn [mbind outcome_bind]. rewrite bool_decide_true in Hp.
    + exists p. split; [|done]. exact Hp.
    + rewrite Forall_forall in Hw. specialize (Hw t Ht). rewrite (wf_nv _ _ Hw) in *. destruct (pt_vars t) as [|? [|]]; [by apply elem_of_nil in Hqt|done|cbn; lia].
Qed.
Lemma calculate_marginal_ok E st q : answers E st -> (q < n)%nat -> q ∉ fst <$> E ->
  exists p, calculate_marginal T st q = Ok p /\ pt_pots p = posterior N pts E q <$> seq 0 (dom q).
Proof. intros H. apply calculate_marginal_free. by apply answers_are_free. Qed.
Lemma calculate_marginal_evidence E st q : answers E st -> q ∈ fst <$> E \/ (n <= q)%nat -> calculate_marginal T st q = Err Exit1.
Proof.
  intros (Hw & Hin & _) Hq. unfold calculate_marginal. destruct (smallest_clique_spec dom dom_pos (t_c st) q Hw) as (b & -> & Hb). cbn [mbind outcome_bind].
  destruct b as [[nv t]|]; [|done]. destruct Hb as (Ht & Hqt & _). destruct (Hin t q Ht Hqt). destruct Hq; [done|lia].
Qed.
Lemma block_length E i : (i < n)%nat -> (length (answer_block N pts E i) <= dom i)%nat.
Proof. intros Hi. unfold answer_block. case_bool_decide; [cbn; apply dom_pos|]. by rewrite fmap_length, seq_length. Qed.
Lemma sum_doms k : (k <= n)%nat -> sum_list (take k (domain_sizes N)) = sum_list (dom <$> seq 0 k).
Proof.
  intros Hk. f_equal. apply list_eq. intros i. rewrite list_lookup_fmap. assert (length (domain_sizes N) = n) as Hl by (unfold domain_sizes, net_size; by rewrite fmap_length).
  destruct (decide (i < k)%nat) as [Hi|Hi].
  - rewrite lookup_take, lookup_seq_lt by lia. cbn. unfold net_dom, dom_of. destruct (lookup_lt_is_Some_2 (domain_sizes N) i) as [d Hd]; [lia|]. by rewrite Hd.
  - rewrite !lookup_ge_None_2; [done|rewrite seq_length; lia|rewrite take_length; lia].
Qed.
Lemma blocks_length E l : (forall i, i ∈ l -> i < n)%nat -> (length (l ≫= answer_block N pts E) <= sum_list (dom <$> l))%nat.
Proof.
  induction l as [|i l IH]; intros Hl; [done|]. cbn. rewrite app_length. pose proof (block_length E i ltac:(apply Hl; left)). specialize (IH ltac:(intros j Hj; apply Hl; by right)).
  change (foldr (λ x acc, (x + acc)%nat) 0%nat (dom <$> l)) with (sum_list (dom <$> l)) in *. cbn in IH. lia.
Qed.
Lemma probabilities_all_free E st : answers_free E st -> probabilities_all T st E = Ok (answer_all N pts E).
Proof.
  intros (Hw & Hcov & Hmar). unfold probabilities_all. rewrite doms_length, foldl_add_sum, (us_doms _ _ _ HT). cbn [Nat.add].
  set (size := sum_list (domain_sizes N)). set (B := fun l : list nat => l ≫= answer_block N pts E).
  assert (forall l rest, seq 0 n = l ++ rest -> (length (B l) + sum_list (dom <$> rest) <= size)%nat) as Hroom.
  { intros l rest Hl. assert (sum_list (dom <$> seq 0 n) = size) as <-. { rewrite <-sum_doms by done. unfold size. rewrite take_ge; [done|]. unfold domain_sizes, net_size. by rewrite fmap_length. }
    rewrite Hl, fmap_app. assert (forall x y, sum_list (x ++ y) = sum_list x + sum_list y)%nat as Hsa by (intros x y; induction x as [|z x IH]; cbn in *; lia). rewrite Hsa.
    pose proof (blocks_length E l) as Hb. fold (B l) in Hb. assert (forall i, i ∈ l -> i < n)%nat as Hln. { intros i Hi. assert (i ∈ seq 0 n) as H by (rewrite Hl; apply elem_of_app; by left). apply elem_of_seq in H. lia. } specialize (Hb Hln). lia. }
  match goal with |- (r ← mfor ?l ?b ?s; _) = _ => destruct (mfor_inv (fun (done : list nat) (acc : list Qc * nat) => acc = (B done ++ replicate (size - length (B done)) minus_one, length (B done))) l b s) as (r & -> & Hr) end.
  - unfold B. cbn [mbind list_bind app length]. by rewrite Nat.sub_0_r.
  - intros done i rest acc Hl ->. assert (i ∈ seq 0 n) as Hi by (rewrite Hl; apply elem_of_app; right; left). apply elem_of_seq in Hi.
    assert (B (done ++ [i]) = B done ++ answer_block N pts E i) as Hsn by (unfold B; rewrite bind_app; cbn; by rewrite app_nil_r).
    pose proof (Hroom _ _ Hl) as Hrm. cbn in Hrm. pose proof (dom_pos i) as Hd. rewrite Hsn, app_length. case_bool_decide as Hev.
    + eexists. split; [done|]. unfold answer_block. rewrite bool_decide_true by done. cbn [length]. f_equal; [|lia].
      replace (size - length (B done))%nat with (S (size - (length (B done) + 1))) by lia. cbn [replicate]. by rewrite <-app_assoc.
    + destruct (smallest_clique_spec dom dom_pos (t_c st) i Hw) as (b & -> & Hb). cbn [mbind outcome_bind]. destruct (Hcov i ltac:(lia) Hev) as (t0 & Ht0 & Hq0). destruct b as [[nv t]|]; [|by destruct (Hb t0 Ht0)].
      destruct Hb as (Ht & Hqt & ->). destruct (Hmar t i Ht Hqt Hev) as (p & Hp & Hs & Hpp & _). rewrite <-(us_doms _ _ _ HT), node_dim_ok by lia. cbn [mbind outcome_bind].
      destruct (if bool_decide (1 < pt_nv t)%nat then table_marginalization t [i] [dom i] else Ok t) as [m|]; [|done]. cbn [mbind outcome_bind] in Hp |- *. rewrite Hp. cbn [mbind outcome_bind].
      assert (answer_block N pts E i = pt_pots p) as Hbl by (unfold answer_block; by rewrite bool_decide_false). assert (length (pt_pots p) = dom i) as Hlp by (rewrite Hpp, fmap_length, seq_length; done).
      rewrite Hs, <-Hlp. rewrite (write_block (B done) (pt_pots p) (size - length (B done)) minus_one).
      * eexists. split; [done|]. rewrite Hbl, <-app_assoc, app_length. do 4 f_equal. lia.
      * intros j x acc Hj. rewrite (vget_ok _ _ _ Hj). done.
      * rewrite Hlp. lia.
  - cbn [mbind outcome_bind]. subst r. done.
Qed.
Lemma probabilities_all_ok E st : answers E st -> probabilities_all T st E = Ok (answer_all N pts E).
Proof. intros H. by apply probabilities_all_free, answers_are_free. Qed.
Lemma posterior_sum E q : evidence_in_range N E -> evidence_weight N pts E <> 0 -> (q < n)%nat -> q ∉ fst <$> E -> qsum (seq 0 (dom q)) (posterior N pts E q) = 1.
Proof.
  intros HE Hw Hq Hn. unfold posterior, Qcdiv. rewrite qsum_scal_r. rewrite (qsum_ext _ _ (fun x => sumv dom (filter (fun v => v ∉ [q]) (drop_all E (seq 0 n))) (fun a => joint pts (set_evidence E a)) (upd zero_asg q x))) by (intros x _; apply weight_sum).
  rewrite <-(sumv_one_var dom q), <-sumv_app. rewrite (sumv_perm dom _ (drop_all E (seq 0 n))).
  - rewrite <-evidence_weight_sum. field. done.
  - intros a b Hab. apply (joint_dep N pts HN Hf). intros v _. clear -Hab. unfold set_evidence. induction E as [|e E IH]; cbn [foldr]; [apply Hab|]. unfold upd. by case_bool_decide.
  - cbn. apply NoDup_cons. split; [rewrite elem_of_list_filter; intros [H _]; apply H; left|]. rewrite drop_all_filter. apply NoDup_filter, NoDup_filter, NoDup_seq.
  - apply NoDup_Permutation.
    + cbn. apply NoDup_cons. split; [rewrite elem_of_list_filter; intros [H _]; apply H; left|]. rewrite drop_all_filter. apply NoDup_filter, NoDup_filter, NoDup_seq.
    + rewrite drop_all_filter. apply NoDup_filter, NoDup_seq.
    + intros v. cbn. rewrite elem_of_cons, elem_of_list_filter, elem_of_list_singleton. split.
      * intros [->|[_ ?]]; [|done]. apply drop_all_elem. split; [apply elem_of_seq; lia|done].
      * intros Hv. destruct (decide (v = q)); [by left|by right].
Qed.
Lemma posterior_nonneg E q x : evidence_in_range N E -> (x < dom q)%nat -> 0 <= posterior N pts E q x.
Proof.
  intros HE Hx. assert (valid dom zero_asg) as Hz by (intros v; apply dom_pos). unfold posterior. rewrite weight_sum, evidence_weight_sum. apply Qc_div_nonneg; (apply sumv_nonneg; [|intros b Hb; by apply set_evidence_nonneg]); [by apply valid_upd|done].
Qed.
Lemma classic_pos q E : evidence_in_range N E -> evidence_weight N pts E <> 0 -> (q < n)%nat -> q ∉ fst <$> E -> exists x, (x < dom q)%nat /\ 0 < posterior N pts E q x.
Proof.
  intros HE Hw Hq Hn. pose proof (posterior_sum E q HE Hw Hq Hn) as Hs.
  destruct (decide (Exists (fun x => posterior N pts E q x <> 0) (seq 0 (dom q)))) as [Hex|Hno].
  - apply Exists_exists in Hex as (x & Hx & Hne). apply elem_of_seq in Hx. exists x. split; [lia|]. pose proof (posterior_nonneg E q x HE ltac:(lia)) as Hge. apply Qclt_alt. destruct (Qcle_lt_or_eq _ _ Hge) as [H|H]; [by apply Qclt_alt|congruence].
  - rewrite qsum_zero in Hs; [discriminate|]. intros x Hx. destruct (Qc_eq_dec (posterior N pts E q x) 0) as [|Hne]; [done|]. exfalso. apply Hno. apply Exists_exists. by exists x.
Qed.
Lemma query_label_ok sch E q : valid_scheduler sch -> evidence_in_range N E -> evidence_weight N pts E <> 0 -> (q < n)%nat -> q ∉ fst <$> E ->
  exists l, query_label sch T q E (jt_backup T) = Ok (jt_backup T, l) /\ (l < dom q)%nat /\
    (forall x, (x < dom q)%nat -> posterior N pts E q x <= posterior N pts E q l) /\ (forall x, (x < l)%nat -> posterior N pts E q x < posterior N pts E q l).
Proof.
  intros Hsch HE Hw Hq Hn. unfold query_label. destruct (propagate_net sch E Hsch HE) as [(st & -> & _ & Hans)|[_ ?]]; [|done]. cbn [mbind outcome_bind].
  destruct (calculate_marginal_ok E st q Hans Hq Hn) as (p & -> & Hp). cbn [mbind outcome_bind].
  assert (forall x, (x < dom q)%nat -> pt_pots p !! x = Some (posterior N pts E q x)) as Hlk by (intros x Hx; by rewrite Hp, list_lookup_fmap, lookup_seq_lt).
  destruct (argmax_spec (pt_pots p)) as (l & m & -> & Hl & Hmax & Hfirst).
  { destruct (classic_pos q E HE Hw Hq Hn) as (x & Hx & Hpos). exists x, (posterior N pts E q x). split; [by apply Hlk|done]. }
  cbn [mbind outcome_bind]. assert (l < dom q)%nat as Hlt. { apply lookup_lt_Some in Hl. by rewrite Hp, fmap_length, seq_length in Hl. }
  assert (m = posterior N pts E q l) as -> by (rewrite Hlk in Hl by done; congruence). exists l. split_and!; [done|done| |].
  - intros x Hx. eapply Hmax. by apply Hlk.
  - intros x Hx. eapply Hfirst; [exact Hx|]. apply Hlk. lia.
Qed.
End net.
