(** The junction-tree properties in the form stated in Properties_JT. *)
From Verif Require Import JTModel JTSpec UtilModel ParProofs TableProofs TreeProofs RootedProofs BeliefProofs MoralProofs ElimProofs PrimProofs StructProofs SchedProofs FlowProofs EvidenceProofs BuildProofs QueryProofs.
Local Open Scope nat_scope.

(** *** Structure *)
Lemma family_covered N pts cliques seps : structure_ok N pts cliques seps ->
  forall x, x < net_size N -> exists c, c ∈ cliques /\ x ∈ cq_vars c /\ forall p, child_rel N p x -> p ∈ cq_vars c.
Proof.
  intros Hst x Hx. set (ps := filter (fun p => x ∈ default [] (nd_children <$> nt_nodes N !! p)) (seq 0 (net_size N))).
  assert (forall p, p ∈ ps <-> child_rel N p x) as Hps.
  { intros p. unfold ps. rewrite elem_of_list_filter, elem_of_seq. unfold child_rel. split.
    - intros [Hc Hp]. destruct (nt_nodes N !! p) as [nd|] eqn:E; cbn in Hc; [by exists nd|by apply elem_of_nil in Hc].
    - intros (nd & E & Hc). rewrite E. cbn. split; [done|]. apply lookup_lt_Some in E. unfold net_size. lia. }
  destruct (so_complete _ _ _ _ Hst (x :: ps)) as (c & Hc & Hs); [done| | |].
  - intros y Hy. apply elem_of_cons in Hy as [->|Hy]; [done|]. unfold ps in Hy. apply elem_of_list_filter in Hy as [_ Hy]. apply elem_of_seq in Hy. lia.
  - intros y z Hy Hz Hne. split; [done|]. apply elem_of_cons in Hy as [->|Hy], Hz as [->|Hz].
    + done.
    + right; left. by apply Hps.
    + left. by apply Hps.
    + right; right. exists x. by rewrite <-!Hps.
  - exists c. split; [done|]. unfold sub in Hs. rewrite Forall_forall in Hs. split; [apply Hs; left|]. intros p Hp. apply Hs. right. by apply Hps.
Qed.
Lemma ssorted_nodup (l : list nat) : StronglySorted lt l -> NoDup l.
Proof. induction 1 as [|x l H IH Hf]; constructor; [|done]. intros Hin. rewrite Forall_forall in Hf. specialize (Hf x Hin). lia. Qed.
Lemma structure_clique_tree N pts cliques seps : structure_ok N pts cliques seps -> clique_tree_of N cliques seps.
Proof.
  intros Hst. split.
  - apply (so_jt _ _ _ _ Hst).
  - intros c Hc. destruct (so_vars _ _ _ _ Hst c Hc) as [H1 H2]. split; [by apply ssorted_nodup|done].
  - by eapply family_covered.
  - intros i j c d Hc Hd Hs. apply (so_antichain _ _ _ _ Hst i j c d Hc Hd). apply Forall_forall. done.
  - intros s Hs. pose proof (so_sep _ _ _ _ Hst s Hs) as Hco. pose proof (co_lt _ _ _ Hco). pose proof (co_b _ _ _ Hco).
    destruct (lookup_lt_is_Some_2 cliques (sp_a s)) as [c Hc]; [lia|]. destruct (lookup_lt_is_Some_2 cliques (sp_b s)) as [d Hd]; [done|]. exists c, d. split_and!; [done|done|]. intros v. rewrite (co_vars _ _ _ Hco). unfold inter. rewrite elem_of_list_filter.
    rewrite (sc_of_lookup _ (sp_a s) (cq_vars c)) by (by rewrite list_lookup_fmap, Hc). rewrite (sc_of_lookup _ (sp_b s) (cq_vars d)) by (by rewrite list_lookup_fmap, Hd). tauto.
Qed.
Lemma clique_tree N o pts : net_ok N -> 0 < net_size N -> valid_order o -> Forall (table_of_family N) pts -> weakly_connected N ->
  exists cliques seps, jt_structure o N pts = Ok (cliques, seps) /\ clique_tree_of N cliques seps /\
    forall a, valid (net_dom N) a -> qprod cliques (fun c => tval (cq_tab c) a) = joint pts a.
Proof.
  intros HN Hn Ho Hf Hc. destruct (jt_structure_spec N HN o Ho pts Hn Hf) as [(cliques & seps & H & _ & Hst)|[_ Hnc]]; [|done]. exists cliques, seps. split_and!; [done|by eapply structure_clique_tree|apply Hst].
Qed.

(** *** Building *)
Lemma build_iff N o pts : net_ok N -> 0 < net_size N -> valid_order o -> Forall (table_of_family N) pts -> Forall (nonneg (net_dom N)) pts ->
  ((exists T, jt_build o N pts = Ok T) <-> weakly_connected N) /\ (~ weakly_connected N -> jt_build o N pts = Err NullDeref).
Proof.
  intros HN Hn Ho Hf Hnn. destruct (jt_build_spec N HN o Ho pts Hn Hf Hnn) as [(T & HT & Hc & _)|(HT & Hc)]; rewrite HT.
  - split; [|done]. split; [done|]. by exists T.
  - split; [|done]. split; [by intros [? ?]|done].
Qed.

Section built.
Context (N : network) (HN : net_ok N) (Hn : 0 < net_size N) (o : mem_order) (Ho : valid_order o) (pts : list ptable).
Context (Hf : Forall (table_of_family N) pts) (Hnn : Forall (nonneg (net_dom N)) pts) (T : jtree) (HT : jt_build o N pts = Ok T).
Notation n := (net_size N).
Notation dom := (net_dom N).
Set Default Proof Using "All".
Lemma built_usable : usable N pts T.
Proof. destruct (jt_build_spec N HN o Ho pts Hn Hf Hnn) as [(T' & HT' & _ & Hu)|(HT' & _)]; [|congruence]. by replace T with T' by congruence. Qed.
Notation Hu := built_usable.

Lemma exact_marginal sch E q : valid_scheduler sch -> evidence_in_range N E -> evidence_weight N pts E <> 0%Qc -> q < n -> q ∉ fst <$> E ->
  exists st p, propagate sch T E (jt_backup T) = Ok st /\ calculate_marginal T st q = Ok p /\ pt_pots p = posterior N pts E q <$> seq 0 (dom q).
Proof.
  intros Hs HE Hw Hq Hnq. destruct (propagate_net N HN pts Hf Hnn T Hu sch E Hs HE) as [(st & Hst & _ & Ha)|[_ ?]]; [|done]. exists st.
  destruct (calculate_marginal_ok N HN pts Hf Hnn T Hu E st q Ha Hq Hnq) as (p & Hp & Hpp). by exists p.
Qed.
Lemma exact_probs sch E : valid_scheduler sch -> evidence_in_range N E -> evidence_weight N pts E <> 0%Qc ->
  query_probs sch T E (jt_backup T) = Ok (jt_backup T, answer_all N pts E).
Proof.
  intros Hs HE Hw. unfold query_probs. destruct (propagate_net N HN pts Hf Hnn T Hu sch E Hs HE) as [(st & -> & _ & Ha)|[_ ?]]; [|done]. cbn [mbind outcome_bind].
  by rewrite (probabilities_all_ok N HN pts Hf Hnn T Hu E st Ha).
Qed.
Lemma exact_label sch E q : valid_scheduler sch -> evidence_in_range N E -> evidence_weight N pts E <> 0%Qc -> q < n -> q ∉ fst <$> E ->
  exists l, query_label sch T q E (jt_backup T) = Ok (jt_backup T, l) /\ best_label N pts E q l.
Proof. intros Hs HE Hw Hq Hnq. apply (query_label_ok N HN pts Hf Hnn T Hu sch E q Hs HE Hw Hq Hnq). Qed.
Lemma impossible_evidence sch E q : valid_scheduler sch ->
  (evidence_in_range N E /\ evidence_weight N pts E = 0%Qc) \/ (exists E1 v x E2, E = E1 ++ (v, x) :: E2 /\ v < n /\ v ∉ fst <$> E1 /\ dom v <= x) ->
  query_probs sch T E (jt_backup T) = Err DivZero /\ query_label sch T q E (jt_backup T) = Err DivZero.
Proof.
  intros Hs Hc. assert (propagate sch T E (jt_backup T) = Err DivZero) as Hp.
  { destruct Hc as [[HE Hz]|(E1 & v & x & E2 & -> & Hv & Hn1 & Hx)].
    - destruct (propagate_net N HN pts Hf Hnn T Hu sch E Hs HE) as [(st & _ & Hw & _)|[? _]]; done.
    - by apply (propagate_net_out N HN pts Hf Hnn T Hu). }
  unfold query_probs, query_label. rewrite Hp. done.
Qed.
Lemma observed_query sch E q : valid_scheduler sch -> evidence_in_range N E -> evidence_weight N pts E <> 0%Qc -> q ∈ fst <$> E \/ n <= q ->
  query_label sch T q E (jt_backup T) = Err Exit1.
Proof.
  intros Hs HE Hw Hq. unfold query_label. destruct (propagate_net N HN pts Hf Hnn T Hu sch E Hs HE) as [(st & -> & _ & Ha)|[_ ?]]; [|done]. cbn [mbind outcome_bind].
  by rewrite (calculate_marginal_evidence N HN pts Hf Hnn T Hu E st q Ha Hq).
Qed.
Lemma posterior_distribution E q : evidence_in_range N E -> evidence_weight N pts E <> 0%Qc -> q < n -> q ∉ fst <$> E ->
  qsum (seq 0 (dom q)) (posterior N pts E q) = 1%Qc /\ forall x, x < dom q -> (0 <= posterior N pts E q x)%Qc.
Proof.
  intros HE Hw Hq Hnq. split; [by apply (posterior_sum N HN pts Hf Hnn T Hu)|]. intros x Hx. by apply (posterior_nonneg N HN pts Hf Hnn T Hu).
Qed.
Lemma propagate_schedule sch sch' E : valid_scheduler sch -> valid_scheduler sch' -> evidence_in_range N E ->
  propagate sch T E (jt_backup T) = propagate sch' T E (jt_backup T).
Proof.
  intros Hs Hs' HE. destruct (propagate_net N HN pts Hf Hnn T Hu sch E Hs HE) as [(st & H1 & Hw & _)|[H1 Hw]], (propagate_net N HN pts Hf Hnn T Hu sch' E Hs' HE) as [(st' & H2 & Hw' & _)|[H2 Hw']]; try done; [|congruence].
  rewrite H1. symmetry. by apply (propagate_okeq sch sch' Hs Hs' T E (jt_backup T)).
Qed.
Lemma query_schedule sch sch' E q : valid_scheduler sch -> valid_scheduler sch' -> evidence_in_range N E ->
  query_probs sch T E (jt_backup T) = query_probs sch' T E (jt_backup T) /\ query_label sch T q E (jt_backup T) = query_label sch' T q E (jt_backup T).
Proof. intros Hs Hs' HE. unfold query_probs, query_label. by rewrite (propagate_schedule sch sch' E Hs Hs' HE). Qed.
End built.

(** *** Sessions *)
Definition fresh_answer (T : jtree) (sch : scheduler) (qu : query) (a : answer) : Prop := exists st, run_query sch T qu (jt_backup T) = Ok (st, a).
Lemma run_query_restores sch T qu st st' a : run_query sch T qu st = Ok (st', a) -> st' = jt_backup T.
Proof.
  destruct qu; cbn [run_query]; intros H; apply bind_ok in H as ([st1 r] & H & Hr); injection Hr as <- <-; unfold query_label, query_probs in H.
  - apply bind_ok in H as (? & _ & H). apply bind_ok in H as (? & _ & H). apply bind_ok in H as (? & _ & H). by injection H as <- <-.
  - apply bind_ok in H as (? & _ & H). apply bind_ok in H as (? & _ & H). by injection H as <- <-.
Qed.
Lemma run_query_okeq sch sch' T qu st : valid_scheduler sch -> valid_scheduler sch' -> okeq (run_query sch T qu st) (run_query sch' T qu st).
Proof. intros H H'. destruct qu; cbn [run_query]; (apply okeq_bind'; [|intros; apply okeq_refl]); [by apply query_label_okeq|by apply query_probs_okeq]. Qed.
Lemma session_independent T sch0 qs st ans : valid_scheduler sch0 -> Forall (fun sq => valid_scheduler (fst sq)) qs ->
  run_queries T qs (jt_backup T) = Ok (st, ans) <-> st = jt_backup T /\ Forall2 (fun sq a => run_query sch0 T (snd sq) (jt_backup T) = Ok (jt_backup T, a)) qs ans.
Proof.
  intros H0 Hqs. unfold run_queries.
  assert (forall acc, mfor qs (fun sq acc => r ← run_query (fst sq) T (snd sq) (fst acc); Ok (fst r, snd acc ++ [snd r])) (jt_backup T, acc) = Ok (st, ans) <->
    exists ans', ans = acc ++ ans' /\ st = jt_backup T /\ Forall2 (fun sq a => run_query sch0 T (snd sq) (jt_backup T) = Ok (jt_backup T, a)) qs ans') as Hgen.
  { induction Hqs as [|[sch qu] qs Hsch Hqs IH]; intros acc; cbn [mfor fst snd].
    - split.
      + intros [= <- <-]. exists []. split_and!; [by rewrite app_nil_r|done|constructor].
      + intros (ans' & -> & -> & HF). inversion HF. by rewrite app_nil_r.
    - split.
      + intros H. apply bind_ok in H as ([st1 acc1] & H & Hr). apply bind_ok in H as ([st2 a] & H & Ha). injection Ha as <- <-. pose proof (run_query_restores _ _ _ _ _ _ H) as ->. cbn [fst snd] in *.
        apply IH in Hr as (ans' & -> & -> & HF). exists (a :: ans'). split_and!; [by rewrite <-app_assoc|done|]. constructor; [|done]. cbn. by apply (run_query_okeq sch sch0).
      + intros (ans' & -> & -> & HF). inversion HF as [|? a ? ans'' Ha HF']; subst. cbn in Ha. apply (run_query_okeq sch sch0 T qu (jt_backup T) Hsch H0) in Ha. rewrite Ha. cbn [mbind outcome_bind fst snd].
        apply IH. exists ans''. split_and!; [by rewrite <-app_assoc|done|done]. }
  rewrite Hgen. cbn. split; [intros (? & -> & ? & ?); done|intros [? ?]; by exists ans].
Qed.

(** *** Prediction *)
Lemma predict_few sch T q Es : Es <> [] -> length Es < 20 -> predict sch T q Es = Err DivZero.
Proof.
  intros Hne Hl. unfold predict. rewrite (Nat.div_small _ _ Hl). destruct Es as [|E Es]; [done|]. done.
Qed.
Lemma predict_ok N o pts T sch q Es : net_ok N -> 0 < net_size N -> valid_order o -> Forall (table_of_family N) pts -> Forall (nonneg (net_dom N)) pts -> jt_build o N pts = Ok T ->
  (forall i, valid_scheduler (sch i)) -> Es = [] \/ 20 <= length Es -> q < net_size N ->
  Forall (fun E => evidence_in_range N E /\ evidence_weight N pts E <> 0%Qc /\ q ∉ fst <$> E) Es ->
  exists labels, predict sch T q Es = Ok labels /\ Forall2 (fun E l => best_label N pts E q l) Es labels.
Proof.
  intros HN Hn Ho Hf Hnn HT Hs Hl Hq HE. unfold predict. set (every := length Es / 20). assert (Es = [] \/ every <> 0) as Hev.
  { destruct Hl as [->|Hl]; [by left|right]. unfold every. assert (0 < length Es / 20) by (apply Nat.div_str_pos; lia). lia. }
  clearbody every. revert HE. assert (Es = [] \/ every <> 0) as Hev' by done. clear Hl Hev.
  intros HE. enough (forall k acc, exists labels, mfor (zip (seq k (length Es)) Es) (fun iE (acc : tabs * list nat) => _ ← imod (S (fst iE)) every; r ← query_label (sch (fst iE)) T q (snd iE) (fst acc); Ok (fst r, snd acc ++ [snd r])) (jt_backup T, acc) = Ok (jt_backup T, acc ++ labels) /\ Forall2 (fun E l => best_label N pts E q l) Es labels) as Hgen by (destruct (Hgen 0 []) as (labels & -> & HF); by exists labels).
  induction HE as [|E Es (H1 & H2 & H3) HE IH]; intros k acc.
  - exists []. rewrite app_nil_r. done.
  - assert (every <> 0) as Hz by (destruct Hev'; done). cbn [length seq zip zip_with mfor fst snd]. assert (exists y, imod (S k) every = Ok y) as [y ->] by (unfold imod; rewrite bool_decide_false by done; by eexists). cbn [mbind outcome_bind].
    destruct (exact_label N HN Hn o Ho pts Hf Hnn T HT (sch k) E q (Hs k) H1 H2 Hq H3) as (l & -> & Hb). cbn [mbind outcome_bind fst snd].
    destruct (IH ltac:(by right) (S k) (acc ++ [l])) as (labels & Hlab & HF). exists (l :: labels). split; [|by constructor]. etransitivity; [exact Hlab|]. by rewrite <-app_assoc.
Qed.

(** *** The flattened index *)
Lemma row_start_take sizes j : row_start sizes j = sum_list (take j sizes).
Proof. revert j. induction sizes as [|n sizes IH]; intros [|j]; try done. cbn. f_equal. apply IH. Qed.
Lemma total_sum sizes : ParProofs.total sizes = sum_list sizes.
Proof. induction sizes as [|n sizes IH]; [done|]. cbn. f_equal. Qed.
Lemma flat_index sizes s : s < sum_list sizes ->
  exists j k n, compute_2d_index s (length sizes) (fst (cum_sums sizes)) = Ok (j, k) /\ sizes !! j = Some n /\ k < n /\ s = sum_list (take j sizes) + k.
Proof. rewrite <-total_sum. intros H. destruct (compute_2d_spec sizes s H) as (j & k & n & H1 & H2 & H3 & H4). exists j, k, n. by rewrite <-row_start_take. Qed.
Lemma flat_index_onto sizes j k n : sizes !! j = Some n -> k < n ->
  compute_2d_index (sum_list (take j sizes) + k) (length sizes) (fst (cum_sums sizes)) = Ok (j, k).
Proof. rewrite <-row_start_take. apply compute_2d_inv. Qed.
