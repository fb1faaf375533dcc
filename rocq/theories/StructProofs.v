(** The constructed clique tree (C09, C10). *)
From Verif Require Import JTModel JTSpec TableProofs TableProofs3 TreeProofs NetProofs2 BeliefProofs MoralProofs ElimProofs TriProofs PrimProofs.
Local Open Scope nat_scope.

(** ** The moral graph *)
Section net.
Context (N : network) (HN : net_ok N).
Notation n := (net_size N).
Set Default Proof Using "All".
Lemma child_bound x y : child_rel N x y -> x < n /\ y < n.
Proof.
  intros (nd & Hx & Hy). split; [by eapply lookup_lt_Some|]. destruct (no_children _ HN x nd Hx) as [_ HF]. rewrite Forall_forall in HF. by apply HF.
Qed.
Lemma child_irrefl x : ~ child_rel N x x.
Proof. intros H. apply (no_acyclic _ HN x). by apply tc_once. Qed.
Lemma moral_ok : graph_ok (moral N) (seq 0 n).
Proof.
  intros x y (Hne & H). assert (x < n /\ y < n) as [Hx Hy].
  { destruct H as [H|[H|(c & H1 & H2)]]; [by apply child_bound|apply child_bound in H; tauto|]. apply child_bound in H1, H2. tauto. }
  rewrite !elem_of_seq. split_and!; try lia. split; [done|]. destruct H as [?|[?|(c & ? & ?)]]; eauto.
Qed.
Lemma moral_matrix_spec : exists m mm, dag_matrix N = Ok m /\ moralize m n = Ok mm /\ square_matrix n mm /\
  forall x y, matrix_rel mm x y <-> moral N x y.
Proof.
  destruct (adjacency_spec N (no_children _ HN)) as (g & ins & Ha & Hsq & _ & Hrel). exists g. unfold dag_matrix. rewrite Ha. cbn [mbind outcome_bind fst].
  destruct (moralize_spec n g Hsq) as (mm & Hmm & Hs & Hr). exists mm. split; [done|]. split; [done|]. split; [done|].
  intros x y. rewrite Hr, !Hrel. unfold moral. setoid_rewrite Hrel. split.
  - intros [H|[H|(c & ? & ? & ? & ? & ?)]]; [split; [|tauto]|split; [|tauto]|split; [done|right; right; eauto]]; intros ->; by apply child_irrefl in H.
  - intros (Hne & [?|[?|(c & H1 & H2)]]); [tauto|tauto|]. right; right. exists c. split_and!; auto; intros ->; by apply child_irrefl in H1 || apply child_irrefl in H2.
Qed.
Lemma moral_weak : weakly_connected N <-> gconnected (moral N) (seq 0 n).
Proof.
  unfold weakly_connected, gconnected. split; intros H x y Hx Hy.
  - rewrite !elem_of_seq in *. eapply rtc_mono; [|apply H; lia]. intros a b Hab. cbv beta in Hab. split; [|tauto]. intros ->. destruct Hab as [Hab|Hab]; by apply child_irrefl in Hab.
  - specialize (H x y). rewrite !elem_of_seq in H. specialize (H ltac:(lia) ltac:(lia)). clear Hx Hy.
    induction H as [|x y z (_ & Hxy) _ IH]; [done|]. etrans; [|exact IH]. destruct Hxy as [?|[?|(c & H1 & H2)]]; [apply rtc_once; tauto|apply rtc_once; tauto|].
    eapply rtc_l; [left; exact H1|]. apply rtc_once. by right.
Qed.
Lemma net_dom_pos v : 0 < net_dom N v.
Proof.
  unfold net_dom, dom_of. destruct (domain_sizes N !! v) as [d|] eqn:Hd; cbn; [|lia]. pose proof (no_doms _ HN) as HF. rewrite Forall_forall in HF. apply HF. by eapply elem_of_list_lookup_2.
Qed.

(** ** Handing out the tables *)
Definition clq_ok (c : clq) : Prop := TableSpec.wf (net_dom N) (cq_tab c) /\ pt_vars (cq_tab c) = cq_vars c /\ cq_vars c <> [].
Lemma assign_one_spec pt cliques :
  TableSpec.wf (net_dom N) pt -> pt_vars pt <> [] -> Forall clq_ok cliques -> (exists c, c ∈ cliques /\ sub (pt_vars pt) (cq_vars c)) ->
  exists cliques', assign_one pt cliques = Ok cliques' /\ cq_vars <$> cliques' = cq_vars <$> cliques /\ Forall clq_ok cliques' /\
    (forall a, valid (net_dom N) a -> qprod cliques' (fun c => tval (cq_tab c) a) = (qprod cliques (fun c => tval (cq_tab c) a) * tval pt a)%Qc) /\
    (nonneg (net_dom N) pt -> Forall (fun c => nonneg (net_dom N) (cq_tab c)) cliques -> Forall (fun c => nonneg (net_dom N) (cq_tab c)) cliques').
Proof.
  intros Hpt Hne. induction cliques as [|c cs IH]; intros HF (c0 & Hin & Hsub); [by apply elem_of_nil in Hin|].
  apply Forall_cons in HF as [(Hw & Hv & Hn) HF]. cbn [assign_one]. rewrite !bool_decide_false by done. cbn [orb].
  assert (set_difference (pt_vars pt) (cq_vars c) = [] <-> sub (pt_vars pt) (cq_vars c)) as Hdiff.
  { unfold set_difference. rewrite sub_alt. split.
    - intros Hnil v Hv'. destruct (decide (v ∈ cq_vars c)) as [|Hnv]; [done|]. assert (v ∈ filter (fun v => v ∉ cq_vars c) (pt_vars pt)) as Hf by (by apply elem_of_list_filter).
      rewrite Hnil in Hf. by apply elem_of_nil in Hf.
    - intros Hall. apply elem_of_nil_inv. intros v Hv'. apply elem_of_list_filter in Hv' as [? ?]. auto. }
  case_bool_decide as Hd.
  - apply Hdiff in Hd. destruct (table_multiplication_spec (net_dom N) net_dom_pos (cq_tab c) pt Hw Hpt) as (t & -> & Hwt & Hvt & Ht).
    { rewrite Hv. by apply sub_alt. }
    cbn [mbind outcome_bind]. eexists. split; [done|]. split_and!.
    + done.
    + constructor; [|done]. split_and!; cbn; [done|by rewrite Hvt|done].
    + intros a Ha. cbn [qprod foldr cq_tab]. rewrite Ht by done. fold (qprod cs (fun c => tval (cq_tab c) a)). ring.
    + intros Hnp Hnc. apply Forall_cons in Hnc as [Hc Hcs]. constructor; [|done]. intros a Ha. cbn [cq_tab]. rewrite Ht by done. by apply Qc_le_mul_nonneg; [apply Hc|apply Hnp].
  - destruct IH as (cs' & -> & H1 & H2 & H3 & H4); [done| |].
    { apply elem_of_cons in Hin as [->|Hin]; [tauto|]. eauto. }
    cbn [mbind outcome_bind]. eexists. split; [done|]. split_and!.
    + by rewrite !fmap_cons, H1.
    + by constructor.
    + intros a Ha. cbn [qprod foldr]. fold (qprod cs' (fun c => tval (cq_tab c) a)). fold (qprod cs (fun c => tval (cq_tab c) a)). rewrite H3 by done. ring.
    + intros Hnp Hnc. apply Forall_cons in Hnc as [Hc Hcs]. constructor; auto.
Qed.
Lemma assign_potentials_spec pts cliques :
  Forall (fun pt => TableSpec.wf (net_dom N) pt /\ pt_vars pt <> [] /\ exists V, V ∈ cq_vars <$> cliques /\ sub (pt_vars pt) V) pts -> Forall clq_ok cliques ->
  exists cliques', assign_potentials pts cliques = Ok cliques' /\ cq_vars <$> cliques' = cq_vars <$> cliques /\ Forall clq_ok cliques' /\
    (forall a, valid (net_dom N) a -> qprod cliques' (fun c => tval (cq_tab c) a) = (qprod cliques (fun c => tval (cq_tab c) a) * joint pts a)%Qc) /\
    (Forall (nonneg (net_dom N)) pts -> Forall (fun c => nonneg (net_dom N) (cq_tab c)) cliques -> Forall (fun c => nonneg (net_dom N) (cq_tab c)) cliques').
Proof.
  unfold assign_potentials. revert cliques. induction pts as [|pt pts IH]; intros cliques Hp HF; cbn [mfor].
  - exists cliques. split_and!; try done. intros a _. unfold joint. cbn. ring.
  - apply Forall_cons in Hp as [(Hw & Hne & V & HV & Hsub) Hp]. apply elem_of_list_fmap in HV as (c & -> & Hc).
    destruct (assign_one_spec pt cliques Hw Hne HF) as (cs1 & -> & H1 & H2 & H3 & H4); [eauto|]. cbn [mbind outcome_bind].
    destruct (IH cs1) as (cs2 & -> & G1 & G2 & G3 & G4); [by rewrite H1|done|]. exists cs2. split_and!; [done|by rewrite G1|done| |].
    + intros a Ha. rewrite G3, H3 by done. unfold joint. cbn [qprod foldr]. fold (qprod pts (fun t => tval t a)). ring.
    + intros Hn Hc'. apply Forall_cons in Hn as [? ?]. auto.
Qed.

(** ** The whole construction *)
Context (o : mem_order) (Ho : valid_order o).
Record structure_ok (pts : list ptable) (cliques : list clq) (seps : list sepr) : Prop := {
  so_nonempty : cliques <> [];
  so_clq : Forall clq_ok cliques;
  so_vars : forall c, c ∈ cliques -> StronglySorted lt (cq_vars c) /\ forall v, v ∈ cq_vars c -> v < n;
  so_jt : junction_tree (sc_of (cq_vars <$> cliques)) (ends <$> seps) (seq 0 (length cliques));
  so_sep : forall s, s ∈ seps -> cand_ok (domain_sizes N) cliques s;
  so_complete : forall S, S <> [] -> (forall x, x ∈ S -> x < n) -> complete (moral N) S -> exists c, c ∈ cliques /\ sub S (cq_vars c);
  so_antichain : forall i j c d, cliques !! i = Some c -> cliques !! j = Some d -> sub (cq_vars c) (cq_vars d) -> i = j;
  so_prod : forall a, valid (net_dom N) a -> qprod cliques (fun c => tval (cq_tab c) a) = joint pts a;
  so_nonneg : Forall (nonneg (net_dom N)) pts -> Forall (fun c => nonneg (net_dom N) (cq_tab c)) cliques }.

Lemma new_clique_inv doms c : (forall v, v ∈ cq_vars c -> v < length doms) -> NoDup (cq_vars c) -> cq_vars c <> [] -> new_clique doms (cq_vars c) = Ok c ->
  TableSpec.wf (dom_of doms) (cq_tab c) /\ pt_vars (cq_tab c) = cq_vars c /\ pt_pots (cq_tab c) = replicate (pt_size (cq_tab c)) 1%Qc.
Proof.
  intros Hb Hnd Hne H. unfold new_clique in H. destruct (construct_empty_spec doms (cq_vars c) Hnd Hne Hb) as (t & Ht & H1 & H2 & H3).
  rewrite Ht in H. cbn in H. injection H as H. rewrite <-H. cbn. done.
Qed.
Lemma family_complete t : table_of_family N t -> complete (moral N) (pt_vars t).
Proof.
  intros (_ & _ & x & Hx & Hv) a b Ha Hb Hne. split; [done|]. apply Hv in Ha as [->|Ha], Hb as [->|Hb]; eauto. done.
Qed.
Lemma domain_sizes_length : length (domain_sizes N) = n.
Proof. unfold domain_sizes. by rewrite fmap_length. Qed.

Lemma cliques_spec : 0 < n -> exists m mm cliques,
  dag_matrix N = Ok m /\ moralize m n = Ok mm /\ triangulate (S n) n (domain_sizes N) mm (replicate n false) [] = Ok cliques /\
  elim (matrix_rel mm) (seq 0 n) (cq_vars <$> cliques) /\ (forall x y, matrix_rel mm x y <-> moral N x y) /\
  graph_ok (matrix_rel mm) (seq 0 n) /\
  Forall (fun c => new_clique (domain_sizes N) (cq_vars c) = Ok c) cliques.
Proof.
  intros Hn. destruct moral_matrix_spec as (m & mm & Hm & Hmm & Hsq & Hrel). exists m, mm.
  assert (graph_ok (matrix_rel mm) (seq 0 n)) as Hg. { intros x y. rewrite !Hrel. apply moral_ok. }
  destruct (triangulate_spec n (domain_sizes N) domain_sizes_length (S n) mm (replicate n false) [] (seq 0 n)) as (M & news & Ht & Hel & Hnews & HF).
  - done.
  - by rewrite replicate_length.
  - apply NoDup_seq.
  - intros x. rewrite elem_of_seq. rewrite lookup_replicate. split; [intros [_ ?]; split_and!; auto|intros (? & _ & ?); lia].
  - done.
  - rewrite seq_length. lia.
  - cbn [app] in Ht. assert (cq_vars <$> news = M) as HM.
    { rewrite Hnews. apply filter_keep. intros K _ HE. by apply Exists_nil in HE. }
    exists news. rewrite HM. split_and!; done.
Qed.

Section built.
Context (cliques : list clq) (mm : matrix) (Hn : 0 < n).
Context (Hel : elim (matrix_rel mm) (seq 0 n) (cq_vars <$> cliques)) (Hrel : forall x y, matrix_rel mm x y <-> moral N x y).
Context (Hg : graph_ok (matrix_rel mm) (seq 0 n)) (Hnew : Forall (fun c => new_clique (domain_sizes N) (cq_vars c) = Ok c) cliques).
Lemma built_vars C : C ∈ cq_vars <$> cliques -> StronglySorted lt C /\ forall v, v ∈ C -> v < length (domain_sizes N).
Proof.
  intros HC. destruct (elim_members _ _ _ Hel Hg C HC) as (Hs & _ & Hb). split; [done|]. intros v Hv. apply Hb, elem_of_seq in Hv. rewrite domain_sizes_length. lia.
Qed.
Lemma built_nonempty : cliques <> [].
Proof.
  intros ->. destruct (elim_cover _ _ _ Hel Hg 0) as (C & HC & _); [apply elem_of_seq; lia|]. by apply elem_of_nil in HC.
Qed.
Lemma built_tab c : c ∈ cliques -> clq_ok c /\ pt_pots (cq_tab c) = replicate (pt_size (cq_tab c)) 1%Qc.
Proof.
  intros Hc. assert (cq_vars c ∈ cq_vars <$> cliques) as Hin by (by apply elem_of_list_fmap_1).
  destruct (elim_members _ _ _ Hel Hg _ Hin) as (_ & Hne & _). destruct (built_vars _ Hin) as [Hs Hb].
  rewrite Forall_forall in Hnew. destruct (new_clique_inv (domain_sizes N) c) as (H1 & H2 & H3); [done|by apply sorted_NoDup|done|by apply Hnew|]. done.
Qed.
Lemma form_tree_spec :
  (exists seps, form_junction_tree o (domain_sizes N) cliques = Ok seps /\ weakly_connected N /\
     (forall s, s ∈ seps -> cand_ok (domain_sizes N) cliques s) /\ junction_tree (sc_of (cq_vars <$> cliques)) (ends <$> seps) (seq 0 (length cliques))) \/
  (form_junction_tree o (domain_sizes N) cliques = Err NullDeref /\ ~ weakly_connected N).
Proof.
  set (M := cq_vars <$> cliques) in *.
  destruct (candidate_seps_spec (domain_sizes N) cliques built_vars) as (cands & Hc & Hok & Hall). unfold form_junction_tree. rewrite Hc. cbn [mbind outcome_bind].
  pose proof built_nonempty as Hne. destruct (lookup_lt_is_Some_2 cliques 0) as [c0 Hc0]; [destruct cliques; [done|cbn; lia]|]. rewrite (vget_ok _ _ _ Hc0). cbn [mbind outcome_bind].
  assert (forall s, s ∈ mo_seps o cands <-> s ∈ cands) as Hperm by (intros s; by rewrite (proj2 Ho cands)).
  destruct (elim_antichain _ _ _ Hel Hg) as [HndM Hac].
  assert (0 < length cliques) as Hnc by (destruct cliques; [done|cbn; lia]).
  destruct (prim_spec (domain_sizes N) cliques built_vars (mo_seps o cands)) with (fuel := length cliques) (tr := [0]) (seps := @nil sepr) as [(seps & Hp & Hs & Htree & Hjt)|(Hp & W & x & H0 & Hx & HxW & HW & Hno)].
  - intros s Hs. apply Hok, Hperm, Hs.
  - intros i j Hij Hj Hij'. destruct (Hall i j Hij Hj Hij') as (s & Hs & ?). exists s. split; [by apply Hperm|done].
  - cbn. lia.
  - apply NoDup_singleton.
  - left.
  - by intros x ->%elem_of_list_singleton.
  - by intros s ?%elem_of_nil.
  - by intros x y ?%elem_of_nil.
  - by intros x y ->%elem_of_list_singleton ->%elem_of_list_singleton.
  - done.
  - left. exists seps. split; [done|]. assert (weakly_connected N) as Hwc.
    { apply moral_weak. intros x y Hx Hy. destruct (elim_cover _ _ _ Hel Hg x Hx) as (C & HC & HxC). destruct (elim_cover _ _ _ Hel Hg y Hy) as (D & HD & HyD).
      apply elem_of_list_lookup in HC as [i Hi]. apply elem_of_list_lookup in HD as [j Hj].
      assert (forall k K, M !! k = Some K -> k ∈ seq 0 (length cliques)) as Hk.
      { intros k K Hk. apply elem_of_seq. apply lookup_lt_Some in Hk. unfold M in Hk. rewrite fmap_length in Hk. lia. }
      destruct Htree as (_ & Hcon & _). specialize (Hcon i j (Hk _ _ Hi) (Hk _ _ Hj)).
      eapply rtc_mono; [intros a b; apply Hrel|]. fold M in Hel.
      revert C x Hi HxC Hx. induction Hcon as [i|i k j Hik _ IH]; intros C x Hi HxC Hx.
      - assert (C = D) as -> by congruence. by apply (elim_reach _ _ _ Hel Hg D); [eapply elem_of_list_lookup_2| |].
      - assert (exists z, z ∈ sc_of M i /\ z ∈ sc_of M k) as (z & Hzi & Hzk).
        { assert (forall a b, (a, b) ∈ ends <$> seps -> exists z, z ∈ sc_of M a /\ z ∈ sc_of M b) as Hshare.
          { intros a b Hab. apply elem_of_list_fmap in Hab as (s & Heq & Hs'). injection Heq as -> ->. apply Hs, Hperm, Hok in Hs'.
            pose proof (co_ne _ _ _ Hs') as Hsne. rewrite (co_vars _ _ _ Hs') in Hsne. fold M in Hsne.
            destruct (inter (sc_of M (sp_a s)) (sc_of M (sp_b s))) as [|z l] eqn:Hi'; [done|].
            assert (z ∈ inter (sc_of M (sp_a s)) (sc_of M (sp_b s))) as Hz by (rewrite Hi'; left). apply elem_of_list_filter in Hz. exists z. tauto. }
          destruct Hik as [Hik|Hik]; apply Hshare in Hik as (z & ? & ?); eauto. }
        assert (exists K, M !! k = Some K) as [K HK]. { unfold sc_of in Hzk. destruct (M !! k); [eauto|by apply elem_of_nil in Hzk]. }
        rewrite (sc_of_lookup _ _ _ Hi) in Hzi. rewrite (sc_of_lookup _ _ _ HK) in Hzk.
        etrans; [apply (elim_reach _ _ _ Hel Hg C x z); [by eapply elem_of_list_lookup_2|done|done]|].
        apply (IH Hj K z HK Hzk). apply (elim_members _ _ _ Hel Hg K); [by eapply elem_of_list_lookup_2|done]. }
    split; [done|]. split; [intros s Hs'; by apply Hok, Hperm, Hs|].
    assert (gconnected (matrix_rel mm) (seq 0 n)) as Hgc. { intros x y Hx Hy. eapply rtc_mono; [intros a b; apply Hrel|]. apply (proj1 moral_weak Hwc); done. }
    destruct (elim_junction_tree _ _ _ Hel Hg Hgc) as [E HE]; [intros Heq; apply (f_equal length) in Heq; rewrite seq_length in Heq; cbn in Heq; lia|].
    destruct (jt_positions M E HndM HE) as [E' HE']. unfold M in HE'. rewrite fmap_length in HE'. fold M in HE'.
    destruct Hjt as (E2 & HE2 & Hsub). { exists E'. split; [done|]. by intros x y [?%elem_of_nil|?%elem_of_nil]. }
    eapply junction_tree_eq; [apply NoDup_seq|exact HE2|exact Htree|exact Hsub].
  - right. split; [done|]. intros Hwc. pose proof (proj1 moral_weak Hwc) as Hgc.
    assert (forall k, k < length cliques -> exists K, M !! k = Some K /\ K ∈ M /\ exists z, z ∈ K /\ z ∈ seq 0 n) as Hk.
    { intros k Hk. destruct (lookup_lt_is_Some_2 M k) as [K HK]; [unfold M; by rewrite fmap_length|]. exists K. split; [done|]. assert (K ∈ M) as HKM by (by eapply elem_of_list_lookup_2). split; [done|].
      destruct (elim_members _ _ _ Hel Hg K HKM) as (_ & HKne & HKb). destruct K as [|z K]; [done|]. exists z. split; [left|apply HKb; left]. }
    destruct (Hk 0 Hnc) as (K0 & HK0 & HK0M & u & Hu & Hun). destruct (Hk x Hx) as (Kx & HKx & HKxM & w & Hw & Hwn).
    assert (forall i j z, i < length cliques -> j < length cliques -> i ∈ W -> j ∉ W -> z ∈ sc_of M i -> z ∈ sc_of M j -> False) as Hdis.
    { intros i j z Hi Hj HiW HjW Hzi Hzj. destruct (decide (i < j)) as [Hlt|Hge].
      - destruct (Hall i j Hlt Hj) as (s & Hs & <- & <-).
        + intros Hnil. assert (z ∈ inter (sc_of M i) (sc_of M j)) as Hz by (by apply elem_of_list_filter). fold M in Hnil. rewrite Hnil in Hz. by apply elem_of_nil in Hz.
        + apply (Hno s); [by apply Hperm|by left].
      - assert (i <> j) by (intros ->; done). destruct (Hall j i ltac:(lia) Hi) as (s & Hs & <- & <-).
        + intros Hnil. assert (z ∈ inter (sc_of M j) (sc_of M i)) as Hz by (by apply elem_of_list_filter). fold M in Hnil. rewrite Hnil in Hz. by apply elem_of_nil in Hz.
        + apply (Hno s); [by apply Hperm|by right]. }
    set (VW := filter (fun z => Exists (fun i => z ∈ sc_of M i) W) (seq 0 n)).
    destruct (crossing (moral N) VW u w (Hgc u w Hun Hwn)) as (a & b & HaV & HbV & Hab & _ & _).
    + apply elem_of_list_filter. split; [|done]. apply Exists_exists. exists 0. split; [done|]. by rewrite (sc_of_lookup _ _ _ HK0).
    + intros Hin. apply elem_of_list_filter in Hin as [Hin _]. apply Exists_exists in Hin as (i & HiW & Hwi).
      apply (Hdis i x w); [by apply HW|done|done|done|done|]. by rewrite (sc_of_lookup _ _ _ HKx).
    + destruct (elim_complete _ _ _ Hel Hg [a; b]) as (C & HC & Hsub); [done| | |].
      * apply moral_ok in Hab as (_ & _ & ? & ?). intros z Hz. apply elem_of_cons in Hz as [->|Hz]; [done|]. by apply elem_of_list_singleton in Hz as ->.
      * intros y z Hy Hz Hyz. apply Hrel. rewrite !elem_of_cons, elem_of_nil in *. destruct Hy as [->|[->|[]]], Hz as [->|[->|[]]]; try done. by apply moral_ok in Hab as [? _].
      * rewrite sub_alt in Hsub. assert (a ∈ C) as HaC by (apply Hsub; left). assert (b ∈ C) as HbC by (apply Hsub; right; left).
        apply elem_of_list_lookup in HC as [k HkC]. assert (k < length cliques) as Hkl. { apply lookup_lt_Some in HkC. unfold M in HkC. by rewrite fmap_length in HkC. }
        apply elem_of_list_filter in HaV as [HaV HaN]. apply Exists_exists in HaV as (i & HiW & Hai).
        destruct (decide (k ∈ W)) as [HkW|HkW].
        -- apply HbV, elem_of_list_filter. split; [|by apply moral_ok in Hab as (_ & _ & _ & ?)]. apply Exists_exists. exists k. split; [done|]. by rewrite (sc_of_lookup _ _ _ HkC).
        -- apply (Hdis i k a); [by apply HW|done|done|done|done|]. by rewrite (sc_of_lookup _ _ _ HkC).
Qed.
End built.

Theorem jt_structure_spec pts : 0 < n -> Forall (table_of_family N) pts ->
  (exists cliques seps, jt_structure o N pts = Ok (cliques, seps) /\ weakly_connected N /\ structure_ok pts cliques seps) \/
  (jt_structure o N pts = Err NullDeref /\ ~ weakly_connected N).
Proof.
  intros Hn Hpts. unfold jt_structure. change (length (nt_nodes N)) with n. rewrite bool_decide_false by lia.
  destruct (cliques_spec Hn) as (m & mm & cliques & -> & Hmm & Htri & Hel & Hrel & Hg & Hnew). cbn [mbind outcome_bind]. rewrite Hmm. cbn [mbind outcome_bind].
  rewrite Htri. cbn [mbind outcome_bind].
  destruct (form_tree_spec cliques mm Hn Hel Hrel Hg Hnew) as [(seps & -> & Hwc & Hs & Hjt)|[-> Hnc]]; [left|right; done].
  cbn [mbind outcome_bind].
  assert (Forall clq_ok cliques) as Hclq. { apply Forall_forall. intros c Hc. by apply (built_tab cliques mm Hn Hel Hrel Hg Hnew). }
  destruct (assign_potentials_spec pts cliques) as (cliques' & -> & Hv & Hclq' & Hprod & Hnon); [|done|].
  { eapply Forall_impl; [exact Hpts|]. intros t Ht. pose proof (family_complete t Ht) as Hcomp. destruct Ht as (Hw & Hne & x & Hx & Hfam). split_and!; [done|done|].
    destruct (elim_complete _ _ _ Hel Hg (pt_vars t)) as (C & HC & Hsub); [done| | |eauto].
    - intros v Hv. apply elem_of_seq. apply Hfam in Hv as [->|Hv]; [lia|]. apply child_bound in Hv. lia.
    - intros a b Ha Hb Hab. by apply Hrel, Hcomp. }
  cbn [mbind outcome_bind]. exists cliques', seps. split; [done|]. split; [done|].
  assert (length cliques' = length cliques) as Hlen. { apply (f_equal length) in Hv. by rewrite !fmap_length in Hv. }
  split.
  - intros ->. apply (built_nonempty cliques mm Hn Hel Hrel Hg Hnew). by apply nil_length_inv.
  - done.
  - intros c Hc. destruct (built_vars cliques mm Hn Hel Hrel Hg Hnew (cq_vars c)) as [Hs1 Hb1]; [rewrite <-Hv; by apply elem_of_list_fmap_1|]. split; [done|].
    intros v Hv'. specialize (Hb1 v Hv'). by rewrite domain_sizes_length in Hb1.
  - rewrite Hv, Hlen. done.
  - intros s Hs'. destruct (Hs s Hs') as [? ? ? ? ? ? ?]. split; rewrite ?Hv, ?Hlen; done.
  - intros S HS HSn Hcomp. destruct (elim_complete _ _ _ Hel Hg S) as (C & HC & Hsub); [done| | |].
    + intros x Hx. apply elem_of_seq. specialize (HSn x Hx). lia.
    + intros a b Ha Hb Hab. by apply Hrel, Hcomp.
    + rewrite <-Hv in HC. apply elem_of_list_fmap in HC as (c & -> & Hc). eauto.
  - intros i j c d Hi Hj Hsub. destruct (elim_antichain _ _ _ Hel Hg) as [Hnd Hac]. rewrite <-Hv in Hnd, Hac.
    assert ((cq_vars <$> cliques') !! i = Some (cq_vars c)) as Hi' by (by rewrite list_lookup_fmap, Hi).
    assert ((cq_vars <$> cliques') !! j = Some (cq_vars d)) as Hj' by (by rewrite list_lookup_fmap, Hj).
    assert (cq_vars c = cq_vars d) as Heq by (apply Hac; [by eapply elem_of_list_lookup_2|by eapply elem_of_list_lookup_2|done]).
    rewrite Heq in Hi'. by eapply NoDup_lookup.
  - intros a Ha. rewrite Hprod by done. assert (qprod cliques (fun c => tval (cq_tab c) a) = 1%Qc) as ->; [|ring].
    assert (forall l : list clq, (forall c, c ∈ l -> tval (cq_tab c) a = 1%Qc) -> qprod l (fun c => tval (cq_tab c) a) = 1%Qc) as H1.
    { induction l as [|c l IH]; intros Hl; [done|]. cbn [qprod foldr]. fold (qprod l (fun c => tval (cq_tab c) a)). rewrite IH by (intros; apply Hl; by right). rewrite Hl by left. ring. }
    apply H1. intros c Hc. destruct (built_tab cliques mm Hn Hel Hrel Hg Hnew c Hc) as [(Hw & _ & _) Hp]. apply (empty_tval (domain_sizes N)); try done. apply net_dom_pos.
  - intros Hnn. apply Hnon; [done|]. apply Forall_forall. intros c Hc a Ha. destruct (built_tab cliques mm Hn Hel Hrel Hg Hnew c Hc) as [(Hw & _ & _) Hp].
    rewrite (empty_tval (domain_sizes N)); try done. apply net_dom_pos.
Qed.
End net.
