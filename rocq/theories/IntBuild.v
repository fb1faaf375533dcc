(** Building the engine: nothing overflows while the tables are small, and a large clique overflows. *)
From Verif Require Import IntModel IntSpec IntRefine ParProofs IntProofs TableSpec IntTables IntLevels JTSpec TreeProofs TriProofs PrimProofs StructProofs LevelProofs BuildProofs ElimProofs TableProofs TableProofs3 TableProofs4.
Local Open Scope nat_scope.

Lemma reorg_split_sublist vs : forall ds i common r, length vs = length ds -> reorg_split (zip vs ds) i common = Ok r -> common `sublist_of` vs.
Proof.
  induction vs as [|v vs IH]; intros ds i common r Hl E.
  - destruct common; [constructor|done].
  - destruct ds as [|d ds]; [done|]. injection Hl as Hl. cbn [zip zip_with reorg_split] in E. destruct common as [|c cs]; [apply sublist_nil_l|].
    case_bool_decide as Hc; apply bind_ok in E as (r' & E & _).
    + subst c. apply sublist_skip. by eapply IH.
    + apply sublist_cons. by eapply IH.
Qed.

Section build.
Context (N : network) (HN : net_ok N) (M : nat).
Notation dom := (net_dom N).
Notation doms := (domain_sizes N).
Let dom_pos : forall v, 0 < dom v := net_dom_pos N HN.

Lemma dims_dom vars dims : mcollect vars (node_dim doms) = Ok dims -> dims = dom <$> vars.
Proof using All.
  intros E. apply mcollect_lookup in E as [Hl E]. apply list_eq. intros k. destruct (vars !! k) as [v|] eqn:Hv.
  - destruct (E k v Hv) as (d & Hd & F). rewrite Hd, list_lookup_fmap, Hv. cbn. f_equal. unfold node_dim in F. unfold net_dom, dom_of. destruct (doms !! v); [by injection F as ->|done].
  - rewrite list_lookup_fmap, Hv. apply lookup_ge_None in Hv. apply lookup_ge_None. lia.
Qed.
Lemma empty_table_within vars : prod_list (dom <$> vars) <= M -> construct_empty_potential_table_i M doms vars = construct_empty_potential_table doms vars.
Proof using All.
  intros Hp. unfold construct_empty_potential_table_i, construct_empty_potential_table, construct_var_dims_and_cum_levels_i, construct_var_dims_and_cum_levels.
  destruct (mcollect vars (node_dim doms)) as [dims|] eqn:E; [|done]. cbn [mbind outcome_bind]. apply dims_dom in E as ->.
  pose proof (cum_size_within dom dom_pos M 0 0 (Nat.le_0_l M) (Nat.le_0_l M) (dom <$> vars) (fun cum n => Ok (dom <$> vars, cum, n)) (dims_positive dom dom_pos vars) Hp) as F.
  rewrite fmap_length in F. by rewrite F.
Qed.
Lemma empty_table_overflow vars t : construct_empty_potential_table doms vars = Ok t -> M < prod_list (dom <$> vars) -> construct_empty_potential_table_i M doms vars = Err Overflow.
Proof using All.
  unfold construct_empty_potential_table_i, construct_empty_potential_table, construct_var_dims_and_cum_levels_i, construct_var_dims_and_cum_levels.
  destruct (mcollect vars (node_dim doms)) as [dims|] eqn:E; [|done]. cbn [mbind outcome_bind]. apply dims_dom in E as ->. intros H Hp.
  destruct (cum_levels_unless M (length vars) (dom <$> vars)) as [-> | ->]; [|done].
  destruct vars as [|v vars]; [done|]. replace (length (v :: vars)) with (length (dom <$> v :: vars)) by apply fmap_length. rewrite construct_cum_levels_spec by done.
  cbn [mbind outcome_bind fmap list_fmap strides]. unfold vget at 1. cbn [lookup list_lookup mbind outcome_bind]. unfold vget at 1. cbn [lookup list_lookup mbind outcome_bind].
  unfold imul. rewrite bool_decide_false; [done|]. rewrite Nat.mul_comm. cbn in Hp. unfold prod_list. cbn. lia.
Qed.
Lemma new_clique_vars vars c : new_clique doms vars = Ok c -> cq_vars c = vars.
Proof using All. unfold new_clique. intros E. apply bind_ok in E as (t & _ & [= <-]). done. Qed.
Lemma new_clique_within vars c : new_clique doms vars = Ok c -> prod_list (dom <$> cq_vars c) <= M -> new_clique_i M doms vars = Ok c.
Proof using All. intros E Hp. rewrite (new_clique_vars _ _ E) in Hp. unfold new_clique_i. rewrite empty_table_within by done. exact E. Qed.
Lemma new_clique_overflow vars c : new_clique doms vars = Ok c -> M < prod_list (dom <$> cq_vars c) -> new_clique_i M doms vars = Err Overflow.
Proof using All.
  intros E Hp. rewrite (new_clique_vars _ _ E) in Hp. unfold new_clique in E. apply bind_ok in E as (t & E & _). unfold new_clique_i. by rewrite (empty_table_overflow vars t E Hp).
Qed.
Lemma triangulate_incl fuel n : forall m processed cliques res, triangulate fuel n doms m processed cliques = Ok res -> forall c, c ∈ cliques -> c ∈ res.
Proof using All.
  induction fuel as [|fuel IH]; intros m processed cliques res E c Hc; [done|]. cbn [triangulate] in E. apply bind_ok in E as (flags & _ & E).
  destruct (forallb id flags); [by injection E as <-|]. apply bind_ok in E as ([[mn v]|] & _ & E); [|done]. apply bind_ok in E as (nb & _ & E). apply bind_ok in E as (m1 & _ & E). cbv zeta in E.
  apply bind_ok in E as (cl & Hcl & E). apply bind_ok in E as (pr & _ & E). apply bind_ok in E as (m2 & _ & E). eapply IH; [exact E|].
  destruct (redundant _ _); [by injection Hcl as <-|]. apply bind_ok in Hcl as (C & _ & [= <-]). apply elem_of_app. by left.
Qed.
Lemma triangulate_checked fuel n : forall m processed cliques res, triangulate fuel n doms m processed cliques = Ok res ->
  (Forall (fun c => prod_list (dom <$> cq_vars c) <= M) res -> triangulate_i M fuel n doms m processed cliques = Ok res) /\
  (Forall (fun c => prod_list (dom <$> cq_vars c) <= M) cliques -> (exists c, c ∈ res /\ M < prod_list (dom <$> cq_vars c)) -> triangulate_i M fuel n doms m processed cliques = Err Overflow).
Proof using All.
  induction fuel as [|fuel IH]; intros m processed cliques res E; [done|]. cbn [triangulate] in E. apply bind_ok in E as (flags & Ef & E). cbn [triangulate_i]. rewrite Ef. cbn [mbind outcome_bind].
  destruct (forallb id flags).
  { injection E as <-. split; [done|]. intros HF (c & Hc & Hp). rewrite Forall_forall in HF. apply HF in Hc. lia. }
  apply bind_ok in E as ([[mn v]|] & Eb & E); [|done]. rewrite Eb. cbn [mbind outcome_bind]. apply bind_ok in E as (nb & En & E). rewrite En. cbn [mbind outcome_bind].
  apply bind_ok in E as (m1 & E1 & E). rewrite E1. cbn [mbind outcome_bind]. cbv zeta in E. apply bind_ok in E as (cl & Hcl & E). apply bind_ok in E as (pr & Ep & E). apply bind_ok in E as (m2 & E2 & E).
  set (K := foldl _ _ _) in *. destruct (redundant K cliques).
  - injection Hcl as <-. cbn [mbind outcome_bind]. rewrite Ep. cbn [mbind outcome_bind]. rewrite E2. cbn [mbind outcome_bind]. by apply IH.
  - apply bind_ok in Hcl as (C & HC & [= <-]). destruct (IH _ _ _ _ E) as [I1 I2]. split.
    + intros HF. rewrite (new_clique_within K C); [|done|].
      * cbn [mbind outcome_bind]. rewrite Ep. cbn [mbind outcome_bind]. rewrite E2. cbn [mbind outcome_bind]. by apply I1.
      * rewrite Forall_forall in HF. apply HF. eapply triangulate_incl; [exact E|]. apply elem_of_app. right. by apply elem_of_list_singleton.
    + intros HF Hex. destruct (decide (prod_list (dom <$> cq_vars C) <= M)) as [Hp|Hp].
      * rewrite (new_clique_within K C) by done. cbn [mbind outcome_bind]. rewrite Ep. cbn [mbind outcome_bind]. rewrite E2. cbn [mbind outcome_bind]. apply I2; [|done].
        apply Forall_app. split; [done|]. by apply Forall_singleton.
      * rewrite (new_clique_overflow K C); [done|done|lia].
Qed.
Lemma filter_prod (P : nat -> Prop) `{forall v, Decision (P v)} (l : list nat) : prod_list (dom <$> filter P l) <= prod_list (dom <$> l).
Proof using All.
  induction l as [|v l IH]; [done|]. rewrite filter_cons. change (prod_list (dom <$> v :: l)) with (dom v * prod_list (dom <$> l)). pose proof (dom_pos v). case_decide.
  - change (dom v * prod_list (dom <$> filter P l) <= dom v * prod_list (dom <$> l)). by apply Nat.mul_le_mono_l.
  - nia.
Qed.
Lemma candidate_within cliques : Forall (fun c => prod_list (dom <$> cq_vars c) <= M) cliques -> candidate_seps_i M doms cliques = candidate_seps doms cliques.
Proof using All.
  intros HF. unfold candidate_seps_i, candidate_seps. cbv zeta. apply (guarded_mfor (fun _ => True)); [done|]. intros i acc _ _. apply guarded_mfor; [done|]. intros j acc' _ _.
  apply guarded_step. intros c1 H1%vget_inv. apply guarded_step. intros c2 _. case_bool_decide; [by apply guarded_ok|]. rewrite empty_table_within; [by apply guarded_self|].
  etransitivity; [apply filter_prod|]. by eapply (Forall_lookup_1 _ _ _ _ HF H1).
Qed.

Context (B V : nat) (HBV : B * V <= M) (HB : B <= M).
Notation small := (small dom B V).
Definition clique_small (c : clq) : Prop := small (cq_tab c) /\ pt_vars (cq_tab c) = cq_vars c.
Lemma small_sub t pt : small t -> TableSpec.wf dom pt -> (forall v, v ∈ pt_vars pt -> v ∈ pt_vars t) -> small pt.
Proof using All.
  intros Ht Hp Hs. split; [done|]. destruct (small_fresh dom dom_pos M B V HBV HB t (pt_vars pt) Ht) as (_ & H1 & H2); [apply Hp|apply NoDup_submseteq; [apply Hp|done]|].
  cbn [fresh pt_size pt_nv] in *. rewrite (wf_size _ _ Hp), (wf_nv _ _ Hp), (wf_dims _ _ Hp). done.
Qed.
Lemma assign_one_within pt cs : TableSpec.wf dom pt -> Forall clique_small cs -> guarded (Forall clique_small) (assign_one pt cs) (assign_one_i M pt cs).
Proof using All.
  intros Hp HF. induction HF as [|c cs (Hc & Hv) HF IH]; [by apply guarded_ok|]. cbn [assign_one assign_one_i]. destruct (_ || _); [apply guarded_ok; by constructor|]. case_bool_decide as Hd.
  - assert (small pt). { apply (small_sub (cq_tab c)); [done|done|]. rewrite Hv. intros v Hin. destruct (decide (v ∈ cq_vars c)) as [|Hn]; [done|].
      exfalso. assert (v ∈ set_difference (pt_vars pt) (cq_vars c)) as F by (by apply elem_of_list_filter). rewrite Hd in F. by apply elem_of_nil in F. }
    eapply (guarded_bind (shaped dom B V (cq_tab c))); [by apply (multiplication_within dom dom_pos M B V HBV HB)|]. intros t' _ (Ht & Hvt & _). apply guarded_ok. constructor; [|done]. split; cbn; congruence.
  - eapply guarded_bind; [exact IH|]. intros cs' _ Hcs. apply guarded_ok. by constructor.
Qed.
Lemma assign_within pts cs : Forall (TableSpec.wf dom) pts -> Forall clique_small cs -> assign_potentials_i M pts cs = assign_potentials pts cs.
Proof using All.
  intros Hp Hcs. apply (guarded_mfor (Forall clique_small)); [done|]. intros pt s Hin Hs. apply assign_one_within; [|done]. by eapply Forall_forall in Hp.
Qed.
Lemma reorganize_tail_within this common : small this -> pt_vars this <> [] -> table_reorganize_tail_i M this common = table_reorganize_tail this common.
Proof using All.
  intros Hs Hne. pose proof Hs as (H & H1 & H2). unfold table_reorganize_tail_i, table_reorganize_tail, reorganization_pre_i, reorganization_pre.
  destruct (reorg_split (zip (pt_vars this) (pt_dims this)) 0 common) as [[kept com]|] eqn:E; [|done]. cbn [mbind outcome_bind].
  assert (common `sublist_of` pt_vars this) as Hsub. { eapply reorg_split_sublist; [|exact E]. by rewrite (wf_dims _ _ H), fmap_length. }
  destruct (reorg_split_spec dom (pt_vars this) (pt_vars this) 0 common) as (kept' & com' & Hr & G1 & G2 & G3 & G4 & G5); [done|done|].
  rewrite (wf_dims _ _ H), Hr in E. injection E as -> ->. rewrite G1, G2, G3, <-fmap_app. set (ws := split_spec (pt_vars this) common ++ common). set (locs := _ ++ (fst <$> com)).
  assert (locs_ok (pt_vars this) ws locs) as Hlocs by (by apply locs_ok_app).
  assert (pt_vars this ≡ₚ ws) as Hperm by (by apply split_spec_perm).
  assert (length ws = pt_nv this) as Hlen. { rewrite (wf_nv _ _ H). symmetry. by apply Permutation_length. }
  assert (pt_size this = prod_list (dom <$> ws)) as Hsize.
  { rewrite (wf_size _ _ H), !configs_length, (wf_dims _ _ H). apply prod_list_perm. by apply fmap_Permutation. }
  rewrite <-Hlen. rewrite cum_levels_within; [|by apply dims_positive|lia].
  assert (construct_cum_levels (length ws) (dom <$> ws) = Ok (strides (dom <$> ws))) as ->.
  { rewrite <-(fmap_length dom ws) at 1. apply construct_cum_levels_spec. intros F%(f_equal length). rewrite fmap_length, Hlen, (wf_nv _ _ H) in F. by destruct (pt_vars this). }
  cbn [mbind outcome_bind]. rewrite Hsize, <-configs_length. fold (fresh dom ws).
  assert (small (fresh dom ws)) as HsN. { apply (small_fresh dom dom_pos M B V HBV HB this); [done|rewrite <-Hperm; apply H|by rewrite Hperm]. }
  assert (located this ws locs) as Hloc.
  { split; [symmetry; by eapply Forall2_length|]. intros l loc v Hl Hv. pose proof (Forall2_lookup_lr _ _ _ _ _ _ Hlocs Hv Hl) as F. cbv beta in F. split; [|done].
    apply lookup_lt_Some in F. rewrite (wf_nv _ _ H). lia. }
  apply (guarded_bind (fun _ => True) (fun _ => True)); [|intros; by apply guarded_self]. split; [|done]. apply TableProofs.mcollect_ext. intros k Hk%elem_of_seq.
  apply (reorganization_main_within dom dom_pos M B V HBV HB); [done|done|done|]. cbn [fresh pt_size] in Hk. rewrite configs_length, <-Hsize in Hk. lia.
Qed.
Lemma reorganize_tail_size this common t : table_reorganize_tail this common = Ok t -> pt_size t = pt_size this /\ pt_nv t = pt_nv this.
Proof using.
  unfold table_reorganize_tail, reorganization_pre. intros E. apply bind_ok in E as ([new locs] & E1 & E). apply bind_ok in E1 as ([kept com] & _ & E1). apply bind_ok in E1 as (cum & _ & E1). injection E1 as <- <-.
  apply bind_ok in E as (tidx & _ & E). unfold reorganization_post in E. apply bind_ok in E as (pots & _ & [= <-]). done.
Qed.
Lemma storage_within mk ctabs stabs : Forall (fun t => small t /\ pt_vars t <> []) ctabs -> reorganize_storage_i M mk ctabs stabs = reorganize_storage mk ctabs stabs.
Proof using All.
  intros HF. unfold reorganize_storage_i, reorganize_storage. apply TableProofs.mcollect_ext. intros i _. apply (guarded_step (fun _ => True)). intros t Ht%vget_inv.
  destruct (Forall_lookup_1 _ _ _ _ HF Ht) as [? ?]. apply guarded_step. intros [s|] _; [|by apply guarded_ok]. apply guarded_step. intros sep _. apply guarded_step. intros [|] _; [|by apply guarded_ok].
  rewrite reorganize_tail_within by done. by apply guarded_self.
Qed.
Lemma storage_size mk ctabs stabs rs : reorganize_storage mk ctabs stabs = Ok rs -> length rs = length ctabs /\ forall i t r, ctabs !! i = Some t -> rs !! i = Some r -> pt_size r = pt_size t /\ pt_nv r = pt_nv t.
Proof using.
  intros E. unfold reorganize_storage in E. apply mcollect_lookup in E as [Hl E]. rewrite seq_length in Hl. split; [done|]. intros i t r Ht Hr.
  destruct (E i i) as (x & Hx & F); [apply lookup_seq; split; [done|by eapply lookup_lt_Some]|]. rewrite Hr in Hx. injection Hx as <-. rewrite (vget_ok _ _ _ Ht) in F. cbn [mbind outcome_bind] in F.
  apply bind_ok in F as ([s|] & _ & F); [|by injection F as <-]. apply bind_ok in F as (sep & _ & F). apply bind_ok in F as ([|] & _ & F); [|by injection F as <-]. by apply reorganize_tail_size in F.
Qed.
Lemma storage_wf mk ctabs stabs rs : Forall (fun t => TableSpec.wf dom t /\ pt_vars t <> []) ctabs -> reorganize_storage mk ctabs stabs = Ok rs -> Forall (TableSpec.wf dom) rs.
Proof using HN dom_pos.
  intros HF E. unfold reorganize_storage in E. apply mcollect_lookup in E as [Hl E]. rewrite seq_length in Hl. apply Forall_lookup. intros i r Hr.
  destruct (E i i) as (x & Hx & F); [apply lookup_seq; split; [done|]; rewrite <-Hl; by eapply lookup_lt_Some|]. rewrite Hr in Hx. injection Hx as <-.
  apply bind_ok in F as (t & Ht%vget_inv & F). destruct (Forall_lookup_1 _ _ _ _ HF Ht) as [Hw Hne].
  apply bind_ok in F as ([s|] & _ & F); [|by injection F as <-]. apply bind_ok in F as (sep & _ & F). apply bind_ok in F as ([|] & _ & F); [|by injection F as <-].
  assert (pt_vars sep `sublist_of` pt_vars t) as Hsub.
  { unfold table_reorganize_tail, reorganization_pre in F. apply bind_ok in F as (? & F & _). apply bind_ok in F as (r' & F & _). eapply reorg_split_sublist; [|exact F]. by rewrite (wf_dims _ _ Hw), fmap_length. }
  destruct (table_reorganize_tail_spec dom dom_pos t (pt_vars sep)) as (t' & Ht' & Hw' & _); [done|done|done|]. rewrite F in Ht'. by injection Ht' as <-.
Qed.
End build.

(** The number of nodes in a level. *)
Lemma level_list_length Ls i vec : level_list Ls !! i = Some vec -> length vec <= length (concat Ls).
Proof.
  revert i. induction Ls as [|L Ls IH]; intros i E; [done|]. cbn [level_list concat] in *. rewrite app_length.
  destruct i as [|[|i]]; cbn in E; [injection E as <-; rewrite fmap_length; lia|injection E as <-; rewrite fmap_length; lia|]. apply IH in E. lia.
Qed.

Section whole.
Context (N : network) (HN : net_ok N) (Hn : 0 < net_size N) (o : mem_order) (Ho : valid_order o) (pts : list ptable) (Hpts : Forall (table_of_family N) pts).
Notation dom := (net_dom N).
Let dom_pos : forall v, 0 < dom v := net_dom_pos N HN.
(** The steps of a successful construction. *)
Lemma build_steps T : jt_build o N pts = Ok T -> exists m mm cliques0 cliques seps r lm ctabs,
  dag_matrix N = Ok m /\ moralize m (net_size N) = Ok mm /\ triangulate (S (net_size N)) (net_size N) (domain_sizes N) mm (replicate (net_size N) false) [] = Ok cliques0 /\
  Forall (fun c => clq_ok N c) cliques0 /\
  form_junction_tree o (domain_sizes N) cliques0 = Ok seps /\ assign_potentials pts cliques0 = Ok cliques /\ cq_vars <$> cliques = cq_vars <$> cliques0 /\
  structure_ok N pts cliques seps /\ select_root o (length cliques) seps = Ok r /\ mark_level o (length cliques) seps r = Ok lm /\
  reorganize_storage (snd lm) (cq_tab <$> cliques) (sp_tab <$> seps) = Ok ctabs /\ T = mkTree (domain_sizes N) (fst lm) (snd lm) (mkTabs ctabs (sp_tab <$> seps)).
Proof using All.
  intros E. unfold jt_build in E. apply bind_ok in E as ([cliques seps] & E1 & E). apply bind_ok in E as (r & E2 & E). apply bind_ok in E as (lm & E3 & E). apply bind_ok in E as (ctabs & E4 & [= <-]).
  destruct (jt_structure_spec N HN o Ho pts Hn Hpts) as [(cl' & se' & Hs & _ & Hok)|[Hs _]]; [|by rewrite E1 in Hs]. rewrite E1 in Hs. injection Hs as <- <-.
  unfold jt_structure in E1. case_bool_decide; [done|]. apply bind_ok in E1 as (m & Em & E1). apply bind_ok in E1 as (mm & Emm & E1). apply bind_ok in E1 as (cl0 & Ecl & E1). apply bind_ok in E1 as (sp & Esp & E1). apply bind_ok in E1 as (cl & Eas & E1). injection E1 as <- <-.
  destruct (cliques_spec N HN o Ho Hn) as (m' & mm' & cl' & Em' & Emm' & Ecl' & Hel & _ & _ & Hnew). change (length (nt_nodes N)) with (net_size N) in *.
  rewrite Em in Em'. injection Em' as <-. rewrite Emm in Emm'. injection Emm' as <-. rewrite Ecl in Ecl'. injection Ecl' as <-.
  assert (cq_vars <$> cl = cq_vars <$> cl0) as Hvars.
  { clear -Eas. unfold assign_potentials in Eas. revert cl0 Eas. induction pts as [|pt l IH]; intros cl0 E; cbn [mfor] in E; [by injection E as <-|]. apply bind_ok in E as (c1 & E1 & E). rewrite (IH _ E). clear -E1.
    revert c1 E1. induction cl0 as [|c cs IH]; intros c1 E; cbn [assign_one] in E; [by injection E as <-|]. destruct (_ || _); [by injection E as <-|]. case_bool_decide.
    - apply bind_ok in E as (t & _ & [= <-]). done.
    - apply bind_ok in E as (cs' & E & [= <-]). cbn. f_equal. by apply IH. }
  exists m, mm, cl0, cl, sp, r, lm, ctabs. split_and!; try done. apply Forall_forall. intros c Hc. rewrite Forall_forall in Hnew. pose proof (Hnew c Hc) as Hnc.
  assert (cq_vars c ∈ cq_vars <$> cl) as Hin by (rewrite Hvars; by apply elem_of_list_fmap_1). apply elem_of_list_fmap in Hin as (c' & Hcv & Hc').
  destruct (so_vars _ _ _ _ Hok c' Hc') as [Hsr Hb]. destruct (proj1 (Forall_forall _ _) (so_clq _ _ _ _ Hok) c' Hc') as (_ & _ & Hne). rewrite <-Hcv in *.
  destruct (new_clique_inv N HN o Ho (domain_sizes N) c) as (W1 & W2 & _); [|by apply sorted_NoDup|done|done|by split].
  intros v Hv. rewrite (domain_sizes_length N HN o Ho). by apply Hb.
Qed.
Lemma clique_product c : clq_ok N c -> prod_list (dom <$> cq_vars c) = pt_size (cq_tab c) /\ length (cq_vars c) = pt_nv (cq_tab c).
Proof using All. intros (W & E & _). rewrite (wf_size _ _ W), configs_length, (wf_dims _ _ W), (wf_nv _ _ W), E. done. Qed.
Lemma clique_tables T : jt_build o N pts = Ok T -> forall m mm cliques0, dag_matrix N = Ok m -> moralize m (net_size N) = Ok mm ->
  triangulate (S (net_size N)) (net_size N) (domain_sizes N) mm (replicate (net_size N) false) [] = Ok cliques0 ->
  length (t_c (jt_backup T)) = length cliques0 /\ Forall (clq_ok N) cliques0 /\
  forall i c t, cliques0 !! i = Some c -> t_c (jt_backup T) !! i = Some t -> pt_size t = prod_list (dom <$> cq_vars c) /\ pt_nv t = length (cq_vars c).
Proof using All.
  intros E m mm cl0 Em Emm Ecl. destruct (build_steps T E) as (m' & mm' & cl0' & cl & seps & r & lm & ctabs & Em' & Emm' & Ecl' & Hcl & _ & _ & Hv & Hok & _ & _ & Hst & ->).
  rewrite Em in Em'. injection Em' as <-. rewrite Emm in Emm'. injection Emm' as <-. rewrite Ecl in Ecl'. injection Ecl' as <-. cbn [jt_backup t_c].
  apply storage_size in Hst as [Hl Hs]. rewrite fmap_length in Hl. assert (length cl = length cl0) as Hl2 by (rewrite <-(fmap_length cq_vars cl), Hv; apply fmap_length). split_and!; [lia|done|]. intros i c t Hc Ht.
  assert ((cq_vars <$> cl) !! i = Some (cq_vars c)) as F by (by rewrite Hv, list_lookup_fmap, Hc). apply list_lookup_fmap_inv in F as (c' & Ec & Hc').
  destruct (Hs i (cq_tab c') t) as [-> ->]; [by rewrite list_lookup_fmap, Hc'|done|]. rewrite Ec. destruct (clique_product c') as [-> ->]; [|done]. by eapply (Forall_lookup_1 _ _ _ _ (so_clq _ _ _ _ Hok)).
Qed.

Lemma build_overflow T M : jt_build o N pts = Ok T -> (exists t, t ∈ t_c (jt_backup T) /\ M < pt_size t) -> jt_build_i M o N pts = Err Overflow.
Proof using All.
  intros E (t & Ht & HM). destruct (build_steps T E) as (m & mm & cl0 & cl & seps & r & lm & ctabs & Em & Emm & Ecl & _). destruct (clique_tables T E m mm cl0 Em Emm Ecl) as (Hl & _ & Hs).
  unfold jt_build_i, jt_structure_i. change (length (nt_nodes N)) with (net_size N). rewrite bool_decide_false by lia. rewrite Em. cbn [mbind outcome_bind]. rewrite Emm. cbn [mbind outcome_bind].
  destruct (triangulate_checked N HN M _ _ _ _ _ _ Ecl) as [_ F]. rewrite F; [done|constructor|]. apply elem_of_list_lookup in Ht as [i Hi]. destruct (lookup_lt_is_Some_2 cl0 i) as [c Hc]; [rewrite <-Hl; by eapply lookup_lt_Some|].
  exists c. split; [by eapply elem_of_list_lookup_2|]. destruct (Hs i c t Hc Hi) as [<- _]. done.
Qed.

(** Pairwise joined nodes are in one clique, whose table is at least as large as one over them. *)
Lemma complete_table T S : jt_build o N pts = Ok T -> NoDup S -> S <> [] -> (forall x, x ∈ S -> x < net_size N) -> (forall x y, x ∈ S -> y ∈ S -> x <> y -> moral N x y) ->
  exists t, t ∈ t_c (jt_backup T) /\ prod_list (dom <$> S) <= pt_size t.
Proof using All.
  intros E Hnd Hne Hb Hc. destruct (build_steps T E) as (m & mm & cl0 & cl & seps & r & lm & ctabs & Em & Emm & Ecl & _ & _ & _ & Hv & Hok & _). destruct (clique_tables T E m mm cl0 Em Emm Ecl) as (Hl & _ & Hs).
  destruct (so_complete _ _ _ _ Hok S Hne Hb Hc) as (c & Hin & Hsub). apply elem_of_list_lookup in Hin as [i Hi].
  assert ((cq_vars <$> cl0) !! i = Some (cq_vars c)) as F by (by rewrite <-Hv, list_lookup_fmap, Hi). apply list_lookup_fmap_inv in F as (c0 & Ec & Hc0).
  destruct (lookup_lt_is_Some_2 (t_c (jt_backup T)) i) as [t Ht]; [rewrite Hl; by eapply lookup_lt_Some|]. exists t. split; [by eapply elem_of_list_lookup_2|]. destruct (Hs i c0 t Hc0 Ht) as [-> _]. rewrite <-Ec.
  assert (S ⊆+ cq_vars c) as Hsm. { apply NoDup_submseteq; [done|]. intros x Hx. unfold ElimProofs.sub in Hsub. rewrite Forall_forall in Hsub. by apply Hsub. }
  apply submseteq_Permutation in Hsm as [k Hk]. rewrite (prod_list_perm (dom <$> cq_vars c) (dom <$> (S ++ k))) by (by rewrite Hk). rewrite fmap_app, prod_list_app.
  assert (0 < prod_list (dom <$> k)) by (apply prod_list_pos; apply Forall_fmap, Forall_forall; intros v _; apply dom_pos). nia.
Qed.
Lemma complete_overflow T S M : jt_build o N pts = Ok T -> NoDup S -> S <> [] -> (forall x, x ∈ S -> x < net_size N) -> (forall x y, x ∈ S -> y ∈ S -> x <> y -> moral N x y) ->
  M < prod_list (dom <$> S) -> jt_build_i M o N pts = Err Overflow.
Proof using All. intros E H1 H2 H3 H4 HM. destruct (complete_table T S E H1 H2 H3 H4) as (t & Ht & Hle). apply (build_overflow T); [done|]. exists t. split; [done|lia]. Qed.

Context (T : jtree) (HT : jt_build o N pts = Ok T) (M B V : nat).
Context (Hsize : forall t, t ∈ engine_tables T -> pt_size t <= B /\ pt_nv t <= V) (HBV : B * V <= M) (HKB : length (engine_tables T) * B <= M).
Lemma some_clique : 0 < length (t_c (jt_backup T)).
Proof using All.
  destruct (build_steps T HT) as (m & mm & cl0 & cl & seps & r & lm & ctabs & _ & _ & _ & _ & _ & _ & _ & Hok & _ & _ & Hst & ->). cbn. apply storage_size in Hst as [-> _]. rewrite fmap_length.
  pose proof (so_nonempty _ _ _ _ Hok). destruct cl; [done|]. cbn. lia.
Qed.
Lemma bound_fits : B <= M.
Proof using All. pose proof some_clique. unfold engine_tables in HKB. rewrite app_length in HKB. nia. Qed.
Lemma backup_calm : calm dom B V (length (engine_tables T)) (jt_backup T).
Proof using All.
  assert (Forall (TableSpec.wf dom) (t_c (jt_backup T)) /\ Forall (TableSpec.wf dom) (t_s (jt_backup T))) as [H1 H2].
  { destruct (build_steps T HT) as (m & mm & cl0 & cl & seps & r & lm & ctabs & _ & _ & _ & _ & _ & _ & _ & Hok & _ & _ & Hst & ->). cbn. split.
    - eapply (storage_wf N HN); [|exact Hst]. apply Forall_fmap. eapply Forall_impl; [apply Hok|]. intros c (? & Hv & ?). cbn. split; [done|]. by rewrite Hv.
    - apply Forall_fmap. apply Forall_forall. intros s Hs. apply (so_sep _ _ _ _ Hok s Hs). }
  split_and!.
  - apply Forall_forall. intros t Ht. split; [by eapply Forall_forall in H1|]. apply Hsize. apply elem_of_app. by left.
  - apply Forall_forall. intros t Ht. split; [by eapply Forall_forall in H2|]. apply Hsize. apply elem_of_app. by right.
  - unfold engine_tables. by rewrite app_length.
Qed.
Lemma levels_short i vec : jt_levels T !! i = Some vec -> length vec <= length (engine_tables T).
Proof using All.
  intros Hi. pose proof some_clique as Hsc. destruct (build_steps T HT) as (m & mm & cl0 & cl & seps & r & lm & ctabs & _ & _ & _ & _ & _ & _ & _ & Hok & Hr & Hlm & Hst & E).
  destruct (so_jt _ _ _ _ Hok) as [Htree _]. assert (0 < length cl) as Hnc by (pose proof (so_nonempty _ _ _ _ Hok); destruct cl; [done|cbn; lia]).
  assert (forall s, s ∈ seps -> sp_a s < sp_b s) as Hlt by (intros s Hs; apply (so_sep _ _ _ _ Hok s Hs)).
  destruct (select_root_spec o (length cl) seps Ho Hnc Htree Hlt) as (r' & Er & Hrl). rewrite Hr in Er. injection Er as <-.
  destruct (mark_level_spec o Ho (length cl) seps r Hrl Htree Hlt) as (Ls & mk & Em & _ & _ & _ & _ & Hseps). rewrite Hlm in Em. injection Em as ->.
  assert (length (concat Ls) = length seps) as Hc. { apply Permutation_length in Hseps. by rewrite fmap_length, seq_length in Hseps. }
  rewrite E in Hi, Hsc. rewrite E. unfold engine_tables. cbn [jt_levels fst snd jt_backup t_c t_s] in *. rewrite app_length, fmap_length. destruct i as [|i]; cbn in Hi; [injection Hi as <-; cbn; lia|].
  apply level_list_length in Hi. lia.
Qed.
Lemma build_within : jt_build_i M o N pts = Ok T.
Proof using All.
  pose proof bound_fits as HB. destruct (build_steps T HT) as (m & mm & cl0 & cl & seps & r & lm & ctabs & Em & Emm & Ecl & Hcl & Eform & Eas & Hv & Hok & Hr & Hlm & Hst & E).
  destruct (clique_tables T HT m mm cl0 Em Emm Ecl) as (Hl & _ & Hs).
  assert (forall c, c ∈ cl0 -> prod_list (dom <$> cq_vars c) <= B /\ length (cq_vars c) <= V) as Hb.
  { intros c Hc. apply elem_of_list_lookup in Hc as [i Hi]. destruct (lookup_lt_is_Some_2 (t_c (jt_backup T)) i) as [t Ht]; [rewrite Hl; by eapply lookup_lt_Some|].
    destruct (Hs i c t Hi Ht) as [<- <-]. apply Hsize. apply elem_of_app. left. by eapply elem_of_list_lookup_2. }
  assert (Forall (fun c => prod_list (dom <$> cq_vars c) <= M) cl0) as HM. { apply Forall_forall. intros c Hc. destruct (Hb c Hc). lia. }
  unfold jt_build_i, jt_structure_i. change (length (nt_nodes N)) with (net_size N). rewrite bool_decide_false by lia. rewrite Em. cbn [mbind outcome_bind]. rewrite Emm. cbn [mbind outcome_bind].
  destruct (triangulate_checked N HN M _ _ _ _ _ _ Ecl) as [F _]. rewrite F by done. cbn [mbind outcome_bind].
  assert (form_junction_tree_i M o (domain_sizes N) cl0 = Ok seps) as ->. { unfold form_junction_tree_i. rewrite (candidate_within N HN M) by done. exact Eform. }
  cbn [mbind outcome_bind]. assert (forall l, Forall (clq_ok N) l -> cq_vars <$> l = cq_vars <$> cl0 -> Forall (clique_small N B V) l) as Hcs.
  { intros l Hok' Hvl. apply Forall_forall. intros c Hc. assert (clq_ok N c) as Hco by (by apply (proj1 (Forall_forall _ _) Hok')). destruct (clique_product c Hco) as [Hp Hq].
    assert (cq_vars c ∈ cq_vars <$> cl0) as Hin by (rewrite <-Hvl; by apply elem_of_list_fmap_1). apply elem_of_list_fmap in Hin as (c0 & Ec0 & Hc0). destruct (Hb c0 Hc0) as [? ?].
    destruct Hco as (? & ? & ?). split; [|done]. split; [done|]. rewrite <-Hp, <-Hq, Ec0. done. }
  rewrite (assign_within N HN M B V HBV HB); [|eapply Forall_impl; [exact Hpts|]; by intros t (? & _)|by apply Hcs].
  rewrite Eas. cbn [mbind outcome_bind]. rewrite Hr. cbn [mbind outcome_bind]. rewrite Hlm. cbn [mbind outcome_bind].
  rewrite (storage_within N HN M B V HBV HB), Hst; [cbn [mbind outcome_bind]; by rewrite E|]. apply Forall_fmap. apply Forall_forall. intros c Hc. cbn.
  destruct (proj1 (Forall_forall _ _) (Hcs cl (so_clq _ _ _ _ Hok) Hv) c Hc) as [? Hcv]. split; [done|]. rewrite Hcv. by apply (proj1 (Forall_forall _ _) (so_clq _ _ _ _ Hok) c Hc).
Qed.
Lemma session_within : foldr Nat.add 0 (domain_sizes N) <= M -> forall qs, Forall (fun sq => valid_scheduler (fst sq)) qs -> run_queries_i M T qs (jt_backup T) = run_queries T qs (jt_backup T).
Proof using All.
  intros Hsum qs Hqs. assert (jt_doms T = domain_sizes N) as Hd. { destruct (build_steps T HT) as (m & mm & cl0 & cl & seps & r & lm & ctabs & _ & _ & _ & _ & _ & _ & _ & _ & _ & _ & _ & ->). done. }
  apply (queries_within dom dom_pos M B V (length (engine_tables T)) HBV bound_fits HKB T levels_short); [|by rewrite Hd|apply backup_calm|done|apply backup_calm].
  intros v d. rewrite Hd. intros E. unfold net_dom, dom_of. by rewrite E.
Qed.
End whole.
