(** The tests overflow no [int] exactly when their tables fit. *)
From Verif Require Import LimitModel LimitSpec LimitRefine ParProofs CellProofs CellProofs2 CellProofs3 CellProofs4 CellTheorems LimitProofs Sums TableProofs.
Local Open Scope nat_scope.

Lemma matching_rows D vs cfg : matching D vs cfg <= co_rows D.
Proof. unfold matching. etransitivity; [apply filter_length|]. by rewrite seq_length. Qed.
Lemma cells_split ds x y zs : table_cells ds x y zs = foldr Nat.mul 1 (sizes_of ds zs) * default 0 (ds !! x) * default 0 (ds !! y).
Proof. unfold table_cells, sizes_of. rewrite fmap_app. change (foldr Nat.mul 1) with prod_list. rewrite prod_list_app. cbn. lia. Qed.
Lemma tally_fits M D ds vs : co_rows D <= M -> foldr Nat.mul 1 (sizes_of ds vs) <= M -> fits M (tally D ds vs).
Proof.
  intros Hr Hm. split; [unfold tally; by rewrite fmap_length, configs_length|]. apply Forall_fmap, Forall_forall. intros cfg _. unfold compose. pose proof (matching_rows D vs cfg). lia.
Qed.
Lemma concat_fits M (ls : list (list nat)) : length (concat ls) <= M -> Forall (Forall (fun v => v <= M)) ls -> fits M (concat ls).
Proof. intros Hl Hf. split; [done|]. by apply Forall_concat. Qed.
Lemma known_pos ds zs : Forall (fun d => 0 < d) ds -> Forall (fun v => v < length ds) zs -> Forall (fun d => 0 < d) (sizes_of ds zs).
Proof.
  intros Hp Hz. apply Forall_fmap. eapply Forall_impl; [exact Hz|]. intros v Hv. unfold compose. destruct (lookup_lt_is_Some_2 ds v Hv) as [d Hd]. rewrite Hd. cbn. rewrite Forall_lookup in Hp. by eapply Hp.
Qed.
Lemma prod_app' l1 l2 : foldr Nat.mul 1 (l1 ++ l2) = foldr Nat.mul 1 l1 * foldr Nat.mul 1 l2.
Proof. apply prod_list_app. Qed.

Section limit.
Context (M : nat) (accept : list gterm -> nat -> bool) (D : columns) (ds : list nat) (HD : tabulated D ds) (Hp : Forall (fun d => 0 < d) ds) (Hr : co_rows D <= M).
Context (x y : nat) (Hx : x < length ds) (Hy : y < length ds).
Notation siz := (sizes_of ds).
Notation dx := (default 0 (ds !! x)).
Notation dy := (default 0 (ds !! y)).
Set Default Proof Using "All".
Lemma dx_pos : 0 < dx.
Proof. destruct (lookup_lt_is_Some_2 ds x Hx) as [d Hd]. rewrite Hd. cbn. rewrite Forall_lookup in Hp. by eapply Hp. Qed.
Lemma dy_pos : 0 < dy.
Proof. destruct (lookup_lt_is_Some_2 ds y Hy) as [d Hd]. rewrite Hd. cbn. rewrite Forall_lookup in Hp. by eapply Hp. Qed.
Lemma prod_pos zs : Forall (fun v => v < length ds) zs -> 0 < foldr Nat.mul 1 (siz zs).
Proof. intros Hz. pose proof (known_pos ds zs Hp Hz) as H. induction H as [|d l Hd _ IH]; cbn; [lia|]. by apply Nat.mul_pos_pos. Qed.
Lemma tallies_fit zs : Forall (fun v => v < length ds) zs -> table_cells ds x y zs <= M ->
  fits M (tally D ds (zs ++ [x; y])) /\ fits M (tally D ds (zs ++ [x])) /\ fits M (tally D ds (zs ++ [y])) /\ fits M (tally D ds zs) /\ foldr Nat.mul 1 (siz zs) * dx * dy <= M /\ dx <= M /\ dy <= M.
Proof.
  intros Hz Hc. pose proof Hc as Hc'. rewrite cells_split in Hc'. pose proof (cells_down _ _ _ _ dx_pos dy_pos Hc') as (H1 & H2 & H3). pose proof (prod_pos zs Hz) as Hpos.
  split_and!; try (apply tally_fits; [done|]); try done.
  - unfold sizes_of. rewrite fmap_app, prod_app'. cbn. rewrite Nat.mul_1_r. done.
  - unfold sizes_of. rewrite fmap_app, prod_app'. cbn. rewrite Nat.mul_1_r. done.
  - etransitivity; [|exact H2]. clear -Hpos. nia.
  - etransitivity; [|exact H3]. clear -Hpos. nia.
Qed.
Lemma single_fits zs g : Forall (fun v => v < length ds) zs -> g <= 1 -> table_cells ds x y zs <= M -> independence_result_i M accept D ds x y zs g = independence_result accept D ds x y zs g.
Proof.
  intros Hz Hg Hc. destruct (tallies_fit zs Hz Hc) as (F1 & F2 & F3 & F4 & Hm & Lx & Ly). unfold independence_result, independence_result_i. case_bool_decide as H0.
  - subst zs. rewrite (gsquare_xy_ok D ds HD x y Hx Hy accept). pose proof (gsquare_xy_ok D ds HD x y Hx Hy accept) as E. unfold gsquare_xy, gsquare_xy_i in *. rewrite !(dom_lookup D ds HD x y Hx Hy) in * by done. cbn [mbind outcome_bind] in *.
    cbn [app] in *. pose proof (counts2d_ok D ds HD x y Hx Hy) as Ht. rewrite Ht in E. assert (dx * dy <= M) as Hxy by (cbn in Hm; rewrite Nat.add_0_r in Hm; exact Hm). rewrite (counts2d_fits M D dx dy x y _ Hxy Ht) by done. cbn [mbind outcome_bind] in *.
    apply bind_ok in E as (alx & Hax & E). apply bind_ok in E as (aly & Hay & E). cbv zeta in E. apply bind_ok in E as (ts & Hts & E).
    rewrite (count_positive_fits M dx (vget (tally D ds [x])) _ _ Lx (fun _ _ E => E) Hax). cbn [mbind outcome_bind]. rewrite (count_positive_fits M dy (vget (tally D ds [y])) _ _ Ly (fun _ _ E => E) Hay). cbn [mbind outcome_bind].
    pose proof (count_positive_le _ _ _ Hax) as Lax. pose proof (count_positive_le _ _ _ Hay) as Lay. pose proof dx_pos. pose proof dy_pos. rewrite imul_fits by (etransitivity; [apply (Nat.mul_le_mono _ dx _ dy); lia|done]). cbn [mbind outcome_bind].
    match goal with |- mbind _ (mfor (seq 0 dx) ?f []) = _ => assert (mfor (seq 0 dx) f [] = Ok ts) as -> end; [|exact E].
    eapply mfor_plain; [|exact Hts]. intros i s1 s2 _ (row & Hrow & E3)%bind_ok. rewrite Hrow. cbn [mbind outcome_bind]. case_bool_decide; [done|].
    apply (row_terms_fits dy row (co_rows D) (vget (tally D ds [y])) (fun j => vget (tally D ds [x; y]) (i * dy + j))); [done| |exact E3]. intros j v Hv. rewrite pos2_fits; [cbn [mbind outcome_bind]; by rewrite Nat.add_0_r|]. rewrite Nat.add_0_r. exact (vget_within _ _ _ _ (proj1 F1) Hv).
  - rewrite bool_decide_false by lia. pose proof (gsquare_xyz_ok D ds HD x y Hx Hy accept zs Hz H0) as E. rewrite E. unfold gsquare_xyz, gsquare_xyz_i in *. rewrite !(dom_lookup D ds HD x y Hx Hy) in * by done. cbn [mbind outcome_bind] in *.
    rewrite (collect_sizes D ds HD) in * by done. cbn [mbind outcome_bind] in *. pose proof (counts3d_ok D ds HD x y Hx Hy zs Hz H0) as Ht. rewrite Ht in E.
    rewrite (counts3d_fits M D dx dy x y _ zs _ dx_pos dy_pos (known_pos ds zs Hp Hz) Ht) by done. cbn [mbind outcome_bind c3_dimz c3_n c3_ni c3_nj c3_nk] in *. apply bind_ok in E as (r & Hgt & E).
    erewrite gtest_fits; [exact E|..|exact Hgt]; try (intros; by rewrite Nat.add_0_r); try done; try apply dy_pos; first [apply F1|apply F2|apply F3|apply F4].
Qed.
(** ** Groups *)
Section group.
Context (c : nat) (zss : list (list nat)) (Hc : 0 < c) (Hu : Forall (fun zs => length zs = c) zss) (Hne : zss <> []) (Hk : Forall (Forall (fun v => v < length ds)) zss).
Notation dz := ((fun zs => prod_list (siz zs)) <$> zss).
Notation g := (length zss).
Lemma group_cells_total : group_cells ds x y zss = nsum dz id * dx * dy.
Proof.
  unfold group_cells. rewrite nsum_fmap. unfold id. rewrite <-Nat.mul_assoc, <-nsum_scale. apply nsum_ext. intros zs _. rewrite cells_split. change (foldr Nat.mul 1) with prod_list. by rewrite Nat.mul_assoc.
Qed.
Lemma nsum_take_le (l : list nat) m : nsum (take m l) id <= nsum l id.
Proof. clear. revert m. induction l as [|a l IH]; intros [|m]; cbn; try lia. specialize (IH m). unfold nsum, id in *. lia. Qed.
Lemma row_start_le m : m <= g -> row_start dz m <= nsum dz id.
Proof. intros Hm. rewrite row_start_take by (by rewrite fmap_length). apply nsum_take_le. Qed.
Lemma cells_mono a b : a <= b -> a * dx * dy <= b * dx * dy.
Proof. clear. intros H. apply Nat.mul_le_mono_r, Nat.mul_le_mono_r, H. Qed.
Context (Hfit : group_cells ds x y zss <= M).
Lemma total_fits : nsum dz id * dx * dy <= M /\ nsum dz id * dx <= M /\ nsum dz id * dy <= M /\ nsum dz id <= M.
Proof. pose proof Hfit as H. rewrite group_cells_total in H. pose proof (cells_down _ _ _ _ dx_pos dy_pos H) as (H1 & H2 & H3). done. Qed.
Lemma member_fits zs : zs ∈ zss -> prod_list (siz zs) * dx * dy <= M.
Proof.
  intros Hz. destruct total_fits as [H _]. etransitivity; [|exact H]. apply cells_mono. change (prod_list (siz zs)) with (id (prod_list (siz zs))). apply nsum_ge. by apply (elem_of_list_fmap_1 (fun zs => prod_list (siz zs))).
Qed.
Lemma member_tallies zs : zs ∈ zss -> fits M (tally D ds (zs ++ [x; y])) /\ fits M (tally D ds (zs ++ [x])) /\ fits M (tally D ds (zs ++ [y])) /\ fits M (tally D ds zs) /\ dx <= M /\ dy <= M.
Proof.
  intros Hz. pose proof Hk as Hk'. rewrite Forall_forall in Hk'. destruct (tallies_fit zs) as (H1 & H2 & H3 & H4 & _ & H5 & H6); [by apply Hk'|rewrite cells_split; by apply member_fits|done].
Qed.
Lemma concat_tallies f k : (forall zs, length (f zs) = prod_list (siz zs) * k) -> nsum dz id * k <= M -> (forall zs, zs ∈ zss -> fits M (f zs)) -> fits M (concat (f <$> zss)).
Proof.
  intros Hf Hm Hz. apply concat_fits.
  - rewrite concat_length_sum. rewrite (nsum_ext zss _ (fun zs => prod_list (siz zs) * k)) by (intros; apply Hf). rewrite nsum_scale. rewrite nsum_fmap in Hm. done.
  - apply Forall_fmap, Forall_forall. intros zs Hin. apply Hz. done.
Qed.
Lemma tally_len zs vs : length (tally D ds (zs ++ vs)) = prod_list (siz zs) * prod_list (siz vs).
Proof. unfold tally. rewrite fmap_length, configs_length. unfold sizes_of. by rewrite fmap_app, prod_list_app. Qed.
Lemma group_fits_tables : fits M (concat ((fun zs => tally D ds (zs ++ [x; y])) <$> zss)) /\ fits M (concat ((fun zs => tally D ds (zs ++ [x])) <$> zss)) /\ fits M (concat ((fun zs => tally D ds (zs ++ [y])) <$> zss)) /\ fits M (concat (tally D ds <$> zss)).
Proof.
  destruct total_fits as (H1 & H2 & H3 & H4). split_and!.
  - apply (concat_tallies _ (dx * dy)); [intros; rewrite tally_len; cbn; lia|lia|]. intros zs Hz. destruct (member_tallies zs Hz) as (F1 & F2 & F3 & F4 & _). exact F1.
  - apply (concat_tallies _ dx); [intros; rewrite tally_len; cbn; lia|lia|]. intros zs Hz. destruct (member_tallies zs Hz) as (F1 & F2 & F3 & F4 & _). exact F2.
  - apply (concat_tallies _ dy); [intros; rewrite tally_len; cbn; lia|lia|]. intros zs Hz. destruct (member_tallies zs Hz) as (F1 & F2 & F3 & F4 & _). exact F3.
  - apply (concat_tallies _ 1); [intros zs; rewrite <-(app_nil_r zs) at 1; rewrite tally_len; cbn; lia|lia|]. intros zs Hz. destruct (member_tallies zs Hz) as (F1 & F2 & F3 & F4 & _). exact F4.
Qed.
Lemma group_tables_i : counts3d_group_i M D dx dy x y (siz (concat zss)) (concat zss) g = counts3d_group D dx dy x y (siz (concat zss)) (concat zss) g.
Proof.
  pose proof (counts3d_group_ok D ds HD x y Hx Hy zss c Hc Hu Hne Hk) as Ht. rewrite Ht. destruct group_fits_tables as (F1 & F2 & F3 & F4). destruct total_fits as (H1 & H2 & H3 & H4).
  apply counts3d_group_fits; try done; [apply dx_pos|apply dy_pos| | |]; cbn [cg_dimz cg_cum cg_n cg_ni cg_nj cg_nk].
  - apply known_pos; [done|]. by apply Forall_concat.
  - intros o d Ho Hd. apply elem_of_list_fmap in Ho as (m & -> & Hm). apply elem_of_seq in Hm. apply elem_of_list_fmap in Hd as (zs & -> & Hz). split; [|by apply member_fits]. etransitivity; [|exact H1]. apply cells_mono, row_start_le. lia.
  - rewrite concat_length_sum. rewrite (nsum_ext zss _ (fun zs => id (prod_list (siz zs)))) by (intros; unfold tally; by rewrite fmap_length, configs_length). rewrite <-(nsum_fmap (fun zs => prod_list (siz zs))). done.
Qed.
Lemma mfor_agree_in {I S} (l : list I) (f fi : I -> S -> outcome S) s : (forall i s, i ∈ l -> f i s = fi i s) -> mfor l f s = mfor l fi s.
Proof. clear. revert s. induction l as [|i l IH]; intros s H; [done|]. cbn [mfor]. rewrite H by left. destruct (fi i s); [|done]. cbn [mbind outcome_bind]. apply IH. intros. apply H. by right. Qed.
Lemma group_fits : independence_result_i M accept D ds x y (concat zss) g = independence_result accept D ds x y (concat zss) g.
Proof.
  destruct (decide (1 < g)) as [Hg|Hg].
  2:{ destruct zss as [|zs [|]]; cbn in Hg; [done| |lia]. cbn [concat length]. rewrite app_nil_r. inversion_clear Hk. apply single_fits; [done|lia|]. unfold group_cells in Hfit. cbn in Hfit. lia. }
  assert (concat zss <> []) as H0. { intros E. apply (f_equal length) in E. rewrite (concat_uniform_length _ c Hu) in E. cbn in E. nia. }
  unfold independence_result, independence_result_i. rewrite bool_decide_false by done. rewrite bool_decide_true by done. unfold gsquare_group, gsquare_group_i. destruct (idiv _ _); [|done]. cbn [mbind outcome_bind].
  rewrite !(dom_lookup D ds HD x y Hx Hy) by done. cbn [mbind outcome_bind]. rewrite (collect_sizes D ds HD) by (by apply Forall_concat). cbn [mbind outcome_bind]. rewrite group_tables_i, (counts3d_group_ok D ds HD x y Hx Hy zss c Hc Hu Hne Hk). cbn [mbind outcome_bind cg_dimz cg_cum cg_n cg_ni cg_nj cg_nk].
  destruct group_fits_tables as (F1 & F2 & F3 & F4). destruct total_fits as (H1 & H2 & H3 & H4).
  match goal with |- mbind ?K (mfor ?l ?f ?s) = mbind _ (mfor _ ?f2 _) => assert (mfor l f s = mfor l f2 s) as ->; [|done] end.
  apply mfor_agree_in. intros m rs Hm. apply elem_of_seq in Hm. destruct (lookup_lt_is_Some_2 zss m) as [zs Hzs]; [lia|]. pose proof (elem_of_list_lookup_2 _ _ _ Hzs) as Hin.
  rewrite (vget_ok (row_start dz <$> seq 0 g) m (row_start dz m)) by (rewrite list_lookup_fmap, lookup_seq_lt by lia; done). cbn [mbind outcome_bind]. rewrite (vget_ok dz m (prod_list (siz zs))) by (by rewrite list_lookup_fmap, Hzs). cbn [mbind outcome_bind].
  pose proof (row_start_le m ltac:(lia)) as Hro. pose proof (cells_mono _ _ Hro) as Hro3. pose proof dx_pos. pose proof dy_pos. pose proof (cells_down (row_start dz m) dx dy M ltac:(done) ltac:(done) ltac:(lia)) as (R1 & R2 & R3).
  rewrite imul3_fits by lia. cbn [mbind outcome_bind]. rewrite (imul_fits M (row_start dz m) dx) by lia. cbn [mbind outcome_bind]. rewrite (imul_fits M (row_start dz m) dy) by lia. cbn [mbind outcome_bind].
  destruct (member_tallies zs Hin) as (_ & _ & _ & _ & Lx & Ly).
  match goal with |- mbind ?K ?a = mbind _ ?b => assert (a = b) as ->; [|done] end.
  match goal with |- _ = gtest _ _ _ ?rn ?ri ?rj ?rk => assert (exists r, gtest (prod_list (siz zs)) dx dy rn ri rj rk = Ok r) as [r Er] end.
  { eexists. apply (gtest_ok D ds HD x y Hx Hy zs); [pose proof Hk as Hk'; rewrite Forall_forall in Hk'; by apply Hk'|..]; intros i w Hw; apply vget_ok.
    - rewrite <-Nat.mul_assoc. rewrite <-(offset D ds HD x y Hx Hy zss c Hc Hu Hne Hk m id (fun zs => tally D ds (zs ++ [x; y])) (dx * dy)); [by eapply concat_offset|lia|]. intros. rewrite tally_len. cbn. lia.
    - rewrite <-(offset D ds HD x y Hx Hy zss c Hc Hu Hne Hk m id (fun zs => tally D ds (zs ++ [x])) dx); [by eapply concat_offset|lia|]. intros. rewrite tally_len. cbn. lia.
    - rewrite <-(offset D ds HD x y Hx Hy zss c Hc Hu Hne Hk m id (fun zs => tally D ds (zs ++ [y])) dy); [by eapply concat_offset|lia|]. intros. rewrite tally_len. cbn. lia.
    - rewrite <-(Nat.mul_1_r (row_start _ m)), <-(offset D ds HD x y Hx Hy zss c Hc Hu Hne Hk m id (tally D ds) 1); [by eapply concat_offset|lia|]. intros. unfold tally. rewrite fmap_length, configs_length. lia. }
  rewrite Er. eapply gtest_fits; [..|exact Er]; try done; try apply F1; try apply F2; try apply F3; try apply F4. by apply member_fits.
Qed.
End group.
End limit.
