(** The test reads the statistic and the degrees of freedom off the tables. *)
From Verif Require Import CellModel CellSpec ParProofs CellProofs CellProofs2 CellProofs3 TableProofs.
Local Open Scope nat_scope.

Lemma append_loop {I A} (l : list I) (body : I -> list A -> outcome (list A)) f ts : (forall i ts, i ∈ l -> body i ts = Ok (ts ++ f i)) -> mfor l body ts = Ok (ts ++ (l ≫= f)).
Proof.
  revert ts. induction l as [|i l IH]; intros ts H; cbn; [by rewrite app_nil_r|]. rewrite H by left. cbn. rewrite IH by (intros; apply H; by right). by rewrite <-app_assoc.
Qed.
Lemma bind_ext {A B} (l : list A) (f h : A -> list B) : (forall x, x ∈ l -> f x = h x) -> l ≫= f = l ≫= h.
Proof. induction l as [|x l IH]; intros H; [done|]. cbn. rewrite H by left. f_equal. apply IH. intros; apply H; by right. Qed.
Lemma bind_nil {A B} (l : list A) (f : A -> list B) : (forall x, x ∈ l -> f x = []) -> l ≫= f = [].
Proof. induction l as [|x l IH]; intros H; [done|]. cbn. rewrite H by left. apply IH. intros; apply H; by right. Qed.
Lemma count_positive_ok n r f : (forall i, i < n -> r i = Ok (f i)) -> count_positive n r = Ok (length (filter (fun i => 0 < f i) (seq 0 n))).
Proof.
  intros H. unfold count_positive. rewrite (sum_loop _ _ (fun i => if decide (0 < f i) then 1 else 0)).
  - cbn [Nat.add]. f_equal. clear. induction (seq 0 n) as [|i l IH]; [done|]. change (nsum (i :: l) ?h) with (h i + nsum l h). rewrite IH. rewrite filter_cons. by destruct (decide _).
  - intros i s Hi. apply elem_of_seq in Hi. rewrite H by lia. cbn [mbind outcome_bind]. case_bool_decide; destruct (decide (0 < f i)); done || lia.
Qed.
Lemma row_terms_ok dy row total rj rn col obs ts : (forall j, j < dy -> rj j = Ok (col j) /\ rn j = Ok (obs j)) -> (forall j, col j = 0 -> obs j = 0) ->
  row_terms dy row total rj rn ts = Ok (ts ++ (j ← seq 0 dy; if decide (0 < obs j) then [(obs j, row, col j, total)] else [])).
Proof.
  intros H H0. unfold row_terms. rewrite (append_loop _ _ (fun j => if decide (0 < obs j) then [(obs j, row, col j, total)] else [])); [done|].
  intros j ts' Hj. apply elem_of_seq in Hj. destruct (H j ltac:(lia)) as [-> ->]. cbn [mbind outcome_bind]. specialize (H0 j). case_bool_decide as H1; destruct (decide _) as [H2|H2]; try lia.
  - by rewrite app_nil_r.
  - done.
Qed.

(** ** Configurations *)
Lemma configs_snoc dims k cfg d i : configs dims !! k = Some cfg -> i < d -> configs (dims ++ [d]) !! (k * d + i) = Some (cfg ++ [i]).
Proof.
  intros Hc Hi. apply configs_lookup in Hc as [Hr <-]. assert (length dims = length cfg) as Hl by (symmetry; by eapply Forall2_length). apply configs_lookup. split; [|by apply lex_index_snoc].
  apply Forall2_app; [done|]. by constructor.
Qed.
Lemma row_values_Some cols vs j cfg : row_values cols vs j = Some cfg <-> Forall2 (fun v c => entry cols j v = Some c) vs cfg.
Proof. apply mapM_Some. Qed.
Lemma matching_mono D vs cfg vs' cfg' : (forall j, row_values (co_cols D) vs j = Some cfg -> row_values (co_cols D) vs' j = Some cfg') -> matching D vs cfg <= matching D vs' cfg'.
Proof.
  intros H. unfold matching. induction (seq 0 (co_rows D)) as [|j l IH]; [done|]. rewrite !filter_cons. specialize (H j). repeat destruct (decide _); cbn; try lia. tauto.
Qed.
Lemma matching_nil D : matching D [] [] = co_rows D.
Proof.
  unfold matching. assert (forall l, length (filter (fun j => row_values (co_cols D) [] j = Some []) l) = length l) as ->; [|by rewrite seq_length].
  induction l as [|j l IH]; [done|]. rewrite filter_cons, decide_True by done. cbn [length]. by rewrite IH.
Qed.

Section test.
Context (D : columns) (ds : list nat) (HD : tabulated D ds) (x y : nat) (Hx : x < length ds) (Hy : y < length ds).
Notation siz := (sizes_of ds).
Notation known := (Forall (fun v => v < length ds)).
Notation dx := (default 0 (ds !! x)).
Notation dy := (default 0 (ds !! y)).
Set Default Proof Using "All".
Section one.
Context (zs : list nat) (Hz : known zs).
Notation dz := (prod_list (siz zs)).
Notation cfgs := (configs (siz zs)).
Definition m0 (cfg : list nat) : nat := matching D zs cfg.
Definition mx (cfg : list nat) (i : nat) : nat := matching D (zs ++ [x]) (cfg ++ [i]).
Definition my (cfg : list nat) (j : nat) : nat := matching D (zs ++ [y]) (cfg ++ [j]).
Definition mxy (cfg : list nat) (i j : nat) : nat := matching D (zs ++ [x; y]) (cfg ++ [i; j]).
Lemma m_order cfg i j : length cfg = length zs -> mxy cfg i j <= mx cfg i /\ mxy cfg i j <= my cfg j /\ mxy cfg i j <= m0 cfg.
Proof.
  intros Hl. unfold mxy, mx, my, m0. split_and!; apply matching_mono; intros r; rewrite !row_values_Some; intros H; apply Forall2_app_inv in H as [H1 H2]; try done.
  - apply Forall2_app; [done|]. inversion_clear H2. by constructor.
  - apply Forall2_app; [done|]. inversion_clear H2. done.
Qed.
Lemma cfg_length k cfg : cfgs !! k = Some cfg -> length cfg = length zs.
Proof. intros H. apply configs_lookup in H as [H _]. apply Forall2_length in H. unfold sizes_of in H. rewrite fmap_length in H. done. Qed.
Lemma tally_m0 k cfg : cfgs !! k = Some cfg -> tally D ds zs !! k = Some (m0 cfg).
Proof. intros H. unfold tally. by rewrite list_lookup_fmap, H. Qed.
Lemma tally_snoc v k cfg i : cfgs !! k = Some cfg -> i < default 0 (ds !! v) -> tally D ds (zs ++ [v]) !! (k * default 0 (ds !! v) + i) = Some (matching D (zs ++ [v]) (cfg ++ [i])).
Proof. intros H Hi. unfold tally. rewrite (siz_app D ds HD). change (siz [v]) with [default 0 (ds !! v)]. by rewrite list_lookup_fmap, (configs_snoc _ _ cfg). Qed.
Lemma tally_mxy k cfg i j : cfgs !! k = Some cfg -> i < dx -> j < dy -> tally D ds (zs ++ [x; y]) !! (k * dx * dy + i * dy + j) = Some (mxy cfg i j).
Proof.
  intros H Hi Hj. unfold tally, mxy. assert (siz (zs ++ [x; y]) = (siz zs ++ [dx]) ++ [dy]) as -> by (rewrite (siz_app D ds HD), <-app_assoc; done). assert (cfg ++ [i; j] = (cfg ++ [i]) ++ [j]) as -> by (by rewrite <-app_assoc).
  rewrite list_lookup_fmap. rewrite <-Nat.mul_add_distr_r. rewrite (configs_snoc _ (k * dx + i) (cfg ++ [i])); [done|by apply configs_snoc|done].
Qed.
Definition terms_at (cfg : list nat) : list gterm := i ← seq 0 dx; j ← seq 0 dy; cell_terms D x y zs cfg i j.
Definition degrees_at (cfg : list nat) : nat := (levels_seen D ds x zs cfg - 1) * (levels_seen D ds y zs cfg - 1).
Lemma rows_ok cfg total ri rj rn ts : length cfg = length zs -> total = m0 cfg ->
  (forall i, i < dx -> ri i = Ok (mx cfg i)) -> (forall j, j < dy -> rj j = Ok (my cfg j)) -> (forall i j, i < dx -> j < dy -> rn i j = Ok (mxy cfg i j)) ->
  mfor (seq 0 dx) (fun i ts => row ← ri i; if bool_decide (row = 0) then Ok ts else row_terms dy row total rj (rn i) ts) ts = Ok (ts ++ terms_at cfg).
Proof.
  intros Hl -> Hi Hj Hn. apply append_loop. intros i ts' Hin. apply elem_of_seq in Hin. rewrite Hi by lia. cbn [mbind outcome_bind]. case_bool_decide as H0.
  - rewrite bind_nil; [by rewrite app_nil_r|]. intros j _. unfold cell_terms. rewrite decide_False; [done|]. destruct (m_order cfg i j Hl) as (H1 & _ & _). unfold mxy in H1. lia.
  - rewrite (row_terms_ok _ _ _ _ _ (my cfg) (mxy cfg i)).
    + done.
    + intros j Hjl. split; [by apply Hj|apply Hn; [lia|done]].
    + intros j. destruct (m_order cfg i j Hl) as (_ & H1 & _). lia.
Qed.
Lemma levels_ok v (cfg : list nat) r : (forall i, i < default 0 (ds !! v) -> r i = Ok (matching D (zs ++ [v]) (cfg ++ [i]))) -> count_positive (default 0 (ds !! v)) r = Ok (levels_seen D ds v zs cfg).
Proof. intros H. rewrite (count_positive_ok _ _ (fun i => matching D (zs ++ [v]) (cfg ++ [i]))) by done. done. Qed.
Lemma gtest_ok rn ri rj rk :
  (forall i w, tally D ds (zs ++ [x; y]) !! i = Some w -> rn i = Ok w) -> (forall i w, tally D ds (zs ++ [x]) !! i = Some w -> ri i = Ok w) ->
  (forall i w, tally D ds (zs ++ [y]) !! i = Some w -> rj i = Ok w) -> (forall i w, tally D ds zs !! i = Some w -> rk i = Ok w) ->
  gtest dz dx dy rn ri rj rk = Ok (statistic D ds x y zs, degrees D ds x y zs).
Proof.
  intros Hn Hi Hj Hk. unfold gtest.
  match goal with |- mfor _ ?f _ = _ => destruct (mfor_inv (fun dn st => st = (take (length dn) cfgs ≫= terms_at, nsum (take (length dn) cfgs) degrees_at)) (seq 0 dz) f ([], 0)) as (st & -> & ->) end.
  - done.
  - intros dn k rest st Hs ->. assert (k = length dn /\ k < dz) as [-> Hkl].
    { assert (seq 0 dz !! length dn = Some k) as H by (rewrite Hs, lookup_app_r by lia; by rewrite Nat.sub_diag). apply lookup_seq in H. lia. }
    destruct (lookup_lt_is_Some_2 cfgs (length dn)) as [cfg Hcfg]; [rewrite configs_length; done|]. pose proof (cfg_length _ _ Hcfg) as Hl.
    assert (forall i, i < dx -> ri (length dn * dx + i) = Ok (mx cfg i)) as Hi' by (intros; apply Hi; by apply tally_snoc).
    assert (forall j, j < dy -> rj (length dn * dy + j) = Ok (my cfg j)) as Hj' by (intros; apply Hj; by apply tally_snoc).
    rewrite (levels_ok x cfg) by done. cbn [mbind outcome_bind]. rewrite (levels_ok y cfg) by done. cbn [mbind outcome_bind].
    rewrite (Hk _ _ (tally_m0 _ _ Hcfg)). cbn [mbind outcome_bind]. rewrite app_length. cbn [length]. rewrite Nat.add_1_r, (take_S_r _ _ _ Hcfg), bind_app, nsum_app.
    change (nsum [cfg] degrees_at) with (degrees_at cfg + 0). rewrite Nat.add_0_r. cbn [mbind list_bind]. rewrite app_nil_r.
    assert (forall n, Nat.max n 1 - 1 = n - 1) as Hm by lia. rewrite !Hm. fold (degrees_at cfg).
    case_bool_decide as H0.
    + eexists. split; [done|]. f_equal. assert (terms_at cfg = []) as ->; [|by rewrite app_nil_r]. apply bind_nil. intros i _. apply bind_nil. intros j _. unfold cell_terms. rewrite decide_False; [done|].
      destruct (m_order cfg i j Hl) as (_ & _ & H1). unfold mxy in H1. lia.
    + rewrite (rows_ok cfg (m0 cfg) (fun i => ri (length dn * dx + i)) (fun j => rj (length dn * dy + j)) (fun i j => rn (length dn * dx * dy + i * dy + j))); try done.
      * cbn [mbind outcome_bind]. eexists. split; done.
      * intros i j Hil Hjl. apply Hn. by apply tally_mxy.
  - rewrite seq_length, <-configs_length, firstn_all. done.
Qed.
End one.

Context (accept : list gterm -> nat -> bool).
Lemma dom_lookup v : v < length ds -> vget ds v = Ok (default 0 (ds !! v)).
Proof. intros H. destruct (lookup_lt_is_Some_2 ds v H) as [d Hd]. by rewrite (vget_ok _ _ _ Hd), Hd. Qed.
Lemma gsquare_xyz_ok zs : known zs -> zs <> [] -> gsquare_xyz accept D ds x y zs = Ok (mkCI (decision accept D ds x y zs) 0).
Proof.
  intros Hz Hne. unfold gsquare_xyz. rewrite !dom_lookup by done. cbn [mbind outcome_bind]. rewrite (collect_sizes D ds HD) by done. cbn [mbind outcome_bind]. rewrite counts3d_ok by done. cbn [mbind outcome_bind c3_dimz c3_n c3_ni c3_nj c3_nk].
  rewrite (gtest_ok zs Hz) by (intros; by apply vget_ok). cbn [mbind outcome_bind]. unfold decision. case_bool_decide as H; destruct (decide _); done.
Qed.
Lemma gsquare_xy_ok : gsquare_xy accept D ds x y = Ok (mkCI (decision accept D ds x y []) (-1)).
Proof.
  unfold gsquare_xy. rewrite !dom_lookup by done. cbn [mbind outcome_bind]. rewrite counts2d_ok by done. cbn [mbind outcome_bind].
  assert (configs (siz []) !! 0 = Some []) as Hc by done.
  assert (forall i, i < dx -> vget (tally D ds [x]) i = Ok (mx [] [] i)) as Hi by (intros; apply vget_ok; by apply (tally_snoc [] (Forall_nil_2 _) x 0 [])).
  assert (forall j, j < dy -> vget (tally D ds [y]) j = Ok (my [] [] j)) as Hj by (intros; apply vget_ok; by apply (tally_snoc [] (Forall_nil_2 _) y 0 [])).
  rewrite (levels_ok [] (Forall_nil_2 _) x []) by done. cbn [mbind outcome_bind]. rewrite (levels_ok [] (Forall_nil_2 _) y []) by done. cbn [mbind outcome_bind].
  rewrite (rows_ok [] (Forall_nil_2 _) [] (co_rows D) (vget (tally D ds [x])) (vget (tally D ds [y])) (fun i j => vget (tally D ds [x; y]) (i * dy + j))); try done.
  - cbn [mbind outcome_bind app]. assert (forall n, Nat.max n 1 - 1 = n - 1) as Hm by lia. rewrite !Hm. unfold decision. assert (degrees D ds x y [] = degrees_at [] []) as -> by (unfold degrees; cbn; by rewrite Nat.add_0_r).
    assert (statistic D ds x y [] = terms_at [] []) as -> by (unfold statistic; cbn [sizes_of fmap list_fmap configs mbind list_bind]; by rewrite app_nil_r).
    fold (degrees_at [] []). case_bool_decide as H; destruct (decide _); done.
  - unfold m0. by rewrite matching_nil.
  - intros i j Hil Hjl. apply vget_ok. by apply (tally_mxy [] (Forall_nil_2 _) 0 []).
Qed.
Lemma first_true_app_false l1 l2 : Forall (fun b => b = false) l1 -> first_true (l1 ++ l2) = (fun i => length l1 + i) <$> first_true l2.
Proof. clear. induction 1 as [|b l1 -> _ IH]; cbn; [by destruct (first_true l2)|]. rewrite IH. by destruct (first_true l2). Qed.
Lemma first_true_snoc l b : first_true (l ++ [b]) = match first_true l with Some i => Some i | None => if (b : bool) then Some (length l) else None end.
Proof. clear. induction l as [|c l IH]; cbn; [by destruct b|]. destruct c; [done|]. rewrite IH. destruct (first_true l); [done|]. by destruct b. Qed.
Lemma concat_offset {A} (f : A -> list nat) (l : list A) m a i w : l !! m = Some a -> f a !! i = Some w -> concat (f <$> l) !! (i + length (concat (f <$> take m l))) = Some w.
Proof. clear. intros Hm Hi. rewrite (framed_concat f l m a Hm). by apply framed_lookup. Qed.
Lemma gsquare_group_ok c zss : 0 < c -> Forall (fun zs => length zs = c) zss -> zss <> [] -> Forall (Forall (fun v => v < length ds)) zss ->
  gsquare_group accept D ds x y (concat zss) (length zss) =
  if decide (length zss <= 8) then Ok (group_result ((fun zs => accept (statistic D ds x y zs) (degrees D ds x y zs)) <$> zss)) else Err OutOfBounds.
Proof.
  intros Hc Hu Hne Hk. unfold gsquare_group. assert (0 < length zss) as Hg by (destruct zss; [done|cbn; lia]).
  unfold idiv. rewrite bool_decide_false by lia. cbn [mbind outcome_bind]. rewrite !dom_lookup by done. cbn [mbind outcome_bind].
  rewrite (collect_sizes D ds HD) by (apply Forall_concat; done). cbn [mbind outcome_bind]. rewrite (counts3d_group_ok D ds HD x y Hx Hy zss c) by done. cbn [mbind outcome_bind cg_dimz cg_cum cg_n cg_ni cg_nj cg_nk].
  set (out := fun zs => accept (statistic D ds x y zs) (degrees D ds x y zs)). set (dzs := (fun zs => prod_list (siz zs)) <$> zss).
  set (body := fun (m : nat) (rs : list bool) => _).
  assert (forall m zs rs, zss !! m = Some zs -> body m rs = vset rs m (out zs)) as Hbody.
  { intros m zs rs Hm. unfold body. assert (m < length zss) as Hml by (by eapply lookup_lt_Some).
    rewrite (vget_ok (row_start dzs <$> seq 0 (length zss)) m (row_start dzs m)) by (rewrite list_lookup_fmap, lookup_seq_lt by done; done). cbn [mbind outcome_bind].
    rewrite (vget_ok dzs m (prod_list (siz zs))) by (unfold dzs; by rewrite list_lookup_fmap, Hm). cbn [mbind outcome_bind].
    rewrite (gtest_ok zs).
    - cbn [mbind outcome_bind]. fold (out zs). case_bool_decide; [|done]. destruct (decide (m < length rs)) as [Hlt|Hge].
      + rewrite vset_ok by done. cbn [mbind outcome_bind]. rewrite !vset_ok by (by rewrite ?insert_length). by rewrite list_insert_insert.
      + unfold vset. rewrite !bool_decide_false by lia. done.
    - rewrite Forall_lookup in Hk. by eapply Hk.
    - intros i w Hw. apply vget_ok. unfold dzs. rewrite <-Nat.mul_assoc. rewrite <-(offset D ds HD x y Hx Hy zss c Hc Hu Hne Hk m id (fun zs => tally D ds (zs ++ [x; y])) (dx * dy)); [by eapply concat_offset|lia|]. intros. unfold tally. rewrite fmap_length, configs_length, (siz_app D ds HD), prod_list_app. cbn. lia.
    - intros i w Hw. apply vget_ok. unfold dzs. rewrite <-(offset D ds HD x y Hx Hy zss c Hc Hu Hne Hk m id (fun zs => tally D ds (zs ++ [x])) dx); [by eapply concat_offset|lia|]. intros. unfold tally. rewrite fmap_length, configs_length, (siz_app D ds HD), prod_list_app. cbn. lia.
    - intros i w Hw. apply vget_ok. unfold dzs. rewrite <-(offset D ds HD x y Hx Hy zss c Hc Hu Hne Hk m id (fun zs => tally D ds (zs ++ [y])) dy); [by eapply concat_offset|lia|]. intros. unfold tally. rewrite fmap_length, configs_length, (siz_app D ds HD), prod_list_app. cbn. lia.
    - intros i w Hw. apply vget_ok. unfold dzs. rewrite <-(Nat.mul_1_r (row_start _ m)), <-(offset D ds HD x y Hx Hy zss c Hc Hu Hne Hk m id (tally D ds) 1); [by eapply concat_offset|lia|]. intros. unfold tally. rewrite fmap_length, configs_length. lia. }
  destruct (decide (length zss <= 8)) as [H8|H8].
  - destruct (mfor_inv (fun dn rs => rs = (out <$> take (length dn) zss) ++ replicate (8 - length dn) false) (seq 0 (length zss)) body (replicate 8 false)) as (rs & -> & ->).
    + done.
    + intros dn m rest rs Hs ->. assert (m = length dn /\ m < length zss) as [-> Hm].
      { assert (seq 0 (length zss) !! length dn = Some m) as H by (rewrite Hs, lookup_app_r by lia; by rewrite Nat.sub_diag). apply lookup_seq in H. lia. }
      destruct (lookup_lt_is_Some_2 zss (length dn) Hm) as [zs Hzs]. rewrite (Hbody _ _ _ Hzs). assert (length (out <$> take (length dn) zss) = length dn) as Hl by (rewrite fmap_length, take_length; lia).
      rewrite vset_ok by (rewrite app_length, replicate_length, Hl; lia). eexists. split; [done|]. replace (8 - length dn) with (S (8 - S (length dn))) by lia. cbn [replicate].
      rewrite <-Hl at 1. rewrite insert_app_r_alt by lia. rewrite Nat.sub_diag. cbn. rewrite app_length. cbn. rewrite Nat.add_1_r, (take_S_r _ _ _ Hzs), fmap_app, <-app_assoc. done.
    + cbn [mbind outcome_bind]. rewrite seq_length, firstn_all.
      match goal with |- context [mfor _ ?f None] => destruct (mfor_inv (fun dn r => r = first_true (out <$> take (length dn) zss)) (seq 0 (length zss)) f None) as (r & -> & ->) end.
      * done.
      * intros dn m rest r Hs ->. assert (m = length dn /\ m < length zss) as [-> Hm].
        { assert (seq 0 (length zss) !! length dn = Some m) as H by (rewrite Hs, lookup_app_r by lia; by rewrite Nat.sub_diag). apply lookup_seq in H. lia. }
        destruct (lookup_lt_is_Some_2 zss (length dn) Hm) as [zs Hzs]. rewrite app_length. cbn [length]. rewrite Nat.add_1_r, (take_S_r _ _ _ Hzs), fmap_app. change (out <$> [zs]) with [out zs]. rewrite first_true_snoc.
        assert (length (out <$> take (length dn) zss) = length dn) as Hl by (rewrite fmap_length, take_length; lia). rewrite Hl.
        destruct (first_true (out <$> take (length dn) zss)) eqn:E; [eexists; done|].
        rewrite (vget_ok _ _ (out zs)) by (rewrite lookup_app_l by (by rewrite fmap_length); by rewrite list_lookup_fmap, Hzs). cbn [mbind outcome_bind]. eexists. split; [done|]. done.
      * cbn [mbind outcome_bind]. rewrite seq_length, firstn_all. unfold group_result. by destruct (first_true _).
  - assert (length zss = 8 + (length zss - 8)) as Hlen by lia. rewrite Hlen, seq_app, mfor_app.
    destruct (mfor_inv (fun dn rs => length rs = 8) (seq 0 8) body (replicate 8 false)) as (rs & -> & Hrs).
    + done.
    + intros dn m rest rs Hs Hrs. assert (m ∈ seq 0 8) as Hm by (rewrite Hs; apply elem_of_app; right; left). apply elem_of_seq in Hm.
      destruct (lookup_lt_is_Some_2 zss m) as [zs Hzs]; [lia|]. rewrite (Hbody _ _ _ Hzs), vset_ok by lia. eexists. split; [done|]. by rewrite insert_length.
    + cbn [mbind outcome_bind]. destruct (length zss - 8) as [|n] eqn:E; [lia|]. cbn [seq mfor Nat.add]. destruct (lookup_lt_is_Some_2 zss 8) as [zs Hzs]; [lia|]. rewrite (Hbody _ _ _ Hzs). unfold vset. rewrite bool_decide_false by lia. done.
Qed.
End test.
