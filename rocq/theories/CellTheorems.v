(** Statements about tables and tests used in Properties_Cell.v. *)
From Verif Require Import CellModel CellSpec ParProofs CellProofs CellProofs2 CellProofs3 CellProofs4 TableProofs.
Local Open Scope nat_scope.

Lemma partition_count {R} (P : R -> Prop) `{forall r, Decision (P r)} (f : R -> nat) (rows : list R) d : (forall r, r ∈ rows -> f r < d) ->
  nsum (seq 0 d) (fun i => count (fun r => P r /\ f r = i) rows) = count P rows.
Proof.
  induction rows as [|r rows IH]; intros Hf; [by apply nsum_zero|]. rewrite count_cons.
  rewrite (nsum_ext _ _ (fun i => (if decide (P r /\ f r = i) then 1 else 0) + count (fun r => P r /\ f r = i) rows)) by (intros i _; by rewrite count_cons).
  rewrite nsum_add, IH by (intros; apply Hf; by right). f_equal. destruct (decide (P r)) as [HP|HP].
  - rewrite (nsum_ext _ _ (fun i => if decide (f r = i) then 1 else 0)) by (intros i _; repeat destruct (decide _); tauto).
    rewrite nsum_one by apply NoDup_seq. rewrite decide_True; [done|]. apply elem_of_seq. specialize (Hf r (elem_of_list_here _ _)). lia.
  - apply nsum_zero. intros i _. rewrite decide_False; [done|]. tauto.
Qed.
Lemma matching_sum D ds vs ws cfg cfg' v : tabulated D ds -> v < length ds -> length vs = length cfg ->
  matching D (vs ++ ws) (cfg ++ cfg') = nsum (seq 0 (default 0 (ds !! v))) (fun i => matching D (vs ++ v :: ws) (cfg ++ i :: cfg')).
Proof.
  intros HD Hv Hl. unfold matching. rewrite <-(partition_count (fun j => row_values (co_cols D) (vs ++ ws) j = Some (cfg ++ cfg')) (val D v) _ (default 0 (ds !! v))).
  - apply nsum_ext. intros i _. apply count_ext. intros j Hj. apply elem_of_seq in Hj. destruct (cell_val D ds HD v j Hv ltac:(lia)) as (_ & He & _). rewrite !row_values_Some. split.
    + intros [H <-]. apply Forall2_app_inv in H as [H1 H2]; [|done]. apply Forall2_app; [done|]. by constructor.
    + intros H. apply Forall2_app_inv in H as [H1 H2]; [|done]. inversion_clear H2 as [|? ? ? ? H3 H4]. split; [by apply Forall2_app|]. congruence.
  - intros j Hj. apply elem_of_seq in Hj. apply (cell_val D ds HD); [done|lia].
Qed.
Lemma tally_position D ds vs cfg : in_range (sizes_of ds vs) cfg -> tally D ds vs !! lex_index (sizes_of ds vs) cfg = Some (matching D vs cfg).
Proof. intros H. unfold tally. rewrite list_lookup_fmap. assert (configs (sizes_of ds vs) !! lex_index (sizes_of ds vs) cfg = Some cfg) as -> by (by apply configs_lookup). done. Qed.

Section theorems.
Context (D : columns) (ds : list nat) (HD : tabulated D ds) (x y dx dy : nat) (Hdx : ds !! x = Some dx) (Hdy : ds !! y = Some dy).
Set Default Proof Using "All".
Lemma x_lt : x < length ds. Proof. by eapply lookup_lt_Some. Qed.
Lemma y_lt : y < length ds. Proof. by eapply lookup_lt_Some. Qed.
Lemma single_table zs : Forall (fun v => v < length ds) zs -> zs <> [] ->
  counts3d D dx dy x y (sizes_of ds zs) zs = Ok (mkC3 (length (configs (sizes_of ds zs))) (tally D ds (zs ++ [x; y])) (tally D ds (zs ++ [x])) (tally D ds (zs ++ [y])) (tally D ds zs)).
Proof. intros Hz Hne. pose proof (counts3d_ok D ds HD x y x_lt y_lt zs Hz Hne) as H. rewrite Hdx, Hdy in H. cbn [default from_option id] in H. rewrite H, configs_length. done. Qed.
Lemma pair_table : counts2d D dx dy x y = Ok (tally D ds [x; y], tally D ds [x], tally D ds [y]).
Proof. pose proof (counts2d_ok D ds HD x y x_lt y_lt) as H. by rewrite Hdx, Hdy in H. Qed.
Lemma group_table c zss : 0 < c -> Forall (fun zs => length zs = c) zss -> zss <> [] -> Forall (Forall (fun v => v < length ds)) zss ->
  exists t, counts3d_group D dx dy x y (sizes_of ds (concat zss)) (concat zss) (length zss) = Ok t /\
    cg_dimz t = (fun zs => length (configs (sizes_of ds zs))) <$> zss /\
    cg_n t = concat ((fun zs => tally D ds (zs ++ [x; y])) <$> zss) /\ cg_ni t = concat ((fun zs => tally D ds (zs ++ [x])) <$> zss) /\
    cg_nj t = concat ((fun zs => tally D ds (zs ++ [y])) <$> zss) /\ cg_nk t = concat (tally D ds <$> zss).
Proof.
  intros Hc Hu Hne Hk. pose proof (counts3d_group_ok D ds HD x y x_lt y_lt zss c Hc Hu Hne Hk) as H. rewrite Hdx, Hdy in H. cbn [default from_option id] in H. eexists. split; [exact H|]. split_and!; try done.
  cbn [cg_dimz]. apply list_fmap_ext. intros i zs _. by rewrite configs_length.
Qed.
Lemma margin_x zs cfg i : length cfg = length zs -> matching D (zs ++ [x]) (cfg ++ [i]) = nsum (seq 0 dy) (fun j => matching D (zs ++ [x; y]) (cfg ++ [i; j])).
Proof.
  intros Hl. pose proof (matching_sum D ds (zs ++ [x]) [] (cfg ++ [i]) [] y HD y_lt ltac:(rewrite !app_length; cbn; lia)) as H. rewrite !app_nil_r, Hdy in H. cbn [default from_option id] in H. rewrite H.
  apply nsum_ext. intros j _. by rewrite <-!app_assoc.
Qed.
Lemma margin_y zs cfg j : length cfg = length zs -> matching D (zs ++ [y]) (cfg ++ [j]) = nsum (seq 0 dx) (fun i => matching D (zs ++ [x; y]) (cfg ++ [i; j])).
Proof. intros Hl. pose proof (matching_sum D ds zs [y] cfg [j] x HD x_lt (eq_sym Hl)) as H. by rewrite Hdx in H. Qed.
Lemma margin_z zs cfg : length cfg = length zs -> matching D zs cfg = nsum (seq 0 dx) (fun i => nsum (seq 0 dy) (fun j => matching D (zs ++ [x; y]) (cfg ++ [i; j]))).
Proof.
  intros Hl. pose proof (matching_sum D ds zs [] cfg [] x HD x_lt (eq_sym Hl)) as H. rewrite !app_nil_r, Hdx in H. cbn [default from_option id] in H. rewrite H. apply nsum_ext. intros i _. by apply margin_x.
Qed.
(** ** The decisions *)
Context (accept : list gterm -> nat -> bool).
Lemma single_decision zs g : Forall (fun v => v < length ds) zs -> g <= 1 ->
  exists f, independence_result accept D ds x y zs g = Ok (mkCI (decision accept D ds x y zs) f) /\ (zs <> [] -> f = 0%Z).
Proof.
  intros Hz Hg. unfold independence_result. case_bool_decide as H0.
  - subst zs. eexists. split; [apply gsquare_xy_ok; [done|apply x_lt|apply y_lt]|done].
  - rewrite bool_decide_false by lia. eexists. split; [apply gsquare_xyz_ok; [done|apply x_lt|apply y_lt|done|done]|done].
Qed.
Lemma group_decision c zss : 0 < c -> Forall (fun zs => length zs = c) zss -> 1 < length zss -> Forall (Forall (fun v => v < length ds)) zss ->
  independence_result accept D ds x y (concat zss) (length zss) =
  if decide (length zss <= 8) then Ok (group_result ((fun zs => accept (statistic D ds x y zs) (degrees D ds x y zs)) <$> zss)) else Err OutOfBounds.
Proof.
  intros Hc Hu Hg Hk. unfold independence_result. rewrite bool_decide_false.
  - rewrite bool_decide_true by done. apply (gsquare_group_ok D ds HD x y x_lt y_lt accept c); [done|done| |done]. intros ->. cbn in Hg. lia.
  - intros E. apply (f_equal length) in E. rewrite (concat_uniform_length _ c Hu) in E. cbn in E. nia.
Qed.
End theorems.

(** ** Without degrees of freedom the statistic is zero *)
Lemma filter_two {A} (P : A -> Prop) `{forall x, Decision (P x)} (l : list A) a b : a ∈ l -> b ∈ l -> a <> b -> P a -> P b -> 1 < length (filter P l).
Proof.
  intros Ha Hb Hab HPa HPb. assert (a ∈ filter P l) as H1 by by apply elem_of_list_filter. assert (b ∈ filter P l) as H2 by by apply elem_of_list_filter.
  destruct (filter P l) as [|u [|w l']]; [by apply elem_of_nil in H1| |cbn; lia]. apply elem_of_list_singleton in H1, H2. congruence.
Qed.
Lemma nsum_single (l : list nat) f i : NoDup l -> i ∈ l -> (forall j, j ∈ l -> j <> i -> f j = 0) -> nsum l f = f i.
Proof.
  intros Hnd Hi H. induction Hnd as [|a l Ha Hl IH]; [by apply elem_of_nil in Hi|]. change (nsum (a :: l) f) with (f a + nsum l f). destruct (decide (a = i)) as [->|Hne].
  - rewrite nsum_zero; [lia|]. intros j Hj. apply H; [by right|]. by intros ->.
  - apply elem_of_cons in Hi as [->|Hi]; [done|]. rewrite IH; [rewrite H; [done|left|done]|done|]. intros j Hj. apply H. by right.
Qed.
Lemma nsum_ge {A} (l : list A) f x : x ∈ l -> f x <= nsum l f.
Proof. induction 1 as [a l|a b l _ IH]; cbn; [lia|]. unfold nsum in *. lia. Qed.
Lemma nsum_zero_inv {A} (l : list A) (f : A -> nat) x : nsum l f = 0 -> x ∈ l -> f x = 0.
Proof. intros H Hx. pose proof (nsum_ge l f x Hx). lia. Qed.
Lemma balanced_terms D ds x y zs : tabulated D ds -> x < length ds -> y < length ds -> degrees D ds x y zs = 0 -> Forall balanced (statistic D ds x y zs).
Proof.
  intros HD Hx Hy Hdf. destruct (lookup_lt_is_Some_2 ds x Hx) as [dx Hdx], (lookup_lt_is_Some_2 ds y Hy) as [dy Hdy].
  apply Forall_forall. intros t Ht. unfold statistic in Ht. rewrite Hdx, Hdy in Ht. cbn [default from_option id] in Ht.
  apply elem_of_list_bind in Ht as (cfg & Ht & Hcfg). apply elem_of_list_bind in Ht as (i & Ht & Hi). apply elem_of_list_bind in Ht as (j & Ht & Hj).
  unfold cell_terms in Ht. destruct (decide _) as [Hpos|]; [|by apply elem_of_nil in Ht]. apply elem_of_list_singleton in Ht as ->.
  assert (length cfg = length zs) as Hl. { apply elem_of_list_lookup in Hcfg as [k Hk]. apply configs_lookup in Hk as [Hk _]. apply Forall2_length in Hk. unfold sizes_of in Hk. rewrite fmap_length in Hk. done. }
  pose proof (nsum_zero_inv _ _ _ Hdf Hcfg) as H0. cbn beta in H0.
  pose proof (matching_sum D ds zs [] cfg [] x HD Hx (eq_sym Hl)) as Sx. pose proof (matching_sum D ds zs [] cfg [] y HD Hy (eq_sym Hl)) as Sy. rewrite !app_nil_r in Sx, Sy. rewrite Hdx in Sx. rewrite Hdy in Sy. cbn [default from_option id] in Sx, Sy.
  pose proof (fun i => margin_x D ds HD x y dx dy Hdx Hdy zs cfg i Hl) as Mx. pose proof (fun j => margin_y D ds HD x y dx dy Hdx Hdy zs cfg j Hl) as My.
  unfold levels_seen in H0. rewrite Hdx, Hdy in H0. cbn [default from_option id] in H0. cbn [balanced].
  apply Nat.eq_mul_0 in H0 as [H0|H0].
  - assert (forall i', i' ∈ seq 0 dx -> i' <> i -> matching D (zs ++ [x]) (cfg ++ [i']) = 0) as Z.
    { intros i' Hi' Hne. destruct (decide (0 < matching D (zs ++ [x]) (cfg ++ [i']))) as [H1|H1]; [|lia]. exfalso.
      assert (0 < matching D (zs ++ [x]) (cfg ++ [i])) as H2. { rewrite Mx. pose proof (nsum_ge (seq 0 dy) (fun j => matching D (zs ++ [x; y]) (cfg ++ [i; j])) j Hj). cbn beta in *. lia. }
      pose proof (filter_two (fun i => 0 < matching D (zs ++ [x]) (cfg ++ [i])) (seq 0 dx) i' i Hi' Hi Hne H1 H2). lia. }
    rewrite Sx. rewrite (nsum_single _ _ i) by (done || apply NoDup_seq). rewrite (My j). rewrite (nsum_single (seq 0 dx) _ i); [lia|apply NoDup_seq|done|].
    intros i' Hi' Hne. specialize (Z i' Hi' Hne). rewrite Mx in Z. by apply (nsum_zero_inv _ _ j) in Z.
  - assert (forall j', j' ∈ seq 0 dy -> j' <> j -> matching D (zs ++ [y]) (cfg ++ [j']) = 0) as Z.
    { intros j' Hj' Hne. destruct (decide (0 < matching D (zs ++ [y]) (cfg ++ [j']))) as [H1|H1]; [|lia]. exfalso.
      assert (0 < matching D (zs ++ [y]) (cfg ++ [j])) as H2. { rewrite My. pose proof (nsum_ge (seq 0 dx) (fun i => matching D (zs ++ [x; y]) (cfg ++ [i; j])) i Hi). cbn beta in *. lia. }
      pose proof (filter_two (fun j => 0 < matching D (zs ++ [y]) (cfg ++ [j])) (seq 0 dy) j' j Hj' Hj Hne H1 H2). lia. }
    rewrite Sy. rewrite (nsum_single _ _ j) by (done || apply NoDup_seq). rewrite (Mx i). rewrite (nsum_single (seq 0 dy) _ j); [lia|apply NoDup_seq|done|].
    intros j' Hj' Hne. specialize (Z j' Hj' Hne). rewrite My in Z. by apply (nsum_zero_inv _ _ i) in Z.
Qed.
(** Groups of at most eight tests decide as single tests when a zero statistic without degrees of freedom is accepted. *)
Lemma group_as_single D ds x y accept c zss : tabulated D ds -> x < length ds -> y < length ds -> 0 < c -> Forall (fun zs => length zs = c) zss -> 1 < length zss <= 8 ->
  Forall (Forall (fun v => v < length ds)) zss -> (forall ts, Forall balanced ts -> accept ts 0 = true) ->
  independence_result accept D ds x y (concat zss) (length zss) = Ok (group_result (decision accept D ds x y <$> zss)).
Proof.
  intros HD Hx Hy Hc Hu Hg Hk Ha. destruct (lookup_lt_is_Some_2 ds x Hx) as [dx Hdx], (lookup_lt_is_Some_2 ds y Hy) as [dy Hdy].
  rewrite (group_decision D ds HD x y dx dy Hdx Hdy accept c zss Hc Hu) by (done || lia). rewrite decide_True by lia. do 2 f_equal. apply list_fmap_ext. intros i zs _. unfold decision. destruct (decide _) as [E|]; [|done].
  rewrite E. apply Ha. by apply balanced_terms.
Qed.
