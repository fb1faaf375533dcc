(** Overflow, and learning with tests that do not overflow. *)
From Verif Require Import LimitModel LimitSpec LimitRefine ParProofs PCModel PCSpec CellProofs CellProofs2 CellProofs3 CellProofs4 CellTheorems PCProofs PCProofs3 PCProofs4 PCTheorems LimitProofs LimitTheorems Sums TableProofs.
Local Open Scope nat_scope.

Lemma imul_over M a b : M < a * b -> imul M a b = Err Overflow.
Proof. intros H. unfold imul. by rewrite bool_decide_false by lia. Qed.
Lemma imul3_over M a b c : M < a * b * c -> imul3 M a b c = Err Overflow.
Proof. intros H. unfold imul3. destruct (decide (a * b <= M)) as [H1|H1]; [rewrite imul_fits by done; by apply imul_over|by rewrite imul_over by lia]. Qed.

Section over.
Context (M : nat) (accept : list gterm -> nat -> bool) (D : columns) (ds : list nat) (HD : tabulated D ds).
Context (x y : nat) (Hx : x < length ds) (Hy : y < length ds).
Notation siz := (sizes_of ds).
Notation dx := (default 0 (ds !! x)).
Notation dy := (default 0 (ds !! y)).
Set Default Proof Using "All".
Lemma single_over zs g : Forall (fun v => v < length ds) zs -> g <= 1 -> M < table_cells ds x y zs -> independence_result_i M accept D ds x y zs g = Err Overflow.
Proof.
  intros Hz Hg. rewrite cells_split. intros Hc. unfold independence_result_i. case_bool_decide as H0.
  - subst zs. unfold gsquare_xy_i. rewrite !(dom_lookup D ds HD x y Hx Hy) by done. cbn [mbind outcome_bind]. unfold counts2d_i. rewrite imul_over; [done|]. cbn in Hc. by rewrite Nat.add_0_r in Hc.
  - rewrite bool_decide_false by lia. unfold gsquare_xyz_i. rewrite !(dom_lookup D ds HD x y Hx Hy) by done. cbn [mbind outcome_bind]. rewrite (collect_sizes D ds HD) by done. cbn [mbind outcome_bind]. unfold counts3d_i.
    destruct (shape_single_ok D ds HD zs Hz H0) as (cum & Hs & _). destruct (shape_single_unless M (siz zs)) as [-> | ->]; [|done]. rewrite Hs. cbn [mbind outcome_bind]. by rewrite imul3_over.
Qed.
Lemma group_over c zss : 0 < c -> Forall (fun zs => length zs = c) zss -> 1 < length zss -> Forall (Forall (fun v => v < length ds)) zss -> M < group_cells ds x y zss -> independence_result_i M accept D ds x y (concat zss) (length zss) = Err Overflow.
Proof.
  intros Hc Hu Hg Hk Ho. assert (zss <> []) as Hne by (intros ->; cbn in Hg; lia). unfold independence_result_i. rewrite bool_decide_false.
  2:{ intros E. apply (f_equal length) in E. rewrite (concat_uniform_length _ c Hu) in E. cbn in E. nia. }
  rewrite bool_decide_true by done. unfold gsquare_group_i. unfold idiv. rewrite bool_decide_false by lia. cbn [mbind outcome_bind]. rewrite !(dom_lookup D ds HD x y Hx Hy) by done. cbn [mbind outcome_bind]. rewrite (collect_sizes D ds HD) by (by apply Forall_concat). cbn [mbind outcome_bind].
  unfold counts3d_group_i, idiv. rewrite bool_decide_false by lia. cbn [mbind outcome_bind].
  assert (length (siz (concat zss)) / length zss = c) as ->. { rewrite (siz_concat D ds HD x y Hx Hy zss c Hc Hu Hne Hk), (concat_uniform_length _ c (siz_uniform D ds HD x y Hx Hy zss c Hc Hu Hne Hk)), fmap_length. apply Nat.div_mul. lia. }
  destruct (shape_group_ok D ds HD x y Hx Hy zss c Hc Hu Hne Hk) as (cums & Hs & _). destruct (shape_group_unless M (siz (concat zss)) c (length zss)) as [-> | ->]; [|done]. rewrite Hs. cbn [mbind outcome_bind].
  set (dz := (fun zs => prod_list (siz zs)) <$> zss) in *. assert (length dz = length zss) as Hdl by apply fmap_length. destruct (cum_dims_unless M dz (length zss)) as [-> | ->]; [|done]. rewrite cum_dims_ok by (done || lia). cbn [mbind outcome_bind].
  rewrite (vget_ok (row_start dz <$> seq 0 (length zss)) (length zss - 1) (row_start dz (length zss - 1))) by (rewrite list_lookup_fmap, lookup_seq_lt by lia; done). cbn [mbind outcome_bind].
  destruct (lookup_lt_is_Some_2 dz (length zss - 1)) as [d Hd]; [lia|]. rewrite (vget_ok _ _ _ Hd). cbn [mbind outcome_bind]. unfold iadd. case_bool_decide; [|done]. cbn [mbind outcome_bind]. rewrite <-(row_start_next _ _ _ Hd). replace (S (length zss - 1)) with (length zss) by lia.
  rewrite row_start_take by lia. rewrite take_ge by lia. rewrite imul3_over; [done|].
  assert (group_cells ds x y zss = nsum dz id * dx * dy) as <-; [|done]. unfold group_cells, dz. rewrite nsum_fmap. unfold id. rewrite <-Nat.mul_assoc, <-nsum_scale. apply nsum_ext. intros zs _. rewrite cells_split. change (foldr Nat.mul 1) with prod_list. by rewrite Nat.mul_assoc.
Qed.
End over.

(** ** Products over part of the variables *)
Lemma prod_submseteq (l k : list nat) f : l ⊆+ k -> (forall v, v ∈ k -> 0 < f v) -> foldr Nat.mul 1 (f <$> l) <= foldr Nat.mul 1 (f <$> k).
Proof.
  induction 1 as [|v l k Hs IH|v w l|v l k Hs IH|l1 l2 l3 H1 IH1 H2 IH2]; intros Hp; cbn.
  - lia.
  - apply Nat.mul_le_mono_l, IH. intros u Hu. apply Hp. by right.
  - rewrite !Nat.mul_assoc, (Nat.mul_comm (f v)). done.
  - etransitivity; [apply IH; intros u Hu; apply Hp; by right|]. specialize (Hp v ltac:(left)). fold (foldr Nat.mul 1 (f <$> k)). nia.
  - etransitivity; [apply IH1|apply IH2, Hp]. intros u Hu. apply Hp. by eapply elem_of_submseteq.
Qed.
Lemma cells_all ds x y zs : Forall (fun d => 0 < d) ds -> x < length ds -> y < length ds -> Forall (fun v => v < length ds) zs -> NoDup (x :: y :: zs) -> table_cells ds x y zs <= foldr Nat.mul 1 ds.
Proof.
  intros Hp Hx Hy Hz Hnd. unfold table_cells, sizes_of. assert (foldr Nat.mul 1 ds = foldr Nat.mul 1 ((fun v => default 0 (ds !! v)) <$> seq 0 (length ds))) as ->.
  { f_equal. apply list_eq. intros i. rewrite list_lookup_fmap. destruct (decide (i < length ds)) as [Hi|Hi]; [rewrite lookup_seq_lt by done; cbn; by destruct (lookup_lt_is_Some_2 ds i Hi) as [d ->]|]. rewrite lookup_seq_ge by lia. cbn. apply lookup_ge_None. lia. }
  apply prod_submseteq.
  - apply NoDup_submseteq; [by rewrite (comm app)|]. intros v Hv. apply elem_of_seq. rewrite elem_of_app, !elem_of_cons, elem_of_nil in Hv. rewrite Forall_forall in Hz. destruct Hv as [Hv%Hz|[-> |[-> |[]]]]; lia.
  - intros v Hv. apply elem_of_seq in Hv. destruct (lookup_lt_is_Some_2 ds v) as [d Hd]; [lia|]. rewrite Hd. cbn. rewrite Forall_lookup in Hp. by eapply Hp.
Qed.
Lemma decides_fewer tst ind n gmax g : decides_apart tst ind n gmax -> g <= gmax -> decides_apart tst ind n g.
Proof. intros [H1 H2] Hg. split; [done|]. intros x y c zss Hx Hy Hc Hz Hl. apply (H2 x y c zss); try done. lia. Qed.
Lemma decides_limited M accept D ds ind g : tabulated D ds -> Forall (fun d => 0 < d) ds -> co_rows D <= M -> 1 <= g -> g * foldr Nat.mul 1 ds <= M ->
  decides_apart (independence_result accept D ds) ind (length ds) g -> decides_apart (independence_result_i M accept D ds) ind (length ds) g.
Proof.
  intros HD Hp Hr Hg1 HM [H1 H2]. assert (foldr Nat.mul 1 ds <= M) as HM1 by nia. split.
  - intros x y Hx Hy Hne. rewrite single_fits; [by apply H1|done..|constructor|lia|]. etransitivity; [|exact HM1]. apply cells_all; try done. apply NoDup_cons. split; [by rewrite elem_of_list_singleton|]. apply NoDup_singleton.
  - intros x y c zss Hx Hy Hc Hz Hl. specialize (H2 x y c zss Hx Hy Hc Hz Hl). rewrite (group_fits M accept D ds HD Hp Hr x y Hx Hy c zss Hc); [done|..].
    + eapply Forall_impl; [exact Hz|]. naive_solver.
    + intros ->. cbn in Hl. lia.
    + eapply Forall_impl; [exact Hz|]. naive_solver.
    + etransitivity; [|exact HM]. transitivity (length zss * foldr Nat.mul 1 ds); [|apply Nat.mul_le_mono_r; lia]. clear H2 Hl. unfold group_cells. induction Hz as [|zs zss (_ & Hz1 & Hz2) _ IH]; [done|]. change (nsum (zs :: zss) ?f) with (f zs + nsum zss f). cbn [length Nat.mul]. apply Nat.add_le_mono; [by apply cells_all|done].
Qed.
Lemma learning_fits : forall M accept D ds g sch depth, tabulated D ds -> Forall (fun d => 0 < d) ds -> co_rows D <= M -> g * foldr Nat.mul 1 ds <= M ->
  1 <= g <= 8 -> g = 1 \/ (forall ts, Forall balanced ts -> accept ts 0 = true) -> valid_sched sch -> 1 <= depth ->
  exists F r, forall fuel, F <= fuel ->
    skeleton_search (independence_result accept D ds) (length ds) depth fuel g sch = Ok r /\ skeleton_search (independence_result_i M accept D ds) (length ds) depth fuel g sch = Ok r.
Proof.
  intros M accept D ds g sch depth HD Hp Hr HM Hg Ha Hs Hd. assert (decides_apart (independence_result accept D ds) (decision accept D ds) (length ds) g) as Hdec.
  { destruct Ha as [-> |Ha]; [by apply decides_weaken, gsquare_decides_alone|]. eapply decides_fewer; [by apply decides_weaken, gsquare_decides|lia]. }
  pose proof (decides_limited M accept D ds _ g HD Hp Hr ltac:(lia) HM Hdec) as Hdec'. destruct (skeleton_result_apart (length ds) depth (decision accept D ds) Hd) as (E & A & S & H & _).
  destruct (H _ g g sch Hdec ltac:(lia) Hs) as (F1 & es1 & E1 & _). destruct (H _ g g sch Hdec' ltac:(lia) Hs) as (F2 & es2 & E2 & _). exists (Nat.max F1 F2), (es1, A, S). intros fuel Hf. specialize (E1 fuel ltac:(lia)). specialize (E2 fuel ltac:(lia)). split; [done|].
  destruct (skeleton_search_unless _ _ (independence_unless M accept D ds) (length ds) depth fuel g sch) as [E3|E3]; congruence.
Qed.

(** ** Two variables whose table is too large *)
Lemma mfor_visits {I S} (Q : S -> Prop) (l : list I) (f : I -> S -> outcome S) : (forall i s s', i ∈ l -> Q s -> f i s = Ok s' -> Q s') -> forall s r, mfor l f s = Ok r -> Q s -> forall i, i ∈ l -> exists s s', Q s /\ f i s = Ok s'.
Proof.
  induction l as [|j l IH]; intros HQ s r; [intros _ _ i Hi; by apply elem_of_nil in Hi|]. cbn [mfor]. intros (s1 & E & E')%bind_ok Hs i Hi. apply elem_of_cons in Hi as [-> |Hi]; [eauto|].
  eapply IH; [|exact E'| |done]; [intros k a b Hk; apply HQ; by right|]. eapply HQ; [left|done|done].
Qed.
Lemma learning_over : forall M accept D ds x y dx dy g sch depth fuel, tabulated D ds -> ds !! x = Some dx -> ds !! y = Some dy -> x <> y -> M < dx * dy -> valid_sched sch ->
  skeleton_search (independence_result_i M accept D ds) (length ds) depth fuel g sch = Err Overflow.
Proof.
  intros M accept D ds x y dx dy g sch depth fuel HD Hx Hy Hne HM Hs.
  assert (exists a b, a < b /\ b < length ds /\ independence_result_i M accept D ds a b [] 1 = Err Overflow) as (a & b & Hab & Hb & Hov).
  { apply lookup_lt_Some in Hx as Lx. apply lookup_lt_Some in Hy as Ly. destruct (decide (x < y)); [exists x, y|exists y, x]; (split; [lia|split; [done|]]); (apply single_over; [done|done|done|constructor|lia|]); rewrite cells_split, Hx, Hy; cbn; lia. }
  set (n := length ds) in *. unfold skeleton_search. destruct (start_ok n) as (l & -> & Hcol & Hnd & Hin). cbn [mbind outcome_bind]. rewrite Hcol. cbn [mbind outcome_bind]. rewrite fmap_length.
  pose proof (canon_ok (decision accept D ds) n 0) as Hok. cbn [canon fst snd] in Hok. pose proof (decides_weaken _ _ _ _ (gsquare_decides_alone accept D ds HD)) as Hdec.
  destruct (level_zero_ok _ _ n 1 Hdec 1 ltac:(lia) (sch 0 0 (length (start_pairs n))) (start_pairs n) (∅ : sepmap) (Hs 0 0 _) Hok) as (es1 & H). destruct (level (decision accept D ds) n 0 (start_pairs n, ∅)) as [E1 S1]. destruct H as (Hz & _ & _).
  destruct (level_zero_unless _ _ (independence_unless M accept D ds) (sch 0 0 (length (start_pairs n))) (new_pedge <$> start_pairs n) ∅) as [E|E]; rewrite E; [|done]. exfalso. pose proof (eq_trans E Hz) as E2. clear E. rename E2 into E. unfold level_zero in E.
  assert ((a, b) ∈ start_pairs n) as Hp by (apply Hin; lia). apply elem_of_list_lookup in Hp as [i Hi].
  eapply (mfor_visits (fun st => pe_pair <$> fst st = start_pairs n)) in E as ([es sep] & s' & HQ & Ef); [| | |rewrite (Hs 0 0); apply elem_of_seq; split; [lia|]; apply lookup_lt_Some in Hi; exact Hi].
  - cbn [fst] in HQ. apply bind_ok in Ef as (e & He & Ef). apply vget_inv in He. rewrite <-HQ, list_lookup_fmap, He in Hi. cbn in Hi. injection Hi as Hi1 Hi2. rewrite Hi1, Hi2, Hov in Ef. done.
  - intros j [es sep] s' _ HQ Ef. cbn [fst] in *. apply bind_ok in Ef as (e & He & Ef). apply bind_ok in Ef as (r & _ & Ef). destruct (ci_indep r); [|by injection Ef as <-]. apply bind_ok in Ef as (es' & Hes & [= <-]). cbn [fst]. rewrite <-HQ. unfold vset in Hes. case_bool_decide; [|done]. injection Hes as <-. rewrite list_fmap_insert. apply list_insert_id. rewrite list_lookup_fmap. apply vget_inv in He. rewrite He. done.
  - cbn [fst]. rewrite <-list_fmap_compose. etransitivity; [|apply list_fmap_id]. apply list_fmap_ext. by intros ? [u v] _.
Qed.

(** ** Exactly when *)
Lemma single_exact : forall M accept D ds x y zs g, tabulated D ds -> Forall (fun d => 0 < d) ds -> co_rows D <= M -> x < length ds -> y < length ds -> Forall (fun v => v < length ds) zs -> g <= 1 ->
  independence_result_i M accept D ds x y zs g = if decide (table_cells ds x y zs <= M) then independence_result accept D ds x y zs g else Err Overflow.
Proof. intros. destruct (decide _); [by apply single_fits|apply single_over; try done; lia]. Qed.
Lemma group_exact : forall M accept D ds x y c zss, tabulated D ds -> Forall (fun d => 0 < d) ds -> co_rows D <= M -> x < length ds -> y < length ds ->
  0 < c -> 1 < length zss -> Forall (fun zs => length zs = c /\ Forall (fun v => v < length ds) zs) zss ->
  independence_result_i M accept D ds x y (concat zss) (length zss) = if decide (group_cells ds x y zss <= M) then independence_result accept D ds x y (concat zss) (length zss) else Err Overflow.
Proof.
  intros M accept D ds x y c zss HD Hp Hr Hx Hy Hc Hg Hz. assert (Forall (fun zs => length zs = c) zss) as Hu by (eapply Forall_impl; [exact Hz|]; naive_solver). assert (Forall (Forall (fun v => v < length ds)) zss) as Hk by (eapply Forall_impl; [exact Hz|]; naive_solver).
  destruct (decide _); [eapply group_fits; try done; intros ->; cbn in Hg; lia|eapply group_over; try done; lia].
Qed.
