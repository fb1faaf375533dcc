(** Collecting and distributing messages over the whole tree. *)
From Coq Require Import Field.
From Verif Require Import JTModel TableSpec TableProofs TableProofs2 TableProofs4 ParProofs SchedProofs PassProofs.
From Verif Require Import BeliefSpec BeliefProofs.
From Verif Require LevelProofs.
Local Open Scope Qc_scope.
Notation level_list := LevelProofs.level_list.
Notation hangs := LevelProofs.hangs.

(** The current table of a clique or separator, as a function of assignments. *)
Definition ctab (st : tabs) (i : nat) (a : asg) : Qc := match t_c st !! i with Some t => tval t a | None => 0 end.
Definition stab (st : tabs) (s : nat) (a : asg) : Qc := match t_s st !! s with Some t => tval t a | None => 0 end.

(** ** Levels *)
Definition dns (B : list link) : list nat := l_dn <$> B.
Definition clq_level (r : nat) (Lpre : list (list link)) : list nat := default [r] (last (dns <$> Lpre)).
Lemma clq_level_nil r : clq_level r [] = [r].
Proof. done. Qed.
Lemma clq_level_snoc r Lpre B : clq_level r (Lpre ++ [B]) = l_dn <$> B.
Proof. unfold clq_level. rewrite fmap_app. cbn. by rewrite last_snoc. Qed.
Lemma level_list_app Ls1 Ls2 : level_list (Ls1 ++ Ls2) = level_list Ls1 ++ level_list Ls2.
Proof. induction Ls1 as [|B Ls1 IH]; [done|]. cbn [LevelProofs.level_list app]. by rewrite IH. Qed.
Lemma level_list_length Ls : length (level_list Ls) = (2 * length Ls)%nat.
Proof. induction Ls as [|B Ls IH]; [done|]. cbn [LevelProofs.level_list length]. lia. Qed.
Lemma hangs_app vec Ls1 Ls2 : hangs vec (Ls1 ++ Ls2) -> hangs (default vec (last (dns <$> Ls1))) Ls2.
Proof.
  revert vec. induction Ls1 as [|B Ls1 IH]; intros vec H; [done|]. cbn [LevelProofs.hangs app] in H. destruct H as (_ & _ & H). apply IH in H.
  cbn [fmap list_fmap]. rewrite last_cons. by destruct (last (dns <$> Ls1)).
Qed.
Lemma clq_level_elem r Lpre c : c ∈ clq_level r Lpre -> c ∈ seen r (concat Lpre).
Proof.
  destruct Lpre as [|B Lpre _] using rev_ind; [rewrite clq_level_nil; intros ->%elem_of_list_singleton; left|].
  rewrite clq_level_snoc, concat_app. cbn [concat]. rewrite app_nil_r. intros Hc. unfold seen. rewrite fmap_app. right. apply elem_of_app. by right.
Qed.
Lemma hangs_parents vec Ls l : hangs vec Ls -> l ∈ concat Ls -> l_up l ∈ vec \/ l_up l ∈ l_dn <$> concat Ls.
Proof.
  revert vec. induction Ls as [|B Ls IH]; intros vec H Hl; [by apply elem_of_nil in Hl|]. cbn [LevelProofs.hangs concat] in *. destruct H as (_ & H1 & H2).
  apply elem_of_app in Hl as [Hl|Hl]; [left; by apply H1|]. right. rewrite fmap_app. apply elem_of_app. by apply (IH _ H2) in Hl.
Qed.

Lemma lookup_cons_S {A} (x : A) l i : (x :: l) !! S i = l !! i.
Proof. done. Qed.
Lemma mfor_or {I S} (e : err) (Q : Prop) (P : list I -> S -> Prop) (l : list I) body (s : S) :
  P [] s ->
  (forall done i rest s0, l = done ++ i :: rest -> P done s0 -> (exists s1, body i s0 = Ok s1 /\ P (done ++ [i]) s1) \/ (body i s0 = Err e /\ Q)) ->
  (exists s', mfor l body s = Ok s' /\ P l s') \/ (mfor l body s = Err e /\ Q).
Proof.
  intros H0 Hstep. assert (forall rest done s0, l = done ++ rest -> P done s0 -> (exists s', mfor rest body s0 = Ok s' /\ P l s') \/ (mfor rest body s0 = Err e /\ Q)) as H.
  { induction rest as [|i rest IH]; intros done s0 E HP; cbn [mfor].
    - left. exists s0. rewrite E, app_nil_r. done.
    - destruct (Hstep done i rest s0 E HP) as [(s1 & -> & HP')|(-> & HQ)]; [|right; done]. cbn [mbind outcome_bind]. apply (IH (done ++ [i])); [by rewrite <-app_assoc|done]. }
  by apply (H l []).
Qed.
Lemma mcollect_pure {I A} (l : list I) (f : I -> outcome A) g : (forall i, i ∈ l -> f i = Ok (g i)) -> mcollect l f = Ok (g <$> l).
Proof.
  induction l as [|i l IH]; intros H; [done|]. cbn [mcollect]. rewrite (H i) by left. cbn [mbind outcome_bind]. rewrite IH; [done|]. intros j Hj. apply H. by right.
Qed.
Lemma mcollect_has (g : nat -> nat) (k : nat) (level : list nat) :
  mcollect (filter (fun j => k < default 0 ((g <$> level) !! j))%nat (seq 0 (length level))) (vget level) = Ok (filter (fun c => k < g c)%nat level).
Proof.
  assert (forall post pre, level = pre ++ post -> mcollect (filter (fun j => k < default 0 ((g <$> level) !! j))%nat (seq (length pre) (length post))) (vget level) = Ok (filter (fun c => k < g c)%nat post)) as H.
  { induction post as [|c post IH]; intros pre E; [done|]. cbn [length seq]. assert (level !! length pre = Some c) as Hc by (rewrite E; by apply list_lookup_middle).
    specialize (IH (pre ++ [c])). rewrite app_length in IH. cbn [length] in IH. replace (length pre + 1)%nat with (S (length pre)) in IH by lia. rewrite <-app_assoc in IH. specialize (IH E).
    rewrite !filter_cons. rewrite list_lookup_fmap, Hc. cbn [fmap option_fmap option_map default from_option id]. destruct (decide (k < g c)%nat).
    - cbn [mcollect]. rewrite (vget_ok _ _ _ Hc). cbn [mbind outcome_bind]. rewrite IH. done.
    - exact IH. }
  by apply (H level []).
Qed.
Lemma foldl_max_le (l : list nat) x m : x ∈ l -> (x <= foldl Nat.max m l)%nat.
Proof.
  assert (forall (l : list nat) m, m <= foldl Nat.max m l)%nat as Hge. { clear. induction l as [|y l IH]; intros m; cbn; [lia|]. specialize (IH (Nat.max m y)). lia. }
  revert m. induction l as [|y l IH]; intros m Hx; [by apply elem_of_nil in Hx|]. cbn. apply elem_of_cons in Hx as [->|Hx]; [|by apply IH]. specialize (Hge l (Nat.max m y)). lia.
Qed.
Lemma ctab_at st i C a : t_c st !! i = Some C -> ctab st i a = tval C a.
Proof. intros H. unfold ctab. by rewrite H. Qed.
Lemma stab_at st s S a : t_s st !! s = Some S -> stab st s a = tval S a.
Proof. intros H. unfold stab. by rewrite H. Qed.
Lemma Qc_div_nonneg x y : 0 <= x -> 0 <= y -> 0 <= x / y.
Proof.
  intros Hx Hy. destruct (Qc_eq_dec y 0) as [->|Hy0].
  - replace (x / 0) with 0; [apply Qcle_refl|]. unfold Qcdiv. replace (/ 0) with 0 by (by apply Qc_is_canon). ring.
  - assert (0 < y) as Hy' by (apply Qcle_lt_or_eq in Hy as [?| <-]; done).
    unfold Qcdiv. apply Qcmult_lt_0_le_reg_r with y; [done|]. rewrite <-Qcmult_assoc, (Qcmult_comm (/ y)), Qcmult_inv_r by done. by rewrite Qcmult_0_l, Qcmult_1_r.
Qed.
Lemma Qc_mul_nz (x y : Qc) : x <> 0 -> y <> 0 -> x * y <> 0.
Proof. intros Hx Hy H. apply Qcmult_integral in H as [?|?]; done. Qed.
Lemma Qc_div_nz (x y : Qc) : x <> 0 -> y <> 0 -> x / y <> 0.
Proof. intros Hx Hy H. apply Hx. rewrite <-(Qcmult_div_r x y Hy), H. ring. Qed.
Section flow.
Context (dom : nat -> nat) (dom_pos : forall v, (0 < dom v)%nat).
Notation wf := (TableSpec.wf dom).
Notation valid := (valid dom).
Notation sumv := (sumv dom).
Context (T : jtree) (r : nat) (Ls : list (list link)).
Notation L := (concat Ls).

Record tree_ok : Prop := {
  to_levels : jt_levels T = [r] :: level_list Ls;
  to_hangs : hangs [r] Ls;
  to_nodup : NoDup (seen r L);
  to_seps : NoDup (l_sep <$> L);
  to_upc : forall l, l ∈ L -> up_c (jt_marks T) !! l_dn l = Some (Some (l_sep l));
  to_dns : forall l, l ∈ L -> dn_s (jt_marks T) !! l_sep l = Some [l_dn l];
  to_ups : forall l, l ∈ L -> up_s (jt_marks T) !! l_sep l = Some (Some (l_up l));
  to_dnc : forall c, c ∈ seen r L -> dn_c (jt_marks T) !! c = Some (l_sep <$> filter (fun l => l_up l = c) L) }.
Context (HT : tree_ok).
Context (sc ss : nat -> list nat) (J : asg -> Qc).
Context (Htail : forall l, l ∈ L -> exists ws, sc (l_dn l) = ws ++ ss (l_sep l)).
Context (Hups : forall l v, l ∈ L -> v ∈ ss (l_sep l) -> v ∈ sc (l_up l)).

Record good (st : tabs) : Prop := {
  gd_c : forall i, i ∈ seen r L -> exists C, t_c st !! i = Some C /\ wf C /\ pt_vars C = sc i;
  gd_s : forall l, l ∈ L -> exists S, t_s st !! l_sep l = Some S /\ wf S /\ pt_vars S = ss (l_sep l);
  gd_len : length (t_c st) = length (seen r L);
  gd_pos : forall i a, i ∈ seen r L -> valid a -> 0 <= ctab st i a /\ (J a <> 0 -> ctab st i a <> 0);
  gd_spos : forall l a, l ∈ L -> valid a -> 0 <= stab st (l_sep l) a /\ (J a <> 0 -> stab st (l_sep l) a <> 0) }.
Set Default Proof Using "All".

Lemma link_dn_inj l l' : l ∈ L -> l' ∈ L -> l_dn l = l_dn l' -> l = l'.
Proof.
  pose proof (to_nodup HT) as Hnd. unfold seen in Hnd. apply NoDup_cons in Hnd as [_ Hnd]. revert Hnd. generalize L. intros M Hnd. intros Hl Hl' He.
  apply elem_of_list_lookup in Hl as [i Hi], Hl' as [j Hj]. assert (i = j) as ->; [|congruence].
  eapply (NoDup_lookup _ i j _ Hnd); rewrite list_lookup_fmap; [by rewrite Hi|rewrite Hj; cbn; by f_equal].
Qed.
Lemma link_sep_inj l l' : l ∈ L -> l' ∈ L -> l_sep l = l_sep l' -> l = l'.
Proof.
  pose proof (to_seps HT) as Hnd. intros Hl Hl' He.
  apply elem_of_list_lookup in Hl as [i Hi], Hl' as [j Hj]. assert (i = j) as ->; [|congruence].
  eapply (NoDup_lookup _ i j _ Hnd); rewrite list_lookup_fmap; [by rewrite Hi|rewrite Hj; cbn; by f_equal].
Qed.
Definition by_sep (s : nat) : option link := head (filter (fun l => l_sep l = s) L).
Definition by_dn (c : nat) : option link := head (filter (fun l => l_dn l = c) L).
Lemma by_sep_spec l : l ∈ L -> by_sep (l_sep l) = Some l.
Proof.
  intros Hl. unfold by_sep. destruct (filter (fun l' => l_sep l' = l_sep l) L) as [|l' rest] eqn:E.
  - assert (l ∈ filter (fun l' => l_sep l' = l_sep l) L) as Hin by (by apply elem_of_list_filter). rewrite E in Hin. by apply elem_of_nil in Hin.
  - cbn. f_equal. assert (l' ∈ filter (fun l' => l_sep l' = l_sep l) L) as Hin by (rewrite E; left). apply elem_of_list_filter in Hin as [? ?]. by apply link_sep_inj.
Qed.
Lemma by_dn_spec l : l ∈ L -> by_dn (l_dn l) = Some l.
Proof.
  intros Hl. unfold by_dn. destruct (filter (fun l' => l_dn l' = l_dn l) L) as [|l' rest] eqn:E.
  - assert (l ∈ filter (fun l' => l_dn l' = l_dn l) L) as Hin by (by apply elem_of_list_filter). rewrite E in Hin. by apply elem_of_nil in Hin.
  - cbn. f_equal. assert (l' ∈ filter (fun l' => l_dn l' = l_dn l) L) as Hin by (rewrite E; left). apply elem_of_list_filter in Hin as [? ?]. by apply link_dn_inj.
Qed.
Lemma dn_seen l : l ∈ L -> l_dn l ∈ seen r L.
Proof. intros Hl. right. by apply elem_of_list_fmap_1. Qed.
Lemma up_seen l : l ∈ L -> l_up l ∈ seen r L.
Proof. intros Hl. destruct (hangs_parents [r] Ls l (to_hangs HT) Hl) as [->%elem_of_list_singleton|H]; [left|by right]. Qed.

Lemma level_sep Lpre B Lpost : Ls = Lpre ++ B :: Lpost -> jt_levels T !! (2 * length Lpre + 1)%nat = Some (l_sep <$> B).
Proof.
  intros E. rewrite (to_levels HT), E, level_list_app. replace (2 * length Lpre + 1)%nat with (S (2 * length Lpre)) by lia. rewrite lookup_cons_S.
  rewrite lookup_app_r by (rewrite level_list_length; lia). by rewrite level_list_length, Nat.sub_diag.
Qed.
Lemma level_dn Lpre B Lpost : Ls = Lpre ++ B :: Lpost -> jt_levels T !! (2 * length Lpre + 2)%nat = Some (l_dn <$> B).
Proof.
  intros E. rewrite (to_levels HT), E, level_list_app. replace (2 * length Lpre + 2)%nat with (S (2 * length Lpre + 1)) by lia. rewrite lookup_cons_S.
  rewrite lookup_app_r by (rewrite level_list_length; lia). rewrite level_list_length. by replace (2 * length Lpre + 1 - 2 * length Lpre)%nat with 1%nat by lia.
Qed.
Lemma level_clq Lpre Lpost : Ls = Lpre ++ Lpost -> jt_levels T !! (2 * length Lpre)%nat = Some (clq_level r Lpre).
Proof.
  destruct Lpre as [|B Lpre _] using rev_ind; intros E; [by rewrite (to_levels HT)|].
  rewrite clq_level_snoc. rewrite app_length. cbn [length]. replace (2 * (length Lpre + 1))%nat with (2 * length Lpre + 2)%nat by lia. apply (level_dn Lpre B Lpost). by rewrite E, <-app_assoc.
Qed.
Lemma in_block Lpre B Lpost l : Ls = Lpre ++ B :: Lpost -> l ∈ B -> l ∈ L.
Proof. intros E Hl. rewrite E, concat_app. cbn. apply elem_of_app. right. apply elem_of_app. by left. Qed.
Lemma block_seps Lpre B Lpost : Ls = Lpre ++ B :: Lpost -> NoDup (l_sep <$> B).
Proof. intros E. pose proof (to_seps HT) as H. rewrite E, concat_app in H. cbn [concat] in H. rewrite !fmap_app in H. apply NoDup_app in H as (_ & _ & H). by apply NoDup_app in H as (H & _ & _). Qed.
Lemma block_dns Lpre B Lpost : Ls = Lpre ++ B :: Lpost -> NoDup (l_dn <$> B).
Proof.
  intros E. pose proof (to_nodup HT) as H. unfold seen in H. apply NoDup_cons in H as [_ H]. rewrite E, concat_app in H. cbn [concat] in H. rewrite !fmap_app in H.
  apply NoDup_app in H as (_ & _ & H). by apply NoDup_app in H as (H & _ & _).
Qed.
(** Children of a clique level are all in the next block. *)
Lemma children_block Lpre B Lpost c : Ls = Lpre ++ B :: Lpost -> c ∈ clq_level r Lpre -> filter (fun l => l_up l = c) L = filter (fun l => l_up l = c) B.
Proof.
  intros E Hc. pose proof (to_nodup HT) as Hnd. pose proof (to_hangs HT) as Hh. rewrite E in Hh. rewrite E in Hnd |- *. rewrite concat_app in *. cbn [concat] in *. rewrite !filter_app.
  assert (filter (fun l => l_up l = c) (concat Lpost) = []) as ->.
  { destruct (filter (fun l => l_up l = c) (concat Lpost)) as [|l rest] eqn:E'; [done|exfalso].
    assert (l ∈ filter (fun l => l_up l = c) (concat Lpost)) as Hl by (rewrite E'; left). apply elem_of_list_filter in Hl as [Hup Hl].
    apply hangs_app in Hh. cbn [LevelProofs.hangs] in Hh. destruct Hh as (_ & _ & Hh). destruct (hangs_parents _ _ _ Hh Hl) as [H|H]; rewrite Hup in H;
      apply clq_level_elem in Hc; unfold seen in *; rewrite !fmap_app, app_comm_cons in Hnd; apply NoDup_app in Hnd as (_ & Hd & _); apply (Hd c Hc); apply elem_of_app; [by left|by right]. }
  assert (filter (fun l => l_up l = c) (concat Lpre) = []) as ->; [|by rewrite app_nil_r].
  destruct (filter (fun l => l_up l = c) (concat Lpre)) as [|l rest] eqn:E'; [done|exfalso].
  assert (l ∈ filter (fun l => l_up l = c) (concat Lpre)) as Hl by (rewrite E'; left). apply elem_of_list_filter in Hl as [Hup Hl].
  destruct Lpre as [|B' Lpre _] using rev_ind; [by apply elem_of_nil in Hl|]. rewrite clq_level_snoc in Hc. rewrite concat_app in *. cbn [concat] in *. rewrite app_nil_r in *.
  unfold seen in Hnd. rewrite !fmap_app in Hnd.
  assert (l_up l ∈ seen r (concat Lpre)) as Hs.
  { apply elem_of_app in Hl as [Hl|Hl].
    - assert (hangs [r] Lpre) as Hh'. { revert Hh. generalize [r]. clear. induction Lpre as [|B'' Lpre IH]; intros vec Hh; [done|]. cbn [LevelProofs.hangs app] in *. destruct Hh as (?&?&Hh). split_and!; try done. by apply IH. }
      destruct (hangs_parents _ _ _ Hh' Hl) as [->%elem_of_list_singleton|H]; [left|by right].
    - rewrite <-app_assoc in Hh. apply hangs_app in Hh. cbn [LevelProofs.hangs app] in Hh. destruct Hh as (_ & Hh & _). apply clq_level_elem. by apply Hh. }
  rewrite Hup in Hs. unfold seen in Hs. rewrite <-app_assoc, app_comm_cons in Hnd. apply NoDup_app in Hnd as (_ & Hd & _). apply (Hd c Hs). apply elem_of_app. by left.
Qed.

(** ** One level at a time *)
Definition fine (F : asg -> Qc) : Prop := forall a, valid a -> 0 <= F a /\ (J a <> 0 -> F a <> 0).
Lemma sep_new_fine C S S' : wf C -> fine (tval C) -> fine (tval S) -> sep_new dom C S S' -> fine (tval S').
Proof.
  intros HwC HC HS (_ & _ & Ht) a Ha. rewrite (Ht a Ha). destruct (HS a Ha) as [HS1 HS2]. case_bool_decide as Hz.
  - split; [apply Qcle_refl|]. intros HJ. by apply HS2 in HJ.
  - assert (0 <= sumv (filter (fun v => v ∉ pt_vars S) (pt_vars C)) (tval C) a) as Hnn by (apply sumv_nonneg; [done|intros b Hb; by apply HC]).
    split; [by apply Qc_div_nonneg|]. intros HJ. apply Qc_div_nz; [|done]. intros H0. destruct (HC a Ha) as [_ HC2]. apply (HC2 HJ).
    eapply (sumv_nonneg_zero dom); [exact Ha|intros b Hb; by apply HC|exact H0|apply tval_proper|apply NoDup_filter, HwC|done|done].
Qed.
Lemma mass_nonneg C S : fine (tval C) -> fine (tval S) -> 0 <= mass dom C S.
Proof. intros HC HS. apply sumv_nonneg; [apply (valid_zero dom dom_pos)|]. intros b Hb. apply Qc_le_mul_nonneg; [by apply HC|by apply HS]. Qed.
Lemma clq_new_fine C S C' : fine (tval C) -> fine (tval S) -> clq_new dom C S C' -> fine (tval C').
Proof.
  intros HC HS (_ & _ & Hz & Ht & _) a Ha. rewrite (Ht a Ha). destruct (HS a Ha) as [HS1 HS2], (HC a Ha) as [HC1 HC2]. split.
  - apply Qc_div_nonneg; [by apply Qc_le_mul_nonneg|by apply mass_nonneg].
  - intros HJ. apply Qc_div_nz; [|done]. apply Qc_mul_nz; auto.
Qed.
Lemma mass_zero C S : wf C -> wf S -> (forall v, v ∈ pt_vars S -> v ∈ pt_vars C) -> fine (tval C) -> fine (tval S) -> mass dom C S = 0 -> forall a, valid a -> J a = 0.
Proof.
  intros HwC HwS Hsub HC HS Hm a Ha. destruct (Qc_eq_dec (J a) 0) as [|HJ]; [done|exfalso].
  set (b := fun v => if bool_decide (v ∈ pt_vars C) then a v else 0%nat).
  assert (valid b) as Hb. { intros v. unfold b. case_bool_decide; [apply Ha|apply dom_pos]. }
  assert (forall D, wf D -> (forall v, v ∈ pt_vars D -> v ∈ pt_vars C) -> tval D b = tval D a) as Hba.
  { intros D HD Hs. apply (tval_dep D). intros v Hv. unfold b. rewrite bool_decide_true; [done|by apply Hs]. }
  assert (tval C b * tval S b = 0) as H0.
  { apply (sumv_nonneg_zero dom (pt_vars C) (fun a => tval C a * tval S a) zero_asg); [apply (valid_zero dom dom_pos)| |done| |apply HwC|done|].
    - intros c Hc. apply Qc_le_mul_nonneg; [by apply HC|by apply HS].
    - intros x y Hxy. f_equal; by apply tval_proper.
    - intros v Hv. unfold b, zero_asg. by rewrite bool_decide_false. }
  rewrite !Hba in H0 by done. apply Qcmult_integral in H0 as [H0|H0]; [by apply (HC a Ha) in HJ|by apply (HS a Ha) in HJ].
Qed.
Lemma good_fine_c st i C : good st -> i ∈ seen r L -> t_c st !! i = Some C -> fine (tval C).
Proof. intros Hg Hi HC a Ha. rewrite <-(ctab_at st i C a HC). by apply (gd_pos _ Hg). Qed.
Lemma good_fine_s st l S : good st -> l ∈ L -> t_s st !! l_sep l = Some S -> fine (tval S).
Proof. intros Hg Hi HC a Ha. rewrite <-(stab_at st _ S a HC). by apply (gd_spos _ Hg). Qed.

(** The new value of a separator when the clique at its other end says [f]. *)
Definition message (st : tabs) (l : link) (c : nat) (a : asg) : Qc :=
  if bool_decide (stab st (l_sep l) a = 0) then 0 else sumv (filter (fun v => v ∉ ss (l_sep l)) (sc c)) (ctab st c) a / stab st (l_sep l) a.
Definition sep_stepped (B : list link) (side : link -> nat) (st st' : tabs) : Prop :=
  good st' /\ (forall i a, ctab st' i a = ctab st i a) /\ (forall s a, s ∉ l_sep <$> B -> stab st' s a = stab st s a) /\
  forall l a, l ∈ B -> valid a -> stab st' (l_sep l) a = message st l (side l) a.
Lemma sep_step B (side : link -> nat) st st' :
  good st -> (forall l, l ∈ B -> l ∈ L /\ side l ∈ seen r L) ->
  t_c st' = t_c st -> (forall s, s ∉ l_sep <$> B -> t_s st' !! s = t_s st !! s) ->
  (forall l S C, l ∈ B -> t_s st !! l_sep l = Some S -> t_c st !! side l = Some C -> exists S', t_s st' !! l_sep l = Some S' /\ sep_new dom C S S') ->
  sep_stepped B side st st'.
Proof.
  intros Hg HB H1 H2 H3.
  assert (forall i a, ctab st' i a = ctab st i a) as Hc by (intros; unfold ctab; by rewrite H1).
  assert (forall l, l ∈ B -> exists S C S', t_s st !! l_sep l = Some S /\ pt_vars S = ss (l_sep l) /\ t_c st !! side l = Some C /\ wf C /\ pt_vars C = sc (side l) /\ t_s st' !! l_sep l = Some S' /\ sep_new dom C S S') as Hnew.
  { intros l Hl. destruct (HB l Hl) as [HlL Hside]. destruct (gd_s _ Hg l HlL) as (S & HS & HwS & HvS). destruct (gd_c _ Hg _ Hside) as (C & HC & HwC & HvC).
    destruct (H3 l S C Hl HS HC) as (S' & HS' & Hsn). exists S, C, S'. done. }
  split_and!; [|done|intros s a Hs; unfold stab; by rewrite H2|].
  - split.
    + intros i Hi. rewrite H1. by apply Hg.
    + intros l Hl. destruct (decide (l_sep l ∈ l_sep <$> B)) as [Hin|Hin]; [|rewrite H2 by done; by apply Hg].
      apply elem_of_list_fmap in Hin as (l' & He & Hl'). destruct (HB l' Hl') as [HlL _]. assert (l' = l) as -> by (apply link_sep_inj; done).
      destruct (Hnew l Hl') as (S & C & S' & _ & HvS & _ & _ & _ & HS' & Hw & Hv & _). exists S'. split_and!; [done|done|congruence].
    + rewrite H1. apply Hg.
    + intros i a Hi Ha. rewrite Hc. by apply Hg.
    + intros l a Hl Ha. destruct (decide (l_sep l ∈ l_sep <$> B)) as [Hin|Hin]; [|unfold stab; rewrite H2 by done; by apply Hg].
      apply elem_of_list_fmap in Hin as (l' & He & Hl'). destruct (HB l' Hl') as [HlL Hside]. assert (l' = l) as -> by (apply link_sep_inj; done).
      destruct (Hnew l Hl') as (S & C & S' & HS & HvS & HC & HwC & _ & HS' & Hn). rewrite (stab_at _ _ _ _ HS').
      eapply sep_new_fine; [exact HwC|by eapply good_fine_c|by eapply good_fine_s|done|done].
  - intros l a Hl Ha. destruct (Hnew l Hl) as (S & C & S' & HS & HvS & HC & HwC & HvC & HS' & _ & _ & Ht). rewrite (stab_at _ _ _ _ HS'), (Ht a Ha).
    unfold message. rewrite (stab_at _ _ _ _ HS), <-HvS, <-HvC. assert (forall b, valid b -> tval C b = ctab st (side l) b) as Heq by (intros b _; by rewrite (ctab_at _ _ _ _ HC)).
    case_bool_decide; [done|]. f_equal. apply sumv_ext; [done|]. intros b Hb _. by apply Heq.
Qed.
Lemma sep_collect sch tag Lpre B Lpost st : valid_scheduler sch -> Ls = Lpre ++ B :: Lpost -> good st ->
  exists st', separator_level_collection sch tag T (2 * length Lpre + 1) st = Ok st' /\ sep_stepped B l_dn st st'.
Proof.
  intros Hsch E Hg. destruct (sep_collection_spec dom dom_pos sch tag T (2 * length Lpre + 1) (l_sep <$> B) st (fun s => default 0%nat (l_dn <$> by_sep s))) as (st' & H0 & H1 & _ & H2 & H3).
  - done.
  - by apply (level_sep Lpre B Lpost).
  - by apply (block_seps Lpre B Lpost).
  - intros s Hs. apply elem_of_list_fmap in Hs as (l & -> & Hl). pose proof (in_block _ _ _ _ E Hl) as HlL. rewrite by_sep_spec by done. cbn.
    destruct (gd_s _ Hg l HlL) as (S & HS & HwS & HvS). destruct (gd_c _ Hg _ (dn_seen l HlL)) as (C & HC & HwC & HvC). destruct (Htail l HlL) as [ws Hws].
    exists S, C, ws. split_and!; try done; [by apply (to_dns HT)|congruence].
  - exists st'. split; [done|]. apply sep_step; try done.
    + intros l Hl. pose proof (in_block _ _ _ _ E Hl) as HlL. split; [done|]. by apply dn_seen.
    + intros l S C Hl HS HC. pose proof (in_block _ _ _ _ E Hl) as HlL. apply H3; [by apply elem_of_list_fmap_1|done|]. rewrite by_sep_spec by done. done.
Qed.
Lemma sep_distribute sch tag Lpre B Lpost st : valid_scheduler sch -> Ls = Lpre ++ B :: Lpost -> good st ->
  exists st', separator_level_distribution sch tag T (2 * length Lpre + 1) st = Ok st' /\ sep_stepped B l_up st st'.
Proof.
  intros Hsch E Hg. destruct (sep_distribution_spec dom dom_pos sch tag T (2 * length Lpre + 1) (l_sep <$> B) st (fun s => default 0%nat (l_up <$> by_sep s))) as (st' & H0 & H1 & _ & H2 & H3).
  - done.
  - by apply (level_sep Lpre B Lpost).
  - by apply (block_seps Lpre B Lpost).
  - intros s Hs. apply elem_of_list_fmap in Hs as (l & -> & Hl). pose proof (in_block _ _ _ _ E Hl) as HlL. rewrite by_sep_spec by done. cbn.
    destruct (gd_s _ Hg l HlL) as (S & HS & HwS & HvS). destruct (gd_c _ Hg _ (up_seen l HlL)) as (C & HC & HwC & HvC).
    exists S, C. split_and!; try done; [by apply (to_ups HT)|]. rewrite HvS, HvC. intros v. by apply Hups.
  - exists st'. split; [done|]. apply sep_step; try done.
    + intros l Hl. pose proof (in_block _ _ _ _ E Hl) as HlL. split; [done|]. by apply up_seen.
    + intros l S C Hl HS HC. pose proof (in_block _ _ _ _ E Hl) as HlL. apply H3; [by apply elem_of_list_fmap_1|done|]. rewrite by_sep_spec by done. done.
Qed.

Definition total (st : tabs) (i : nat) : Prop := forall a, valid a -> sumv (sc i) (ctab st i) a = 1.
Definition clq_stepped (vec : list nat) (lk : nat -> link) (st st' : tabs) : Prop :=
  good st' /\ (forall s a, stab st' s a = stab st s a) /\ (forall i a, i ∉ vec -> ctab st' i a = ctab st i a) /\
  (forall i, i ∈ vec -> total st' i) /\
  forall i, i ∈ vec -> propto dom (ctab st' i) (fun a => ctab st i a * stab st (l_sep (lk i)) a).
Lemma clq_step vec (lk : nat -> link) st st' :
  good st -> (forall i, i ∈ vec -> i ∈ seen r L /\ lk i ∈ L) ->
  t_s st' = t_s st -> length (t_c st') = length (t_c st) -> (forall i, i ∉ vec -> t_c st' !! i = t_c st !! i) ->
  (forall i S C, i ∈ vec -> t_s st !! l_sep (lk i) = Some S -> t_c st !! i = Some C -> exists C', t_c st' !! i = Some C' /\ clq_new dom C S C') ->
  clq_stepped vec lk st st'.
Proof.
  intros Hg HB H1 Hlen H2 H3.
  assert (forall i a, stab st' i a = stab st i a) as Hc by (intros; unfold stab; by rewrite H1).
  assert (forall i, i ∈ vec -> exists S C C', t_s st !! l_sep (lk i) = Some S /\ t_c st !! i = Some C /\ pt_vars C = sc i /\ t_c st' !! i = Some C' /\ clq_new dom C S C') as Hnew.
  { intros i Hi. destruct (HB i Hi) as [Hs HlL]. destruct (gd_s _ Hg _ HlL) as (S & HS & HwS & HvS). destruct (gd_c _ Hg _ Hs) as (C & HC & HwC & HvC).
    destruct (H3 i S C Hi HS HC) as (C' & HC' & Hsn). exists S, C, C'. done. }
  split_and!; [|done|intros s a Hs; unfold ctab; by rewrite H2| |].
  - split.
    + intros i Hi. destruct (decide (i ∈ vec)) as [Hin|Hin]; [|rewrite H2 by done; by apply Hg].
      destruct (Hnew i Hin) as (S & C & C' & HS & HC & HvC & HC' & Hw & Hv & _). exists C'. split_and!; [done|done|congruence].
    + intros l Hl. rewrite H1. by apply Hg.
    + rewrite Hlen. apply Hg.
    + intros i a Hi Ha. destruct (decide (i ∈ vec)) as [Hin|Hin]; [|unfold ctab; rewrite H2 by done; by apply Hg].
      destruct (Hnew i Hin) as (S & C & C' & HS & HC & HvC & HC' & Hn). rewrite (ctab_at _ _ _ _ HC'). destruct (HB i Hin) as [_ HlL].
      eapply clq_new_fine; [by eapply good_fine_c|by eapply good_fine_s|done|done].
    + intros l a Hl Ha. rewrite Hc. by apply Hg.
  - intros i Hin a Ha. destruct (Hnew i Hin) as (S & C & C' & HS & HC & HvC & HC' & _ & Hv & _ & _ & Hs). rewrite <-HvC, <-(Hs a Ha).
    apply sumv_ext; [done|]. intros b _ _. by apply ctab_at.
  - intros i Hin. destruct (Hnew i Hin) as (S & C & C' & HS & HC & HvC & HC' & _ & Hv & Hz & Ht & _). exists (/ mass dom C S). split.
    + intros H0. pose proof (Qcmult_inv_r _ Hz) as H4. rewrite H0 in H4. by rewrite Qcmult_0_r in H4.
    + intros a Ha. rewrite (ctab_at _ _ _ _ HC'), (ctab_at _ _ _ _ HC), (stab_at _ _ _ _ HS), (Ht a Ha). unfold Qcdiv. ring.
Qed.
Definition dead : Prop := forall a, valid a -> J a = 0.
Lemma clq_dead st i l S C : good st -> i ∈ seen r L -> l ∈ L -> (forall v, v ∈ ss (l_sep l) -> v ∈ sc i) -> t_s st !! l_sep l = Some S -> t_c st !! i = Some C -> mass dom C S = 0 -> dead.
Proof.
  intros Hg Hi Hl Hsub HS HC Hm. destruct (gd_s _ Hg l Hl) as (S' & HS' & HwS & HvS). destruct (gd_c _ Hg i Hi) as (C' & HC' & HwC & HvC). assert (S' = S) as -> by congruence. assert (C' = C) as -> by congruence.
  intros a Ha. eapply (mass_zero C S); try done; [by rewrite HvS, HvC|by eapply good_fine_c|by eapply good_fine_s].
Qed.
Lemma clq_distribute sch tag Lpre B Lpost st : valid_scheduler sch -> Ls = Lpre ++ B :: Lpost -> good st ->
  (exists st', clique_level_distribution sch tag T (2 * length Lpre + 2) st = Ok st' /\ clq_stepped (l_dn <$> B) (fun c => default (mkLink 0 0 0) (by_dn c)) st st') \/
  (clique_level_distribution sch tag T (2 * length Lpre + 2) st = Err DivZero /\ dead).
Proof.
  intros Hsch E Hg. destruct (clique_distribution_spec dom dom_pos sch tag T (2 * length Lpre + 2) (l_dn <$> B) st (fun c => l_sep (default (mkLink 0 0 0) (by_dn c)))) as [(st' & H0 & H1 & Hlen & H2 & H3)|(H0 & c & S & C & Hc & HS & HC & Hm)].
  - done.
  - by apply (level_dn Lpre B Lpost).
  - by apply (block_dns Lpre B Lpost).
  - intros s Hs. apply elem_of_list_fmap in Hs as (l & -> & Hl). pose proof (in_block _ _ _ _ E Hl) as HlL. rewrite by_dn_spec by done. cbn.
    destruct (gd_s _ Hg l HlL) as (S & HS & HwS & HvS). destruct (gd_c _ Hg _ (dn_seen l HlL)) as (C & HC & HwC & HvC). destruct (Htail l HlL) as [ws Hws].
    exists S, C, ws. split_and!; try done; [by apply (to_upc HT)|congruence].
  - left. exists st'. split; [done|]. apply clq_step; try done.
    intros c Hc. apply elem_of_list_fmap in Hc as (l & -> & Hl). pose proof (in_block _ _ _ _ E Hl) as HlL. rewrite by_dn_spec by done. split; [by apply dn_seen|done].
  - right. split; [done|]. apply elem_of_list_fmap in Hc as (l & -> & Hl). pose proof (in_block _ _ _ _ E Hl) as HlL. rewrite by_dn_spec in HS by done. cbn in HS.
    eapply (clq_dead st (l_dn l) l S C); try done; [by apply dn_seen|]. intros v Hv. destruct (Htail l HlL) as [ws ->]. apply elem_of_app. by right.
Qed.
(** The k-th child of every clique in a level. *)
Definition kth_link (kth c : nat) : option link := filter (fun l => l_up l = c) L !! kth.
Definition with_kth (kth : nat) (level : list nat) : list nat := filter (fun c => kth < length (filter (fun l => l_up l = c) L))%nat level.
Lemma clq_collect sch tag Lpre B Lpost has kth st : valid_scheduler sch -> Ls = Lpre ++ B :: Lpost -> good st ->
  mcollect has (vget (clq_level r Lpre)) = Ok (with_kth kth (clq_level r Lpre)) ->
  (exists st', clique_level_collection sch tag T (2 * length Lpre) has kth st = Ok st' /\ clq_stepped (with_kth kth (clq_level r Lpre)) (fun c => default (mkLink 0 0 0) (kth_link kth c)) st st') \/
  (clique_level_collection sch tag T (2 * length Lpre) has kth st = Err DivZero /\ dead).
Proof.
  intros Hsch E Hg Hhas.
  assert (forall c, c ∈ clq_level r Lpre -> c ∈ seen r L) as Hseen.
  { intros c Hc%clq_level_elem. rewrite E, concat_app. unfold seen in *. rewrite fmap_app, app_comm_cons. apply elem_of_app. by left. }
  assert (forall c, c ∈ with_kth kth (clq_level r Lpre) -> c ∈ seen r L /\ exists l, l ∈ L /\ l_up l = c /\ kth_link kth c = Some l) as Hlk.
  { intros c Hc. apply elem_of_list_filter in Hc as [Hk Hc]. split; [by apply Hseen|]. destruct (lookup_lt_is_Some_2 _ _ Hk) as [l Hl]. exists l.
    assert (l ∈ filter (fun l => l_up l = c) L) as Hin by (by eapply elem_of_list_lookup_2). apply elem_of_list_filter in Hin as [Hu Hin]. done. }
  destruct (clique_collection_spec dom dom_pos sch tag T (2 * length Lpre) (clq_level r Lpre) has kth st (with_kth kth (clq_level r Lpre)) (fun c => l_sep (default (mkLink 0 0 0) (kth_link kth c)))) as [(st' & H0 & H1 & Hlen & H2 & H3)|(H0 & c & S & C & Hc & HS & HC & Hm)].
  - done.
  - by apply (level_clq Lpre (B :: Lpost)).
  - done.
  - apply NoDup_filter. destruct Lpre as [|B' Lpre _] using rev_ind; [apply NoDup_singleton|]. rewrite clq_level_snoc. apply (block_dns Lpre B' (B :: Lpost)). by rewrite E, <-app_assoc.
  - intros c Hc. destruct (Hlk c Hc) as (Hs & l & HlL & Hu & Hl). rewrite Hl. cbn [default].
    destruct (gd_s _ Hg l HlL) as (S & HS & HwS & HvS). destruct (gd_c _ Hg _ Hs) as (C & HC & HwC & HvC).
    exists S, C, (l_sep <$> filter (fun l => l_up l = c) L). split_and!; try done; [by apply (to_dnc HT)| |].
    + rewrite list_lookup_fmap. unfold kth_link in Hl. by rewrite Hl.
    + rewrite HvS, HvC. intros v Hv. rewrite <-Hu. by apply Hups.
  - left. exists st'. split; [done|]. apply clq_step; try done.
    intros c Hc. destruct (Hlk c Hc) as (Hs & l & HlL & Hu & Hl). rewrite Hl. done.
  - right. split; [done|]. destruct (Hlk c Hc) as (Hs & l & HlL & Hu & Hl). rewrite Hl in HS. cbn in HS.
    eapply (clq_dead st c l S C); try done. intros v Hv. rewrite <-Hu. by apply Hups.
Qed.

(** ** Collecting *)
(** The clique below [l] is zero wherever its separator has the values of [a]. *)
Definition blank (st : tabs) (l : link) (a : asg) : Prop :=
  forall b, valid b -> (forall v, v ∈ ss (l_sep l) -> b v = a v) -> ctab st (l_dn l) b = 0.
Context (st0 : tabs).
Record collected (Lpost : list (list link)) (st : tabs) : Prop := {
  cl_good : good st;
  cl_total : forall i, i ∈ seen r L -> total st i;
  cl_msg : forall l a, l ∈ concat Lpost -> valid a -> stab st (l_sep l) a = sumv (filter (fun v => v ∉ ss (l_sep l)) (sc (l_dn l))) (ctab st (l_dn l)) a;
  cl_one : forall l a, l ∈ L -> l ∉ concat Lpost -> valid a -> stab st (l_sep l) a = 1 \/ (stab st (l_sep l) a = 0 /\ blank st0 l a);
  cl_prop : forall i, i ∈ seen r L -> propto dom (ctab st i) (fun a => ctab st0 i a * qprod (filter (fun l => l_up l = i) (concat Lpost)) (fun l => stab st (l_sep l) a)) }.
Lemma NoDup_L : NoDup L.
Proof. eapply NoDup_fmap_1, (to_seps HT). Qed.
Lemma block_fresh Lpre B Lpost l : Ls = Lpre ++ B :: Lpost -> l ∈ B -> l ∉ concat Lpost.
Proof.
  intros E Hl Hin. pose proof NoDup_L as Hnd. rewrite E, concat_app in Hnd. cbn [concat] in Hnd. apply NoDup_app in Hnd as (_ & _ & Hnd). apply NoDup_app in Hnd as (_ & Hd & _). by apply (Hd l).
Qed.
Lemma later_dn Lpre B Lpost l : Ls = Lpre ++ B :: Lpost -> l ∈ B ++ concat Lpost -> l_dn l ∉ clq_level r Lpre.
Proof.
  intros E Hl Hin. pose proof (to_nodup HT) as Hnd. rewrite E, concat_app in Hnd. cbn [concat] in Hnd. unfold seen in Hnd. rewrite fmap_app, app_comm_cons in Hnd.
  apply NoDup_app in Hnd as (_ & Hd & _). apply (Hd (l_dn l)); [by apply clq_level_elem|by apply elem_of_list_fmap_1].
Qed.
Lemma block_up Lpre B Lpost l : Ls = Lpre ++ B :: Lpost -> l ∈ B -> l_up l ∈ clq_level r Lpre.
Proof. intros E Hl. pose proof (to_hangs HT) as Hh. rewrite E in Hh. apply hangs_app in Hh. cbn [LevelProofs.hangs] in Hh. destruct Hh as (_ & Hh & _). by apply Hh. Qed.
Lemma clq_level_seen Lpre Lpost c : Ls = Lpre ++ Lpost -> c ∈ clq_level r Lpre -> c ∈ seen r L.
Proof. intros E Hc%clq_level_elem. rewrite E, concat_app. unfold seen in *. rewrite fmap_app, app_comm_cons. apply elem_of_app. by left. Qed.

Lemma collect_clq_level sch tag Lpre B Lpost st : valid_scheduler sch -> Ls = Lpre ++ B :: Lpost -> good st ->
  (exists st', collect_level sch tag T (2 * length Lpre) st = Ok st' /\ good st' /\ (forall s a, stab st' s a = stab st s a) /\ (forall i a, i ∉ clq_level r Lpre -> ctab st' i a = ctab st i a) /\
     (forall i, i ∈ seen r L -> total st i -> total st' i) /\
     forall i, i ∈ clq_level r Lpre -> propto dom (ctab st' i) (fun a => ctab st i a * qprod (filter (fun l => l_up l = i) L) (fun l => stab st (l_sep l) a))) \/
  (collect_level sch tag T (2 * length Lpre) st = Err DivZero /\ dead).
Proof.
  intros Hsch E Hg. unfold collect_level. rewrite Nat.odd_mul. cbn [Nat.odd Nat.even negb andb].
  rewrite (vget_ok _ _ _ (level_clq Lpre (B :: Lpost) E)). cbn [mbind outcome_bind].
  rewrite (mcollect_pure _ _ (fun c => length (filter (fun l => l_up l = c) L))).
  2: { intros c Hc. rewrite (vget_ok _ _ _ (to_dnc HT c (clq_level_seen _ _ _ E Hc))). cbn [mbind outcome_bind]. by rewrite fmap_length. }
  cbn [mbind outcome_bind]. set (level := clq_level r Lpre) in *.
  match goal with |- context [mfor (seq 0 ?m) _ _] => set (mx := m) end.
  assert (forall c, c ∈ level -> length (filter (fun l => l_up l = c) L) <= mx)%nat as Hmx.
  { intros c Hc. unfold mx. apply foldl_max_le. apply elem_of_list_fmap. exists c. done. }
  destruct (mfor_or DivZero dead (fun (done : list nat) st' => good st' /\ (forall s a, stab st' s a = stab st s a) /\ (forall i a, i ∉ level -> ctab st' i a = ctab st i a) /\
     (forall i, i ∈ seen r L -> total st i -> total st' i) /\
     forall i, i ∈ level -> propto dom (ctab st' i) (fun a => ctab st i a * qprod (take (length done) (filter (fun l => l_up l = i) L)) (fun l => stab st (l_sep l) a)))
    (seq 0 mx) (fun k st => clique_level_collection sch (tag ++ [(2 * length Lpre)%nat; k]) T (2 * length Lpre)
        (filter (fun j => k < default 0 (((fun c => length (filter (fun l => l_up l = c) L)) <$> level) !! j))%nat (seq 0 (length level))) k st) st)
    as [(st' & H0 & H1 & H2 & H3 & H4 & H5)|(H0 & Hd)].
  - split; [done|]. split; [done|]. split; [done|]. split; [done|]. intros i Hi. apply propto_eq. intros a Ha. cbn [length]. rewrite take_0, qprod_nil. ring.
  - intros done k rest s0 Es (I1 & I2 & I3 & I4 & I5).
    assert (length done = k) as Hk.
    { assert (seq 0 mx !! length done = Some k) as Hk by (rewrite Es; by apply list_lookup_middle). apply lookup_seq in Hk as [-> _]. lia. }
    destruct (clq_collect sch (tag ++ [(2 * length Lpre)%nat; k]) Lpre B Lpost (filter (fun j => k < default 0 (((fun c => length (filter (fun l => l_up l = c) L)) <$> level) !! j))%nat (seq 0 (length level))) k s0)
       as [(s1 & Hs1 & J1 & J2 & J3 & J4 & J5)|(Hs1 & Hd)]; [done|done|done|by apply mcollect_has| |right; done].
    left. exists s1. split; [done|]. split; [done|]. split; [intros s a; by rewrite J2|]. fold level in J3, J4, J5.
    assert (forall i, i ∈ with_kth k level -> i ∈ level) as Hsub by (intros i Hi; by apply elem_of_list_filter in Hi as [_ ?]).
    split; [intros i a Hi; rewrite J3; [by apply I3|]; intros Hi'; by apply Hi, Hsub|]. split.
    + intros i Hi Ht. destruct (decide (i ∈ with_kth k level)) as [Hw|Hw]; [by apply J4|]. intros a Ha. rewrite <-(I4 i Hi Ht a Ha). apply sumv_ext; [done|]. intros b _ _. by apply J3.
    + intros i Hi. rewrite app_length. cbn [length]. rewrite Hk in *. destruct (decide (i ∈ with_kth k level)) as [Hw|Hw].
      * eapply propto_trans; [apply (J5 i Hw)|]. apply elem_of_list_filter in Hw as [Hlt _]. destruct (lookup_lt_is_Some_2 _ _ Hlt) as [l Hl].
        assert (kth_link k i = Some l) as -> by done. cbn [default from_option].
        replace (k + 1)%nat with (S k) by lia. rewrite (take_S_r _ _ _ Hl).
        eapply propto_trans; [apply propto_mul; [apply (I5 i Hi)|apply propto_refl]|]. apply propto_eq. intros a _. rewrite qprod_app, qprod_cons, qprod_nil, I2.
        cbn [default from_option id]. ring.
      * assert (length (filter (fun l => l_up l = i) L) <= k)%nat as Hge. { destruct (decide (k < length (filter (fun l => l_up l = i) L))%nat) as [Hlt|]; [|lia]. exfalso. apply Hw. by apply elem_of_list_filter. }
        rewrite take_ge by lia. specialize (I5 i Hi). rewrite take_ge in I5 by lia. eapply propto_trans; [|exact I5]. apply propto_eq. intros a _. by apply J3.
  - left. exists st'. split; [exact H0|]. split_and!; try done. intros i Hi. specialize (H5 i Hi). rewrite seq_length, take_ge in H5 by (by apply Hmx). done.
  - right. split; [exact H0|done].
Qed.
Lemma collect_step sch tag Lpre B Lpost st : valid_scheduler sch -> Ls = Lpre ++ B :: Lpost -> collected Lpost st ->
  (exists st', mfor [(2 * length Lpre + 1)%nat; (2 * length Lpre)%nat] (collect_level sch tag T) st = Ok st' /\ collected (B :: Lpost) st') \/
  (mfor [(2 * length Lpre + 1)%nat; (2 * length Lpre)%nat] (collect_level sch tag T) st = Err DivZero /\ dead).
Proof.
  intros Hsch E Hc. cbn [mfor]. assert (Nat.odd (2 * length Lpre + 1) = true) as Hodd by (rewrite Nat.add_1_r, Nat.odd_succ, Nat.even_mul; done).
  assert (collect_level sch tag T (2 * length Lpre + 1) st = separator_level_collection sch (tag ++ [(2 * length Lpre + 1)%nat]) T (2 * length Lpre + 1) st) as -> by (unfold collect_level; by rewrite Hodd).
  destruct (sep_collect sch (tag ++ [(2 * length Lpre + 1)%nat]) Lpre B Lpost st Hsch E (cl_good _ _ Hc)) as (st1 & -> & G1 & S1 & S2 & S3). cbn [mbind outcome_bind].
  destruct (collect_clq_level sch tag Lpre B Lpost st1 Hsch E G1) as [(st2 & -> & G2 & R1 & R2 & R3 & R4)|(-> & Hd)]; [left|right; done].
  cbn [mbind outcome_bind]. exists st2. split; [done|].
  assert (forall l a, l ∈ B -> valid a -> stab st1 (l_sep l) a = sumv (filter (fun v => v ∉ ss (l_sep l)) (sc (l_dn l))) (ctab st (l_dn l)) a) as HB.
  { intros l a Hl Ha. rewrite (S3 l a Hl Ha). unfold message. destruct (cl_one _ _ Hc l a) as [->|[-> Hbl]]; [by eapply in_block|by eapply block_fresh|done| |].
    - rewrite bool_decide_false by done. unfold Qcdiv. replace (/ 1) with 1 by (by apply Qc_is_canon). ring.
    - rewrite bool_decide_true by done. symmetry. rewrite (sumv_ext dom _ (ctab st (l_dn l)) (fun _ => 0 * 0)); [by rewrite sumv_scal, Qcmult_0_l|done|]. intros b Hb Hab.
      destruct (cl_prop _ _ Hc (l_dn l)) as (k & _ & Hk); [by eapply dn_seen, in_block|]. rewrite (Hk b Hb), (Hbl b Hb); [ring|]. intros v Hv. apply Hab. rewrite elem_of_list_filter. by intros [? _]. }
  assert (forall l a, l ∈ concat Lpost -> stab st1 (l_sep l) a = stab st (l_sep l) a) as HP.
  { intros l a Hl. apply S2. intros Hin. apply elem_of_list_fmap in Hin as (l' & He & Hl'). assert (l' = l) as ->; [|by eapply block_fresh].
    apply link_sep_inj; [by eapply in_block| |done]. rewrite E, concat_app. cbn. rewrite !elem_of_app. by right; right. }
  assert (forall l a, l ∈ concat (B :: Lpost) -> valid a -> stab st2 (l_sep l) a = sumv (filter (fun v => v ∉ ss (l_sep l)) (sc (l_dn l))) (ctab st2 (l_dn l)) a) as Hmsg.
  { intros l a Hl Ha. cbn [concat] in Hl. rewrite R1. transitivity (sumv (filter (fun v => v ∉ ss (l_sep l)) (sc (l_dn l))) (ctab st (l_dn l)) a).
    - apply elem_of_app in Hl as [Hl|Hl]; [by apply HB|]. rewrite HP by done. by apply (cl_msg _ _ Hc).
    - apply sumv_ext; [done|]. intros b _ _. rewrite R2; [by rewrite S1|]. by eapply later_dn. }
  split.
  - done.
  - intros i Hi. apply R3; [done|]. intros a Ha. rewrite <-(cl_total _ _ Hc i Hi a Ha). apply sumv_ext; [done|]. intros b _ _. by apply S1.
  - done.
  - intros l a Hl Hnl Ha. cbn [concat] in Hnl. rewrite elem_of_app in Hnl. rewrite R1, S2; [apply (cl_one _ _ Hc); [done| |done]; naive_solver|].
    intros Hin. apply elem_of_list_fmap in Hin as (l' & He & Hl'). assert (l' = l) as ->; [|naive_solver]. apply link_sep_inj; [by eapply in_block|done|done].
  - intros i Hi. cbn [concat]. rewrite filter_app. destruct (decide (i ∈ clq_level r Lpre)) as [Hin|Hin].
    + assert (filter (fun l => l_up l = i) (concat Lpost) = []) as Hnil.
      { pose proof (children_block Lpre B Lpost i E Hin) as Hch. rewrite E, concat_app in Hch. cbn [concat] in Hch. rewrite !filter_app in Hch.
        apply (f_equal length) in Hch. rewrite !app_length in Hch. destruct (filter (fun l => l_up l = i) (concat Lpost)); [done|]. cbn in Hch. lia. }
      rewrite Hnil, app_nil_r. eapply propto_trans; [apply (R4 i Hin)|]. rewrite (children_block Lpre B Lpost i E Hin).
      eapply propto_trans; [|apply propto_mul; [|apply propto_refl]].
      * apply propto_eq. intros a _. rewrite S1. f_equal. apply qprod_ext. intros l _. by rewrite R1.
      * pose proof (cl_prop _ _ Hc i Hi) as Hp. rewrite Hnil in Hp. eapply propto_trans; [exact Hp|]. apply propto_eq. intros a _. rewrite qprod_nil. ring.
    + assert (filter (fun l => l_up l = i) B = []) as ->.
      { destruct (filter (fun l => l_up l = i) B) as [|l rest] eqn:Ef; [done|exfalso]. assert (l ∈ filter (fun l => l_up l = i) B) as Hl by (rewrite Ef; left).
        apply elem_of_list_filter in Hl as [Hu Hl]. apply Hin. rewrite <-Hu. by eapply block_up. }
      cbn [app]. eapply propto_trans; [|eapply propto_trans; [apply (cl_prop _ _ Hc i Hi)|]].
      * apply propto_eq. intros a _. rewrite R2 by done. by apply S1.
      * apply propto_eq. intros a _. f_equal. apply qprod_ext. intros l Hl. apply elem_of_list_filter in Hl as [_ Hl]. by rewrite R1, HP.
Qed.
Lemma collect_blocks sch tag Lpost Lpre st : valid_scheduler sch -> Ls = Lpre ++ Lpost -> collected [] st ->
  (exists st', mfor (reverse (seq (2 * length Lpre) (2 * length Lpost))) (collect_level sch tag T) st = Ok st' /\ collected Lpost st') \/
  (mfor (reverse (seq (2 * length Lpre) (2 * length Lpost))) (collect_level sch tag T) st = Err DivZero /\ dead).
Proof.
  intros Hsch. revert Lpre. induction Lpost as [|B Lpost IH]; intros Lpre E Hc; [left; by exists st|].
  cbn [length]. replace (2 * S (length Lpost))%nat with (S (S (2 * length Lpost))) by lia. cbn [seq]. rewrite !reverse_cons, <-app_assoc. cbn [app]. rewrite mfor_app.
  specialize (IH (Lpre ++ [B])). rewrite app_length in IH. cbn [length] in IH. replace (2 * (length Lpre + 1))%nat with (S (S (2 * length Lpre))) in IH by lia.
  destruct IH as [(st1 & -> & H1)|(-> & Hd)]; [by rewrite E, <-app_assoc|done| |right; done]. cbn [mbind outcome_bind].
  replace (S (2 * length Lpre)) with (2 * length Lpre + 1)%nat by lia. by apply collect_step.
Qed.
Lemma collect_spec sch tag st : valid_scheduler sch -> collected [] st ->
  (exists st', collect sch tag T st = Ok st' /\ collected Ls st') \/ (collect sch tag T st = Err DivZero /\ dead).
Proof.
  intros Hsch Hc. unfold collect. rewrite (to_levels HT). cbn [length]. rewrite level_list_length. replace (S (2 * length Ls) - 1)%nat with (2 * length Ls)%nat by lia.
  by apply (collect_blocks sch tag Ls []).
Qed.

(** ** Distributing *)
Context (st1 : tabs) (Hst1 : collected Ls st1).
Record distributed (Lpre : list (list link)) (st : tabs) : Prop := {
  di_good : good st;
  di_total : forall i, i ∈ seen r L -> total st i;
  di_up : forall l a, l ∈ concat Lpre -> valid a -> stab st (l_sep l) a =
    if bool_decide (stab st1 (l_sep l) a = 0) then 0 else sumv (filter (fun v => v ∉ ss (l_sep l)) (sc (l_up l))) (ctab st (l_up l)) a / stab st1 (l_sep l) a;
  di_sep : forall l a, l ∈ L -> l ∉ concat Lpre -> stab st (l_sep l) a = stab st1 (l_sep l) a;
  di_dn : forall l, l ∈ concat Lpre -> propto dom (ctab st (l_dn l)) (fun a => ctab st1 (l_dn l) a * stab st (l_sep l) a);
  di_clq : forall i a, i ∉ l_dn <$> concat Lpre -> ctab st i a = ctab st1 i a }.
Lemma earlier_up Lpre Lpost l : Ls = Lpre ++ Lpost -> l ∈ concat Lpre -> l_up l ∈ seen r (concat Lpre).
Proof.
  intros E Hl. pose proof (to_hangs HT) as Hh. rewrite E in Hh. assert (hangs [r] Lpre) as Hh'.
  { revert Hh. generalize [r]. clear. induction Lpre as [|B'' Lpre IH]; intros vec Hh; [done|]. cbn [LevelProofs.hangs app] in *. destruct Hh as (?&?&Hh). split_and!; try done. by apply IH. }
  destruct (hangs_parents _ _ _ Hh' Hl) as [->%elem_of_list_singleton|H]; [left|by right].
Qed.
Lemma seen_not_later Lpre B Lpost c : Ls = Lpre ++ B :: Lpost -> c ∈ seen r (concat Lpre) -> c ∉ l_dn <$> B.
Proof.
  intros E Hc Hin. pose proof (to_nodup HT) as Hnd. rewrite E, concat_app in Hnd. cbn [concat] in Hnd. unfold seen in *. rewrite !fmap_app, app_comm_cons in Hnd.
  apply NoDup_app in Hnd as (_ & Hd & _). apply (Hd c Hc). apply elem_of_app. by left.
Qed.
Lemma distribute_step sch tag Lpre B Lpost st : valid_scheduler sch -> Ls = Lpre ++ B :: Lpost -> distributed Lpre st ->
  (exists st', mfor [(2 * length Lpre + 1)%nat; (2 * length Lpre + 2)%nat] (distribute_level sch tag T) st = Ok st' /\ distributed (Lpre ++ [B]) st') \/
  (mfor [(2 * length Lpre + 1)%nat; (2 * length Lpre + 2)%nat] (distribute_level sch tag T) st = Err DivZero /\ dead).
Proof.
  intros Hsch E Hc. cbn [mfor].
  assert (Nat.odd (2 * length Lpre + 1) = true) as Hodd by (rewrite Nat.add_1_r, Nat.odd_succ, Nat.even_mul; done).
  assert (Nat.odd (2 * length Lpre + 2) = false) as Hodd' by (replace (2 * length Lpre + 2)%nat with (2 * S (length Lpre))%nat by lia; by rewrite Nat.odd_mul).
  assert (distribute_level sch tag T (2 * length Lpre + 1) st = separator_level_distribution sch (tag ++ [(2 * length Lpre + 1)%nat]) T (2 * length Lpre + 1) st) as -> by (unfold distribute_level; by rewrite Hodd).
  destruct (sep_distribute sch (tag ++ [(2 * length Lpre + 1)%nat]) Lpre B Lpost st Hsch E (di_good _ _ Hc)) as (st2 & -> & G1 & S1 & S2 & S3). cbn [mbind outcome_bind].
  assert (distribute_level sch tag T (2 * length Lpre + 2) st2 = clique_level_distribution sch (tag ++ [(2 * length Lpre + 2)%nat]) T (2 * length Lpre + 2) st2) as -> by (unfold distribute_level; by rewrite Hodd').
  destruct (clq_distribute sch (tag ++ [(2 * length Lpre + 2)%nat]) Lpre B Lpost st2 Hsch E G1) as [(st3 & -> & G2 & R1 & R2 & R3 & R4)|(-> & Hd)]; [left|right; done].
  cbn [mbind outcome_bind]. exists st3. split; [done|].
  assert (forall l, l ∈ concat Lpre -> l ∈ L) as HpreL by (intros l Hl; rewrite E, concat_app; apply elem_of_app; by left).
  assert (forall l, l ∈ B -> l ∈ L) as HBL by (intros l Hl; by eapply in_block).
  assert (forall l, l ∈ B -> l ∉ concat Lpre) as HBpre.
  { intros l Hl Hin. pose proof NoDup_L as Hnd. rewrite E, concat_app in Hnd. cbn [concat] in Hnd. apply NoDup_app in Hnd as (_ & Hd & _). apply (Hd l Hin). apply elem_of_app. by left. }
  assert (forall l, l ∈ L -> l ∉ B -> l_sep l ∉ l_sep <$> B) as Hsepn.
  { intros l Hl Hn Hin. apply elem_of_list_fmap in Hin as (l' & He & Hl'). assert (l' = l) as -> by (apply link_sep_inj; auto). done. }
  assert (forall i a, i ∉ l_dn <$> B -> ctab st3 i a = ctab st i a) as Hctab by (intros i a Hi; by rewrite R2, S1).
  assert (forall l a, l ∈ B ++ concat Lpre -> ctab st3 (l_up l) a = ctab st (l_up l) a) as Hup.
  { intros l a Hl. apply Hctab. eapply seen_not_later; [done|]. apply elem_of_app in Hl as [Hl|Hl]; [apply clq_level_elem; by eapply block_up|by eapply earlier_up]. }
  assert (forall l a, l ∈ concat Lpre -> stab st3 (l_sep l) a = stab st (l_sep l) a) as Hstab.
  { intros l a Hl. rewrite R1, S2; [done|]. apply Hsepn; [auto|]. intros HlB. by apply (HBpre l). }
  split; rewrite ?concat_app; cbn [concat]; rewrite ?app_nil_r.
  - done.
  - intros i Hi. destruct (decide (i ∈ l_dn <$> B)) as [Hin|Hin]; [by apply R3|]. intros a Ha. rewrite <-(di_total _ _ Hc i Hi a Ha). apply sumv_ext; [done|]. intros b _ _. by apply Hctab.
  - intros l a Hl Ha. apply elem_of_app in Hl as [Hl|Hl].
    + rewrite Hstab by done. rewrite (di_up _ _ Hc l a Hl Ha). case_bool_decide; [done|]. f_equal. apply sumv_ext; [done|]. intros b _ _. symmetry. apply Hup. apply elem_of_app. by right.
    + rewrite R1, (S3 l a Hl Ha). unfold message. rewrite (di_sep _ _ Hc l a) by auto. case_bool_decide; [done|]. f_equal. apply sumv_ext; [done|]. intros b _ _. symmetry. apply Hup. apply elem_of_app. by left.
  - intros l a Hl Hn. rewrite elem_of_app in Hn. rewrite R1, S2; [apply (di_sep _ _ Hc); naive_solver|]. apply Hsepn; naive_solver.
  - intros l Hl. apply elem_of_app in Hl as [Hl|Hl].
    + assert (l_dn l ∉ l_dn <$> B) as Hn by (eapply seen_not_later; [done|]; right; by apply elem_of_list_fmap_1).
      eapply propto_trans; [apply propto_eq; intros a _; by apply Hctab|]. eapply propto_trans; [apply (di_dn _ _ Hc l Hl)|]. apply propto_eq. intros a _. by rewrite Hstab.
    + eapply propto_trans; [apply R4; by apply elem_of_list_fmap_1|]. apply propto_eq. intros a _. rewrite by_dn_spec by auto. cbn [default from_option id]. rewrite R1, S1. f_equal.
      apply (di_clq _ _ Hc). intros Hin. apply elem_of_list_fmap in Hin as (l' & He & Hl'). assert (l' = l) as -> by (apply link_dn_inj; auto). by apply (HBpre l).
  - intros i a Hi. rewrite fmap_app, elem_of_app in Hi. rewrite Hctab by naive_solver. apply (di_clq _ _ Hc). naive_solver.
Qed.
Lemma distribute_blocks sch tag Lpost Lpre st : valid_scheduler sch -> Ls = Lpre ++ Lpost -> distributed Lpre st ->
  (exists st', mfor (seq (2 * length Lpre + 1) (2 * length Lpost)) (distribute_level sch tag T) st = Ok st' /\ distributed Ls st') \/
  (mfor (seq (2 * length Lpre + 1) (2 * length Lpost)) (distribute_level sch tag T) st = Err DivZero /\ dead).
Proof.
  intros Hsch. revert Lpre st. induction Lpost as [|B Lpost IH]; intros Lpre st E Hc; [left; exists st; split; [done|]; by rewrite E, app_nil_r|].
  cbn [length]. replace (2 * S (length Lpost))%nat with (S (S (2 * length Lpost))) by lia. cbn [seq].
  match goal with |- context [mfor (?x :: ?y :: ?l)] => change (x :: y :: l) with ([x; y] ++ l) end. rewrite mfor_app. replace (S (2 * length Lpre + 1)) with (2 * length Lpre + 2)%nat by lia.
  destruct (distribute_step sch tag Lpre B Lpost st Hsch E Hc) as [(st2 & -> & H1)|(-> & Hd)]; [|right; done]. cbn [mbind outcome_bind].
  specialize (IH (Lpre ++ [B]) st2). rewrite app_length in IH. cbn [length] in IH. replace (2 * (length Lpre + 1) + 1)%nat with (S (2 * length Lpre + 2)) in IH by lia.
  apply IH; [by rewrite E, <-app_assoc|done].
Qed.
Lemma distribute_spec sch tag : valid_scheduler sch ->
  (exists st', distribute sch tag T st1 = Ok st' /\ distributed Ls st') \/ (distribute sch tag T st1 = Err DivZero /\ dead).
Proof.
  intros Hsch. unfold distribute. rewrite (to_levels HT). cbn [length]. rewrite level_list_length. replace (S (2 * length Ls) - 1)%nat with (2 * length Ls)%nat by lia.
  apply (distribute_blocks sch tag Ls [] st1); [done|done|]. split; try done; [apply Hst1|apply Hst1|by intros l a ?%elem_of_nil|by intros l ?%elem_of_nil].
Qed.
End flow.

Section exact.
Context (dom : nat -> nat) (dom_pos : forall v, (0 < dom v)%nat).
Notation wf := (TableSpec.wf dom).
Notation valid := (valid dom).
Notation sumv := (sumv dom).
Context (T : jtree) (r : nat) (Ls : list (list link)) (HT : tree_ok T r Ls).
Notation L := (concat Ls).
Context (sc ss : nat -> list nat) (U : list nat) (J : asg -> Qc).
Context (Htail : forall l, l ∈ L -> exists ws, sc (l_dn l) = ws ++ ss (l_sep l)).
Context (Hroot : rooted sc ss r [r] L) (HU : NoDup U) (Hcov : forall v, v ∈ U <-> v ∈ scope_of sc (seen r L)).
Lemma rooted_ups : forall l v, l ∈ L -> v ∈ ss (l_sep l) -> v ∈ sc (l_up l).
Proof using Hroot.
  intros l v Hl Hv. revert Hroot. generalize [r]. revert Hl. generalize L. intros M Hl. induction M as [|l' M IH]; intros sn Hr; [by apply elem_of_nil in Hl|].
  cbn [rooted] in Hr. destruct Hr as (_ & _ & _ & H & Hr). apply elem_of_cons in Hl as [->|Hl]; [by apply H|by eapply IH].
Qed.
(** Message passing from normalised clique tables whose product is proportional to [J]. *)
Lemma message_passing sch tag1 tag2 st : valid_scheduler sch ->
  good dom r Ls sc ss J st -> (forall i, i ∈ seen r L -> total dom sc st i) -> (forall l a, l ∈ L -> valid a -> stab st (l_sep l) a = 1 \/ (stab st (l_sep l) a = 0 /\ blank dom ss st l a)) ->
  propto dom J (fun a => qprod (seen r L) (fun i => ctab st i a)) ->
  let run := st2 ← collect sch tag1 T st; distribute sch tag2 T st2 in
  (exists st', run = Ok st' /\ good dom r Ls sc ss J st' /\ (forall i, i ∈ seen r L -> total dom sc st' i) /\
     (forall i, i ∈ seen r L -> propto dom (ctab st' i) (marg dom U (sc i) J)) /\ ~ dead dom J) \/
  (run = Err DivZero /\ dead dom J).
Proof using All.
  intros Hsch Hg Htot Hone HJ. cbv zeta. pose proof rooted_ups as Hups.
  destruct (collect_spec dom dom_pos T r Ls HT sc ss J Htail Hups st sch tag1 st Hsch) as [(st1 & -> & Hc)|(-> & Hd)]; [| |right; done].
  { split; [done|done|by intros l a ?%elem_of_nil|intros l a Hl _ Ha; by apply Hone|]. intros i Hi. apply propto_eq. intros a _. cbn. ring. }
  cbn [mbind outcome_bind].
  destruct (distribute_spec dom dom_pos T r Ls HT sc ss J Htail Hups st st1 Hc sch tag2 Hsch) as [(st' & -> & Hd)|(-> & Hd)]; [left|right; done].
  exists st'. split; [done|]. split; [apply Hd|]. split; [apply Hd|].
  assert (forall i, i ∈ seen r L -> propto dom (ctab st' i) (marg dom U (sc i) J)) as Hex.
  { intros i Hi.
    assert (forall s0 i, good dom r Ls sc ss J s0 -> i ∈ seen r L -> dep_on (sc i) (ctab s0 i)) as Hdep.
    { intros s0 j Hgs Hj. destruct (gd_c _ _ _ _ _ _ _ Hgs j Hj) as (C & HC & _ & Hv). intros a b Hab. rewrite !(ctab_at s0 j C _ HC). apply tval_dep. rewrite Hv. done. }
    set (in_ := fun (s0 : tabs) (j : nat) (a : asg) => if bool_decide (j ∈ seen r L) then ctab s0 j a else 0).
    set (is_ := fun (s0 : tabs) (s : nat) (a : asg) => if bool_decide (s ∈ l_sep <$> L) then stab s0 s a else 0).
    assert (forall s0 j a, j ∈ seen r L -> in_ s0 j a = ctab s0 j a) as Hin by (intros s0 j a Hj; unfold in_; by rewrite bool_decide_true).
    assert (forall s0 l a, l ∈ L -> is_ s0 (l_sep l) a = stab s0 (l_sep l) a) as His.
    { intros s0 l a Hl. unfold is_. rewrite bool_decide_true; [done|by apply elem_of_list_fmap_1]. }
    assert (forall s0 i, good dom r Ls sc ss J s0 -> dep_on (sc i) (in_ s0 i)) as Hdep'.
    { intros s0 j Hgs a b Hab. unfold in_. case_bool_decide; [|done]. by apply (Hdep s0 j). }
    assert (forall j, j ∈ seen r L -> NoDup (sc j)) as Hnd.
    { intros j Hj. destruct (gd_c _ _ _ _ _ _ _ Hg j Hj) as (C & _ & Hw & <-). apply Hw. }
    assert (forall l, l ∈ L -> l_up l ∈ seen r L) as Hupl by (intros l Hl; by eapply up_seen).
    assert (forall l, l ∈ L -> l_dn l ∈ seen r L) as Hdnl by (intros l Hl; by eapply dn_seen).
    pose proof (propagation_exact dom U HU sc ss r L (in_ st) (in_ st1) (in_ st') (is_ st1) (is_ st')) as HP.
    assert (propto dom (in_ st' i) (marg dom U (sc i) (joint0 r L (in_ st)))) as HE.
    { apply HP; try done.
      - intros j. by apply Hdep'.
      - intros j. apply Hdep', Hc.
      - intros j. apply Hdep', Hd.
      - intros s a b Hab. unfold is_. case_bool_decide as Hs; [|done]. apply elem_of_list_fmap in Hs as (l & -> & Hl).
        destruct (gd_s _ _ _ _ _ _ _ (cl_good _ _ _ _ _ _ _ _ _ Hc) l Hl) as (S & HS & _ & Hv). rewrite !(stab_at st1 _ S _ HS). apply tval_dep. by rewrite Hv.
      - intros j Hj. eapply propto_trans; [apply propto_eq; intros a _; by apply Hin|]. eapply propto_trans; [apply (cl_prop _ _ _ _ _ _ _ _ _ Hc j Hj)|].
        apply propto_eq. intros a _. rewrite Hin by done. f_equal. apply qprod_ext. intros l Hl. apply elem_of_list_filter in Hl as [_ Hl]. by rewrite His.
      - intros l Hl a Ha. rewrite His by done. rewrite (cl_msg _ _ _ _ _ _ _ _ _ Hc l a Hl Ha). apply sumv_ext; [done|]. intros b _ _. rewrite Hin; [done|auto].
      - intros j a Hj Ha. rewrite Hin by done. by apply (gd_pos _ _ _ _ _ _ _ (cl_good _ _ _ _ _ _ _ _ _ Hc) j a).
      - assert (r ∈ seen r L) as Hr by left. apply propto_eq. intros a _. rewrite !Hin by done. apply (di_clq _ _ _ _ _ _ _ _ _ Hd).
        pose proof (to_nodup _ _ _ HT) as Hn. unfold seen in Hn. by apply NoDup_cons in Hn as [? _].
      - intros l Hl a Ha. rewrite !His by done. rewrite (di_up _ _ _ _ _ _ _ _ _ Hd l a Hl Ha). case_bool_decide; [done|]. f_equal. apply sumv_ext; [done|]. intros b _ _. rewrite Hin; [done|auto].
      - intros l Hl. eapply propto_trans; [apply propto_eq; intros a _; apply Hin; auto|]. eapply propto_trans; [apply (di_dn _ _ _ _ _ _ _ _ _ Hd l Hl)|].
        apply propto_eq. intros a _. rewrite Hin by auto. by rewrite His. }
    eapply propto_trans; [apply propto_eq; intros a _; symmetry; by apply Hin|]. eapply propto_trans; [exact HE|]. unfold marg. apply propto_sumv. apply propto_sym.
    eapply propto_trans; [exact HJ|]. apply propto_eq. intros a _. unfold joint0. apply qprod_ext. intros j Hj. by rewrite Hin. }
  split; [exact Hex|]. intros Hdead. assert (r ∈ seen r L) as Hr by left. pose proof (di_total _ _ _ _ _ _ _ _ _ Hd r Hr zero_asg (valid_zero dom dom_pos)) as Ht.
  destruct (Hex r Hr) as (k & _ & Hk). assert (sumv (sc r) (ctab st' r) zero_asg = sumv (sc r) (fun _ => 0 * 0) zero_asg) as H0.
  { apply sumv_ext; [apply (valid_zero dom dom_pos)|]. intros b Hb _. rewrite Hk by done. unfold marg. rewrite (sumv_ext dom _ J (fun _ => 0 * 0)); [rewrite sumv_scal; ring|done|]. intros c Hc' _. rewrite (Hdead c Hc'). ring. }
  rewrite Ht, sumv_scal in H0. rewrite Qcmult_0_l in H0. discriminate H0.
Qed.
End exact.
