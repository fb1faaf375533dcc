(** Directing edges never loses or invents an adjacency, whatever the tests decide. *)
From Verif Require Export OrientSafe OrientSpec.
From Verif Require Import NetProofs3 StructProofs.
Local Open Scope nat_scope.

Definition pair_of (e : edge) : nat * nat := bare (e_n1 e, e_n2 e).
Definition pairs_of (N : network) : pairs := pair_of <$> nt_edges N.
Lemma bare_sym x y : bare (x, y) = bare (y, x).
Proof. unfold bare. cbn. f_equal; lia. Qed.

(** ** The elementary operations *)
Lemma set_parent_edges N p c N1 : set_parent_child N p c = Ok N1 -> nt_edges N1 = nt_edges N.
Proof.
  unfold set_parent_child. destruct (find_node N p) as [ndp|]; [|done]. cbn [mbind outcome_bind].
  destruct (find_node (set_nodes N (<[p:=node_add_child c ndp]> (nt_nodes N))) c) as [ndc|]; [|done]. by intros [= <-].
Qed.
Lemma remove_parent_edges N p c N1 : remove_parent_child N p c = Ok N1 -> nt_edges N1 = nt_edges N.
Proof.
  unfold remove_parent_child. destruct (find_node N p) as [ndp|] eqn:E; [|done]. cbn [mbind outcome_bind].
  destruct (find_node (set_nodes N (<[p:=node_remove_child c ndp]> (nt_nodes N))) c) as [ndc|] eqn:E2; [|done]. cbn [mbind outcome_bind].
  destruct (node_remove_parent p (nd_dom ndp) ndc) as [ndc'|] eqn:E3; [|done]. by intros [= <-].
Qed.
Lemma add_directed_family N p c N' b : family_ok N -> add_directed_edge N p c = Ok (N', b) ->
  (b = true <-> ~ (p = c \/ tc (child_rel N) c p)) /\ (forall x y, child_rel N' x y <-> child_rel N x y \/ (b = true /\ x = p /\ y = c)) /\ nt_edges N' = if b then nt_edges N ++ [directed_edge p c] else nt_edges N.
Proof.
  intros HF H. pose proof (add_directed_kept _ _ _ _ _ HF H) as (HF' & _).
  assert (nt_edges N' = if b then nt_edges N ++ [directed_edge p c] else nt_edges N) as HE.
  { clear -H. unfold add_directed_edge in H. bind_in H E1 as v1. bind_in H E2 as v2. bind_in H E3 as N1. bind_in H E4 as circ. apply set_parent_edges in E3. destruct circ.
    - bind_in H E5 as N2. apply remove_parent_edges in E5. injection H as <- <-. congruence.
    - injection H as <- <-. cbn [set_edges nt_edges]. by rewrite E3. }
  assert (p < length (nt_nodes N) /\ c < length (nt_nodes N)) as [Hp Hc].
  { unfold add_directed_edge in H. destruct (find_node N p) eqn:E1; [|done]. destruct (find_node N c) eqn:E2; [|done]. apply find_node_lt in E1, E2. done. }
  destruct (add_directed_nodes N (OrientSafe.canon N) p c N' b H) as (N2 & H2 & Hn).
  destruct (add_directed_edge_spec (set_edges N (OrientSafe.canon N)) p c (canon_inv N HF) Hp Hc) as (N3 & b' & H3 & HI & _ & _ & _ & Hb & Ht & Hf).
  assert (N3 = N2 /\ b' = b) as [-> ->] by (rewrite H3 in H2; by injection H2 as -> ->). split; [|split; [|done]].
  - rewrite Hb. assert (tc (has_directed (set_edges N (OrientSafe.canon N))) c p <-> tc (child_rel N) c p) as Htc. { split; apply tc_mono; intros x y; apply canon_directed. } by rewrite Htc.
  - intros x y. assert (child_rel N' x y <-> child_rel N2 x y) as -> by (unfold child_rel; by rewrite Hn). rewrite (netinv_child N2 x y HI), <-(canon_directed N x y). unfold has_directed. destruct b.
    + rewrite (Ht eq_refl). split.
      * intros (e & He & H4). apply elem_of_app in He as [He|He]; [left; by exists e|]. apply elem_of_list_singleton in He as ->. right. cbn in H4. naive_solver.
      * intros [(e & He & H4)|(_ & -> & ->)]; [exists e; split; [apply elem_of_app; by left|done]|]. exists (directed_edge p c). split; [apply elem_of_app; right; left|done].
    + rewrite (proj1 (Hf eq_refl)). split; [by left|]. intros [?|(? & _)]; done.
Qed.
Lemma pairs_erase N a pre post : nt_edges N = pre ++ a :: post -> forall p, p ∈ pairs_of N <-> p ∈ pair_of <$> (pre ++ post) \/ p = pair_of a.
Proof. intros E p. unfold pairs_of. rewrite E, !fmap_app, fmap_cons, !elem_of_app, elem_of_cons. tauto. Qed.
(** What a deletion leaves. *)
Definition removed (q : nat * nat) (N N' : network) : Prop := q ∈ pairs_of N /\ forall p, p ∈ pairs_of N <-> p ∈ pairs_of N' \/ p = q.
Lemma delete_for_pairs N b x N' d : delete_for_collider N b x = Ok (N', d) -> if bool_decide (d = Kept) then pairs_of N' = pairs_of N else removed (bare (x, b)) N N'.
Proof.
  unfold delete_for_collider. intros H. bind_in H E as [N1 d1]. unfold delete_directed_edge in E. bind_in E E1 as v1. bind_in E E2 as v2. destruct (get_directed_edge N b x) as [pos|] eqn:Hg.
  - bind_in E E3 as N2. injection E as <- <-. injection H as <- <-. cbn. apply remove_parent_edges in E3. unfold get_directed_edge in Hg. apply find_edge_some in Hg as (a & pre & post & He & <- & Hs & _). apply edge_same_spec in Hs as (H1 & H2 & _).
    assert (pair_of a = bare (x, b)) as Hpa by (unfold pair_of; rewrite H1, H2; apply bare_sym). pose proof (pairs_erase N a pre post He) as Hp. rewrite Hpa in Hp. split; [apply Hp; by right|]. intros p. unfold pairs_of at 2. cbn [set_edges nt_edges]. rewrite E3, He, erase_at_middle. apply Hp.
  - injection E as <- <-. bind_in H E3 as [N2 d2]. unfold delete_undirected_edge in E3. bind_in E3 E4 as v3. bind_in E3 E5 as v4. destruct (get_undirected_edge N (x `min` b) (x `max` b)) as [pos|] eqn:Hg'.
    + injection E3 as <- <-. injection H as <- <-. cbn. unfold get_undirected_edge in Hg'. apply find_edge_some in Hg' as (a & pre & post & He & <- & Hs & _). apply edge_same_spec in Hs as (H1 & H2 & _).
      assert (pair_of a = bare (x, b)) as Hpa. { unfold pair_of, bare. cbn [fst snd]. rewrite H1, H2. unfold undirected_edge. case_bool_decide; cbn; f_equal; lia. }
      pose proof (pairs_erase N a pre post He) as Hp. rewrite Hpa in Hp. split; [apply Hp; by right|]. intros p. unfold pairs_of at 2. cbn [set_edges nt_edges]. rewrite He, erase_at_middle. apply Hp.
    + injection E3 as <- <-. injection H as <- <-. done.
Qed.
Lemma delete_for_length N b x N' d : delete_for_collider N b x = Ok (N', d) -> length (nt_edges N) = (if bool_decide (d = Kept) then 0 else 1) + length (nt_edges N').
Proof.
  unfold delete_for_collider. intros H. bind_in H E as [N1 d1]. unfold delete_directed_edge in E. bind_in E E1 as v1. bind_in E E2 as v2. destruct (get_directed_edge N b x) as [pos|] eqn:Hg.
  - bind_in E E3 as N2. injection E as <- <-. injection H as <- <-. apply remove_parent_edges in E3. unfold get_directed_edge in Hg. apply find_edge_some in Hg as (a & pre & post & He & <- & Hs & _). cbn [set_edges nt_edges]. rewrite E3, He, erase_at_middle, !app_length. rewrite bool_decide_false by done. cbn. lia.
  - injection E as <- <-. bind_in H E3 as [N2 d2]. unfold delete_undirected_edge in E3. bind_in E3 E4 as v3. bind_in E3 E5 as v4. destruct (get_undirected_edge N (x `min` b) (x `max` b)) as [pos|] eqn:Hg'.
    + injection E3 as <- <-. injection H as <- <-. unfold get_undirected_edge in Hg'. apply find_edge_some in Hg' as (a & pre & post & He & <- & Hs & _). cbn [set_edges nt_edges]. rewrite He, erase_at_middle, !app_length. rewrite bool_decide_false by done. cbn. lia.
    + injection E3 as <- <-. injection H as <- <-. done.
Qed.
Lemma pairs_snoc N N' e : nt_edges N' = nt_edges N ++ [e] -> forall p, p ∈ pairs_of N' <-> p ∈ pairs_of N \/ p = pair_of e.
Proof. intros E p. unfold pairs_of. rewrite E, fmap_app, elem_of_app. cbn. by rewrite elem_of_list_singleton. Qed.
Lemma pair_undirected x y : pair_of (undirected_edge x y) = bare (x, y).
Proof. unfold pair_of, undirected_edge, bare. case_bool_decide; cbn; f_equal; lia. Qed.

(** ** A collider *)
Lemma tc_extra {A} (R S : A -> A -> Prop) p c : (forall x y, S x y -> R x y \/ (x = p /\ y = c)) -> forall x y, tc S x y -> tc R x y \/ (rtc R x p /\ rtc R c y).
Proof.
  intros H x y. induction 1 as [x y Hxy|x y z Hxy _ IH].
  - apply H in Hxy as [Hxy|[-> ->]]; [left; by apply tc_once|right; by split].
  - apply H in Hxy as [Hxy|[-> ->]].
    + destruct IH as [IH|[H1 H2]]; [left; by eapply tc_l|right]. split; [by eapply rtc_l|done].
    + right. split; [done|]. destruct IH as [IH|[H1 H2]]; [by apply tc_rtc|done].
Qed.
Lemma tc_rtc_trans {A} (R : A -> A -> Prop) x y z : tc R x y -> rtc R y z -> tc R x z.
Proof. intros H1 H2. by eapply tc_rtc_r. Qed.
Lemma add_for_pairs N b x d N' f : family_ok N -> add_for_collider N b x d = Ok (N', f) ->
  (forall p, p ∈ pairs_of N' <-> p ∈ pairs_of N \/ (d <> Kept /\ f = false /\ p = bare (x, b))) /\
  (f = true -> d <> Kept /\ ~ ~ (x = b \/ tc (child_rel N) b x) /\ forall u v, child_rel N' u v <-> child_rel N u v) /\
  (f = false -> d <> Kept -> ~ (x = b \/ tc (child_rel N) b x)) /\
  (forall u v, child_rel N' u v -> child_rel N u v \/ (u = x /\ v = b)) /\
  (d = Kept -> N' = N) /\
  length (nt_edges N') = (if bool_decide (d <> Kept /\ f = false) then 1 else 0) + length (nt_edges N).
Proof.
  intros HF H. unfold add_for_collider in H. case_bool_decide as Hd.
  - injection H as <- <-. split_and!; try done; [|by left|by rewrite bool_decide_false by (by intros [? _])]. intros p. split; [by left|]. intros [?|[? _]]; done.
  - bind_in H E as [N1 ad]. injection H as <- <-. cbn [fst snd]. destruct (add_directed_family _ _ _ _ _ HF E) as (H1 & H2 & H3). split_and!.
    + intros p. destruct ad; cbn [negb].
      * rewrite (pairs_snoc _ _ _ H3). unfold pair_of. cbn. tauto.
      * unfold pairs_of. rewrite H3. split; [by left|]. intros [?|(_ & ? & _)]; done.
    + intros Hf. destruct ad; [done|]. split; [done|]. split.
      * intros Hn. assert (false = true); [|done]. by apply H1.
      * intros u v. rewrite H2. split; [|by left]. intros [?|(? & _)]; done.
    + intros Hf _. destruct ad; [|done]. by apply H1.
    + intros u v Huv. apply H2 in Huv. naive_solver.
    + done.
    + rewrite H3. destruct ad; [rewrite bool_decide_true by done; rewrite app_length; cbn; lia|by rewrite bool_decide_false by (by intros [_ ?])].
Qed.
Lemma restore_pairs N b x d N' : family_ok N -> restore N b x d = Ok N' ->
  (forall p, p ∈ pairs_of N -> p ∈ pairs_of N') /\ (forall p, p ∈ pairs_of N' -> p ∈ pairs_of N \/ (d <> Kept /\ p = bare (x, b))) /\
  (d = WasUndirected -> bare (x, b) ∈ pairs_of N') /\ (d = WasDirected -> ~ (b = x \/ tc (child_rel N) x b) -> bare (x, b) ∈ pairs_of N') /\
  (forall u v, child_rel N' u v -> child_rel N u v \/ (u = b /\ v = x)) /\
  length (nt_edges N) <= length (nt_edges N') /\ (d = WasUndirected \/ (d = WasDirected /\ ~ (b = x \/ tc (child_rel N) x b)) -> S (length (nt_edges N)) = length (nt_edges N')).
Proof.
  intros HF H. unfold restore in H. destruct d.
  - injection H as <-. split_and!; try done; [by left..|]. by intros [?|[? _]].
  - bind_in H E as [N1 ad]. injection H as <-. cbn [fst]. destruct (add_directed_family _ _ _ _ _ HF E) as (H1 & H2 & H3). split_and!; try done.
    + intros p Hp. destruct ad; [by apply (pairs_snoc _ _ _ H3); left|]. unfold pairs_of. by rewrite H3.
    + intros p Hp. destruct ad; [|left; unfold pairs_of in Hp; by rewrite H3 in Hp]. apply (pairs_snoc _ _ _ H3) in Hp as [Hp|Hp]; [by left|right]. split; [done|]. rewrite bare_sym. exact Hp.
    + intros _ Hn. assert (ad = true) as -> by (by apply H1). apply (pairs_snoc _ _ _ H3). right. unfold pair_of. cbn. apply bare_sym.
    + intros u v Huv. apply H2 in Huv. naive_solver.
    + rewrite H3. destruct ad; [rewrite app_length; lia|done].
    + intros [?|[_ Hn]]; [done|]. assert (ad = true) as -> by (by apply H1). rewrite H3, app_length. cbn. lia.
  - unfold add_undirected_edge in H. bind_in H E1 as v1. bind_in H E2 as v2. injection H as <-. pose proof (pairs_snoc N (set_edges N (nt_edges N ++ [undirected_edge x b])) _ eq_refl) as Hs. rewrite pair_undirected in Hs. split_and!; try done.
    + intros p Hp. apply Hs. by left.
    + intros p Hp. apply Hs in Hp as [?|?]; [by left|by right].
    + intros _. apply Hs. by right.
    + intros u v Huv. by left.
    + cbn [set_edges nt_edges]. rewrite app_length. lia.
    + intros _. cbn [set_edges nt_edges]. rewrite app_length. cbn. lia.
Qed.
Definition irreflexive_pairs (E : pairs) : Prop := forall p, p ∈ E -> fst p <> snd p.
Lemma bare_diag x : fst (bare (x, x)) = snd (bare (x, x)).
Proof. unfold bare. cbn. lia. Qed.
Lemma orient_collider_pairs E N a b c N' : irreflexive_pairs E -> family_ok N -> (forall p, p ∈ pairs_of N <-> p ∈ E) -> orient_collider N a b c = Ok N' -> (forall p, p ∈ pairs_of N' <-> p ∈ E) /\ length (nt_edges N) <= length (nt_edges N').
Proof.
  intros HE HF HN H. unfold orient_collider in H. bind_in H E1 as [N1 d1]. pose proof (delete_for_kept _ _ _ _ _ HF E1) as (HF1 & _). pose proof (delete_for_pairs _ _ _ _ _ E1) as P1. pose proof (delete_for_length _ _ _ _ _ E1) as L1.
  bind_in H E2 as [N2 d2]. pose proof (delete_for_kept _ _ _ _ _ HF1 E2) as (HF2 & _). pose proof (delete_for_pairs _ _ _ _ _ E2) as P2. pose proof (delete_for_length _ _ _ _ _ E2) as L2.
  bind_in H E3 as [N3 f1]. pose proof (add_for_kept _ _ _ _ _ _ HF2 E3) as (HF3 & _). pose proof (add_for_pairs _ _ _ _ _ _ HF2 E3) as (P3 & R3 & S3 & C3 & K3 & L3).
  bind_in H E4 as [N4 f2]. pose proof (add_for_kept _ _ _ _ _ _ HF3 E4) as (HF4 & _). pose proof (add_for_pairs _ _ _ _ _ _ HF3 E4) as (P4 & R4 & S4 & C4 & K4 & L4).
  set (q1 := bare (a, b)) in *. set (q2 := bare (c, b)) in *.
  assert (forall p, p ∈ E <-> p ∈ pairs_of N2 \/ (d1 <> Kept /\ p = q1) \/ (d2 <> Kept /\ p = q2)) as HE2.
  { intros p. rewrite <-HN. clear -P1 P2. rewrite (bool_decide_decide (d1 = Kept)) in P1. rewrite (bool_decide_decide (d2 = Kept)) in P2. destruct (decide (d1 = Kept)) as [Hd1|Hd1], (decide (d2 = Kept)) as [Hd2|Hd2]; cbn in P1, P2.
    - rewrite P2, P1. naive_solver.
    - destruct P2 as [_ P2]. rewrite <-P1, P2. naive_solver.
    - destruct P1 as [_ P1]. rewrite P1, P2. naive_solver.
    - destruct P1 as [_ P1], P2 as [_ P2]. rewrite P1, P2. naive_solver. }
  assert (d1 <> Kept -> a <> b) as Hab. { intros Hd ->. apply (HE q1); [apply HE2; right; by left|]. apply bare_diag. }
  assert (d2 <> Kept -> c <> b) as Hcb. { intros Hd ->. apply (HE q2); [apply HE2; right; by right|]. apply bare_diag. }
  pose proof (acyclic_child N2 HF2) as A2. pose proof (acyclic_child N3 HF3) as A3. pose proof (acyclic_child N4 HF4) as A4.
  destruct (f1 || f2) eqn:Hf.
  - bind_in H E5 as N5. pose proof (restore_kept _ _ _ _ _ HF4 E5) as (HF5 & _). destruct (restore_pairs _ _ _ _ _ HF4 E5) as (M5 & B5 & U5 & D5 & C5 & L5 & X5). destruct (restore_pairs _ _ _ _ _ HF5 H) as (M6 & B6 & U6 & D6 & C6 & L6 & X6).
    assert (f1 = true -> d1 = WasDirected -> ~ (b = a \/ tc (child_rel N4) a b)) as Q1.
    { intros -> ->. assert (WasDirected <> Kept) as Hd by done. destruct (R3 eq_refl) as (_ & Hnn & Hch). intros Hp. apply Hnn. intros [->|Hba]; [by apply Hab|].
      destruct Hp as [->|Hp]; [by apply Hab|]. destruct (decide (d2 <> Kept /\ f2 = false)) as [[Hd2 ->]|Hk].
      - apply (tc_extra (child_rel N2) _ c b) in Hp.
        + destruct Hp as [Hp|[Hac _]]; [by apply (A2 a), (tc_transitive _ b)|]. apply (S4 eq_refl Hd2). right. apply (tc_mono (child_rel N2)); [intros u v; apply Hch|]. by eapply tc_rtc_r.
        + intros u v Huv. apply C4 in Huv as [Huv|?]; [|by right]. left. by apply Hch.
      - apply (A2 a), (tc_transitive _ b); [|done]. revert Hp. apply tc_mono. intros u v Huv. apply Hch. destruct (decide (d2 = Kept)) as [Hd2|Hd2]; [by rewrite <-(K4 Hd2)|]. destruct f2; [|exfalso; by apply Hk]. by apply (R4 eq_refl). }
    assert (d1 <> Kept -> q1 ∈ pairs_of N5) as G1.
    { intros Hd. destruct f1; [|apply M5, P4; left; apply P3; right; done]. destruct d1; [done| |by apply U5]. apply D5; [done|]. by apply Q1. }
    assert (f2 = true -> d2 = WasDirected -> ~ (b = c \/ tc (child_rel N5) c b)) as Q2.
    { intros -> ->. assert (WasDirected <> Kept) as Hd by done. destruct (R4 eq_refl) as (_ & Hnn & Hch). intros Hp. apply Hnn. intros [->|Hbc]; [by apply Hcb|].
      destruct Hp as [->|Hp]; [by apply Hcb|]. apply (tc_extra (child_rel N3) _ b a) in Hp.
      - apply (A3 b). destruct Hp as [Hp|[Hp _]]; [by eapply tc_transitive|by eapply tc_rtc_r].
      - intros u v Huv. apply C5 in Huv as [Huv|?]; [|by right]. left. by apply Hch. }
    assert (d2 <> Kept -> q2 ∈ pairs_of N') as G2.
    { intros Hd. destruct f2; [|apply M6, M5, P4; by right]. destruct d2; [done| |by apply U6]. apply D6; [done|]. by apply Q2. }
    split; [|assert (f1 = true -> d1 <> Kept -> S (length (nt_edges N4)) = length (nt_edges N5)) as Y5 by (intros Hf1 Hd; apply X5; destruct d1; [done|right; split; [done|by apply Q1]|by left]);
      assert (f2 = true -> d2 <> Kept -> S (length (nt_edges N5)) = length (nt_edges N')) as Y6 by (intros Hf2 Hd; apply X6; destruct d2; [done|right; split; [done|by apply Q2]|by left]);
      clear -L1 L2 L3 L4 L5 L6 Y5 Y6; repeat case_bool_decide; destruct d1, d2, f1, f2; try (specialize (Y5 eq_refl ltac:(done))); try (specialize (Y6 eq_refl ltac:(done))); first [lia | exfalso; clear -H H0 H1 H2; naive_solver]].
    intros p. rewrite HE2. split.
    + intros Hp. apply B6 in Hp as [Hp|[? ->]]; [|right; by right]. apply B5 in Hp as [Hp|[? ->]]; [|right; by left]. apply P4 in Hp as [Hp|(? & _ & ->)]; [|right; by right]. apply P3 in Hp as [Hp|(? & _ & ->)]; [by left|right; by left].
    + intros [Hp|[[Hd ->]|[Hd ->]]]; [|by apply M6, G1|by apply G2]. apply M6, M5, P4. left. apply P3. by left.
  - injection H as <-. apply orb_false_iff in Hf as [-> ->]. split; [|clear -L1 L2 L3 L4; repeat case_bool_decide; first [lia | exfalso; clear -H H0 H1 H2; naive_solver]]. intros p. rewrite HE2, P4, P3. clear. naive_solver.
Qed.

Lemma orient_collider_grows E N a b c N' : irreflexive_pairs E -> family_ok N -> (forall p, p ∈ pairs_of N <-> p ∈ E) -> orient_collider N a b c = Ok N' -> length (nt_edges N) <= length (nt_edges N').
Proof. intros. by eapply (orient_collider_pairs E N). Qed.

(** ** Children are joined by directed edges *)
Definition shape (e : edge) : Prop := exists x y, e = directed_edge x y \/ e = undirected_edge x y.
Definition listed (N : network) : Prop := (forall x y, child_rel N x y -> has_directed N x y) /\ (forall e, e ∈ nt_edges N -> shape e).
Lemma add_directed_listed N p c N' b : family_ok N -> listed N -> add_directed_edge N p c = Ok (N', b) -> listed N'.
Proof.
  intros HF [HL HS] H. destruct (add_directed_family _ _ _ _ _ HF H) as (_ & H2 & H3). split.
  - intros x y Hxy. apply H2 in Hxy as [Hxy|(-> & -> & ->)].
    + destruct (HL x y Hxy) as (e & He & Hr). exists e. split; [|done]. rewrite H3. destruct b; [apply elem_of_app; by left|done].
    + exists (directed_edge p c). split; [|done]. rewrite H3. apply elem_of_app. right. left.
  - intros e He. rewrite H3 in He. destruct b; [|by apply HS]. apply elem_of_app in He as [He|He]; [by apply HS|]. apply elem_of_list_singleton in He as ->. exists p, c. by left.
Qed.
Lemma remove_parent_child_rel N p c N1 x y : family_ok N -> remove_parent_child N p c = Ok N1 -> child_rel N1 x y -> child_rel N x y /\ ~ (x = p /\ y = c).
Proof.
  intros HF H. assert (p < length (nt_nodes N) /\ c < length (nt_nodes N)) as [Hp Hc].
  { unfold remove_parent_child in H. destruct (find_node N p) as [ndp|] eqn:E; [|done]. cbn [mbind outcome_bind] in H.
    destruct (find_node (set_nodes N (<[p:=node_remove_child c ndp]> (nt_nodes N))) c) as [ndc|] eqn:E2; [|done]. apply find_node_lt in E, E2. cbn [set_nodes nt_nodes] in E2. rewrite insert_length in E2. done. }
  destruct (remove_parent_child_spec N p c Hp Hc) as (N2 & H2 & _ & _ & _ & Hl1 & Hn1).
  { intros nd Hnd' Hin. by rewrite (proj2 (fo_parents _ HF _ _ Hnd')). }
  assert (N2 = N1) as -> by congruence. intros (nd' & Hx & Hy). destruct (lookup_lt_is_Some_2 (nt_nodes N) x) as [nd Hnd]; [rewrite <-Hl1; by eapply lookup_lt_Some|]. destruct (Hn1 _ _ Hnd) as (nd2 & Hx2 & _ & Hc' & _).
  rewrite Hx in Hx2. injection Hx2 as <-. rewrite Hc' in Hy. case_decide.
  - apply elem_of_serase in Hy as [Hy Hne]. split; [by exists nd|]. naive_solver.
  - split; [by exists nd|]. naive_solver.
Qed.
Lemma delete_directed_listed N p c N' b : family_ok N -> listed N -> delete_directed_edge N p c = Ok (N', b) -> listed N'.
Proof.
  intros HF [HL HS] E. unfold delete_directed_edge in E. bind_in E E1 as v1. bind_in E E2 as v2. destruct (get_directed_edge N p c) as [pos|] eqn:Hg; [|by injection E as <- <-].
  bind_in E E3 as N2. injection E as <- <-. pose proof (remove_parent_edges _ _ _ _ E3) as E4. unfold get_directed_edge in Hg. apply find_edge_some in Hg as (a & pre & post & He & <- & Hs & _). apply edge_same_spec in Hs as (H1 & H2 & _). split.
  - intros x y Hxy. destruct (remove_parent_child_rel N p c N2 x y HF E3 Hxy) as [Hr Hne]. destruct (HL x y Hr) as (e & Hin & Hx & Hy & Hep). exists e. split; [|done]. cbn [set_edges nt_edges]. rewrite E4, He, erase_at_middle.
    rewrite He in Hin. apply elem_of_app in Hin as [Hin|Hin]; [apply elem_of_app; by left|]. apply elem_of_cons in Hin as [->|Hin]; [|apply elem_of_app; by right]. exfalso. apply Hne. cbn in H1, H2. split; congruence.
  - intros e Hin. cbn [set_edges nt_edges] in Hin. rewrite E4, He, erase_at_middle in Hin. apply HS. rewrite He. rewrite elem_of_app in *. rewrite elem_of_cons. tauto.
Qed.
Lemma add_undirected_listed N p c N' : listed N -> add_undirected_edge N p c = Ok N' -> listed N'.
Proof.
  intros [HL HS] E. unfold add_undirected_edge in E. bind_in E E1 as v1. bind_in E E2 as v2. injection E as <-. split.
  - intros x y Hxy. destruct (HL x y Hxy) as (e & He & Hr). exists e. split; [|done]. cbn [set_edges nt_edges]. apply elem_of_app. by left.
  - intros e He. cbn [set_edges nt_edges] in He. apply elem_of_app in He as [He|He]; [by apply HS|]. apply elem_of_list_singleton in He as ->. exists p, c. by right.
Qed.
Lemma delete_undirected_listed N p c N' b : listed N -> delete_undirected_edge N p c = Ok (N', b) -> listed N'.
Proof.
  intros [HL HS] E. unfold delete_undirected_edge in E. bind_in E E1 as v1. bind_in E E2 as v2. destruct (get_undirected_edge N (p `min` c) (p `max` c)) as [pos|] eqn:Hg; [|by injection E as <- <-].
  injection E as <- <-. unfold get_undirected_edge in Hg. apply find_edge_some in Hg as (a & pre & post & He & <- & Hs & _). apply edge_same_spec in Hs as (_ & _ & _ & Hs). split.
  - intros x y Hxy. destruct (HL x y Hxy) as (e & Hin & Hx & Hy & Hep1 & Hep2). exists e. split; [|done]. cbn [set_edges nt_edges]. rewrite He, erase_at_middle.
    rewrite He in Hin. apply elem_of_app in Hin as [Hin|Hin]; [apply elem_of_app; by left|]. apply elem_of_cons in Hin as [->|Hin]; [|apply elem_of_app; by right]. exfalso. rewrite Hep2 in Hs. unfold undirected_edge in Hs. revert Hs. case_bool_decide; cbn; discriminate.
  - intros e Hin. cbn [set_edges nt_edges] in Hin. rewrite He, erase_at_middle in Hin. apply HS. rewrite He. rewrite elem_of_app in *. rewrite elem_of_cons. tauto.
Qed.
Lemma delete_for_listed N b x N' d : family_ok N -> listed N -> delete_for_collider N b x = Ok (N', d) -> listed N'.
Proof.
  intros HF HL. unfold delete_for_collider. intros H. bind_in H E as [N1 d1]. pose proof (delete_directed_listed _ _ _ _ _ HF HL E) as K1.
  destruct d1; [by injection H as <- <-|]. bind_in H E2 as [N2 d2]. pose proof (delete_undirected_listed _ _ _ _ _ K1 E2) as K2. by injection H as <- <-.
Qed.
Lemma add_for_listed N b x d N' f : family_ok N -> listed N -> add_for_collider N b x d = Ok (N', f) -> listed N'.
Proof.
  intros HF HL. unfold add_for_collider. case_bool_decide; [by intros [= <- <-]|]. intros H0. bind_in H0 E as [N1 d1]. injection H0 as <- <-. by eapply add_directed_listed.
Qed.
Lemma restore_listed N b x d N' : family_ok N -> listed N -> restore N b x d = Ok N' -> listed N'.
Proof.
  intros HF HL H. unfold restore in H. destruct d; [by injection H as <-| |by eapply add_undirected_listed]. bind_in H E as [N1 d1]. injection H as <-. by eapply add_directed_listed.
Qed.
Lemma orient_collider_listed N a b c N' : family_ok N -> listed N -> orient_collider N a b c = Ok N' -> listed N'.
Proof.
  intros HF HL. unfold orient_collider. intros H. bind_in H E1 as [N1 d1]. pose proof (delete_for_kept _ _ _ _ _ HF E1) as K1. pose proof (delete_for_listed _ _ _ _ _ HF HL E1) as L1.
  bind_in H E2 as [N2 d2]. pose proof (delete_for_kept _ _ _ _ _ (proj1 K1) E2) as K2. pose proof (delete_for_listed _ _ _ _ _ (proj1 K1) L1 E2) as L2.
  bind_in H E3 as [N3 f1]. pose proof (add_for_kept _ _ _ _ _ _ (proj1 K2) E3) as K3. pose proof (add_for_listed _ _ _ _ _ _ (proj1 K2) L2 E3) as L3.
  bind_in H E4 as [N4 f2]. pose proof (add_for_kept _ _ _ _ _ _ (proj1 K3) E4) as K4. pose proof (add_for_listed _ _ _ _ _ _ (proj1 K3) L3 E4) as L4.
  destruct (f1 || f2); [|by injection H as <-]. bind_in H E5 as vE5. pose proof (restore_kept _ _ _ _ _ (proj1 K4) E5) as K5. pose proof (restore_listed _ _ _ _ _ (proj1 K4) L4 E5) as L5. apply (restore_listed _ _ _ _ _ (proj1 K5) L5 H).
Qed.
Lemma direct_listed cap N a c r : family_ok N -> listed N -> direct cap N a c = Ok r -> listed (fst r).
Proof.
  intros HF HL. unfold direct. intros H. bind_in H E as [N1 d1]. pose proof (add_directed_listed _ _ _ _ _ HF HL E) as K1. destruct d1; [|by injection H as <-].
  case_bool_decide; [done|]. bind_in H E2 as [N2 d2]. pose proof (delete_undirected_listed _ _ _ _ _ K1 E2) as K2. by injection H as <-.
Qed.

(** ** The pairs that are joined, through the whole orientation *)
Definition held (E : pairs) (N : network) : Prop := family_ok N /\ listed N /\ forall p, p ∈ pairs_of N <-> p ∈ E.
Lemma direct_held cap E N a c r : bare (a, c) ∈ E -> held E N -> direct cap N a c = Ok r -> held E (fst r).
Proof.
  intros Ha (HF & HL & HE) H. pose proof (direct_listed _ _ _ _ _ HF HL H) as HL'. destruct r as [N' b]. split; [apply (direct_kept _ _ _ _ _ _ HF H)|]. split; [exact HL'|]. cbn [fst]. unfold direct in H. bind_in H E1 as [N1 ad]. destruct (add_directed_family _ _ _ _ _ HF E1) as (_ & _ & H3).
  destruct ad; [|injection H as <- <-; unfold pairs_of; by rewrite H3]. case_bool_decide; [done|]. bind_in H E2 as [N2 d2]. injection H as <- <-. cbn [fst].
  pose proof (pairs_snoc _ _ _ H3) as HP. change (pair_of (directed_edge a c)) with (bare (a, c)) in HP. unfold delete_undirected_edge in E2. bind_in E2 E3 as v1. bind_in E2 E4 as v2.
  destruct (get_undirected_edge N1 (a `min` c) (a `max` c)) as [pos|] eqn:Hg; [|injection E2 as <- <-; intros p; rewrite HP, HE; split; [by intros [?| ->]|by left]].
  injection E2 as <- <-. unfold get_undirected_edge in Hg. apply find_edge_some in Hg as (e & pre & post & He & <- & Hs & _). pose proof (pairs_erase N1 e pre post He) as Hp.
  assert (directed_edge a c ∈ pre ++ post) as Hd.
  { assert (directed_edge a c ∈ pre ++ e :: post) as Hd by (rewrite <-He, H3; apply elem_of_app; right; left). apply elem_of_app in Hd as [Hd|Hd]; [apply elem_of_app; by left|]. apply elem_of_cons in Hd as [<-|Hd]; [|apply elem_of_app; by right]. apply edge_same_spec in Hs as (_ & _ & _ & Hs). unfold undirected_edge in Hs. revert Hs. case_bool_decide; cbn; discriminate. }
  assert (bare (a, c) ∈ pair_of <$> (pre ++ post)) as Hq by (apply elem_of_list_fmap; by exists (directed_edge a c)).
  intros p. unfold pairs_of. cbn [set_edges nt_edges]. rewrite He, erase_at_middle, <-HE. rewrite <-!HE in *. specialize (HP p). specialize (Hp p). split; intros Hx.
  - destruct (proj1 HP (proj2 Hp (or_introl Hx))) as [?| ->]; [done|]. done.
  - destruct (proj1 Hp (proj2 HP (or_introl Hx))) as [?| ->]; [done|]. apply edge_same_spec in Hs as (Hs1 & Hs2 & _). assert (pair_of e = bare (a, c)) as ->; [|done]. unfold pair_of. rewrite Hs1, Hs2. unfold undirected_edge, bare. case_bool_decide; cbn; f_equal; lia.
Qed.
Lemma v_loop_held E fuel adj sep b vec cg N N' : irreflexive_pairs E -> held E N -> v_loop fuel adj sep b vec cg N = Ok N' -> held E N'.
Proof.
  intros HI. revert cg N. induction fuel as [|fuel IH]; intros cg N HH H; [done|]. cbn [v_loop] in H. bind_in H E1 as [cg' ch]. case_bool_decide; [by injection H as <-|].
  bind_in H E2 as vE2. bind_in H E3 as vE3. bind_in H E4 as vE4. bind_in H E5 as vE5. bind_in H E6 as vE6. apply (IH _ _) in H; [done|].
  unfold v_triple in E6. bind_in E6 E7 as vE7. destruct vE7; [by injection E6 as <-|]. case_bool_decide; [by injection E6 as <-|]. destruct HH as (HF & HL & HE). split; [by apply (orient_collider_kept _ _ _ _ _ HF E6)|]. split; [by apply (orient_collider_listed _ _ _ _ _ HF HL E6)|]. by eapply (orient_collider_pairs E N).
Qed.
Lemma mfor_held {A} E (l : list A) f N N' : (forall a M M', a ∈ l -> held E M -> f a M = Ok M' -> held E M') -> held E N -> mfor l f N = Ok N' -> held E N'.
Proof.
  revert N. induction l as [|a l IH]; intros N Hf HF H; [by injection H as <-|]. cbn [mfor] in H. bind_in H E1 as vE. pose proof (Hf a _ _ ltac:(left) HF E1) as K.
  apply (IH vE); [|done|done]. intros x M M' Hx. apply Hf. by right.
Qed.
Lemma orient_v_held E fuel adj sep N N' : irreflexive_pairs E -> held E N -> orient_v_structures fuel adj sep N = Ok N' -> held E N'.
Proof.
  intros HI HF. unfold orient_v_structures. apply mfor_held; [|done]. intros b M M' _ HM H. bind_in H E1 as vE1. case_bool_decide; [by injection H as <-|]. bind_in H E2 as vE2. by eapply v_loop_held.
Qed.
Lemma until_held {A} E (f : A -> network -> outcome (network * bool)) l N r : (forall a M r, a ∈ l -> held E M -> f a M = Ok r -> held E (fst r)) -> held E N -> until_true f l N = Ok r -> held E (fst r).
Proof.
  revert N. induction l as [|a l IH]; intros N Hf HF H; [by injection H as <-|]. cbn [until_true] in H. bind_in H E1 as vE. pose proof (Hf a _ _ ltac:(left) HF E1) as K.
  destruct (snd vE); [by injection H as <-|]. apply (IH (fst vE)); [|done|done]. intros x M M' Hx. apply Hf. by right.
Qed.
Lemma rule1_held cap E adj b c N r : bare (b, c) ∈ E -> held E N -> rule1 cap adj b c N = Ok r -> held E (fst r).
Proof.
  intros Hb HF. unfold rule1. intros H. bind_in H E1 as vE. revert HF H. apply until_held. intros a M r' _ HF H. bind_in H E' as vE'. destruct vE'; [by injection H as <-|]. by eapply direct_held.
Qed.
Lemma rule2_held cap E adj b c N r : bare (b, c) ∈ E -> held E N -> rule2 cap adj b c N = Ok r -> held E (fst r).
Proof.
  intros Hb HF. unfold rule2. intros H. bind_in H E1 as vE. revert HF H. apply until_held. intros a M r' _ HF H. bind_in H E' as vE'. destruct vE'; [|by injection H as <-].
  bind_in H E2 as vE2. destruct vE2; [|by injection H as <-]. by eapply direct_held.
Qed.
Lemma rule3_held cap E adj b c N r : bare (b, c) ∈ E -> held E N -> rule3 cap adj b c N = Ok r -> held E (fst r).
Proof.
  intros Hb HF. unfold rule3. intros H. bind_in H E0 as vE. case_bool_decide; [by injection H as <-|]. revert HF H. apply until_held. intros i M r' _ HF H.
  revert HF H. apply until_held. intros j M' r'' _ HF H. bind_in H E1 as vE1. bind_in H E2 as vE2. bind_in H E3 as vE3. destruct vE3; [by injection H as <-|].
  unfold r3_helper in H. bind_in H E4 as vE4. bind_in H E5 as vE5. bind_in H E6 as vE6. bind_in H E7 as vE7. destruct (vE4 && vE5 && vE6 && vE7); [|by injection H as <-]. by eapply direct_held.
Qed.
Lemma any_rule_held cap E adj x y N r : bare (x, y) ∈ E -> held E N -> any_rule cap adj x y N = Ok r -> held E (fst r).
Proof.
  intros Hb. assert (bare (y, x) ∈ E) as Hb' by (by rewrite bare_sym). unfold any_rule. apply until_held. intros f M r' Hf HF H. rewrite !elem_of_cons, elem_of_nil in Hf.
  destruct Hf as [->|[->|[->|[->|[->|[->|[]]]]]]]; first [eapply rule1_held; [|exact HF|exact H]; assumption | eapply rule2_held; [|exact HF|exact H]; assumption | eapply rule3_held; [|exact HF|exact H]; assumption].
Qed.
Lemma listed_pair E N k e : held E N -> nt_edges N !! k = Some e -> bare (e_n1 e, e_n2 e) ∈ E.
Proof. intros (_ & _ & HE) He. apply HE. unfold pairs_of. apply elem_of_list_fmap. exists e. split; [done|]. by eapply elem_of_list_lookup_2. Qed.
Lemma implied_pass_held fuel cap E adj k o N r : held E N -> implied_pass fuel cap adj k o N = Ok r -> held E (fst r).
Proof.
  revert k o N. induction fuel as [|fuel IH]; intros k o N HF H; cbn [implied_pass] in H.
  - destruct (nt_edges N !! k); [done|by injection H as <-].
  - destruct (nt_edges N !! k) as [e|] eqn:He; [|by injection H as <-]. bind_in H E1 as vE. destruct vE; [|by injection H as <-]. bind_in H E2 as vE2. pose proof (any_rule_held _ _ _ _ _ _ _ (listed_pair _ _ _ _ HF He) HF E2) as K.
    destruct (snd vE2); (eapply IH; [apply K|exact H]).
Qed.
Lemma orient_implied_held fuel cap E adj N N' : held E N -> orient_implied fuel cap adj N = Ok N' -> held E N'.
Proof.
  revert N. induction fuel as [|fuel IH]; intros N HF H; [done|]. cbn [orient_implied] in H. bind_in H E1 as vE. pose proof (implied_pass_held _ _ _ _ _ _ _ _ HF E1) as K.
  destruct (snd vE); [|by injection H as <-]. by apply (IH (fst vE)).
Qed.
Lemma direct_left_held fuel cap E adj coin t k N N' : held E N -> direct_left_edges fuel cap adj coin t k N = Ok N' -> held E N'.
Proof.
  revert t k N. induction fuel as [|fuel IH]; intros t k N HF H; cbn [direct_left_edges] in H.
  - destruct (nt_edges N !! k); [done|by injection H as <-].
  - destruct (nt_edges N !! k) as [e|] eqn:He; [|by injection H as <-]. bind_in H E1 as vE. destruct vE; [|by injection H as <-]. pose proof (listed_pair _ _ _ _ HF He) as Hl.
    assert (exists x y, bare (x, y) ∈ E /\ (let '(p, q) := if coin t then (e_n2 e, e_n1 e) else (e_n1 e, e_n2 e) in r ← direct cap N p q; r ← (if (snd r : bool) then Ok r else direct cap (fst r) q p); if (snd r : bool) then direct_left_edges fuel cap adj coin (S t) k (fst r) else Err Exit1) =
      (r ← direct cap N x y; r ← (if (snd r : bool) then Ok r else direct cap (fst r) y x); if (snd r : bool) then direct_left_edges fuel cap adj coin (S t) k (fst r) else Err Exit1)) as (x & y & Hxy & HE).
    { destruct (coin t); do 2 eexists; (split; [|reflexivity]); [by rewrite bare_sym|done]. }
    rewrite HE in H. clear HE. bind_in H E2 as vE2. pose proof (direct_held _ _ _ _ _ _ Hxy HF E2) as K.
    assert (exists r, (if (snd vE2 : bool) then Ok vE2 else direct cap (fst vE2) y x) = Ok r /\ held E (fst r)) as (r & Hr & K2).
    { destruct (snd vE2); [by exists vE2|]. bind_in H E3 as vE3. exists vE3. split; [done|]. eapply direct_held; [|exact K|exact E3]. by rewrite bare_sym. }
    rewrite Hr in H. cbn [mbind outcome_bind] in H. destruct (snd r); [|done]. eapply IH; [apply K2|exact H].
Qed.
Definition skeleton_pairs (es : list pedge) : pairs := (fun e => bare (pe_n1 e, pe_n2 e)) <$> es.
Lemma skeleton_held doms es : held (skeleton_pairs es) (skeleton_network doms es).
Proof.
  split; [apply skeleton_family|]. split.
  - split.
    + intros x y (nd & Hx & Hy). unfold skeleton_network in Hx. cbn [nt_nodes] in Hx. rewrite list_lookup_fmap in Hx. destruct (doms !! x); [|done]. injection Hx as <-. by apply elem_of_nil in Hy.
    + intros e He. unfold skeleton_network in He. cbn [nt_edges] in He. apply elem_of_list_fmap in He as (pe & -> & _). eexists _, _. by right.
  - intros p. unfold pairs_of, skeleton_pairs, skeleton_network. cbn [nt_edges]. rewrite <-list_fmap_compose. assert (forall A (l l' : list A) x, l = l' -> x ∈ l <-> x ∈ l') as Hx by (by intros ? ? ? ? ->). apply Hx, list_fmap_ext. intros i e _. cbn. apply pair_undirected.
Qed.
Theorem orient_held fuel doms dag coin es adj sep N : (forall e, e ∈ es -> pe_n1 e <> pe_n2 e) -> orient_skeleton fuel doms dag coin es adj sep = Ok N -> held (skeleton_pairs es) N.
Proof.
  intros Hd H. assert (irreflexive_pairs (skeleton_pairs es)) as HI. { intros p Hp. apply elem_of_list_fmap in Hp as (e & -> & He). specialize (Hd e He). unfold bare. cbn. lia. }
  unfold orient_skeleton in H. bind_in H E1 as vE1. pose proof (orient_v_held _ _ _ _ _ _ HI (skeleton_held doms es) E1) as K1.
  bind_in H E2 as vE2. pose proof (orient_implied_held _ _ _ _ _ _ K1 E2) as K2. destruct dag; [|by injection H as <-]. apply (direct_left_held _ _ _ _ _ _ _ _ _ K2 H).
Qed.
