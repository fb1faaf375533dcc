(** The implication rules are sound in every network whose records of parents and children agree. *)
From Verif Require Export OrientPairs.
From Verif Require Import NetProofs NetProofs2 NetProofs3 StructProofs OrientProofs OrientProofs3.
Local Open Scope nat_scope.

(** [D] lists the arcs of [N], [F] the pairs that are joined by an edge. *)
Definition drawn (F D : pairs) (N : network) : Prop :=
  family_ok N /\ (forall x y, (x, y) ∈ D <-> parent_rel N x y) /\ forall p, p ∈ pairs_of N <-> p ∈ F.

Section sound.
Context (n : nat) (E : pairs) (A : adjs) (cap : nat) (F : pairs).
Hypothesis HS : skeleton_of n E A.

(** [f] either leaves the arcs as they are or adds p -> q, for the reason [P]. *)
Definition justified (D : pairs) (f : network -> outcome (network * bool)) (p q : nat) (P : Prop) : Prop :=
  forall N r, drawn F D N -> f N = Ok r ->
  (snd r = true -> P /\ addable D p q /\ drawn F (D ++ [(p, q)]) (fst r)) /\ (snd r = false -> drawn F D (fst r)).
Lemma justified_imp D f p q (P P' : Prop) : (P -> P') -> justified D f p q P -> justified D f p q P'.
Proof. clear HS. intros H Hf N r HN Hr. destruct (Hf N r HN Hr) as [H1 H2]. split; [|done]. intros Hb. destruct (H1 Hb) as (? & ? & ?). auto. Qed.
Lemma justified_no D p q P : justified D (fun N => Ok (N, false)) p q P.
Proof. clear HS. intros N r HN [= <-]. by split. Qed.
Lemma justified_until {X} D (f : X -> network -> outcome (network * bool)) l p q (P : Prop) :
  (forall a, a ∈ l -> justified D (f a) p q P) -> justified D (until_true f l) p q P.
Proof.
  clear HS. induction l as [|a l IH]; intros H; [apply justified_no|]. intros N r HN Hr. cbn [until_true] in Hr. bind_in Hr E1 as r1. destruct (H a ltac:(left) N r1 HN E1) as [H1 H2].
  destruct (snd r1) eqn:Hb; [injection Hr as <-; rewrite Hb; by split|]. apply (IH ltac:(intros; apply H; by right) _ _ (H2 eq_refl) Hr).
Qed.

Lemma drawn_child D N x y : drawn F D N -> (x, y) ∈ D <-> child_rel N x y.
Proof. clear HS. intros (HF & HD & _). rewrite HD. symmetry. apply (fo_agree _ HF). Qed.
Lemma directed_answer D N x y b : drawn F D N -> is_directed_from_to N x y = Ok b -> b = true <-> (x, y) ∈ D.
Proof.
  clear HS. intros (_ & HD & _) H. unfold is_directed_from_to in H. bind_in H E1 as ndx. bind_in H E2 as ndy. injection H as <-. rewrite bool_decide_eq_true, HD. unfold find_node in E2. unfold parent_rel.
  destruct (nt_nodes N !! y) as [nd|] eqn:Hy; [|done]. injection E2 as ->. naive_solver.
Qed.
Lemma adjacent_answer x y b : is_adjacent_to A x y = Ok b -> b = true <-> linked A x y.
Proof. clear HS. unfold is_adjacent_to, vat, linked. destruct (A !! x) as [row|] eqn:Hx; [|done]. cbn. intros [= <-]. rewrite bool_decide_eq_true. naive_solver. Qed.
Lemma undirected_answer D N x y : drawn F D N -> is_undirected A N x y = Ok true -> open_edge A D x y.
Proof.
  clear HS. intros HN H. unfold is_undirected in H. bind_in H E1 as a. apply adjacent_answer in E1. destruct a; [|done]. bind_in H E2 as b. pose proof (directed_answer _ _ _ _ _ HN E2) as H2. destruct b; [done|].
  bind_in H E3 as c. pose proof (directed_answer _ _ _ _ _ HN E3) as H3. destruct c; [done|]. split_and!; [by apply E1| |]; intros Hc; [apply H2 in Hc|apply H3 in Hc]; done.
Qed.

Lemma direct_pairs N a c r : bare (a, c) ∈ F -> family_ok N -> (forall p, p ∈ pairs_of N <-> p ∈ F) -> direct cap N a c = Ok r -> forall p, p ∈ pairs_of (fst r) <-> p ∈ F.
Proof.
  clear HS. intros Ha HF HE H. destruct r as [N' b]. cbn [fst]. unfold direct in H. bind_in H E1 as [N1 ad]. destruct (add_directed_family _ _ _ _ _ HF E1) as (_ & _ & H3).
  destruct ad; [|injection H as <- <-; unfold pairs_of; by rewrite H3]. case_bool_decide; [done|]. bind_in H E2 as [N2 d2]. injection H as <- <-. cbn [fst].
  pose proof (pairs_snoc _ _ _ H3) as HP. change (pair_of (directed_edge a c)) with (bare (a, c)) in HP. unfold delete_undirected_edge in E2. bind_in E2 E3 as v1. bind_in E2 E4 as v2.
  destruct (get_undirected_edge N1 (a `min` c) (a `max` c)) as [pos|] eqn:Hg; [|injection E2 as <- <-; intros p; rewrite HP, HE; split; [by intros [?| ->]|by left]].
  injection E2 as <- <-. unfold get_undirected_edge in Hg. apply find_edge_some in Hg as (e & pre & post & He & <- & Hs & _). pose proof (pairs_erase N1 e pre post He) as Hp.
  assert (directed_edge a c ∈ pre ++ post) as Hd.
  { assert (directed_edge a c ∈ pre ++ e :: post) as Hd by (rewrite <-He, H3; apply elem_of_app; right; left). apply elem_of_app in Hd as [Hd|Hd]; [apply elem_of_app; by left|]. apply elem_of_cons in Hd as [<-|Hd]; [|apply elem_of_app; by right]. apply edge_same_spec in Hs as (_ & _ & _ & Hs). unfold undirected_edge in Hs. revert Hs. case_bool_decide; cbn; discriminate. }
  assert (bare (a, c) ∈ pair_of <$> (pre ++ post)) as Hq by (apply elem_of_list_fmap; by exists (directed_edge a c)).
  intros p. unfold pairs_of. cbn [set_edges nt_edges]. rewrite He, erase_at_middle, <-HE. rewrite <-!HE in *. specialize (HP p). specialize (Hp p). split; intros Hx.
  - destruct (proj1 HP (proj2 Hp (or_introl Hx))) as [?| ->]; [done|]. done.
  - destruct (proj1 Hp (proj2 HP (or_introl Hx))) as [?| ->]; [done|]. apply edge_same_spec in Hs as (Hs1 & Hs2 & _). assert (pair_of e = bare (a, c)) as ->; [|done]. unfold pair_of. rewrite Hs1, Hs2. unfold undirected_edge, bare. case_bool_decide; cbn; f_equal; lia.
Qed.
Lemma delete_undirected_nodes N x y N' b : delete_undirected_edge N x y = Ok (N', b) -> nt_nodes N' = nt_nodes N.
Proof.
  clear HS. unfold delete_undirected_edge. intros H. bind_in H E1 as v1. bind_in H E2 as v2. destruct (get_undirected_edge N (x `min` y) (x `max` y)); by injection H as <- <-.
Qed.
Lemma direct_justified D p q : bare (p, q) ∈ F -> justified D (fun N => direct cap N p q) p q True.
Proof.
  clear HS. intros Hpq N r HN Hr. pose proof HN as (HF & HD & HP). pose proof (direct_pairs N p q r Hpq HF HP Hr) as HP'. destruct r as [N' b]. pose proof (direct_kept _ _ _ _ _ _ HF Hr) as (HF' & _). cbn [fst snd] in *.
  unfold direct in Hr. bind_in Hr E1 as [N1 ad]. destruct (add_directed_family _ _ _ _ _ HF E1) as (Hb & H2 & _). pose proof (add_directed_kept _ _ _ _ _ HF E1) as (HF1 & _). destruct ad.
  - case_bool_decide; [done|]. bind_in Hr E2 as [N2 d]. injection Hr as <- <-. cbn [fst] in *. apply delete_undirected_nodes in E2. split; [|done]. intros _.
    assert (forall x y, (x, y) ∈ D ++ [(p, q)] <-> parent_rel N2 x y) as HD2.
    { intros x y. assert (parent_rel N2 x y <-> parent_rel N1 x y) as -> by (unfold parent_rel; by rewrite E2). rewrite <-(fo_agree _ HF1), H2, <-(drawn_child D N x y HN), elem_of_app, elem_of_list_singleton. naive_solver. }
    split_and!; [done| |]; [|by split_and!]. unfold addable. intros x Hx. apply (fo_acyclic _ HF' x). revert Hx. apply tc_mono. intros u v. apply HD2.
  - injection Hr as <- <-. split; [done|]. intros _. split_and!; [done| |done]. intros x y. rewrite <-(fo_agree _ HF'), H2, (drawn_child D N x y HN). naive_solver.
Qed.
Lemma rule1_justified D p q : bare (p, q) ∈ F -> justified D (rule1 cap A p q) p q (exists a, (a, p) ∈ D /\ ~ linked A q a).
Proof.
  clear HS. intros Hpq N r HN Hr. unfold rule1 in Hr. bind_in Hr E1 as nd. pose proof HN as (_ & HD & _).
  assert (forall a, a ∈ nd_parents nd -> (a, p) ∈ D) as Hp. { intros a Ha. apply HD. unfold find_node in E1. destruct (nt_nodes N !! p) as [nd'|] eqn:Hnd; [|done]. injection E1 as ->. by exists nd. }
  revert r HN Hr. generalize N. clear -Hp Hpq. intros N r. revert N r. change (justified D (until_true (fun a N => ac ← is_adjacent_to A q a; if (ac : bool) then Ok (N, false) else direct cap N p q) (nd_parents nd)) p q (exists a, (a, p) ∈ D /\ ~ linked A q a)).
  apply justified_until. intros a Ha N r HN Hr. bind_in Hr E1 as b. apply adjacent_answer in E1. destruct b; [injection Hr as <-; by split|].
  refine (justified_imp D _ p q True _ _ (direct_justified D p q Hpq) N r HN Hr). intros _. exists a. split; [by apply Hp|]. intros Hc. apply E1 in Hc. done.
Qed.
Lemma rule2_justified D p q : bare (p, q) ∈ F -> justified D (rule2 cap A p q) p q (exists b, (p, b) ∈ D /\ (b, q) ∈ D).
Proof.
  clear HS. intros Hpq N r HN Hr. unfold rule2 in Hr. bind_in Hr E1 as l. revert N r HN Hr.
  change (justified D (until_true (fun b N => d ← is_directed_from_to N p b; if (d : bool) then d ← is_directed_from_to N b q; if (d : bool) then direct cap N p q else Ok (N, false) else Ok (N, false)) l) p q (exists b, (p, b) ∈ D /\ (b, q) ∈ D)).
  apply justified_until. intros b _ N r HN Hr. bind_in Hr E2 as d1. pose proof (directed_answer _ _ _ _ _ HN E2) as H1. destruct d1; [|injection Hr as <-; by split]. bind_in Hr E3 as d2. pose proof (directed_answer _ _ _ _ _ HN E3) as H2. destruct d2; [|injection Hr as <-; by split].
  refine (justified_imp D _ p q True _ _ (direct_justified D p q Hpq) N r HN Hr). intros _. exists b. split; [by apply H1|by apply H2].
Qed.
Lemma rule3_justified D p q : bare (p, q) ∈ F -> justified D (rule3 cap A p q) p q
  (exists b c, b <> c /\ ~ linked A b c /\ open_edge A D p b /\ open_edge A D p c /\ (b, q) ∈ D /\ (c, q) ∈ D).
Proof.
  intros Hpq N r HN Hr. unfold rule3 in Hr. bind_in Hr E1 as l. case_bool_decide as Hlen; [injection Hr as <-; by split|].
  assert (NoDup l) as Hnd. { pose proof HS as (_ & _ & _ & Hsort & _). unfold common_adjacents, vat in E1. destruct (A !! q) as [r1|] eqn:H1; [|done]. cbn [mbind outcome_bind] in E1. destruct (A !! p); [|done]. cbn [mbind outcome_bind] in E1. injection E1 as <-. apply NoDup_filter, lt_sorted_NoDup. by eapply Hsort. }
  clear E1 Hlen. revert N r HN Hr.
  match goal with |- forall N r, _ -> until_true ?f ?l N = Ok r -> _ => change (justified D (until_true f l) p q (exists b c, b <> c /\ ~ linked A b c /\ open_edge A D p b /\ open_edge A D p c /\ (b, q) ∈ D /\ (c, q) ∈ D)) end.
  apply justified_until. intros i Hi. apply justified_until. intros j Hj. apply elem_of_seq in Hj. intros N r HN Hr. bind_in Hr E1 as b. bind_in Hr E2 as c. bind_in Hr E3 as bc. apply adjacent_answer in E3. destruct bc; [injection Hr as <-; by split|].
  unfold r3_helper in Hr. bind_in Hr E4 as b5. bind_in Hr E5 as b6. bind_in Hr E6 as b7. bind_in Hr E7 as b8. pose proof (directed_answer _ _ _ _ _ HN E6) as H7. pose proof (directed_answer _ _ _ _ _ HN E7) as H8.
  destruct (b5 && b6 && b7 && b8) eqn:Hall; [|injection Hr as <-; by split]. rewrite !andb_true_iff in Hall. destruct Hall as [[[-> ->] ->] ->].
  refine (justified_imp D _ p q True _ _ (direct_justified D p q Hpq) N r HN Hr). intros _. exists b, c. split_and!.
  - intros ->. unfold vget in E1, E2. destruct (l !! i) eqn:H1; [|done]. destruct (l !! j) eqn:H2; [|done]. injection E1 as ->. injection E2 as ->. assert (i = j) by (eapply NoDup_lookup; done). lia.
  - intros Hc. apply E3 in Hc. done.
  - by apply (undirected_answer D N).
  - by apply (undirected_answer D N).
  - by apply H7.
  - by apply H8.
Qed.
(** One step: nothing, or a direction that a rule demands. *)
Definition moves (D D' : pairs) : Prop := D' = D \/ exists p q, D' = D ++ [(p, q)] /\ open_edge A D p q /\ addable D p q /\ implied A D p q.
Lemma any_rule_moves D x y N r : open_edge A D x y -> bare (x, y) ∈ F -> drawn F D N -> any_rule cap A x y N = Ok r -> exists D', moves D D' /\ drawn F D' (fst r).
Proof.
  intros Ho Hxy HN. pose proof (OrientProofs3.open_sym n E A HS D x y Ho) as Ho'. assert (bare (y, x) ∈ F) as Hyx by (by rewrite bare_sym). unfold any_rule.
  assert (forall f p q (P : Prop), justified D f p q P -> (P -> implied A D p q) -> open_edge A D p q -> forall N r, drawn F D N -> f N = Ok r -> (snd r = true -> exists D', moves D D' /\ drawn F D' (fst r)) /\ (snd r = false -> drawn F D (fst r))) as Hone.
  { clear -HS. intros f p q P Hf HP Ho N r HN Hr. destruct (Hf N r HN Hr) as [H1 H2]. split; [|done]. intros Hb. destruct (H1 Hb) as (HPP & Ha & Hd). exists (D ++ [(p, q)]). split; [|done]. right. exists p, q. split_and!; auto. }
  assert (forall l, (forall f, f ∈ l -> forall N r, drawn F D N -> f N = Ok r -> (snd r = true -> exists D', moves D D' /\ drawn F D' (fst r)) /\ (snd r = false -> drawn F D (fst r))) ->
    forall N r, drawn F D N -> until_true (fun f N => f N) l N = Ok r -> exists D', moves D D' /\ drawn F D' (fst r)) as Hall.
  { clear. induction l as [|f l IH]; intros Hl N r HN Hr; cbn [until_true] in Hr; [injection Hr as <-; exists D; split; [by left|done]|]. bind_in Hr E1 as r1. destruct (Hl f ltac:(left) N r1 HN E1) as [H1 H2].
    destruct (snd r1); [injection Hr as <-; by apply H1|]. apply (IH ltac:(intros; by eapply Hl; [right|..]) _ _ (H2 eq_refl) Hr). }
  revert N r HN. refine (Hall _ _). intros f Hf. rewrite !elem_of_cons, elem_of_nil in Hf. destruct Hf as [->|[->|[->|[->|[->|[->|[]]]]]]].
  - apply (Hone _ x y _ (rule1_justified D x y Hxy)); [intros; by left|done].
  - apply (Hone _ y x _ (rule1_justified D y x Hyx)); [intros; by left|done].
  - apply (Hone _ x y _ (rule2_justified D x y Hxy)); [intros; by right; left|done].
  - apply (Hone _ y x _ (rule2_justified D y x Hyx)); [intros; by right; left|done].
  - apply (Hone _ x y _ (rule3_justified D x y Hxy)); [intros; by right; right|done].
  - apply (Hone _ y x _ (rule3_justified D y x Hyx)); [intros; by right; right|done].
Qed.
Lemma moves_directing D D' : moves D D' -> exists L, D' = D ++ L /\ directing (implied A) A D L.
Proof.
  clear HS. intros [->|(p & q & -> & Ho & Ha & Hi)]; [exists []; by rewrite app_nil_r|]. exists [(p, q)]. split; [done|]. cbn [directing]. by split_and!.
Qed.
Lemma pass_sound fuel : forall k o D N r, drawn F D N -> implied_pass fuel cap A k o N = Ok r -> exists L, directing (implied A) A D L /\ drawn F (D ++ L) (fst r).
Proof.
  induction fuel as [|fuel IH]; intros k o D N r HN Hr; cbn [implied_pass] in Hr.
  - destruct (nt_edges N !! k); [done|]. injection Hr as <-. exists []. by rewrite app_nil_r.
  - destruct (nt_edges N !! k) as [e|] eqn:He; [|injection Hr as <-; exists []; by rewrite app_nil_r]. bind_in Hr E1 as u. destruct u; [|injection Hr as <-; exists []; by rewrite app_nil_r]. apply (undirected_answer D) in E1; [|done].
    bind_in Hr E2 as r1. assert (bare (e_n1 e, e_n2 e) ∈ F) as Hin. { pose proof HN as (_ & _ & HP). apply HP. unfold pairs_of. apply elem_of_list_fmap. exists e. split; [done|]. by eapply elem_of_list_lookup_2. }
    destruct (any_rule_moves D _ _ N r1 E1 Hin HN E2) as (D1 & Hm & HN1). apply moves_directing in Hm as (L1 & -> & HL1).
    assert (exists k' o', implied_pass fuel cap A k' o' (fst r1) = Ok r) as (k' & o' & Hr') by (destruct (snd r1); eauto). destruct (IH _ _ _ _ _ HN1 Hr') as (L2 & HL2 & HN2). exists (L1 ++ L2). rewrite app_assoc. split; [|done]. apply directing_app. by split.
Qed.
Lemma implied_sound fuel : forall D N N', drawn F D N -> orient_implied fuel cap A N = Ok N' -> exists L, directing (implied A) A D L /\ drawn F (D ++ L) N'.
Proof.
  induction fuel as [|fuel IH]; intros D N N' HN Hr; [done|]. cbn [orient_implied] in Hr. bind_in Hr E1 as r. destruct (pass_sound _ _ _ _ _ _ HN E1) as (L1 & HL1 & HN1).
  destruct (snd r); [|injection Hr as <-; by exists L1]. destruct (IH _ _ _ HN1 Hr) as (L2 & HL2 & HN2). exists (L1 ++ L2). rewrite app_assoc. split; [|done]. apply directing_app. by split.
Qed.
End sound.

Lemma joined_pairs N x y : edges_between N x y <> 0 <-> bare (x, y) ∈ pairs_of N.
Proof.
  unfold edges_between, pairs_of, pair_of. rewrite elem_of_list_fmap. split.
  - intros H. destruct (filter _ (nt_edges N)) as [|e l] eqn:Hf; [done|]. assert (e ∈ filter (fun e => bare (e_n1 e, e_n2 e) = bare (x, y)) (nt_edges N)) as He by (rewrite Hf; left). apply elem_of_list_filter in He as [H1 H2]. by exists e.
  - intros (e & H1 & H2) H. apply nil_length_inv in H. assert (e ∈ filter (fun e => bare (e_n1 e, e_n2 e) = bare (x, y)) (nt_edges N)) as He by (by apply elem_of_list_filter). rewrite H in He. by apply elem_of_nil in He.
Qed.
Theorem implied_is_sound n E A cap fuel N D N' : skeleton_of n E A -> family_ok N -> (forall x y, (x, y) ∈ D <-> parent_rel N x y) -> orient_implied fuel cap A N = Ok N' ->
  exists L, directing (implied A) A D L /\ (forall x y, (x, y) ∈ D ++ L <-> parent_rel N' x y) /\ acyclic (parent_rel N') /\ forall x y, edges_between N' x y <> 0 <-> edges_between N x y <> 0.
Proof.
  intros HS HF HD Hr. destruct (implied_sound n E A cap (pairs_of N) HS fuel D N N' ltac:(by split_and!) Hr) as (L & HL & HF' & HD' & HP). exists L. split_and!; [done|done|apply (fo_acyclic _ HF')|]. intros x y. rewrite !joined_pairs. apply HP.
Qed.
