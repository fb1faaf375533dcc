(** Otherwise some flips of the coin leave the class. *)
From Verif Require Import ExtendSpec PCModel PCSpec UtilProofs NetProofs NetProofs2 NetProofs3 PCProofs4 PCTheorems OrientModel OrientSpec OrientProofs OrientProofs3 OrientTheorems OrientSafe DSepProofs EssentialProofs DSepTheorems DSepWitness ShdTheorems EssentialSpec RecoverPipe ExtendTheorems.
Local Open Scope nat_scope.

Lemma rank_acyclic (D : list (nat * nat)) (rank : nat -> nat) : (forall u v, (u, v) ∈ D -> rank u < rank v) -> acyclic (fun u v => (u, v) ∈ D).
Proof. intros H. assert (forall u v, tc (fun u v => (u, v) ∈ D) u v -> rank u < rank v) as Ht. { induction 1 as [u v Huv|u w v Huw _ IH]; [by apply H|]. apply H in Huw. lia. } intros x Hx. apply Ht in Hx. lia. Qed.
Lemma without_head (p : nat * nat) U : NoDup (p :: U) -> OrientProofs.without (p :: U) p = U.
Proof. intros [H _]%NoDup_cons. apply (without_split [] U p); [by intros ?%elem_of_nil|done]. Qed.
Section along.
Context (n : nat) (E : list (nat * nat)) (A : adjs) (cap : nat) (HS : skeleton_of n E A) (Hcap : length E < cap) (rank : nat -> nat).
Lemma direct_left_along coin fuel : forall t N U D, pat n N U D -> U ++ (bare <$> D) ≡ₚ E -> length U < fuel -> (forall u v, (u, v) ∈ D -> rank u < rank v) -> (forall p, p ∈ U -> rank p.1 <> rank p.2) ->
  (forall i p, U !! i = Some p -> coin (t + i) = bool_decide (rank p.2 < rank p.1)) ->
  exists N' L, direct_left_edges fuel cap A coin t 0 N = Ok N' /\ pat n N' [] (D ++ L) /\ (bare <$> D ++ L) ≡ₚ E /\ (forall u v, (u, v) ∈ D ++ L -> rank u < rank v).
Proof using HS Hcap.
  induction fuel as [|fuel IH]; intros t N U D HN Hperm Hfuel HD HU Hcoin; [lia|]. destruct U as [|p U].
  - destruct (direct_left_ok n E A cap HS Hcap coin (S fuel) t N [] D HN Hperm Hfuel) as (N' & L & H1 & H2 & H3 & H4). exists N', L. assert (L = []) as ->; [|rewrite app_nil_r in *; done].
    apply Permutation_length in Hperm, H3. rewrite app_length, fmap_length in Hperm. rewrite fmap_length, app_length in H3. cbn in Hperm. destruct L; [done|cbn in H3; lia].
  - cbn [direct_left_edges]. rewrite (pat_lookup n N (p :: U) D 0 HN). cbn [lookup list_lookup]. destruct (U_open n E A HS (p :: U) D 0 p N HN Hperm eq_refl) as [Ho Hbare]. cbn [e_n1 e_n2]. pose proof (linked_bound n E A _ _ HS (proj1 Ho)) as (H1 & H2 & Hne).
    destruct (is_undirected_pat n E A N (p :: U) D (fst p) (snd p) HS HN Hperm H1 H2) as (u & -> & Hu). cbn [mbind outcome_bind]. destruct u; [|apply Hu in Ho; done].
    assert (exists x y, (if coin t then (p.2, p.1) else (p.1, p.2)) = (x, y) /\ open_edge A D x y /\ bare (x, y) = p /\ rank x < rank y) as (x & y & -> & Hoxy & Hb & Hrk).
    { pose proof (Hcoin 0 p eq_refl) as Hc. rewrite Nat.add_0_r in Hc. rewrite Hc. pose proof (HU p ltac:(left)) as Hr. case_bool_decide as Hlt.
      - exists p.2, p.1. split; [done|]. split; [destruct Ho as (Hl & O1 & O2); split_and!; [by apply (linked_sym n E A _ _ HS)|done|done]|]. split; [|done]. rewrite <-Hbare at 3. destruct p as [a b]. unfold bare. cbn. f_equal; lia.
      - exists p.1, p.2. split; [done|]. split; [done|]. split; [by destruct p|lia]. }
    destruct (direct_attempt n E A cap HS Hcap (p :: U) D Hperm x y Hoxy N HN) as (N1 & b & -> & Ht & Hf). cbn [mbind outcome_bind fst snd].
    assert (forall u v, (u, v) ∈ D ++ [(x, y)] -> rank u < rank v) as HD'. { intros u v [H|[= -> ->]%elem_of_list_singleton]%elem_of_app; [by apply HD|done]. }
    destruct b; cbn [snd]; [|exfalso; apply (proj2 (Hf eq_refl)); [done|]; unfold addable; by apply (rank_acyclic _ rank)]. cbn [mbind outcome_bind snd fst]. destruct (Ht eq_refl) as (_ & _ & HN1). rewrite Hb in HN1. rewrite (without_head p U (pt_nodup _ _ _ _ HN)) in HN1.
    assert (U ++ (bare <$> D ++ [(x, y)]) ≡ₚ E) as Hperm1. { rewrite <-Hperm, fmap_app. cbn [fmap list_fmap]. rewrite Hb. rewrite (Permutation_app_comm _ [p]). cbn [app]. symmetry. apply Permutation_middle. }
    destruct (IH (S t) N1 U (D ++ [(x, y)]) HN1 Hperm1) as (N' & L & -> & HN' & Hp' & Hr'); [cbn in Hfuel; lia|done|intros q Hq; apply HU; by right|intros i q Hi; rewrite Nat.add_succ_comm; by apply Hcoin|].
    exists N', ((x, y) :: L). rewrite <-app_assoc in HN', Hp', Hr'. split_and!; done.
Qed.
End along.

(** An order of the nodes along the edges [P] with [x] and [z] before [y]. *)
Lemma late_rank n (P : list (nat * nat)) (rk : nat -> nat) x y z : (forall u v, (u, v) ∈ P -> u < n /\ v < n /\ rk u < rk v) -> x < n -> z < n -> x <> y -> z <> y ->
  ~ tc (fun u v => (u, v) ∈ P) y x -> ~ tc (fun u v => (u, v) ∈ P) y z ->
  exists rank, (forall u v, (u, v) ∈ P -> rank u < rank v) /\ (forall u v, u < n -> v < n -> u <> v -> rank u <> rank v) /\ rank x < rank y /\ rank z < rank y.
Proof.
  intros HP Hx Hz Hxy Hzy Hnx Hnz. set (g := fun u v : nat => bool_decide ((u, v) ∈ P)).
  assert (forall u v, g u v = true <-> (u, v) ∈ P) as Hg by (intros u v; unfold g; apply bool_decide_eq_true).
  set (m := S (max_list (rk <$> seq 0 n))). assert (forall v, v < n -> rk v < m) as Hm. { intros v Hv. unfold m. apply Nat.lt_succ_r, max_list_elem_of_le, elem_of_list_fmap. exists v. split; [done|]. apply elem_of_seq. lia. }
  assert (forall u v, tc (fun u v => (u, v) ∈ P) u v <-> u < n /\ v < n /\ reaches n g m u v = true) as Hre.
  { intros u v. split.
    - intros H. assert (u < n /\ v < n) as [Hu Hv]. { split; [destruct H as [u v H|u w v H _]; apply HP in H; tauto|]. clear -H HP. induction H as [u v H|]; [apply HP in H; tauto|done]. }
      split_and!; [done|done|]. apply (reaches_complete n g rk); [intros a b Hab%Hg; apply HP in Hab; tauto|intros a b Hab%Hg; apply HP in Hab; tauto| |pose proof (Hm v Hv); lia].
      unfold descendant. clear -H Hg. induction H as [u v H|u w v H _ IH]; [apply tc_once|eapply tc_l; [|exact IH]]; by apply Hg.
    - intros (_ & _ & H). apply reaches_sound in H. unfold descendant in H. clear -H Hg. induction H as [u v H|u w v H _ IH]; [apply tc_once|eapply tc_l; [|exact IH]]; by apply Hg. }
  set (late := fun v : nat => bool_decide (v = y) || (bool_decide (y < n) && bool_decide (v < n) && reaches n g m y v)).
  assert (forall v, late v = true <-> v = y \/ tc (fun u v => (u, v) ∈ P) y v) as Hlate. { intros v. unfold late. rewrite orb_true_iff, !andb_true_iff, !bool_decide_eq_true, Hre. tauto. }
  exists (fun v => (rk v + (if late v then m else 0)) * S n + v). split_and!.
  - intros u v Huv. destruct (HP u v Huv) as (Hu & Hv & Hr). assert (late u = true -> late v = true) as Hl. { intros H. apply Hlate. right. apply Hlate in H as [->|H]; [by apply tc_once|]. eapply tc_r; [exact H|done]. }
    assert (rk u + (if late u then m else 0) < rk v + (if late v then m else 0)) as Hlt by (destruct (late u); [rewrite Hl by done; lia|destruct (late v); lia]). nia.
  - intros u v Hu Hv Hne Heq. apply Hne. assert (forall a b, (a * S n + b) mod S n = b mod S n) as Hmod. { intros a b. rewrite Nat.add_comm. apply Nat.mod_add. lia. } apply (f_equal (fun q => q mod S n)) in Heq. rewrite !Hmod, !Nat.mod_small in Heq by lia. done.
  - assert (late x = false) as ->. { destruct (late x) eqn:H; [|done]. apply Hlate in H as [H|H]; done. } assert (late y = true) as -> by (apply Hlate; by left). pose proof (Hm x Hx). nia.
  - assert (late z = false) as ->. { destruct (late z) eqn:H; [|done]. apply Hlate in H as [H|H]; done. } assert (late y = true) as -> by (apply Hlate; by left). pose proof (Hm z Hz). nia.
Qed.

Theorem pc_dag_leaves : forall n g ind tst gmax size sch depth doms, dag n g -> dsep_oracle ind n g -> decides tst ind n gmax -> 1 <= size <= gmax -> valid_sched sch ->
  (forall v, length (dag_parents n g v) < depth) -> length doms = n ->
  exists F, forall fuel, F <= fuel -> exists es A S, skeleton_search tst n depth fuel size sch = Ok (es, A, S) /\
  forall x y z, reversible n g x y -> reversible n g z y -> x <> z -> ~ adjacent g x z -> exists coin N, orient_skeleton fuel doms true coin es A S = Ok N /\
  v_structure (arcs_of N) x y z /\ ~ v_structure g x y z.
Proof.
  intros n g ind tst gmax size sch depth doms Hdag Ho Hdec Hsz Hsch Hdeg Hd. destruct (pc_core_coins n g ind tst gmax size sch depth doms Hdag Ho Hdec Hsz Hsch Hdeg Hd) as (F & HF). exists F. intros fuel Hf.
  destruct (HF fuel Hf) as (es & A & S & N0 & H1 & H2 & E & U & D & L & Hes & Hfn & HSk & Hlk & Hpat & Hfu & _ & HD & Hsound & Heither & _). exists es, A, S. split; [done|]. intros x y z Hrx Hrz Hne Hna.
  assert (forall x y h, dag n h -> h x y = true -> h y x = true -> False) as Hasym. { intros a b h Hh H3 H4. destruct (dag_rank n h Hh) as (rk & Hrk). apply Hrk in H3, H4. lia. }
  assert (forall x y, reversible n g x y -> adjacent g x y /\ x < n /\ y < n /\ x <> y) as Hadj. { intros a b [(h & Hh & Heq & Hab) _]. split; [apply Heq; by left|]. destruct (proj1 Hh a b Hab). split_and!; [done|done|]. intros ->. by apply (Hasym b b h Hh). }
  destruct (Hadj x y Hrx) as (Hax & Hxn & Hyn & Hxy), (Hadj z y Hrz) as (Haz & Hzn & _ & Hzy).
  assert (length E < edge_capacity n) as Hcap. { destruct (decide (length E < edge_capacity n)); [done|]. exfalso. apply Hna, Hlk, (complete_linked n E A HSk); [lia|done|done|done]. }
  pose proof (proj1 (pattern_pat n E A N0 U (D ++ L) HSk) Hpat) as [Hp Hperm].
  assert (markov_equivalent g g) as Hrefl by (by split). destruct (dag_rank n g Hdag) as (rk & Hrk).
  assert (forall a b, (exists h, dag n h /\ markov_equivalent g h /\ h a b = true) -> ~ tc (fun u v => (u, v) ∈ D ++ L) b a) as Hnt.
  { intros a b (h & Hh & Heq & Hab) Htc. destruct (dag_rank n h Hh) as (rh & Hrh). assert (rh b < rh a) as Hlt; [|apply Hrh in Hab; lia]. clear -Htc Hrh Hsound Hh Heq. induction Htc as [u v H|u w v H _ IH]; [by apply Hrh, Hsound|]. assert (rh u < rh w) by (by apply Hrh, Hsound). lia. }
  destruct (late_rank n (D ++ L) rk x y z) as (rank & R1 & R2 & R3 & R4); try done.
  { intros u v Huv. pose proof (Hsound u v g Huv Hdag Hrefl) as Hg. destruct (proj1 Hdag u v Hg). split_and!; [done|done|by apply Hrk]. }
  { apply Hnt, Hrx. } { apply Hnt, Hrz. }
  set (coin := fun t => match U !! t with Some p => bool_decide (rank p.2 < rank p.1) | None => false end).
  destruct (direct_left_along n E A (edge_capacity n) HSk Hcap rank coin fuel 0 N0 U (D ++ L) Hp Hperm) as (N & L2 & HN & HP & Hbare & HR); [apply Permutation_length in Hperm; rewrite app_length in Hperm; lia|done| |intros i p Hi; unfold coin; cbn; by rewrite Hi|].
  { intros p Hpu. apply elem_of_list_lookup in Hpu as [i Hi]. destruct (U_open n E A HSk U (D ++ L) i p N0 Hp Hperm Hi) as [Hop _]. pose proof (linked_bound n E A _ _ HSk (proj1 Hop)) as (B1 & B2 & B3). by apply R2. }
  exists coin, N. split; [by rewrite (H2 true coin)|].
  assert (forall a b, adjacent g a b -> rank a < rank b -> arcs_of N a b = true) as Harc.
  { intros a b Hab Hr. apply has_directed_arcs, (pat_directed _ _ _ _ a b HP). apply Hlk, (linked_bare n E A a b HSk) in Hab as [_ Hin]. rewrite <-Hbare in Hin. apply elem_of_list_fmap in Hin as ([u v] & Heq & Hin). assert ((u = a /\ v = b) \/ (u = b /\ v = a)) as [[-> ->]|[-> ->]]; [|done|apply HR in Hin; lia]. unfold bare in Heq. cbn in Heq. injection Heq as Q1 Q2. lia. }
  split.
  - split_and!; [split; by apply Harc|done|]. intros Hadjx. assert (forall a b, arcs_of N a b = true -> adjacent g a b) as Hback.
    { intros a b Hab%has_directed_arcs%(pat_directed _ _ _ _ a b HP). apply Hlk, (linked_bare n E A a b HSk). split; [intros ->; apply HR in Hab; lia|]. rewrite <-Hbare. by apply (elem_of_list_fmap_1 bare) in Hab. }
    apply Hna. destruct Hadjx as [H|H]; apply Hback in H; [done|by apply adjacent_sym].
  - intros Hv. destruct Hrx as [_ (h & Hh & Heq & Hyx)]. apply Heq in Hv. apply (Hasym x y h Hh); [apply Hv|done].
Qed.
Theorem pc_dag_exactly : forall n g ind tst gmax size sch depth doms, dag n g -> dsep_oracle ind n g -> decides tst ind n gmax -> 1 <= size <= gmax -> valid_sched sch ->
  (forall v, length (dag_parents n g v) < depth) -> length doms = n -> (exists x y, x < n /\ y < n /\ x <> y /\ ~ adjacent g x y) ->
  exists F, forall fuel, F <= fuel -> exists es A S, skeleton_search tst n depth fuel size sch = Ok (es, A, S) /\
  ((forall coin, exists N, orient_skeleton fuel doms true coin es A S = Ok N /\ markov_equivalent g (arcs_of N)) <-> reversible_cliques n g).
Proof.
  intros n g ind tst gmax size sch depth doms Hdag Ho Hdec Hsz Hsch Hdeg Hd Hmiss.
  destruct (pc_dag_leaves n g ind tst gmax size sch depth doms Hdag Ho Hdec Hsz Hsch Hdeg Hd) as (F1 & HF1). destruct (pc_dag_class n g ind tst gmax size sch depth doms Hdag Ho Hdec Hsz Hsch Hdeg Hd Hmiss) as (F2 & HF2).
  exists (Nat.max F1 F2). intros fuel Hf. destruct (HF1 fuel ltac:(lia)) as (es & A & S & H1 & HN), (HF2 fuel ltac:(lia)) as (es' & A' & S' & H1' & HC). rewrite H1 in H1'. injection H1' as <- <- <-. exists es, A, S. split; [done|]. split.
  - intros Hall x y z Hx Hz Hne. destruct (decide (adjacent g x z)) as [|Hna]; [done|exfalso]. destruct (HN x y z Hx Hz Hne Hna) as (coin & N & H2 & Hv & Hnv). destruct (Hall coin) as (N' & H2' & Heq). rewrite H2 in H2'. injection H2' as <-. by apply Hnv, Heq.
  - intros Hcl coin. destruct (HC Hcl coin) as (N & H2 & _ & _ & _ & Heq). by exists N.
Qed.
