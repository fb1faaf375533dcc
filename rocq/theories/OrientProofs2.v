(** Collider orientation when the demanded directions follow a ranking of the nodes. *)
From Verif Require Import OrientModel OrientSpec NetProofs NetProofs2 NetProofs3 OrientProofs PCProofs ChoiceProofs UtilSpec.
Local Open Scope nat_scope.

Lemma ranked_tc (R : nat -> nat -> Prop) (rank : nat -> nat) x y : (forall x y, R x y -> rank x < rank y) -> tc R x y -> rank x < rank y.
Proof. intros H. induction 1 as [a b Hab|a b c Hab _ IH]; [by apply H|]. apply H in Hab. lia. Qed.
Lemma ranked_addable (D : pairs) (rank : nat -> nat) x y : (forall u v, (u, v) ∈ D -> rank u < rank v) -> rank x < rank y -> addable D x y.
Proof.
  intros H Hxy z Hz. apply (ranked_tc _ rank) in Hz; [lia|]. intros u v Huv. apply elem_of_app in Huv as [Huv|Huv]; [by apply H|]. apply elem_of_list_singleton in Huv. naive_solver.
Qed.
Definition grow (D : pairs) (p : nat * nat) (d : deleted) : pairs := if bool_decide (d = Kept) then D else D ++ [p].
Lemma delete_for_collider_pat n N U D b x : pat n N U D -> (b, x) ∉ D -> x < n -> b < n -> x <> b ->
  exists N', delete_for_collider N b x = Ok (N', if bool_decide (bare (x, b) ∈ U) then WasUndirected else Kept) /\ pat n N' (without U (bare (x, b))) D.
Proof.
  intros HP Hn Hx Hb Hne. unfold delete_for_collider. pose proof (pt_len _ _ _ _ HP) as Hl. rewrite delete_directed_none; [|lia|lia|by rewrite (pat_directed _ _ _ _ _ _ HP)]. cbn [mbind outcome_bind].
  destruct (delete_undirected_pat n N U D x b HP Hx Hb Hne) as (N' & b' & -> & -> & HP'). exists N'. split; [|done]. cbn [mbind outcome_bind]. by case_bool_decide.
Qed.
Lemma add_for_collider_pat n N U D (rank : nat -> nat) b x d : pat n N U D -> (forall u v, (u, v) ∈ D -> rank u < rank v) -> rank x < rank b -> x < n -> b < n ->
  exists N', add_for_collider N b x d = Ok (N', false) /\ pat n N' U (grow D (x, b) d).
Proof.
  intros HP Hr Hxb Hx Hb. unfold add_for_collider, grow. case_bool_decide; [by exists N|]. destruct (add_directed_pat n N U D x b HP Hx Hb) as (N' & b' & -> & Ht & Hf). cbn [mbind outcome_bind fst snd].
  destruct b'; [exists N'; split; [done|by apply Ht]|]. destruct (Hf eq_refl) as [Hc _]. destruct Hc. by eapply ranked_addable.
Qed.
Lemma perm_grow U D E x y : NoDup U -> U ++ (bare <$> D) ≡ₚ E -> without U (bare (x, y)) ++ (bare <$> grow D (x, y) (if bool_decide (bare (x, y) ∈ U) then WasUndirected else Kept)) ≡ₚ E.
Proof.
  intros HU HP. unfold grow. destruct (decide (bare (x, y) ∈ U)) as [Hin|Hin]; [rewrite (bool_decide_true _ Hin)|rewrite (bool_decide_false _ Hin)].
  - rewrite bool_decide_false by done. by apply perm_move.
  - rewrite bool_decide_true by done. assert (without U (bare (x, y)) = U) as ->; [|done]. unfold without. clear -Hin. induction U as [|q U IH]; [done|]. rewrite filter_cons, decide_True by set_solver. f_equal. apply IH. set_solver.
Qed.
Lemma without_nodup U p : NoDup U -> NoDup (without U p).
Proof. apply NoDup_filter. Qed.
Lemma elem_of_grow D p d q : q ∈ grow D p d <-> q ∈ D \/ (d <> Kept /\ q = p).
Proof. unfold grow. case_bool_decide; [intuition done|]. rewrite elem_of_app, elem_of_list_singleton. intuition done. Qed.

Section colliders.
Context (n : nat) (E : pairs) (A : adjs) (S : sepmap) (rank : nat -> nat).
Hypothesis HS : skeleton_of n E A.
Hypothesis Hrank : forall x y, into A S x y -> rank x < rank y.
Definition good (U D : pairs) : Prop := U ++ (bare <$> D) ≡ₚ E /\ forall u v, (u, v) ∈ D -> into A S u v.
Lemma orient_collider_ok N U D a b c : pat n N U D -> good U D -> collider A S a b c ->
  exists N' U' D', orient_collider N a b c = Ok N' /\ pat n N' U' D' /\ good U' D' /\ (a, b) ∈ D' /\ (c, b) ∈ D' /\ (forall p, p ∈ D -> p ∈ D').
Proof using HS Hrank.
  intros HP [Hperm Hinto] Hcol. pose proof Hcol as (Hac & Hba & Hbc & Hnac & Hsep).
  assert (into A S a b) as Hia by (exists c; by left). assert (into A S c b) as Hic by (exists a; by right).
  destruct (linked_bound n E A b a HS Hba) as (Hb & Ha & Hab). destruct (linked_bound n E A b c HS Hbc) as (_ & Hc & Hcb). pose proof (Hrank _ _ Hia) as Hra. pose proof (Hrank _ _ Hic) as Hrc.
  assert (forall u v, (u, v) ∈ D -> rank u < rank v) as HrD by (intros; by apply Hrank, Hinto).
  assert ((b, a) ∉ D) as Hnba by (intros H; apply HrD in H; lia). assert ((b, c) ∉ D) as Hnbc by (intros H; apply HrD in H; lia).
  unfold orient_collider. destruct (delete_for_collider_pat n N U D b a HP Hnba Ha Hb ltac:(lia)) as (N1 & -> & HP1). cbn [mbind outcome_bind].
  destruct (delete_for_collider_pat n N1 _ D b c HP1 Hnbc Hc Hb ltac:(lia)) as (N2 & -> & HP2). cbn [mbind outcome_bind].
  set (U1 := without U (bare (a, b))) in *. set (d1 := if bool_decide (bare (a, b) ∈ U) then WasUndirected else Kept). set (U2 := without U1 (bare (c, b))) in *. set (d2 := if bool_decide (bare (c, b) ∈ U1) then WasUndirected else Kept).
  destruct (add_for_collider_pat n N2 U2 D rank b a d1 HP2 HrD Hra Ha Hb) as (N3 & -> & HP3). cbn [mbind outcome_bind].
  assert (forall u v, (u, v) ∈ grow D (a, b) d1 -> into A S u v) as Hinto1 by (intros u v Hu; apply elem_of_grow in Hu as [Hu|[_ [= -> ->]]]; [by apply Hinto|done]).
  destruct (add_for_collider_pat n N3 U2 _ rank b c d2 HP3 ltac:(intros; by apply Hrank, Hinto1) Hrc Hc Hb) as (N4 & -> & HP4). cbn [mbind outcome_bind orb].
  assert (U1 ++ (bare <$> grow D (a, b) d1) ≡ₚ E) as Hp1 by (apply perm_grow; [apply (pt_nodup _ _ _ _ HP)|done]).
  assert (U2 ++ (bare <$> grow (grow D (a, b) d1) (c, b) d2) ≡ₚ E) as Hp2 by (apply perm_grow; [apply without_nodup, (pt_nodup _ _ _ _ HP)|done]).
  assert (forall u v, (u, v) ∈ grow (grow D (a, b) d1) (c, b) d2 -> into A S u v) as Hinto2 by (intros u v Hu; apply elem_of_grow in Hu as [Hu|[_ [= -> ->]]]; [by apply Hinto1|done]).
  exists N4, U2, (grow (grow D (a, b) d1) (c, b) d2). split_and!; [done|done|done| | |].
  - apply elem_of_grow. left. apply elem_of_grow. unfold d1. case_bool_decide as Hin; [by right|]. left. assert (bare (a, b) ∈ E) as HinE by (apply (linked_bare n E A a b HS); by eapply linked_sym).
    rewrite <-Hperm in HinE. apply elem_of_app in HinE as [?|HinE]; [done|]. apply elem_of_list_fmap in HinE as ([u v] & Heq & HinD). apply bare_eq in Heq as [[-> ->]|[-> ->]]; [done|]. apply HrD in HinD. lia.
  - apply elem_of_grow. unfold d2. case_bool_decide as Hin; [by right|]. left. assert (bare (c, b) ∈ E) as HinE by (apply (linked_bare n E A c b HS); by eapply linked_sym).
    rewrite <-Hp1 in HinE. apply elem_of_app in HinE as [?|HinE]; [done|]. apply elem_of_list_fmap in HinE as ([u v] & Heq & HinD). apply bare_eq in Heq as [[-> ->]|[-> ->]]; [done|]. apply Hinto1, Hrank in HinD. lia.
  - intros p Hp. rewrite !elem_of_grow. tauto.
Qed.

(** [rem]: the index pairs of neighbours of [b] not yet looked at. *)
Definition done_until (b : nat) (vec : list nat) (rem : list (list nat)) (N : network) : Prop :=
  exists U D, pat n N U D /\ good U D /\
  forall a b' c, collider A S a b' c -> b' < b \/ (b' = b /\ [a; c] ∉ pick vec <$> rem) -> (a, b') ∈ D /\ (c, b') ∈ D.
Lemma v_triple_ok b vec ch rem N : A !! b = Some vec -> ch ∈ combs (length vec) 0 2 -> done_until b vec (ch :: rem) N ->
  exists i j a c N', ch = [i; j] /\ vec !! i = Some a /\ vec !! j = Some c /\ v_triple A S b a c N = Ok N' /\ done_until b vec rem N'.
Proof using HS Hrank.
  intros Hvec Hch (U & D & HP & HG & Hdone). apply elem_of_combs in Hch as (Hl & Hs & Hr). destruct ch as [|i [|j [|]]]; try done. clear Hl.
  assert (i < length vec /\ j < length vec /\ i < j) as (Hi & Hj & Hij). { inversion_clear Hr as [|? ? H1 Hr']. inversion_clear Hr' as [|? ? H2 _]. inversion_clear Hs as [|? ? _ H3]. inversion_clear H3. lia. }
  destruct (lookup_lt_is_Some_2 vec i Hi) as [a Ha], (lookup_lt_is_Some_2 vec j Hj) as [c Hc]. exists i, j, a, c. cut (exists N', v_triple A S b a c N = Ok N' /\ done_until b vec rem N'); [naive_solver|].
  assert (pick vec [i; j] = [a; c]) as Hpick by (unfold pick; cbn; by rewrite Ha, Hc).
  assert (linked A b a) as Hba by (exists vec; split; [done|by eapply elem_of_list_lookup_2]). assert (linked A b c) as Hbc by (exists vec; split; [done|by eapply elem_of_list_lookup_2]).
  assert (a < c) as Hac. { pose proof HS as (_ & _ & _ & Hsort & _). specialize (Hsort b vec Hvec). clear -Hsort Ha Hc Hij. revert i j Ha Hc Hij. induction Hsort as [|u l _ IH Hu]; intros i j Ha Hc Hij; [done|]. destruct i as [|i], j as [|j]; cbn in *; try lia. - injection Ha as ->. rewrite Forall_forall in Hu. apply Hu. by eapply elem_of_list_lookup_2. - eapply IH; [done|done|lia]. }
  destruct (linked_bound n E A b a HS Hba) as (_ & Han & _). unfold v_triple. destruct (is_adjacent_ok n E A a c HS Han) as (ac & -> & Hacb). cbn [mbind outcome_bind].
  assert (forall a' c', [a'; c'] ∉ pick vec <$> rem -> [a'; c'] ∉ pick vec <$> [i; j] :: rem \/ (a' = a /\ c' = c)) as Hsplit.
  { intros a' c' Hn. destruct (decide ([a'; c'] = [a; c])) as [[= -> ->]|Hne]; [by right|]. left. cbn [fmap list_fmap]. rewrite Hpick. rewrite elem_of_cons. naive_solver. }
  assert (~ collider A S a b c -> done_until b vec rem N) as Hkeep.
  { intros Hnc. exists U, D. split_and!; [done|done|]. intros a' b' c' Hcol [Hlt|[-> Hn]]; [apply Hdone; auto|]. apply Hsplit in Hn as [Hn|[-> ->]]; [apply Hdone; auto|done]. }
  destruct ac; [exists N; split; [done|]; apply Hkeep; intros (_ & _ & _ & Hn & _); naive_solver|].
  case_bool_decide as Hsep; [exists N; split; [done|]; apply Hkeep; by intros (_ & _ & _ & _ & Hn)|].
  assert (collider A S a b c) as Hcol by (split_and!; try done; naive_solver).
  destruct (orient_collider_ok N U D a b c HP HG Hcol) as (N' & U' & D' & -> & HP' & HG' & H1 & H2 & Hmono). exists N'. split; [done|]. exists U', D'. split_and!; [done|done|].
  intros a' b' c' Hcol' [Hlt|[-> Hn]]; [destruct (Hdone a' b' c' Hcol'); auto|]. apply Hsplit in Hn as [Hn|[-> ->]]; [destruct (Hdone a' b c' Hcol'); auto|done].
Qed.
Lemma v_loop_ok b vec : A !! b = Some vec -> forall rem cg fuel N, (forall ch, ch ∈ rem -> ch ∈ combs (length vec) 0 2) ->
  (forall m, exists g', calls cgen_next m cg = Ok (g', (fun k => match rem !! k with Some c => (Z.of_nat <$> c : list Z) | None => [] end) <$> seq 0 m)) ->
  length rem < fuel -> done_until b vec rem N -> exists N', v_loop fuel A S b vec cg N = Ok N' /\ done_until b vec [] N'.
Proof using HS Hrank.
  intros Hvec. induction rem as [|ch rem IH]; intros cg fuel N Hcs Hcalls Hfuel HQ; (destruct fuel as [|fuel]; [cbn in Hfuel; lia|]); cbn [v_loop].
  - destruct (Hcalls 1) as [g' Hc]. cbn in Hc. destruct (cgen_next cg) as [[cg' l]|]; [|done]. cbn in Hc. injection Hc as _ ->. cbn [mbind outcome_bind]. rewrite bool_decide_true by done. by exists N.
  - destruct (Hcalls 1) as [g' Hc]. cbn in Hc. destruct (cgen_next cg) as [[cg' l]|] eqn:Hnext; [|done]. cbn in Hc. injection Hc as _ ->. cbn [mbind outcome_bind].
    destruct (v_triple_ok b vec ch rem N Hvec ltac:(apply Hcs; left) HQ) as (i & j & a & c & N' & -> & Ha & Hcc & HN' & HQ'). rewrite bool_decide_false by done. cbn [mbind outcome_bind vget fmap list_fmap lookup list_lookup zat].
    unfold zat. rewrite !bool_decide_false by lia. rewrite !Nat2Z.id, (vget_ok vec i a Ha), (vget_ok vec j c Hcc). cbn [mbind outcome_bind]. rewrite HN'. cbn [mbind outcome_bind]. apply IH; [intros; apply Hcs; by right| |cbn in Hfuel; lia|done].
    intros m. destruct (Hcalls (Datatypes.S m)) as [g2 H2]. cbn [calls] in H2. rewrite Hnext in H2. cbn [mbind outcome_bind fst snd] in H2. destruct (calls cgen_next m cg') as [[g3 l3]|] eqn:E3; [|done]. cbn [mbind outcome_bind fst snd] in H2. injection H2 as -> H2. exists g2. f_equal. f_equal.
    rewrite H2. change (list_fmap nat (list Z)) with (fmap (M := list) (A := nat) (B := list Z)). rewrite <-fmap_S_seq, <-list_fmap_compose. apply list_fmap_ext. intros k x _. done.
Qed.
End colliders.
Lemma combs_one_length n lo : length (combs n lo 1) = n.
Proof. revert lo. induction n as [|n IH]; intros lo; [done|]. cbn [combs]. rewrite app_length, fmap_length, combs_0, IH. done. Qed.
Lemma combs_two_length n lo : length (combs n lo 2) <= n * n.
Proof. revert lo. induction n as [|n IH]; intros lo; [done|]. cbn [combs]. rewrite app_length, fmap_length, combs_one_length. specialize (IH (S lo)). lia. Qed.
Lemma skeleton_network_pat n E A doms es : skeleton_of n E A -> length doms = n -> pe_pair <$> es = E -> pat n (skeleton_network doms es) E [].
Proof.
  intros (HE & Hb & _) Hd Hes. destruct (new_network_inv doms) as [HI _].
  assert (nt_edges (skeleton_network doms es) = ue <$> E) as He by (cbn; rewrite <-Hes, <-list_fmap_compose; done).
  constructor; [|cbn; by rewrite fmap_length|rewrite He; by rewrite app_nil_r| |done].
  - assert (netinv (set_edges (new_network doms) (ue <$> E))) as [H1 H2 H3 H4 H5].
    { apply netinv_edges; [done|by rewrite directed_pairs_ue|]. apply Forall_fmap, Forall_forall. intros [x y] Hin. apply Hb in Hin as [H1 H2]. cbn. rewrite ue_sorted by done. unfold edge_wf. cbn. rewrite fmap_length. split_and!; [lia|lia|done|lia]. }
    assert (forall x y, has_directed (skeleton_network doms es) x y <-> has_directed (set_edges (new_network doms) (ue <$> E)) x y) as Hh by (intros x y; unfold has_directed; by rewrite He).
    constructor; [exact H1|exact H2| | |rewrite He; exact H5].
    + intros x y. rewrite !Hh. exact (H3 x y).
    + eapply acyclic_ext; [exact Hh|]. exact H4.
  - apply Forall_forall. intros [x y] Hin. apply Hb in Hin. cbn. lia.
Qed.
Lemma orient_v_ok (n : nat) (E : pairs) (A : adjs) (S : sepmap) (rank : nat -> nat) (doms : list nat) (es : list pedge) (fuel : nat) : skeleton_of n E A -> (forall x y, into A S x y -> rank x < rank y) -> length doms = n -> pe_pair <$> es = E -> n * n < fuel ->
  exists N U D, orient_v_structures fuel A S (skeleton_network doms es) = Ok N /\ pat n N U D /\ U ++ (bare <$> D) ≡ₚ E /\ (forall x y, (x, y) ∈ D <-> into A S x y).
Proof.
  intros HS Hrank Hd Hes Hfuel. pose proof HS as (HE & Hb & HlA & Hsort & HL). pose proof (skeleton_network_pat n E A doms es HS Hd Hes) as HP0. unfold orient_v_structures. rewrite (pt_len _ _ _ _ HP0).
  set (Q := fun b N => exists U D, pat n N U D /\ good E A S U D /\ forall a b' c, collider A S a b' c -> b' < b -> (a, b') ∈ D /\ (c, b') ∈ D).
  match goal with |- exists N U D, mfor _ ?body _ = _ /\ _ => assert (exists N, mfor (seq 0 n) body (skeleton_network doms es) = Ok N /\ Q (0 + n) N) as (N & -> & HQ) end.
  - assert (forall body : nat -> network -> outcome network, (forall b N, b < n -> Q b N -> exists N', body b N = Ok N' /\ Q (b + 1) N') -> exists N, mfor (seq 0 n) body (skeleton_network doms es) = Ok N /\ Q (0 + n) N) as Hgen.
    { intros body Hbody. assert (forall k s N, s + k = n -> Q s N -> exists N', mfor (seq s k) body N = Ok N' /\ Q (s + k) N') as Hk.
      { induction k as [|k IH]; intros s N Hs HQ; [exists N; split; [done|]; by rewrite Nat.add_0_r|]. cbn [seq mfor]. destruct (Hbody s N ltac:(lia) HQ) as (N' & -> & HQ'). cbn [mbind outcome_bind]. rewrite Nat.add_1_r in HQ'. destruct (IH (Datatypes.S s) N' ltac:(lia) HQ') as (N'' & -> & HQ''). exists N''. split; [done|]. by rewrite Nat.add_succ_r. }
      apply Hk; [done|]. exists E, []. split_and!; [done| |intros; lia]. split; [cbn; by rewrite app_nil_r|]. intros u v Hu. by apply elem_of_nil in Hu. }
    apply Hgen. clear Hgen. intros b N Hbn (U & D & HP & HG & Hdone). destruct (lookup_lt_is_Some_2 A b ltac:(lia)) as [vec Hvec]. unfold vat at 1. rewrite Hvec. cbn [mbind outcome_bind].
    assert (done_until n E A S b vec (combs (length vec) 0 2) N) as HQ0.
    { exists U, D. split_and!; [done|done|]. intros a b' c Hcol [?|[-> Hn]]; [by eapply Hdone|]. exfalso. apply Hn. change ([a; c] ∈ choose vec 2). destruct Hcol as (Hac & (r1 & Hr1 & Ha) & (r2 & Hr2 & Hc) & _). rewrite Hvec in Hr1, Hr2. injection Hr1 as <-. injection Hr2 as <-.
      apply elem_of_choose; [by eapply Hsort|]. split_and!; [repeat constructor; done|done|]. intros v Hv. apply elem_of_cons in Hv as [->|Hv]; [done|]. apply elem_of_list_singleton in Hv. by subst. }
    assert (forall N', done_until n E A S b vec [] N' -> Q (b + 1) N') as Hfin.
    { intros N' (U' & D' & HP' & HG' & H'). exists U', D'. split_and!; [done|done|]. intros a b' c Hcol Hlt. apply (H' a b' c Hcol). destruct (decide (b' = b)); [right; split; [done|]; cbn; set_solver|left; lia]. }
    case_bool_decide as Hlen.
    + exists N. split; [done|]. apply Hfin. destruct HQ0 as (U' & D' & HP' & HG' & H'). exists U', D'. split_and!; [done|done|]. intros a b' c Hcol Hor. apply (H' a b' c Hcol). destruct Hor as [?|[-> Hn]]; [by left|]. right. split; [done|]. rewrite combs_empty by done. done.
    + destruct (choice_enumeration (length vec) 2 ltac:(lia)) as (g & Hg & Hcalls). change 2%Z with (Z.of_nat 2). rewrite Hg. cbn [mbind outcome_bind].
      destruct (v_loop_ok n E A S rank HS Hrank b vec Hvec (combs (length vec) 0 2) g fuel N) as (N' & -> & HQ'); [done|exact Hcalls| |done|exists N'; split; [done|by apply Hfin]].
      pose proof (combs_two_length (length vec) 0). assert (length vec <= n); [|nia]. assert (NoDup vec) as Hnd by (eapply lt_sorted_NoDup, Hsort; done). rewrite <-(seq_length n 0). apply submseteq_length, NoDup_submseteq; [done|]. intros v Hv. apply elem_of_seq. assert (linked A b v) as Hlk by (by exists vec). apply (linked_bound n E A _ _ HS) in Hlk. lia.
  - destruct HQ as (U & D & HP & [Hperm Hinto] & Hdone). exists N, U, D. split_and!; [done|done|done|]. intros x y. split; [apply Hinto|].
    intros [z [Hc|Hc]]; pose proof Hc as (_ & Hl & _); apply (linked_bound n E A _ _ HS) in Hl; apply Hdone in Hc; [tauto|lia|tauto|lia].
Qed.
