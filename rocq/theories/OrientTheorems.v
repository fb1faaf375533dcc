(** Theorems for Properties_Orient.v. *)
From Verif Require Import OrientModel OrientSpec NetProofs NetProofs2 NetProofs3 OrientProofs OrientProofs2 OrientProofs3.
Local Open Scope nat_scope.

Lemma pattern_pat n E A N U D : skeleton_of n E A -> pattern n E N U D <-> pat n N U D /\ U ++ (bare <$> D) ≡ₚ E.
Proof.
  intros (HE & Hb & _). split.
  - intros (HI & Hl & He & Hp). split; [|done]. constructor; [done|done|done| |].
    + apply Forall_forall. intros [x y] Hin. assert ((x, y) ∈ E) as HinE by (rewrite <-Hp; apply elem_of_app; by left). apply Hb in HinE. cbn. lia.
    + rewrite <-Hp in HE. apply NoDup_app in HE as [HE _]. exact HE.
  - intros [[HI Hl He _ _] Hp]. done.
Qed.
Lemma once_between n E A N U D x y : skeleton_of n E A -> pattern n E N U D -> x <> y -> (linked A x y -> edges_between N x y = 1) /\ (~ linked A x y -> edges_between N x y = 0).
Proof.
  intros HS HP Hne. pose proof HS as (HE & Hb & _ & _ & HL). apply (pattern_pat n E A N U D HS) in HP as [[_ _ He Hs _] Hp].
  assert (edges_between N x y = length (filter (fun p => p = bare (x, y)) E)) as ->.
  { unfold edges_between. rewrite He. transitivity (length (filter (fun p => p = bare (x, y)) (U ++ (bare <$> D)))); [|by rewrite Hp]. rewrite !filter_app, !app_length. f_equal.
    - clear -Hs. induction Hs as [|p U Hlt Hs IH]; [done|]. cbn [fmap list_fmap]. rewrite !filter_cons. change (undirected_edge p.1 p.2) with (ue p). rewrite (ue_sorted p Hlt). cbn [e_n1 e_n2]. replace (bare (p.1, p.2)) with p by (destruct p; symmetry; by apply bare_id). rewrite <-(ue_sorted p Hlt). case_decide; cbn [length]; [f_equal|]; exact IH.
    - clear. induction D as [|p D IH]; [done|]. cbn [fmap list_fmap]. rewrite !filter_cons. destruct p as [u v]. destruct (decide (bare (u, v) = bare (x, y))) as [H|H]; [rewrite !decide_True by exact H; cbn [length]; f_equal; exact IH|rewrite !decide_False by exact H; exact IH]. }
  assert (forall l : pairs, NoDup l -> forall p, (p ∈ l -> length (filter (fun q => q = p) l) = 1) /\ (p ∉ l -> length (filter (fun q => q = p) l) = 0)) as Hcount.
  { clear. induction 1 as [|q l Hq Hn IH]; intros p; [split; [intros H; by apply elem_of_nil in H|done]|]. rewrite filter_cons. destruct (IH p) as [I1 I2]. case_decide as Heq.
    - subst. cbn [length]. rewrite I2 by done. split; [done|]. intros H. destruct H. left.
    - split; [intros [->|H]%elem_of_cons; [done|by apply I1]|]. intros H. apply I2. set_solver. }
  destruct (Hcount E HE (bare (x, y))) as [H1 H2]. rewrite (linked_bare n E A x y HS). split; [intros [_ ?]; by apply H1|]. intros H. apply H2. tauto.
Qed.
Lemma colliders_theorem (n : nat) (E : pairs) (A : adjs) (S : sepmap) (rank : nat -> nat) (doms : list nat) (es : list pedge) (fuel : nat) : skeleton_of n E A -> (forall x y, into A S x y -> rank x < rank y) -> length doms = n -> pe_pair <$> es = E -> n * n < fuel ->
  exists N U D, orient_v_structures fuel A S (skeleton_network doms es) = Ok N /\ pattern n E N U D /\ forall x y, (x, y) ∈ D <-> into A S x y.
Proof.
  intros HS Hr Hd Hes Hf. destruct (orient_v_ok n E A S rank doms es fuel HS Hr Hd Hes Hf) as (N & U & D & H1 & H2 & H3 & H4). exists N, U, D. split_and!; [done| |done]. by apply (pattern_pat n E A).
Qed.
Lemma implied_theorem n E A cap N U D fuel : skeleton_of n E A -> pattern n E N U D -> length E < cap -> length E < fuel ->
  exists N' U' L, orient_implied fuel cap A N = Ok N' /\ pattern n E N' U' (D ++ L) /\ directing (implied A) A D L /\
  forall x y, open_edge A (D ++ L) x y -> implied A (D ++ L) x y -> ~ addable (D ++ L) x y.
Proof.
  intros HS HP Hc Hf. apply (pattern_pat n E A N U D HS) in HP as [HN Hp]. destruct (orient_implied_ok n E A cap HS Hc fuel N U D HN Hp) as (N' & U' & L & H1 & H2 & H3 & H4 & H5). { apply Permutation_length in Hp. rewrite app_length in Hp. lia. }
  exists N', U', L. split_and!; [done| |done|done]. by apply (pattern_pat n E A).
Qed.
Lemma left_theorem n E A cap coin N U D fuel : skeleton_of n E A -> pattern n E N U D -> length E < cap -> length E < fuel ->
  exists N' L, direct_left_edges fuel cap A coin 0 0 N = Ok N' /\ pattern n E N' [] (D ++ L) /\ directing (fun _ _ _ => True) A D L.
Proof.
  intros HS HP Hc Hf. apply (pattern_pat n E A N U D HS) in HP as [HN Hp]. destruct (direct_left_ok n E A cap HS Hc coin fuel 0 N U D HN Hp) as (N' & L & H1 & H2 & H3 & H4). { apply Permutation_length in Hp. rewrite app_length in Hp. lia. }
  exists N', L. split_and!; [done| |done]. apply (pattern_pat n E A); done.
Qed.
(** ** Without directed edges the rules do nothing, whatever the capacity *)
Section quiet.
Context (n : nat) (E : pairs) (A : adjs) (cap : nat).
Hypothesis HS : skeleton_of n E A.
Lemma until_false {X} (f : X -> network -> outcome (network * bool)) l N : (forall a, a ∈ l -> f a N = Ok (N, false)) -> until_true f l N = Ok (N, false).
Proof. induction l as [|a l IH]; intros H; [done|]. cbn [until_true]. rewrite H by left. cbn [mbind outcome_bind fst snd]. apply IH. intros. apply H. by right. Qed.
Lemma quiet_rules N x y : pat n N E [] -> linked A x y -> any_rule cap A x y N = Ok (N, false).
Proof using HS.
  intros HN Hl. pose proof (linked_sym n E A x y HS Hl) as Hl'. destruct (linked_bound n E A _ _ HS Hl) as (Hx & Hy & _). assert (E ++ (bare <$> []) ≡ₚ E) as Hperm by (cbn; by rewrite app_nil_r).
  assert (forall p q, p < n -> q < n -> is_directed_from_to N p q = Ok false) as Hdir. { intros p q Hp Hq. rewrite (is_directed_pat _ _ _ _ p q HN Hp Hq). by rewrite bool_decide_false by set_solver. }
  assert (forall p q, p < n -> rule1 cap A p q N = Ok (N, false)) as R1.
  { intros p q Hp. unfold rule1. pose proof HN as [HI Hlen _ _ _]. destruct (lookup_lt_is_Some_2 (nt_nodes N) p ltac:(lia)) as [nd Hnd]. rewrite (find_node_ok _ _ _ Hnd). cbn [mbind outcome_bind]. assert (nd_parents nd = []) as ->; [|done]. destruct (nd_parents nd) as [|a l] eqn:Hpar; [done|]. exfalso.
    assert (has_directed N a p) as Hd by (apply (netinv_parent N a p HI); exists nd; split; [done|rewrite Hpar; left]). apply (pat_directed _ _ _ _ a p HN) in Hd. by apply elem_of_nil in Hd. }
  assert (forall p q, p < n -> q < n -> rule2 cap A p q N = Ok (N, false)) as R2.
  { intros p q Hp Hq. unfold rule2. destruct (common_ok n E A HS p q Hp Hq) as (l & -> & Hm). cbn [mbind outcome_bind]. apply until_false. intros b Hb. apply Hm in Hb as [Hb _]. destruct (linked_bound n E A _ _ HS Hb) as (_ & Hbn & _). rewrite (Hdir p b Hp Hbn). reflexivity. }
  assert (forall p q, p < n -> q < n -> rule3 cap A p q N = Ok (N, false)) as R3.
  { intros p q Hp Hq. unfold rule3. destruct (common_ok n E A HS q p Hq Hp) as (l & -> & Hm). cbn [mbind outcome_bind]. case_bool_decide; [done|]. apply until_false. intros i Hi. apply elem_of_seq in Hi. apply until_false. intros j Hj. apply elem_of_seq in Hj.
    destruct (lookup_lt_is_Some_2 l i ltac:(lia)) as [b Hb], (lookup_lt_is_Some_2 l j ltac:(lia)) as [c Hc]. rewrite (vget_ok l i b Hb), (vget_ok l j c Hc). cbn [mbind outcome_bind]. apply elem_of_list_lookup_2, Hm in Hb as [Hb _], Hc as [Hc _].
    destruct (linked_bound n E A _ _ HS Hb) as (_ & Hbn & _). destruct (linked_bound n E A _ _ HS Hc) as (_ & Hcn & _). destruct (is_adjacent_ok n E A b c HS Hbn) as (bc & -> & _). cbn [mbind outcome_bind]. destruct bc; [done|]. unfold r3_helper.
    destruct (is_undirected_pat n E A N E [] p b HS HN Hperm Hp Hbn) as (b5 & -> & _). destruct (is_undirected_pat n E A N E [] p c HS HN Hperm Hp Hcn) as (b6 & -> & _). cbn [mbind outcome_bind]. rewrite !Hdir by done. cbn [mbind outcome_bind]. by rewrite !andb_false_r. }
  unfold any_rule. apply until_false. intros f Hf. repeat (apply elem_of_cons in Hf as [->|Hf]; [auto|]). by apply elem_of_nil in Hf.
Qed.
Lemma quiet_pass N : pat n N E [] -> forall fuel k, length E - k < fuel -> implied_pass fuel cap A k false N = Ok (N, false).
Proof using HS.
  intros HN. assert (E ++ (bare <$> []) ≡ₚ E) as Hperm by (cbn; by rewrite app_nil_r). induction fuel as [|fuel IH]; intros k Hf; [lia|]. cbn [implied_pass]. rewrite (pat_lookup n N E [] k HN). destruct (E !! k) as [p|] eqn:Hk; [|done].
  destruct (U_open n E A HS E [] k p N HN Hperm Hk) as [Ho _]. cbn [e_n1 e_n2]. pose proof (linked_bound n E A _ _ HS (proj1 Ho)) as (H1 & H2 & _). destruct (is_undirected_pat n E A N E [] (fst p) (snd p) HS HN Hperm H1 H2) as (u & -> & Hu). cbn [mbind outcome_bind]. destruct u; [|done].
  rewrite (quiet_rules N _ _ HN (proj1 Ho)). cbn [mbind outcome_bind fst snd]. apply IH. apply lookup_lt_Some in Hk. lia.
Qed.
Lemma quiet_implied N fuel : pat n N E [] -> length E < fuel -> orient_implied fuel cap A N = Ok N.
Proof using HS. intros HN Hf. destruct fuel as [|fuel]; [lia|]. cbn [orient_implied]. rewrite (quiet_pass N HN (S fuel) 0) by lia. done. Qed.
End quiet.
