(** PC-stable with a d-separation oracle, as claimed. *)
From Verif Require Import PCModel PCSpec UtilProofs NetProofs NetProofs2 NetProofs3 PCProofs4 PCTheorems OrientModel OrientSpec OrientProofs OrientProofs3 OrientTheorems DSepSpec DSepProofs EssentialProofs.
Local Open Scope nat_scope.

Lemma omap_full {X} (l : list (option X)) : (forall k, k < length l -> exists x, l !! k = Some (Some x)) -> length (omap id l) = length l.
Proof.
  induction l as [|o l IH]; intros H; [done|]. destruct (H 0) as [x Hx]; [cbn; lia|]. injection Hx as ->. cbn. f_equal. apply IH. intros k Hk. apply (H (S k)). cbn. lia.
Qed.
Lemma start_length n : length (start_pairs n) = edge_capacity n.
Proof.
  unfold start_pairs, edge_capacity. change (complete_graph n) with (complete_graph_visit n (upper_pairs n)). destruct (complete_graph_any_schedule n (upper_pairs n) ltac:(done)) as (l & -> & Hlen & _ & Hall). rewrite omap_full; [by rewrite Hlen, Nat.mul_comm|]. intros k Hk. destruct (Hall k Hk) as (i & j & _ & _ & H & _). eauto.
Qed.
Lemma all_edges n (E : pairs) : (forall x y, x < y -> y < n -> (x, y) ∈ E) -> edge_capacity n <= length E.
Proof.
  intros H. destruct (start_ok n) as (_ & _ & _ & HN & Hs). rewrite <-start_length. apply submseteq_length, NoDup_submseteq; [done|]. intros [x y] Hin. apply Hs in Hin as [? ?]. by apply H.
Qed.
Lemma missing_edge n (E : pairs) a c : NoDup E -> (forall x y, (x, y) ∈ E -> x < y /\ y < n) -> a < c -> c < n -> (a, c) ∉ E -> length E < edge_capacity n.
Proof.
  intros HE Hb Hac Hc Hn. destruct (start_ok n) as (_ & _ & _ & HN & Hs). assert (S (length E) <= length (start_pairs n)).
  - change (S (length E)) with (length ((a, c) :: E)). apply submseteq_length. apply NoDup_submseteq; [by constructor|]. intros [x y] [[= -> ->]|Hin]%elem_of_cons; apply Hs; auto.
  - pose proof (start_length n). lia.
Qed.
Lemma skeleton_of_perm n (E E' : pairs) A : skeleton_of n E A -> E' ≡ₚ E -> skeleton_of n E' A.
Proof. intros (H1 & H2 & H3 & H4 & H5) HP. split_and!; [by rewrite HP|intros x y; rewrite HP; apply H2|done|done|]. intros x y. rewrite !HP. apply H5. Qed.

(** ** A complete skeleton fills the vector of edges *)
Lemma complete_linked n E A : skeleton_of n E A -> edge_capacity n <= length E -> forall x y, x < n -> y < n -> x <> y -> linked A x y.
Proof.
  intros HS Hc. assert (forall x y, x < y -> y < n -> (x, y) ∈ E) as Hall. { intros x y H1 H2. destruct (decide ((x, y) ∈ E)); [done|]. pose proof (missing_edge n E x y ltac:(apply HS) ltac:(apply HS) H1 H2 n0). lia. }
  intros x y Hx Hy Hne. destruct HS as (_ & _ & _ & _ & HL). apply HL. destruct (decide (x < y)); [left; by apply Hall|right; apply Hall; lia].
Qed.
Lemma first_direct_full n E A cap coin N fuel : skeleton_of n E A -> pat n N E [] -> 0 < length E -> cap <= length E -> 0 < fuel -> direct_left_edges fuel cap A coin 0 0 N = Err OutOfBounds.
Proof.
  intros HS HN Hpos Hcap Hf. destruct fuel as [|fuel]; [lia|]. assert (E ++ (bare <$> []) ≡ₚ E) as Hperm by (cbn; by rewrite app_nil_r). cbn [direct_left_edges]. rewrite (pat_lookup n N E [] 0 HN). destruct (lookup_lt_is_Some_2 E 0 Hpos) as [p H0]. rewrite H0.
  destruct (U_open n E A HS E [] 0 p N HN Hperm H0) as [Ho _]. cbn [e_n1 e_n2]. pose proof (linked_bound n E A _ _ HS (proj1 Ho)) as (H1 & H2 & Hne). destruct (is_undirected_pat n E A N E [] (fst p) (snd p) HS HN Hperm H1 H2) as (u & -> & Hu). cbn [mbind outcome_bind]. destruct u; [|apply Hu in Ho; done].
  assert (exists x y, (if coin 0 then (p.2, p.1) else (p.1, p.2)) = (x, y) /\ x < n /\ y < n /\ x <> y) as (x & y & -> & Hx & Hy & Hxy). { destruct (coin 0); eexists _, _; (split; [done|]); auto. }
  unfold direct. destruct (add_directed_pat n N E [] x y HN Hx Hy) as (N1 & b & -> & Ht & Hfl). cbn [mbind outcome_bind]. destruct b.
  - rewrite bool_decide_true; [done|]. rewrite (pt_edges _ _ _ _ HN). cbn [fmap list_fmap]. by rewrite app_nil_r, fmap_length.
  - destruct (Hfl eq_refl) as [Hna _]. exfalso. apply Hna. apply (acyclic_ext (fun u v => (u, v) ∈ [(x, y)])); [done|]. intros v Hv.
    assert (forall u v, tc (fun u v => (u, v) ∈ [(x, y)]) u v -> u = x /\ v = y) as Htc. { clear. induction 1 as [u v H|u v w H _ [-> ->]]; apply elem_of_list_singleton in H; by injection H. }
    apply Htc in Hv as [-> ?]. done.
Qed.
Lemma capacity_kept cap len : len <= cap -> vector_capacity cap len = cap.
Proof. intros H. unfold vector_capacity. destruct len as [|len]; [done|]. cbn [doubled]. by rewrite bool_decide_true. Qed.
Lemma pattern_capacity n E A N U D : skeleton_of n E A -> pattern n E N U D -> vector_capacity (edge_capacity n) (length (nt_edges N)) = edge_capacity n.
Proof.
  intros HS (_ & _ & He & Hp). apply capacity_kept. apply Permutation_length in Hp. rewrite app_length, fmap_length in Hp. rewrite He, app_length, !fmap_length, Hp. destruct HS as (Hnd & Hb & _). destruct (start_ok n) as (_ & _ & _ & _ & Hs).
  rewrite <-start_length. apply submseteq_length, NoDup_submseteq; [done|]. intros [x y] Hin. apply Hs. by apply Hb.
Qed.
Lemma complete_overflows n E A S doms es coin fuel : skeleton_of n E A -> edge_capacity n <= length E -> 2 <= n -> length doms = n -> pe_pair <$> es = E -> n * n < fuel -> length E < fuel ->
  orient_skeleton fuel doms true coin es A S = Err OutOfBounds.
Proof.
  intros HS Hc Hn Hd Hes Hf Hf'. assert (forall x y, ~ into A S x y) as Hno. { intros x y (z & [H|H]); destruct H as (Hlt & H1 & H2 & Hnl & _); apply (linked_bound n E A _ _ HS) in H1 as (_ & H1 & _), H2 as (_ & H2 & _); apply Hnl, (complete_linked n E A HS Hc); lia. }
  destruct (colliders_theorem n E A S (fun _ => 0) doms es fuel HS ltac:(intros x y H; by apply Hno in H) Hd Hes Hf) as (N & U & D & HN & HP & HD). assert (D = []) as ->. { destruct D as [|[x y] D]; [done|]. destruct (Hno x y). apply HD. left. }
  pose proof (pattern_capacity n E A N U [] HS HP) as Hvc. apply (pattern_pat n E A N U [] HS) in HP as [HP Hperm]. cbn in Hperm. rewrite app_nil_r in Hperm. pose proof (skeleton_of_perm n E U A HS Hperm) as HSU. unfold orient_skeleton. rewrite HN. cbn [mbind outcome_bind]. rewrite Hd, Hvc.
  rewrite (quiet_implied n U A _ HSU N fuel HP) by (rewrite Hperm; lia). cbn [mbind outcome_bind]. apply (first_direct_full n U A); try done; [|by rewrite Hperm|lia].
  destruct U as [|p U]; [|cbn; lia]. exfalso. apply Permutation_nil in Hperm. destruct (complete_linked n E A HS Hc 0 1) as (row & Hr & Hin); try lia. assert (linked A 0 1) as Hl by (by exists row). destruct HS as (_ & _ & _ & _ & HL). apply HL in Hl. rewrite Hperm in Hl. destruct Hl as [Hl|Hl]; by apply elem_of_nil in Hl.
Qed.
Lemma v_structure_sym (g : digraph) x y z : v_structure g x y z -> v_structure g z y x.
Proof. intros ([H1 H2] & H3 & H4). split_and!; [done|congruence|]. intros H. by apply H4, adjacent_sym. Qed.
Section search.
Context (ind : nat -> nat -> list nat -> bool) (n : nat) (g : digraph) (rank : nat -> nat).
Hypothesis Hb : forall x y, g x y = true -> x < n /\ y < n.
Hypothesis Hr : forall x y, g x y = true -> rank x < rank y.
Hypothesis Ho : dsep_oracle ind n g.
Context (depth : nat) (E : pairs) (A : adjs) (S : sepmap).
Hypothesis Hdeg : forall v, length (dag_parents n g v) < depth.
Hypothesis HE : NoDup E.
Hypothesis HEs : forall x y, (x, y) ∈ E <-> x < y /\ stable_skeleton ind n depth x y.
Hypothesis HA : length A = n.
Hypothesis HAs : forall x row, A !! x = Some row -> StronglySorted lt row /\ forall v, v ∈ row <-> stable_skeleton ind n depth x v.
Hypothesis HS1 : forall x y row, x < y -> y < n -> A !! x = Some row -> y ∉ row <-> is_Some (S !! (x, y)).
Hypothesis HS2 : forall x y s, S !! (x, y) = Some s -> ind x y s = true /\ x ∉ s /\ y ∉ s /\ StronglySorted lt s.
Lemma search_linked x y : linked A x y <-> adjacent g x y.
Proof using All.
  rewrite <-(skeleton_exact ind n g rank Hb Hr Ho depth x y Hdeg). split.
  - intros (row & Hx & Hy). by apply (HAs _ _ Hx).
  - intros Hs. pose proof (skeleton_range _ _ _ _ _ Hs) as (Hx & _). destruct (lookup_lt_is_Some_2 A x ltac:(lia)) as [row Hrow]. exists row. split; [done|]. by apply (HAs _ _ Hrow).
Qed.
Lemma search_skeleton : skeleton_of n E A.
Proof using All.
  split_and!; [done| |done|intros x row Hx; by apply HAs in Hx as [? _]|].
  - intros x y [Hlt Hk]%HEs. apply skeleton_range in Hk. lia.
  - intros x y. rewrite search_linked, !HEs, !(skeleton_exact ind n g rank Hb Hr Ho depth _ _ Hdeg). split.
    + intros Ha. destruct (adjacent_bound n g rank Hb Hr x y Ha) as (_ & _ & Hne). destruct (decide (x < y)); [by left|right; split; [lia|by apply adjacent_sym]].
    + intros [[_ Ha]|[_ Ha]]; [done|by apply adjacent_sym].
Qed.
Lemma search_collider a b c : collider A S a b c <-> a < c /\ v_structure g a b c.
Proof using All.
  unfold collider, v_structure. rewrite !search_linked. split.
  - intros (Hac & Hba & Hbc & Hna & Hn). split; [done|]. assert (a <> c) as Hne by lia. split; [|split; [lia|done]]. destruct (adjacent_bound n g rank Hb Hr _ _ Hba) as (_ & Ha & _). destruct (adjacent_bound n g rank Hb Hr _ _ Hbc) as (_ & Hc & _).
    destruct (lookup_lt_is_Some_2 A a ltac:(lia)) as [row Hrow]. assert (c ∉ row) as Hcr. { intros Hin. apply Hna. apply search_linked. by exists row. }
    apply (HS1 _ _ _ Hac Hc Hrow) in Hcr as [s Hs]. rewrite Hs in Hn. cbn in Hn. destruct (HS2 _ _ _ Hs) as (Hi & H1 & H2 & H3). apply (middle_decided ind n g rank Hb Hr Ho a b c s); try done; by apply adjacent_sym.
  - intros (Hac & [Hab Hcb] & Hne & Hna). split_and!; [done|by right|by right|done|]. destruct (Hb _ _ Hcb) as [Hc _]. destruct (lookup_lt_is_Some_2 A a ltac:(lia)) as [row Hrow]. assert (c ∉ row) as Hcr. { intros Hin. apply Hna. apply search_linked. by exists row. }
    apply (HS1 _ _ _ Hac Hc Hrow) in Hcr as [s Hs]. rewrite Hs. cbn. destruct (HS2 _ _ _ Hs) as (Hi & H1 & H2 & H3). apply (middle_decided ind n g rank Hb Hr Ho a b c s); try done; [by left|by right].
Qed.
Lemma search_into x y : into A S x y <-> exists z, v_structure g x y z.
Proof using All.
  unfold into. split.
  - intros (z & [[_ H]%search_collider|[_ H]%search_collider]); exists z; [done|by apply v_structure_sym].
  - intros (z & H). exists z. rewrite !search_collider. pose proof H as (_ & Hne & _). destruct (decide (x < z)); [by left|right; split; [lia|by apply v_structure_sym]].
Qed.
(** ** The rules direct edges as every equivalent graph does *)
Lemma rule_sound (h : digraph) (rk : nat -> nat) : (forall x y, h x y = true -> rk x < rk y) -> markov_equivalent g h ->
  forall D u v, (forall x y, into A S x y -> (x, y) ∈ D) -> (forall x y, (x, y) ∈ D -> h x y = true) -> open_edge A D u v -> implied A D u v -> h u v = true.
Proof using All.
  intros Hrk [Hadj Hv] D u v Hin HD (Hlk & Ho1 & Ho2) Himp. apply search_linked in Hlk as Ha. apply Hadj in Ha as [Ha|Ha]; [done|]. exfalso. destruct Himp as [(a & Hau & Hna)|[(b & Hub & Hbv)|(b & c & Hbc & Hnbc & Hob & Hoc & Hbv & Hcv)]].
  - apply Ho2. apply Hin. apply search_into. exists a. apply Hv. unfold v_structure, meets. split_and!; [done|by apply HD|intros ->; done|]. intros H. apply Hna. apply search_linked. by apply Hadj.
  - apply HD, Hrk in Hub. apply HD, Hrk in Hbv. apply Hrk in Ha. lia.
  - assert (forall w, open_edge A D u w -> (w, v) ∈ D -> h w u = true) as Hto. { intros w (Hl & _ & _) Hwv. apply search_linked, Hadj in Hl as [Hl|Hl]; [|done]. apply HD, Hrk in Hwv. apply Hrk in Ha. apply Hrk in Hl. lia. }
    destruct Hob as (Hlb & Hb1 & Hb2). apply Hb2. apply Hin, search_into. exists c. apply Hv. unfold v_structure, meets. split_and!; [by apply Hto|by apply Hto|done|]. intros H. apply Hnbc. apply search_linked. by apply Hadj.
Qed.
Lemma rules_sound (h : digraph) (rk : nat -> nat) : (forall x y, h x y = true -> rk x < rk y) -> markov_equivalent g h ->
  forall L D, (forall x y, into A S x y -> (x, y) ∈ D) -> (forall x y, (x, y) ∈ D -> h x y = true) -> directing (implied A) A D L -> forall x y, (x, y) ∈ D ++ L -> h x y = true.
Proof using All.
  intros Hrk Heq. induction L as [|[u v] L IH]; intros D Hin HD HL; [by rewrite app_nil_r|]. destruct HL as (Hopn & _ & Himp & HL). change ((u, v) :: L) with ([(u, v)] ++ L). rewrite (assoc_L (++)). apply IH; [intros x y Hxy; apply elem_of_app; left; by apply Hin| |exact HL].
  intros x y [Hxy|[= -> ->]%elem_of_list_singleton]%elem_of_app; [by apply HD|]. by apply (rule_sound h rk Hrk Heq D).
Qed.
(** Nothing is left to imply. *)
Lemma rules_closed P : (forall x y, into A S x y -> (x, y) ∈ P) -> (forall x y, (x, y) ∈ P -> g x y = true) ->
  (forall x y, open_edge A P x y -> implied A P x y -> ~ addable P x y) -> forall x y, open_edge A P x y -> ~ implied A P x y.
Proof using All.
  intros Hin Hg Hcl x y Hxy Himp. apply (Hcl x y Hxy Himp). pose proof (rule_sound g rank Hr ltac:(by split) P x y Hin Hg Hxy Himp) as Hgxy. intros w Hw.
  assert (forall u v, tc (fun u v => (u, v) ∈ P ++ [(x, y)]) u v -> rank u < rank v) as Hrk; [|apply Hrk in Hw; lia].
  assert (forall u v, (u, v) ∈ P ++ [(x, y)] -> rank u < rank v) as H1. { intros u v [H|[= -> ->]%elem_of_list_singleton]%elem_of_app; [by apply Hr, Hg|by apply Hr]. }
  induction 1 as [u v Huv|u v t Huv _ IH]; apply H1 in Huv; lia.
Qed.
End search.

Lemma pc_core_coins : forall n g ind tst gmax size sch depth doms, dag n g -> dsep_oracle ind n g -> decides tst ind n gmax -> 1 <= size <= gmax -> valid_sched sch ->
  (forall v, length (dag_parents n g v) < depth) -> length doms = n ->
  exists F, forall fuel, F <= fuel -> exists es A S N, skeleton_search tst n depth fuel size sch = Ok (es, A, S) /\ (forall dag coin, orient_skeleton fuel doms dag coin es A S = if dag then direct_left_edges fuel (edge_capacity n) A coin 0 0 N else Ok N) /\
  exists E U D L, pe_pair <$> es = E /\ n * n < fuel /\ skeleton_of n E A /\ (forall x y, linked A x y <-> adjacent g x y) /\ pattern n E N U (D ++ L) /\ length E < fuel /\ edge_capacity (length doms) = edge_capacity n /\
  (forall x y, (x, y) ∈ D <-> exists z, v_structure g x y z) /\
  (forall x y h, (x, y) ∈ D ++ L -> dag n h -> markov_equivalent g h -> h x y = true) /\
  (forall x y, open_edge A (D ++ L) x y -> exists h, dag n h /\ markov_equivalent g h /\ h x y = true) /\
  directing (implied A) A D L /\ (forall x y, open_edge A (D ++ L) x y -> ~ implied A (D ++ L) x y).
Proof.
  intros n g ind tst gmax size sch depth doms Hdag Ho Hdec Hsz Hsch Hdeg Hd. assert (1 <= depth) as Hd1 by (pose proof (Hdeg 0); lia).
  destruct (skeleton_result n depth ind Hd1) as (E & A & S & Hrun & HE & HEs & HA & HAs). destruct (Hrun tst gmax size sch Hdec Hsz Hsch) as (F1 & es & Hs1 & Hes).
  destruct (separating_sets tst ind n gmax depth size sch Hdec Hsz Hsch Hd1) as (F2 & es2 & A2 & S2 & Hs2 & HS1 & HS2). assert (A2 = A /\ S2 = S) as [-> ->]. { pose proof (Hs1 (Nat.max F1 F2) ltac:(lia)) as Q1. rewrite (Hs2 (Nat.max F1 F2) ltac:(lia)) in Q1. by injection Q1 as -> -> ->. } clear es2 Hs2.
  assert (forall x y s, S !! (x, y) = Some s -> ind x y s = true /\ x ∉ s /\ y ∉ s /\ StronglySorted lt s) as HS2' by (intros x y s H; apply HS2 in H; tauto). destruct Hdag as [Hb Hord]. destruct (dag_rank n g (conj Hb Hord)) as (rank & Hr).
  pose proof (search_skeleton ind n g rank Hb Hr Ho depth E A S Hdeg HE HEs HA HAs HS1 HS2') as HSk. pose proof (search_linked ind n g rank Hb Hr Ho depth E A S Hdeg HE HEs HA HAs HS1 HS2') as Hlk. pose proof (search_into ind n g rank Hb Hr Ho depth E A S Hdeg HE HEs HA HAs HS1 HS2') as Hinto.
  exists (Nat.max F1 (Datatypes.S (n * n + length E))). intros fuel Hf.
  destruct (colliders_theorem n E A S rank doms es fuel HSk) as (N0 & U & D & HN0 & HP & HD); [intros x y (z & [[H _] _])%Hinto; by apply Hr|done|done|lia|].
  assert (exists N U L, orient_implied fuel (edge_capacity n) A N0 = Ok N /\ pattern n E N U (D ++ L) /\ directing (implied A) A D L /\ (forall x y, open_edge A (D ++ L) x y -> implied A (D ++ L) x y -> ~ addable (D ++ L) x y)) as (N & U' & L & HN & Hpat & Hdir & Hclose).
  { destruct D as [|[a b] D].
    - exists N0, U, []. split; [|split; [done|]; split; [done|]; intros x y _ Himp; exfalso; unfold implied in Himp; cbn in Himp; set_solver]. apply (pattern_pat n E A N0 U [] HSk) in HP as [HP Hperm]. cbn in Hperm. rewrite app_nil_r in Hperm. apply (quiet_implied n U A _ (skeleton_of_perm n E U A HSk Hperm)); [done|]. rewrite Hperm. lia.
    - assert (length E < edge_capacity n) as Hcap.
      { assert (into A S a b) as Hi by (apply HD; left). assert (exists u v, u < v /\ v < n /\ (u, v) ∉ E) as (u & v & H1 & H2 & H3); [|apply (missing_edge n E u v HE); try done; intros x y Hxy; apply HSk in Hxy; done].
        destruct HSk as (_ & _ & _ & _ & HL). destruct Hi as (z & [Hc|Hc]); destruct Hc as (Hlt & _ & Hbz & Hn & _); [exists a, z|exists z, a]; (split; [done|]); (split; [|intros Hin; apply Hn, HL; by left]); apply Hlk, (adjacent_bound n g rank Hb Hr) in Hbz; tauto. }
      destruct (implied_theorem n E A (edge_capacity n) N0 U ((a, b) :: D) fuel HSk HP Hcap ltac:(lia)) as (N & U' & L & H1 & H2 & H3 & H4). by exists N, U', L. }
  assert (forall x y, (x, y) ∈ D <-> exists z, v_structure g x y z) as HD' by (intros x y; by rewrite HD).
  assert (forall x y, (x, y) ∈ D ++ L -> g x y = true) as Hg. { apply (rules_sound ind n g rank Hb Hr Ho depth E A S Hdeg HE HEs HA HAs HS1 HS2' g rank Hr ltac:(by split)); [intros x y; apply HD| |done]. intros x y (z & Hv)%HD'. apply Hv. }
  assert (forall x y, open_edge A (D ++ L) x y -> ~ implied A (D ++ L) x y) as Hcl. { apply (rules_closed ind n g rank Hb Hr Ho depth E A S Hdeg HE HEs HA HAs HS1 HS2'); [|done|done]. intros u v Huv. apply elem_of_app. left. by apply HD. }
  exists es, A, S, N. split; [apply Hs1; lia|]. split; [intros dg coin; unfold orient_skeleton; rewrite HN0; cbn [mbind outcome_bind]; rewrite Hd, (pattern_capacity n E A N0 U D HSk HP), HN; done|]. exists E, U', D, L. split_and!; [done|lia|done|done|done|lia|by rewrite Hd|done| | |done|done].
  - intros x y h Hxy Hh Heq. destruct (dag_rank n h Hh) as (rk & Hrk). revert x y Hxy. apply (rules_sound ind n g rank Hb Hr Ho depth E A S Hdeg HE HEs HA HAs HS1 HS2' h rk Hrk Heq); [intros x y; apply HD| |done].
    intros x y (z & Hv)%HD%Hinto. apply Heq in Hv. apply Hv.
  - intros x y. by apply (open_either n g A D L rank Hb Hr Hlk HD' Hdir Hg).
Qed.
Lemma pc_core : forall n g ind tst gmax size sch depth doms coin, dag n g -> dsep_oracle ind n g -> decides tst ind n gmax -> 1 <= size <= gmax -> valid_sched sch ->
  (forall v, length (dag_parents n g v) < depth) -> length doms = n ->
  exists F, forall fuel, F <= fuel -> exists es A S N, skeleton_search tst n depth fuel size sch = Ok (es, A, S) /\ (forall dag, orient_skeleton fuel doms dag coin es A S = if dag then direct_left_edges fuel (edge_capacity n) A coin 0 0 N else Ok N) /\
  exists E U D L, pe_pair <$> es = E /\ n * n < fuel /\ skeleton_of n E A /\ (forall x y, linked A x y <-> adjacent g x y) /\ pattern n E N U (D ++ L) /\ length E < fuel /\ edge_capacity (length doms) = edge_capacity n /\
  (forall x y, (x, y) ∈ D <-> exists z, v_structure g x y z) /\
  (forall x y h, (x, y) ∈ D ++ L -> dag n h -> markov_equivalent g h -> h x y = true) /\
  (forall x y, open_edge A (D ++ L) x y -> exists h, dag n h /\ markov_equivalent g h /\ h x y = true) /\
  directing (implied A) A D L /\ (forall x y, open_edge A (D ++ L) x y -> ~ implied A (D ++ L) x y).
Proof.
  intros n g ind tst gmax size sch depth doms coin H1 H2 H3 H4 H5 H6 H7. destruct (pc_core_coins n g ind tst gmax size sch depth doms H1 H2 H3 H4 H5 H6 H7) as (F & HF). exists F. intros fuel Hf. destruct (HF fuel Hf) as (es & A & S & N & Hs & Ho & HR). exists es, A, S, N. split; [done|]. split; [intros dag; apply Ho|done].
Qed.
Theorem pc_dsep : forall n g ind tst gmax size sch depth doms coin, dag n g -> dsep_oracle ind n g -> decides tst ind n gmax -> 1 <= size <= gmax -> valid_sched sch ->
  (forall v, length (dag_parents n g v) < depth) -> length doms = n ->
  exists F, forall fuel, F <= fuel -> exists es A S N, skeleton_search tst n depth fuel size sch = Ok (es, A, S) /\ orient_skeleton fuel doms false coin es A S = Ok N /\
  netinv N /\ length (nt_nodes N) = n /\
  (forall x y, x <> y -> (adjacent g x y -> edges_between N x y = 1) /\ (~ adjacent g x y -> edges_between N x y = 0)) /\
  (forall x y z, v_structure g x y z -> has_directed N x y) /\
  (forall x y h, has_directed N x y -> dag n h -> markov_equivalent g h -> h x y = true).
Proof.
  intros n g ind tst gmax size sch depth doms coin Hdag Ho Hdec Hsz Hsch Hdeg Hd. destruct (pc_core n g ind tst gmax size sch depth doms coin Hdag Ho Hdec Hsz Hsch Hdeg Hd) as (F & HF). exists F. intros fuel Hf. destruct (HF fuel Hf) as (es & A & S & N & H1 & H2 & E & U & D & L & Hes & Hfn & HSk & Hlk & Hpat & _ & _ & HD & Hsound & Heither & _).
  exists es, A, S, N. split; [done|]. split; [apply (H2 false)|]. pose proof (proj1 (pattern_pat n E A N U (D ++ L) HSk) Hpat) as [Hp _]. split; [apply Hpat|]. split; [apply Hpat|]. split; [|split].
  - intros x y Hne. rewrite <-Hlk. by apply (once_between n E A N U (D ++ L)).
  - intros x y z Hv. apply (pat_directed _ _ _ _ x y Hp). apply elem_of_app. left. apply HD. by exists z.
  - intros x y h Hxy. apply Hsound. by apply (pat_directed _ _ _ _ x y Hp).
Qed.
Theorem pc_dsep_dag : forall n g ind tst gmax size sch depth doms coin, dag n g -> dsep_oracle ind n g -> decides tst ind n gmax -> 1 <= size <= gmax -> valid_sched sch ->
  (forall v, length (dag_parents n g v) < depth) -> length doms = n -> (exists x y, x < n /\ y < n /\ x <> y /\ ~ adjacent g x y) ->
  exists F, forall fuel, F <= fuel -> exists es A S N, skeleton_search tst n depth fuel size sch = Ok (es, A, S) /\ orient_skeleton fuel doms true coin es A S = Ok N /\
  netinv N /\ length (nt_nodes N) = n /\
  (forall x y, has_directed N x y \/ has_directed N y x <-> adjacent g x y) /\ (forall x y, x <> y -> edges_between N x y <= 1) /\
  (forall x y z, v_structure g x y z -> has_directed N x y).
Proof.
  intros n g ind tst gmax size sch depth doms coin Hdag Ho Hdec Hsz Hsch Hdeg Hd Hmiss. destruct (pc_core n g ind tst gmax size sch depth doms coin Hdag Ho Hdec Hsz Hsch Hdeg Hd) as (F & HF). exists F. intros fuel Hf. destruct (HF fuel Hf) as (es & A & S & N0 & H1 & H2 & E & U & D & L & Hes & Hfn & HSk & Hlk & Hpat & Hfu & _ & HD & Hsound & Heither & _).
  assert (length E < edge_capacity n) as Hcap. { destruct Hmiss as (x & y & Hx & Hy & Hne & Hna). destruct (decide (length E < edge_capacity n)); [done|]. exfalso. apply Hna, Hlk, (complete_linked n E A HSk); [lia|done|done|done]. }
  destruct (left_theorem n E A (edge_capacity n) coin N0 U (D ++ L) fuel HSk Hpat Hcap Hfu) as (N & L2 & HN & HP & _). exists es, A, S, N. split; [done|]. split; [by rewrite (H2 true)|]. pose proof (proj1 (pattern_pat n E A N [] _ HSk) HP) as [Hp Hperm]. split; [apply HP|]. split; [apply HP|]. split; [|split].
  - intros x y. rewrite !(pat_directed _ _ _ _ _ _ Hp), <-Hlk, (linked_bare n E A x y HSk). cbn [app] in Hperm. rewrite <-Hperm. split.
    + intros Hxy. assert (x <> y) as Hne. { intros ->. pose proof (pat_acyclic _ _ _ _ Hp y) as Hac. apply Hac. apply tc_once. tauto. } split; [done|]. destruct Hxy as [H|H]; [by apply (elem_of_list_fmap_1 bare) in H|]. apply (elem_of_list_fmap_1 bare) in H. by rewrite bare_swap.
    + intros [Hne Hin]. apply elem_of_list_fmap in Hin as ([u v] & Heq & Hin). unfold bare in Heq. cbn in Heq. assert ((u = x /\ v = y) \/ (u = y /\ v = x)) as [[-> ->]|[-> ->]]; [|by left|by right]. injection Heq as Q1 Q2. lia.
  - intros x y Hne. destruct (once_between n E A N [] _ x y HSk HP Hne) as [O1 O2]. destruct (decide (bare (x, y) ∈ E)) as [Hin|Hin]; [rewrite O1; [done|apply (linked_bare n E A x y HSk); done]|rewrite O2; [lia|intros Hl; apply (linked_bare n E A x y HSk) in Hl; tauto]].
  - intros x y z Hv. apply (pat_directed _ _ _ _ x y Hp). apply elem_of_app. left. apply elem_of_app. left. apply HD. by exists z.
Qed.
Theorem pc_dsep_complete : forall n g ind tst gmax size sch depth doms coin, dag n g -> dsep_oracle ind n g -> decides tst ind n gmax -> 1 <= size <= gmax -> valid_sched sch ->
  (forall v, length (dag_parents n g v) < depth) -> length doms = n -> 2 <= n -> (forall x y, x < n -> y < n -> x <> y -> adjacent g x y) ->
  exists F, forall fuel, F <= fuel -> exists es A S, skeleton_search tst n depth fuel size sch = Ok (es, A, S) /\ orient_skeleton fuel doms true coin es A S = Err OutOfBounds.
Proof.
  intros n g ind tst gmax size sch depth doms coin Hdag Ho Hdec Hsz Hsch Hdeg Hd Hn Hall. destruct (pc_core n g ind tst gmax size sch depth doms coin Hdag Ho Hdec Hsz Hsch Hdeg Hd) as (F & HF). exists F. intros fuel Hf. destruct (HF fuel Hf) as (es & A & S & N0 & H1 & H2 & E & U & D & L & Hes & Hfn & HSk & Hlk & Hpat & Hfu & _ & HD & Hsound & Heither & _).
  exists es, A, S. split; [done|]. apply (complete_overflows n E A); try done. apply all_edges. intros x y Hx Hy. assert (linked A x y) as Hl by (apply Hlk, Hall; lia). pose proof HSk as (_ & Hb & _ & _ & HL). apply HL in Hl as [Hl|Hl]; [done|]. apply Hb in Hl. lia.
Qed.
(** ** The pattern is the essential graph *)
Theorem pc_essential : forall n g ind tst gmax size sch depth doms coin, dag n g -> dsep_oracle ind n g -> decides tst ind n gmax -> 1 <= size <= gmax -> valid_sched sch ->
  (forall v, length (dag_parents n g v) < depth) -> length doms = n ->
  exists F, forall fuel, F <= fuel -> exists es A S N, skeleton_search tst n depth fuel size sch = Ok (es, A, S) /\ orient_skeleton fuel doms false coin es A S = Ok N /\
  (forall x y, has_directed N x y <-> forall h, dag n h -> markov_equivalent g h -> h x y = true) /\
  (forall x y, undirected_edge x y ∈ nt_edges N <-> (exists h, dag n h /\ markov_equivalent g h /\ h x y = true) /\ (exists h, dag n h /\ markov_equivalent g h /\ h y x = true)).
Proof.
  intros n g ind tst gmax size sch depth doms coin Hdag Ho Hdec Hsz Hsch Hdeg Hd. destruct (pc_core n g ind tst gmax size sch depth doms coin Hdag Ho Hdec Hsz Hsch Hdeg Hd) as (F & HF). exists F. intros fuel Hf. destruct (HF fuel Hf) as (es & A & S & N & H1 & H2 & E & U & D & L & Hes & Hfn & HSk & Hlk & Hpat & _ & _ & HD & Hsound & Heither & _).
  exists es, A, S, N. split; [done|]. split; [apply (H2 false)|]. pose proof (proj1 (pattern_pat n E A N U (D ++ L) HSk) Hpat) as [Hp Hperm].
  assert (forall x y h, dag n h -> h x y = true -> h y x = true -> False) as Hasym. { intros x y h Hh H3 H4. destruct (dag_rank n h Hh) as (rk & Hrk). apply Hrk in H3, H4. lia. }
  assert (markov_equivalent g g) as Hrefl by (by split).
  assert (forall x y, adjacent g x y -> open_edge A (D ++ L) x y \/ (x, y) ∈ D ++ L \/ (y, x) ∈ D ++ L) as Hcases. { intros x y Ha. apply Hlk in Ha. destruct (decide ((x, y) ∈ D ++ L)); [by right; left|]. destruct (decide ((y, x) ∈ D ++ L)); [by right; right|]. by left. }
  assert (forall x y, open_edge A (D ++ L) x y -> open_edge A (D ++ L) y x) as Hosym. { intros x y (Hl & ? & ?). split_and!; [|done|done]. by apply Hlk, adjacent_sym, Hlk. }
  assert (forall x y, has_directed N x y <-> (x, y) ∈ D ++ L) as Hdird by (intros x y; apply (pat_directed _ _ _ _ x y Hp)).
  assert (forall x y, undirected_edge x y ∈ nt_edges N <-> open_edge A (D ++ L) x y) as Hund.
  { intros x y. rewrite (open_edge_U n E A U (D ++ L) x y HSk Hperm). destruct Hpat as (_ & _ & He & _). rewrite He, elem_of_app, !elem_of_list_fmap. split.
    - intros [([u v] & Heq & Hin)|([u v] & Heq & _)]; [|unfold undirected_edge in Heq; case_bool_decide; discriminate Heq].
      assert (u < v) as Huv. { destruct HSk as (_ & Hb & _). apply Hb. rewrite <-Hperm. apply elem_of_app. by left. }
      assert (bare (x, y) = (u, v) /\ x <> y) as [-> ?]; [|done]. unfold undirected_edge in Heq. cbn [fst snd] in Heq. rewrite (bool_decide_true (u < v)) in Heq by done. unfold bare. cbn [fst snd]. case_bool_decide; injection Heq as -> ->; (split; [f_equal|]; lia).
    - intros [Hne Hin]. left. exists (bare (x, y)). split; [by apply ue_bare|done]. }
  split.
  - intros x y. rewrite Hdird. split; [intros Hxy h; by apply Hsound|]. intros Hall. pose proof (Hall g Hdag Hrefl) as Hg. destruct (Hcases x y ltac:(by left)) as [Hop|[?|Hyx]]; [|done|].
    + exfalso. destruct (Heither y x (Hosym _ _ Hop)) as (h & Hh & Heq & Hyx). by apply (Hasym x y h Hh); [apply Hall|].
    + exfalso. apply (Hasym x y g Hdag Hg). by apply Hsound.
  - intros x y. rewrite Hund. split; [intros Hop; split; apply Heither; auto|]. intros [(h1 & Hh1 & He1 & Hxy) (h2 & Hh2 & He2 & Hyx)].
    destruct (Hcases x y) as [?|[H3|H3]]; [apply He1; by left|done| |]; exfalso; [apply (Hasym x y h2 Hh2); [by apply Hsound|done]|apply (Hasym x y h1 Hh1); [done|by apply Hsound]].
Qed.
