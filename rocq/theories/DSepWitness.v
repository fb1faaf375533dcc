(** Every acyclic graph has a d-separation oracle; concrete runs of PC-stable. *)
From Verif Require Import PCModel PCSpec PCWitness OrientModel OrientSpec NetProofs DSepSpec DSepProofs DSepTheorems.
Local Open Scope nat_scope.

(** ** Deciding d-separation *)
Fixpoint reaches (n : nat) (g : digraph) (k : nat) (x y : nat) : bool :=
  match k with O => false | S k => g x y || existsb (fun z => g x z && reaches n g k z y) (seq 0 n) end.
Fixpoint all_lists (n k : nat) : list (list nat) :=
  match k with O => [[]] | S k => [] :: (x ← seq 0 n; l ← all_lists n k; [x :: l]) end.
Global Instance meets_dec g u v w : Decision (meets g u v w).
Proof. unfold meets. apply _. Defined.
Global Instance adjacent_dec g u v : Decision (adjacent g u v).
Proof. unfold adjacent. apply _. Defined.
Global Instance is_path_dec g p : Decision (is_path g p).
Proof. induction p as [|u [|v p] IH]; cbn; apply _. Defined.
Section decide.
Context (n : nat) (g : digraph) (desc : nat -> nat -> bool).
Fixpoint unblocked_b (s p : list nat) : bool :=
  match p with
  | u :: (v :: w :: _) as r =>
      (if decide (meets g u v w) then existsb (fun d => (d =? v) || desc v d) s else negb (bool_decide (v ∈ s))) && unblocked_b s r
  | _ => true
  end.
Definition connected_b (x y : nat) (s : list nat) : bool :=
  existsb (fun mid => let p := x :: mid ++ [y] in bool_decide (is_path g p) && bool_decide (NoDup p) && unblocked_b s p) (all_lists n n).
Hypothesis Hdesc : forall x y, desc x y = true <-> descendant g x y.
Hypothesis Hb : forall x y, g x y = true -> x < n /\ y < n.
Lemma unblocked_b_spec s p : unblocked_b s p = true <-> unblocked g s p.
Proof using Hdesc.
  induction p as [|u [|v [|w p]] IH]; [done..|]. change (unblocked_b s (u :: v :: w :: p)) with ((if decide (meets g u v w) then existsb (fun d => (d =? v) || desc v d) s else negb (bool_decide (v ∈ s))) && unblocked_b s (v :: w :: p)).
  change (unblocked g s (u :: v :: w :: p)) with ((meets g u v w -> exists d, d ∈ s /\ (d = v \/ descendant g v d)) /\ (~ meets g u v w -> v ∉ s) /\ unblocked g s (v :: w :: p)). rewrite andb_true_iff, IH. case_decide as Hm.
  - rewrite existsb_exists. setoid_rewrite orb_true_iff. setoid_rewrite Nat.eqb_eq. setoid_rewrite Hdesc. setoid_rewrite <-elem_of_list_In. tauto.
  - rewrite negb_true_iff, bool_decide_eq_false. tauto.
Qed.
Lemma elem_of_all_lists k (l : list nat) : l ∈ all_lists n k <-> length l <= k /\ Forall (fun x => x < n) l.
Proof.
  revert l. induction k as [|k IH]; intros l; cbn [all_lists].
  - rewrite elem_of_list_singleton. split; [intros ->; done|]. intros [H _]. destruct l; [done|cbn in H; lia].
  - rewrite elem_of_cons, elem_of_list_bind. setoid_rewrite elem_of_list_bind. setoid_rewrite elem_of_list_singleton. setoid_rewrite elem_of_seq. setoid_rewrite IH. split.
    + intros [->|(x & (l' & -> & Hl & Hf) & Hx)]; [split; [cbn; lia|constructor]|]. cbn. split; [lia|]. constructor; [lia|done].
    + intros [Hl Hf]. destruct l as [|x l]; [by left|]. right. inversion_clear Hf. cbn in Hl. exists x. split; [|lia]. exists l. split; [done|]. split; [lia|done].
Qed.
Lemma path_bound p : is_path g p -> 2 <= length p -> Forall (fun x => x < n) p.
Proof using Hb.
  assert (forall u v, adjacent g u v -> u < n /\ v < n) as Ha by (intros u v [H|H]; apply Hb in H; tauto). clear Hdesc desc. induction p as [|u [|v p] IH]; cbn [length]; [lia|lia|]. intros [H1 H2] _. apply Ha in H1 as [Hu Hv]. constructor; [done|]. destruct p as [|w p]; [constructor; [done|constructor]|]. apply IH; [done|cbn; lia].
Qed.
Lemma connected_b_spec x y s : connected_b x y s = true <-> d_connected g x y s.
Proof using Hdesc Hb.
  unfold connected_b, d_connected. rewrite existsb_exists. setoid_rewrite andb_true_iff. setoid_rewrite andb_true_iff. setoid_rewrite bool_decide_eq_true. setoid_rewrite unblocked_b_spec. setoid_rewrite <-elem_of_list_In. split.
  - intros (mid & _ & (H1 & H2) & H3). by exists mid.
  - intros (mid & H1 & H2 & H3). exists mid. split; [|done]. apply elem_of_all_lists. pose proof (path_bound _ H1 ltac:(cbn; rewrite app_length; cbn; lia)) as Hf. inversion_clear Hf as [|? ? _ Hf']. apply Forall_app in Hf' as [Hf' _]. split; [|done].
    inversion_clear H2 as [|? ? _ H2']. apply NoDup_app in H2' as [H2' _]. rewrite <-(seq_length n 0) at 1. apply submseteq_length, NoDup_submseteq; [done|]. intros v Hv. rewrite Forall_forall in Hf'. apply Hf' in Hv. apply elem_of_seq. lia.
Qed.
End decide.
Lemma reaches_sound n g k x y : reaches n g k x y = true -> descendant g x y.
Proof.
  revert x. induction k as [|k IH]; intros x; cbn [reaches]; [done|]. rewrite orb_true_iff, existsb_exists. intros [H|(z & _ & H)]; [by apply tc_once|]. apply andb_true_iff in H as [H1 H2]. eapply tc_l; [exact H1|by apply IH].
Qed.
Lemma reaches_complete n g (rank : nat -> nat) : (forall x y, g x y = true -> x < n /\ y < n) -> (forall x y, g x y = true -> rank x < rank y) ->
  forall x y, descendant g x y -> forall k, rank y - rank x <= k -> reaches n g k x y = true.
Proof.
  intros Hb Hr x y. induction 1 as [x y H|x z y H Hd IH]; intros k Hk.
  - pose proof (Hr _ _ H). destruct k as [|k]; [lia|]. cbn. by rewrite H.
  - pose proof (Hr _ _ H). pose proof (rank_desc g rank z y Hr Hd). destruct k as [|k]; [lia|]. cbn. apply orb_true_iff. right. apply existsb_exists. exists z. split; [apply elem_of_list_In, elem_of_seq; apply Hb in H; lia|]. rewrite H. apply IH. lia.
Qed.
Lemma bounded_rank n (rank : nat -> nat) : exists K, forall x, x < n -> rank x <= K.
Proof. induction n as [|n [K HK]]; [exists 0; lia|]. exists (Nat.max K (rank n)). intros x Hx. destruct (decide (x = n)) as [->|]; [lia|]. specialize (HK x ltac:(lia)). lia. Qed.
Lemma desc_range n g x y : (forall x y, g x y = true -> x < n /\ y < n) -> descendant g x y -> x < n /\ y < n.
Proof. intros Hb. induction 1 as [x y H|x z y H _ IH]; [by apply Hb|]. apply Hb in H. tauto. Qed.
Lemma oracle_exists n g : dag n g -> exists ind, dsep_oracle ind n g.
Proof.
  intros Hd. destruct (dag_rank n g Hd) as [rank Hr]. destruct Hd as [Hb _]. destruct (bounded_rank n rank) as [K HK].
  assert (forall x y, reaches n g K x y = true <-> descendant g x y) as Hdesc. { intros x y. split; [apply reaches_sound|]. intros H. apply (reaches_complete n g rank Hb Hr x y H). apply (desc_range n g x y Hb) in H as [_ H]. apply HK in H. lia. }
  exists (fun x y s => negb (connected_b n g (reaches n g K) x y s)). intros x y s _ _ _ _ _. rewrite negb_true_iff, <-not_true_iff_false. by rewrite (connected_b_spec n g _ Hdesc Hb).
Qed.
(** A test function for given decisions. *)
Definition lone_test (ind : nat -> nat -> list nat -> bool) (x y : nat) (zs : list nat) (g : nat) : outcome ci_result := Ok (mkCI (ind x y zs) 0).
Lemma lone_decides ind n : decides (lone_test ind) ind n 1.
Proof.
  split; [intros; by eexists|]. intros x y c zss _ _ _ _ Hl. destruct zss as [|zs [|]]; cbn in Hl; try lia. cbn [concat fmap list_fmap first_true app]. rewrite app_nil_r. unfold lone_test. destruct (ind x y zs); [done|by eexists].
Qed.
(** The graph 0 -> 2 <- 1, 2 -> 3. *)
Definition graph_of (l : pairs) (x y : nat) : bool := bool_decide ((x, y) ∈ l).
Definition fork : digraph := graph_of [(0, 2); (1, 2); (2, 3)].
Definition dsep_of (n : nat) (g : digraph) (x y : nat) (s : list nat) : bool := negb (connected_b n g (reaches n g n) x y s).
Lemma graph_dag n (l : pairs) : (forall x y, (x, y) ∈ l -> x < y /\ y < n) -> dag n (graph_of l).
Proof.
  intros H. unfold graph_of. split.
  - intros x y Hxy. apply bool_decide_eq_true, H in Hxy. lia.
  - exists (seq 0 n). split; [done|]. intros i j x y Hi Hj Hxy. apply lookup_seq in Hi as [-> _], Hj as [-> _]. apply bool_decide_eq_true, H in Hxy. lia.
Qed.
Lemma dsep_of_oracle n (l : pairs) : (forall x y, (x, y) ∈ l -> x < y /\ y < n) -> dsep_oracle (dsep_of n (graph_of l)) n (graph_of l).
Proof.
  intros H. pose proof (graph_dag n l H) as [Hb _]. assert (forall x y, graph_of l x y = true -> x < y) as Hr by (intros x y Hxy; apply bool_decide_eq_true, H in Hxy; lia). set (g := graph_of l) in *.
  assert (forall x y, reaches n g n x y = true <-> descendant g x y) as Hdesc. { intros x y. split; [apply reaches_sound|]. intros Hd. apply (reaches_complete n g id Hb Hr x y Hd). apply (desc_range n g x y Hb) in Hd as [_ Hd]. unfold id. lia. }
  intros x y s _ _ _ _ _. unfold dsep_of. rewrite negb_true_iff, <-not_true_iff_false. by rewrite (connected_b_spec n g _ Hdesc Hb).
Qed.
Definition arrows (o : outcome network) : option (list (nat * nat * bool)) := match o with Ok N => Some ((fun e => (e_n1 e, e_n2 e, is_directed e)) <$> nt_edges N) | Err _ => None end.
Definition run_pc (tst : nat -> nat -> list nat -> nat -> outcome ci_result) (n : nat) (dag : bool) (coin : nat -> bool) : outcome network :=
  r ← skeleton_search tst n n 1000 1 forwards; let '(es, A, sep) := r in orient_skeleton 1000 (replicate n 2) dag coin es A sep.
Lemma fork_bounds x y : (x, y) ∈ [(0, 2); (1, 2); (2, 3)] -> x < y /\ y < 4.
Proof. rewrite !elem_of_cons, elem_of_nil. intros [[= -> ->]|[[= -> ->]|[[= -> ->]|[]]]]; lia. Qed.
Lemma fork_run : dag 4 fork /\ dsep_oracle (dsep_of 4 fork) 4 fork /\ decides (lone_test (dsep_of 4 fork)) (dsep_of 4 fork) 4 1 /\ (forall v, length (dag_parents 4 fork v) < 4) /\
  v_structure fork 0 2 1 /\ arrows (run_pc (lone_test (dsep_of 4 fork)) 4 false (fun _ => false)) = Some [(0, 2, true); (1, 2, true); (2, 3, true)].
Proof.
  split; [apply graph_dag, fork_bounds|]. split; [apply dsep_of_oracle, fork_bounds|]. split; [apply lone_decides|]. split; [intros [|[|[|[|v]]]]; cbv; lia|]. split; [|vm_compute; reflexivity].
  split; [done|]. split; [done|]. intros [H|H]; vm_compute in H; done.
Qed.
(** The graph 0 -> 1 -> 2: the second edge is directed by the coin. *)
Definition line : digraph := graph_of [(0, 1); (1, 2)].
Lemma line_bounds x y : (x, y) ∈ [(0, 1); (1, 2)] -> x < y /\ y < 3.
Proof. rewrite !elem_of_cons, elem_of_nil. intros [[= -> ->]|[[= -> ->]|[]]]; lia. Qed.
Definition second (t : nat) : bool := bool_decide (t = 1).
Lemma line_run : match run_pc (lone_test (dsep_of 3 line)) 3 true second with Ok N => nt_edges N = [directed_edge 0 1; directed_edge 2 1] | Err _ => False end.
Proof. vm_compute. reflexivity. Qed.
Lemma line_collider : exists n g ind tst coin N, dag n g /\ dsep_oracle ind n g /\ decides tst ind n 1 /\ (forall v, length (dag_parents n g v) < n) /\
  run_pc tst n true coin = Ok N /\ exists x y z, has_directed N x y /\ has_directed N z y /\ x <> z /\ ~ adjacent g x z /\ ~ v_structure g x y z.
Proof.
  exists 3, line, (dsep_of 3 line), (lone_test (dsep_of 3 line)), second. pose proof line_run as Hrun. destruct (run_pc (lone_test (dsep_of 3 line)) 3 true second) as [N|]; [|done]. exists N.
  split; [apply graph_dag, line_bounds|]. split; [apply dsep_of_oracle, line_bounds|]. split; [apply lone_decides|]. split; [intros [|[|[|v]]]; cbv; lia|]. split; [done|]. exists 0, 1, 2. unfold has_directed. rewrite Hrun. split_and!.
  - exists (directed_edge 0 1). split; [left|done].
  - exists (directed_edge 2 1). split; [right; left|done].
  - done.
  - intros [H|H]; vm_compute in H; done.
  - intros ([_ H] & _). vm_compute in H. done.
Qed.
Lemma fork_gap : exists x y, x < 4 /\ y < 4 /\ x <> y /\ ~ adjacent fork x y.
Proof. exists 0, 1. split_and!; [lia..|done|]. intros [H|H]; vm_compute in H; done. Qed.
(** Two dependent variables. *)
Definition pair : digraph := graph_of [(0, 1)].
Lemma pair_bounds x y : (x, y) ∈ [(0, 1)] -> x < y /\ y < 2.
Proof. rewrite !elem_of_cons, elem_of_nil. intros [[= -> ->]|[]]; lia. Qed.
Lemma pair_run : dag 2 pair /\ dsep_oracle (dsep_of 2 pair) 2 pair /\ decides (lone_test (dsep_of 2 pair)) (dsep_of 2 pair) 2 1 /\ (forall v, length (dag_parents 2 pair v) < 2) /\
  (forall x y, x < 2 -> y < 2 -> x <> y -> adjacent pair x y) /\ run_pc (lone_test (dsep_of 2 pair)) 2 true second = Err OutOfBounds.
Proof.
  split; [apply graph_dag, pair_bounds|]. split; [apply dsep_of_oracle, pair_bounds|]. split; [apply lone_decides|]. split; [intros [|[|v]]; cbv; lia|]. split; [|vm_compute; reflexivity].
  intros [|[|x]] [|[|y]]; try lia; intros _ _ _; [by left|by right].
Qed.
(** A decision table for six variables. *)
Definition table : list (nat * nat * list nat) := [(1, 2, [0]); (2, 5, []); (0, 3, []); (3, 5, [1]); (0, 4, [5]); (1, 4, []); (2, 3, []); (2, 4, []); (3, 4, [])].
Definition table_ind (x y : nat) (s : list nat) : bool := bool_decide ((x, y, s) ∈ table).
Definition doubled (es : list pedge) (A : adjs) (sep : sepmap) : bool :=
  bool_decide (A !! 4 = Some [5]) &&
  match orient_v_structures 1000 A sep (skeleton_network (replicate 6 2) es) with
  | Ok N => bool_decide (edges_between N 4 5 = 2) && bool_decide (directed_edge 4 5 ∈ nt_edges N) && bool_decide (undirected_edge 4 5 ∈ nt_edges N)
  | Err _ => false
  end.
Lemma table_search : match skeleton_search (lone_test table_ind) 6 6 1000 1 forwards with Ok (es, A, sep) => doubled es A sep | Err _ => false end = true.
Proof. vm_compute. reflexivity. Qed.
Lemma two_edges : exists ind tst n es A sep doms N x y, decides tst ind n 1 /\ skeleton_search tst n n 1000 1 forwards = Ok (es, A, sep) /\ length doms = n /\
  orient_v_structures 1000 A sep (skeleton_network doms es) = Ok N /\ linked A x y /\ edges_between N x y = 2 /\ has_directed N x y /\ undirected_edge x y ∈ nt_edges N.
Proof.
  pose proof table_search as H. destruct (skeleton_search (lone_test table_ind) 6 6 1000 1 forwards) as [[[es A] sep]|] eqn:Hs; [|discriminate H]. unfold doubled in H. apply andb_true_iff in H as [HA H]. destruct (orient_v_structures 1000 A sep (skeleton_network (replicate 6 2) es)) as [N|] eqn:HN; [|discriminate H].
  apply andb_true_iff in H as [H H3]. apply andb_true_iff in H as [H1 H2]. apply bool_decide_eq_true in HA, H1, H2, H3.
  exists table_ind, (lone_test table_ind), 6, es, A, sep, (replicate 6 2), N, 4, 5. split; [apply lone_decides|]. split; [exact Hs|]. split; [reflexivity|]. split; [exact HN|]. split; [exists [5]; split; [exact HA|left]|]. split; [exact H1|]. split; [|exact H3]. exists (directed_edge 4 5). split; [exact H2|repeat split].
Qed.
Lemma table_run : match run_pc (lone_test table_ind) 6 true second with Ok N => bool_decide (undirected_edge 1 5 ∈ nt_edges N) | Err _ => false end = true.
Proof. vm_compute. reflexivity. Qed.
Lemma left_undirected : exists ind tst n coin N x y, decides tst ind n 1 /\ run_pc tst n true coin = Ok N /\ undirected_edge x y ∈ nt_edges N.
Proof.
  pose proof table_run as H. destruct (run_pc (lone_test table_ind) 6 true second) as [N|] eqn:HN; [|discriminate H]. apply bool_decide_eq_true in H.
  exists table_ind, (lone_test table_ind), 6, second, N, 1, 5. split; [apply lone_decides|]. split; [exact HN|exact H].
Qed.
Lemma pair_refutes : exists ind tst n g coin, dag n g /\ dsep_oracle ind n g /\ decides tst ind n 1 /\ run_pc tst n true coin = Err OutOfBounds.
Proof. exists (dsep_of 2 pair), (lone_test (dsep_of 2 pair)), 2, pair, second. destruct pair_run as (H1 & H2 & H3 & _ & _ & H4). split_and!; [exact H1|exact H2|exact H3|exact H4]. Qed.
(** The graph 0 -> 1 -> 3 <- 2 <- 0 with 0 -> 3. The edges 0 -- 1 and 0 -- 2 remain undirected, 0 -> 3 is directed by the third rule. *)
Definition kite : digraph := graph_of [(0, 1); (0, 2); (0, 3); (1, 3); (2, 3)].
Lemma kite_bounds x y : (x, y) ∈ [(0, 1); (0, 2); (0, 3); (1, 3); (2, 3)] -> x < y /\ y < 4.
Proof. rewrite !elem_of_cons, elem_of_nil. intros [[= -> ->]|[[= -> ->]|[[= -> ->]|[[= -> ->]|[[= -> ->]|[]]]]]]; lia. Qed.
Lemma kite_run : dag 4 kite /\ dsep_oracle (dsep_of 4 kite) 4 kite /\ decides (lone_test (dsep_of 4 kite)) (dsep_of 4 kite) 4 1 /\ (forall v, length (dag_parents 4 kite v) < 4) /\
  arrows (run_pc (lone_test (dsep_of 4 kite)) 4 false (fun _ => false)) = Some [(0, 1, false); (0, 2, false); (1, 3, true); (2, 3, true); (0, 3, true)].
Proof.
  split; [apply graph_dag, kite_bounds|]. split; [apply dsep_of_oracle, kite_bounds|]. split; [apply lone_decides|]. split; [intros [|[|[|[|v]]]]; cbv; lia|]. vm_compute. reflexivity.
Qed.
