(** The implication rules after the orientation of colliders, for all answers of the tests. *)
From Verif Require Import PCModel PCSpec PCWitness OrientModel OrientSpec OrientSafe OrientPairs OrientSound LearnedProofs OrientTheorems OrientWitness NetProofs ClassSpec DSepWitness.
Local Open Scope nat_scope.

Lemma colliders_drawn tst n depth fuel g sch es A S ofuel doms N : skeleton_search tst n depth fuel g sch = Ok (es, A, S) -> orient_v_structures ofuel A S (skeleton_network doms es) = Ok N ->
  family_ok N /\ forall x y, edges_between N x y <> 0 <-> linked A x y.
Proof.
  intros Hs Hv. pose proof (learned_skeleton tst n depth fuel g sch es A S Hs) as (_ & Hb & _ & _ & Hl). split; [apply (orient_v_kept _ _ _ _ _ (skeleton_family doms es) Hv)|].
  assert (forall e, e ∈ es -> pe_n1 e < pe_n2 e) as Hlt. { intros e He. destruct (Hb (pe_n1 e) (pe_n2 e)) as [H _]; [apply elem_of_list_fmap; by exists e|done]. }
  assert (irreflexive_pairs (skeleton_pairs es)) as HI. { intros p Hp. apply elem_of_list_fmap in Hp as (e & -> & He). specialize (Hlt e He). unfold bare. cbn. lia. }
  pose proof (orient_v_held _ _ _ _ _ _ HI (skeleton_held doms es) Hv) as (_ & _ & HE). intros x y. rewrite joined_pairs, HE, Hl. unfold skeleton_pairs. rewrite !elem_of_list_fmap. split.
  - intros (e & He & Hin). unfold bare in He. cbn in He. injection He as H1 H2. specialize (Hlt e Hin). destruct (decide (x <= y)); [left|right]; exists e; (split; [|done]); unfold pe_pair; f_equal; lia.
  - intros [(e & He & Hin)|(e & He & Hin)]; exists e; (split; [|done]); unfold pe_pair in He; injection He as -> ->; [done|apply bare_sym].
Qed.
Theorem learned_sound tst n depth fuel g sch es A S ofuel doms N D ifuel cap N' : skeleton_search tst n depth fuel g sch = Ok (es, A, S) ->
  orient_v_structures ofuel A S (skeleton_network doms es) = Ok N -> (forall x y, (x, y) ∈ D <-> parent_rel N x y) -> orient_implied ifuel cap A N = Ok N' ->
  exists L, directing (implied A) A D L /\ (forall x y, (x, y) ∈ D ++ L <-> parent_rel N' x y) /\ acyclic (parent_rel N') /\ forall x y, edges_between N' x y <> 0 <-> linked A x y.
Proof.
  intros Hs Hv HD Hi. destruct (colliders_drawn _ _ _ _ _ _ _ _ _ _ _ _ Hs Hv) as [HF HE]. destruct (implied_is_sound n _ A cap ifuel N D N' (learned_skeleton tst n depth fuel g sch es A S Hs) HF HD Hi) as (L & H1 & H2 & H3 & H4).
  exists L. split_and!; [done|done|done|]. intros x y. by rewrite H4.
Qed.

(** ** The skeleton of OrientWitness.v *)
Lemma parents_listed N P : nd_parents <$> nt_nodes N = P -> forall x y, parent_rel N x y <-> exists ps, P !! y = Some ps /\ x ∈ ps.
Proof.
  intros <- x y. unfold parent_rel. rewrite list_lookup_fmap. destruct (nt_nodes N !! y) as [nd|]; cbn; naive_solver.
Qed.
Lemma tee_sound : exists N N', skeleton_of 4 tee_edges tee_adj /\ family_ok N /\ (forall x y, (x, y) ∈ [(0, 2); (1, 2)] <-> parent_rel N x y) /\ orient_implied 10 6 tee_adj N = Ok N' /\ parent_rel N' 2 3 /\ ~ parent_rel N 2 3.
Proof.
  assert (match orient_v_structures 100 tee_adj tee_sep (skeleton_network [2;2;2;2] (new_pedge <$> tee_edges)) with
    | Ok N => bool_decide (nd_parents <$> nt_nodes N = [[]; []; [0; 1]; []]) && match orient_implied 10 6 tee_adj N with Ok N' => bool_decide (nd_parents <$> nt_nodes N' = [[]; []; [0; 1]; [2]]) | Err _ => false end
    | Err _ => false end = true) as H by (vm_compute; reflexivity).
  destruct (orient_v_structures 100 tee_adj tee_sep (skeleton_network [2;2;2;2] (new_pedge <$> tee_edges))) as [N|] eqn:HN; [|discriminate H]. apply andb_true_iff in H as [H1 H]. destruct (orient_implied 10 6 tee_adj N) as [N'|] eqn:HN'; [|discriminate H].
  apply bool_decide_eq_true in H1, H. pose proof (parents_listed N _ H1) as P1. pose proof (parents_listed N' _ H) as P2. exists N, N'. split; [exact tee_skeleton|]. split; [apply (orient_v_kept _ _ _ _ _ (skeleton_family _ _) HN)|].
  assert (forall x y, (x, y) ∈ [(0, 2); (1, 2)] <-> parent_rel N x y) as HD.
  { intros x y. rewrite P1, !elem_of_cons, elem_of_nil. split.
    - intros [[= -> ->]|[[= -> ->]|[]]]; exists [0; 1]; (split; [done|]); [left|right; left].
    - intros (ps & Hy & Hx). destruct y as [|[|[|[|y]]]]; cbn in Hy; try discriminate Hy; injection Hy as <-; rewrite ?elem_of_cons, ?elem_of_nil in Hx; destruct Hx as [->|[->|[]]] || destruct Hx; [by left|by right; left]. }
  split; [exact HD|]. split; [exact HN'|]. split; [apply P2; exists [2]; split; [done|left]|]. rewrite <-HD, !elem_of_cons, elem_of_nil. intros [?|[?|[]]]; discriminate.
Qed.
(** ** Tests that contradict each other: two edges between 4 and 5 *)
Lemma clash_sound : exists es A S N N', skeleton_search (lone_test table_ind) 6 6 1000 1 forwards = Ok (es, A, S) /\ orient_v_structures 1000 A S (skeleton_network (replicate 6 2) es) = Ok N /\
  (forall x y, (x, y) ∈ [(2, 0); (5, 0); (0, 1); (3, 1); (4, 5)] <-> parent_rel N x y) /\ edges_between N 4 5 = 2 /\ orient_implied 1000 15 A N = Ok N'.
Proof.
  assert (match skeleton_search (lone_test table_ind) 6 6 1000 1 forwards with Ok (es, A, sep) =>
    match orient_v_structures 1000 A sep (skeleton_network (replicate 6 2) es) with
    | Ok N => bool_decide (nd_parents <$> nt_nodes N = [[2; 5]; [0; 3]; []; []; []; [4]] /\ edges_between N 4 5 = 2) && match orient_implied 1000 15 A N with Ok N' => true | Err _ => false end
    | Err _ => false end | Err _ => false end = true) as H by (vm_compute; reflexivity).
  destruct (skeleton_search (lone_test table_ind) 6 6 1000 1 forwards) as [[[es A] S]|]; [|discriminate H].
  destruct (orient_v_structures 1000 A S (skeleton_network (replicate 6 2) es)) as [N|] eqn:HN; [|discriminate H]. apply andb_true_iff in H as [H1 H]. destruct (orient_implied 1000 15 A N) as [N'|] eqn:HN'; [|discriminate H].
  apply bool_decide_eq_true in H1 as [H1 H2]. pose proof (parents_listed N _ H1) as P1. exists es, A, S, N, N'. refine (conj eq_refl (conj HN (conj _ (conj H2 HN')))).
  intros x y. rewrite P1, !elem_of_cons, elem_of_nil. split.
  - intros [[= -> ->]|[[= -> ->]|[[= -> ->]|[[= -> ->]|[[= -> ->]|[]]]]]]; (eexists; split; [reflexivity|]); rewrite !elem_of_cons; [by left|by right; left|by left|by right; left|by left].
  - intros (ps & Hy & Hx). destruct y as [|[|[|[|[|[|y]]]]]]; cbn in Hy; try discriminate Hy; injection Hy as <-; rewrite ?elem_of_cons, ?elem_of_nil in Hx.
    + destruct Hx as [->|[->|[]]]; [by left|by right; left].
    + destruct Hx as [->|[->|[]]]; [by right; right; left|by do 3 right; left].
    + destruct Hx.
    + destruct Hx.
    + destruct Hx.
    + destruct Hx as [->|[]]. by do 4 right; left.
Qed.
