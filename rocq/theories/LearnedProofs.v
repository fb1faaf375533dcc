(** What is saved of a learned structure, whatever the tests answer. *)
From Verif Require Import PCModel PCSpec OrientSpec OrientSafe NetProofs NetProofs2 NetProofs3 RootProofs PCAny OrientPairs.
Local Open Scope nat_scope.

Lemma save_arcs_edges N es : save_arcs (set_edges N es) = save_arcs N.
Proof.
  unfold save_arcs, get_topo_ord, gen_topo_ord. change (nt_topo (set_edges N es)) with (nt_topo N). change (adjacency (set_edges N es)) with (adjacency N). change (nt_nodes (set_edges N es)) with (nt_nodes N).
  case_bool_decide; [|done]. destruct (adjacency N) as [gi|]; [|done]. cbn [mbind outcome_bind]. by destruct (topo_sort _ _ _).
Qed.
Lemma save_arcs_family N : family_ok N -> nt_topo N = [] -> exists lines, save_arcs N = Ok lines /\ NoDup lines /\ forall l, l ∈ lines <-> exists x y, l = Arc x y /\ child_rel N x y.
Proof.
  intros HF Ht. destruct (save_arcs_ok (set_edges N (OrientSafe.canon N)) (canon_inv N HF) Ht) as (ls & Hls & Hnd & Hin). exists ls. rewrite save_arcs_edges in Hls. split; [done|]. split; [done|]. intros l. rewrite Hin. split; intros (x & y & -> & H); exists x, y; (split; [done|]); by apply canon_directed.
Qed.
Definition shown_line (e : edge) : line := match e_ep2 e with Arrow => Arc (e_n1 e) (e_n2 e) | Tail => Link (e_n1 e) (e_n2 e) end.
Lemma undirected_again a b : undirected_edge (e_n1 (undirected_edge a b)) (e_n2 (undirected_edge a b)) = undirected_edge a b.
Proof.
  unfold undirected_edge. destruct (decide (a < b)) as [H|H]; [rewrite !(bool_decide_true (a < b)) by done; done|]. rewrite !(bool_decide_false (a < b)) by done. cbn [e_n1 e_n2]. destruct (decide (a = b)) as [->|]; [by rewrite bool_decide_false by lia|]. by rewrite bool_decide_true by lia.
Qed.
Lemma shape_tail e : shape e -> e_ep1 e = Tail.
Proof. intros (x & y & [->| ->]); [done|]. unfold undirected_edge. by case_bool_decide. Qed.
Lemma shape_line e : shape e -> (if negb (is_directed e) then Link (e_n1 e) (e_n2 e) else if bool_decide (e_ep1 e = Tail) then Arc (e_n1 e) (e_n2 e) else Arc (e_n2 e) (e_n1 e)) = shown_line e.
Proof. intros H. apply shape_tail in H. unfold is_directed, shown_line. rewrite H. by destruct (e_ep2 e). Qed.
Lemma save_first N e0 : nt_edges N !! 0 = Some e0 -> is_directed e0 = false -> nt_num_edges N <= length (nt_edges N) -> (forall e, e ∈ nt_edges N -> shape e) ->
  save_bn_structure N = Ok (shown_line <$> take (nt_num_edges N) (nt_edges N)).
Proof.
  intros He0 Hd Hn HS. unfold save_bn_structure. rewrite (vget_ok _ _ _ He0). cbn [mbind outcome_bind]. rewrite Hd.
  match goal with |- mfor ?l ?b ?s = _ => destruct (mfor_inv (fun (dn : list nat) out => out = shown_line <$> take (length dn) (nt_edges N)) l b s) as (out & -> & ->) end.
  - done.
  - intros dn i rest out Hs ->. assert (i = length dn /\ i < nt_num_edges N) as [-> Hi].
    { assert (seq 0 (nt_num_edges N) !! length dn = Some i) as Hl by (rewrite Hs; by apply list_lookup_middle). apply lookup_seq in Hl. lia. }
    destruct (lookup_lt_is_Some_2 (nt_edges N) (length dn)) as [e He]; [lia|]. unfold vat. rewrite He. cbn [mbind outcome_bind]. eexists. split; [done|]. rewrite shape_line by (apply HS; by eapply elem_of_list_lookup_2).
    rewrite app_length. cbn [length]. rewrite Nat.add_1_r. rewrite (take_S_r _ _ _ He), fmap_app. done.
  - by rewrite seq_length.
Qed.

Section learned.
Context (tst : nat -> nat -> list nat -> nat -> outcome ci_result) (n depth fuel g : nat) (sch : nat -> schedule) (es : list pedge) (A : adjs) (S : sepmap).
Context (Hsearch : skeleton_search tst n depth fuel g sch = Ok (es, A, S)).
Context (ofuel : nat) (doms : list nat) (dag : bool) (coin : nat -> bool) (N : network) (Horient : orient_skeleton ofuel doms dag coin es A S = Ok N).
Lemma learned_skeleton : skeleton_of n (pe_pair <$> es) A.
Proof using Hsearch. by eapply search_any. Qed.
Lemma learned_held : held (pe_pair <$> es) N.
Proof using Hsearch Horient.
  destruct learned_skeleton as (_ & Hb & _). assert (skeleton_pairs es = pe_pair <$> es) as <-.
  { unfold skeleton_pairs. apply list_fmap_ext. intros i e He. unfold bare, pe_pair. cbn. destruct (Hb (pe_n1 e) (pe_n2 e)) as [H _]; [apply elem_of_list_fmap; exists e; split; [done|by eapply elem_of_list_lookup_2]|]. f_equal; lia. }
  eapply orient_held; [|exact Horient]. intros e He. destruct (Hb (pe_n1 e) (pe_n2 e)) as [H _]; [apply elem_of_list_fmap; by exists e|]. lia.
Qed.
(** The pairs that are joined are those of the skeleton. *)
Theorem learned_adjacencies x y : 0 < edges_between N x y <-> linked A x y.
Proof using Hsearch Horient.
  destruct learned_skeleton as (_ & Hb & _ & _ & Hl). rewrite Hl. destruct learned_held as (_ & _ & HE). unfold edges_between. split.
  - intros H. destruct (filter _ (nt_edges N)) as [|e l] eqn:Hf; [cbn in H; lia|]. assert (e ∈ e :: l) as He by left. rewrite <-Hf in He. apply elem_of_list_filter in He as [Hp He].
    assert (bare (x, y) ∈ pe_pair <$> es) as Hin. { apply HE. rewrite <-Hp. apply elem_of_list_fmap. by exists e. }
    unfold bare in Hin. cbn in Hin. destruct (decide (x <= y)); [left|right]; [rewrite Nat.min_l, Nat.max_r in Hin by lia|rewrite Nat.min_r, Nat.max_l in Hin by lia]; done.
  - intros H. assert (bare (x, y) ∈ pairs_of N) as Hin. { apply HE. destruct H as [H|H]; pose proof (Hb _ _ H) as Hlt; unfold bare; cbn; [rewrite Nat.min_l, Nat.max_r by lia|rewrite Nat.min_r, Nat.max_l by lia]; done. }
    apply elem_of_list_fmap in Hin as (e & Hp & He). assert (e ∈ filter (fun e => bare (e_n1 e, e_n2 e) = bare (x, y)) (nt_edges N)) as Hf by (by apply elem_of_list_filter). destruct (filter _ (nt_edges N)); [by apply elem_of_nil in Hf|cbn; lia].
Qed.
Lemma learned_count : length es <= length (nt_edges N).
Proof using Hsearch Horient.
  destruct learned_skeleton as (Hnd & _). destruct learned_held as (_ & _ & HE). rewrite <-(fmap_length pe_pair es), <-(fmap_length pair_of (nt_edges N)). apply submseteq_length, NoDup_submseteq; [done|]. intros p. apply HE.
Qed.
(** The structure is saved exactly if it has an edge; every line is an edge of the structure. *)
Theorem learned_saved :
  (es = [] -> save_bn_structure N = Err OutOfBounds) /\
  (es <> [] -> exists lines, save_bn_structure N = Ok lines /\
    (forall x y, Arc x y ∈ lines -> has_directed N x y) /\
    (forall x y, Link x y ∈ lines -> undirected_edge x y ∈ nt_edges N) /\
    ((forall x y, Arc x y ∈ lines <-> x ∈ parents_of N y) /\ NoDup lines /\ (forall x y, Link x y ∉ lines) \/ length lines = length es)).
Proof using Hsearch Horient.
  pose proof learned_held as (HF & [HL HS] & HE). pose proof (orient_kept' _ _ _ _ _ _ _ _ Horient) as (_ & _ & Hc). unfold cached, skeleton_network in Hc. cbn in Hc. injection Hc as Hnum Ht. pose proof learned_count as Hcount. split.
  - intros ->. destruct (nt_edges N) as [|e l] eqn:He; [by apply save_no_edges|]. assert (pair_of e ∈ pe_pair <$> ([] : list pedge)) as Hx by (apply HE; unfold pairs_of; rewrite He; left). by apply elem_of_nil in Hx.
  - intros Hes. destruct (nt_edges N) as [|e0 l] eqn:He; [destruct es; [done|cbn in Hcount; lia]|]. rewrite <-He in *. assert (nt_edges N !! 0 = Some e0) as He0 by (by rewrite He). destruct (is_directed e0) eqn:Hd.
    + destruct (save_arcs_family N HF Ht) as (lines & Hs & Hnd & Hin). exists lines. split; [unfold save_bn_structure; rewrite (vget_ok _ _ _ He0); cbn [mbind outcome_bind]; rewrite Hd; exact Hs|]. split_and!.
      * intros x y Hxy. apply Hin in Hxy as (x' & y' & [= <- <-] & H). by apply HL.
      * intros x y Hxy. by apply Hin in Hxy as (? & ? & ? & _).
      * left. split_and!; [|done|intros x y Hxy; by apply Hin in Hxy as (? & ? & ? & _)]. intros x y. rewrite Hin. split.
        -- intros (x' & y' & [= <- <-] & H). apply (fo_agree N HF) in H as (nd & Hy & Hx). unfold parents_of. rewrite Hy. cbn. done.
        -- intros H. exists x, y. split; [done|]. apply (fo_agree N HF). unfold parents_of in H. destruct (nt_nodes N !! y) as [nd|] eqn:Hy; [|by apply elem_of_nil in H]. by exists nd.
    + exists (shown_line <$> take (length es) (nt_edges N)). rewrite (save_first N e0 He0 Hd); [|lia|done]. rewrite Hnum. split; [done|]. split_and!.
      * intros x y Hxy. apply elem_of_list_fmap in Hxy as (e & Hl & Hin). apply elem_of_take in Hin as (i & Hi & _). apply elem_of_list_lookup_2 in Hi. exists e. unfold shown_line in Hl. pose proof (shape_tail e (HS e Hi)). destruct (e_ep2 e) eqn:Hep; [done|]. by injection Hl as <- <-.
      * intros x y Hxy. apply elem_of_list_fmap in Hxy as (e & Hl & Hin). apply elem_of_take in Hin as (i & Hi & _). apply elem_of_list_lookup_2 in Hi. unfold shown_line in Hl. destruct (e_ep2 e) eqn:Hep; [|done]. injection Hl as -> ->. destruct (HS e Hi) as (a & b & [->| ->]); [done|]. by rewrite undirected_again.
      * right. rewrite fmap_length, take_length. lia.
Qed.
End learned.
