(** One edge operation at a time, on networks whose undirected edges come first. *)
From Verif Require Import OrientModel OrientSpec NetProofs2 NetProofs3.
Local Open Scope nat_scope.

Definition ue (p : nat * nat) : edge := undirected_edge (fst p) (snd p).
Definition de (p : nat * nat) : edge := directed_edge (fst p) (snd p).
Record pat (n : nat) (N : network) (U D : pairs) : Prop := {
  pt_inv : netinv N;
  pt_len : length (nt_nodes N) = n;
  pt_edges : nt_edges N = (ue <$> U) ++ (de <$> D);
  pt_sorted : Forall (fun p => fst p < snd p) U;
  pt_nodup : NoDup U }.

Lemma ue_sorted p : fst p < snd p -> ue p = mkEdge (fst p) (snd p) Tail Tail false None.
Proof. intros H. unfold ue, undirected_edge. by rewrite bool_decide_true. Qed.
Lemma ue_bare x y : x <> y -> undirected_edge x y = ue (bare (x, y)).
Proof.
  intros H. unfold ue, bare, undirected_edge. cbn [fst snd]. destruct (decide (x < y)).
  - rewrite !bool_decide_true by lia. rewrite Nat.min_l, Nat.max_r by lia. done.
  - rewrite bool_decide_false, bool_decide_true by lia. rewrite Nat.min_r, Nat.max_l by lia. done.
Qed.
Lemma bare_sorted x y : x <> y -> fst (bare (x, y)) < snd (bare (x, y)).
Proof. unfold bare. cbn. lia. Qed.
Lemma bare_swap x y : bare (x, y) = bare (y, x).
Proof. unfold bare. cbn. by rewrite Nat.min_comm, Nat.max_comm. Qed.
Lemma bare_id p : fst p < snd p -> bare p = p.
Proof. destruct p as [x y]. cbn. intros H. unfold bare. cbn. by rewrite Nat.min_l, Nat.max_r by lia. Qed.
Lemma bare_eq x y u v : bare (x, y) = bare (u, v) -> (x = u /\ y = v) \/ (x = v /\ y = u).
Proof. unfold bare. cbn. intros [= H1 H2]. lia. Qed.
Lemma directed_pairs_de D : directed_pairs (de <$> D) = D.
Proof. unfold directed_pairs. induction D as [|[x y] D IH]; [done|]. cbn [fmap list_fmap]. rewrite filter_cons, decide_True by done. cbn. f_equal. exact IH. Qed.
Lemma directed_pairs_ue U : directed_pairs (ue <$> U) = [].
Proof.
  induction U as [|[x y] U IH]; [done|]. cbn [fmap list_fmap]. change (ue (x, y) :: (ue <$> U)) with ([undirected_edge x y] ++ (ue <$> U)). by rewrite directed_pairs_app, directed_pairs_undirected, IH.
Qed.
Lemma pat_directed n N U D x y : pat n N U D -> has_directed N x y <-> (x, y) ∈ D.
Proof. intros [_ _ He _ _]. rewrite has_directed_pairs, He, directed_pairs_app, directed_pairs_ue, directed_pairs_de. done. Qed.
Lemma pat_acyclic n N U D : pat n N U D -> acyclic (fun x y => (x, y) ∈ D).
Proof. intros H. apply (acyclic_ext (has_directed N)); [|apply (ni_acyclic _ (pt_inv _ _ _ _ H))]. intros x y. by eapply pat_directed. Qed.
Lemma edge_same_ue p q : fst p < snd p -> fst q < snd q -> edge_same (ue p) (ue q) = bool_decide (p = q).
Proof.
  intros Hp Hq. rewrite !ue_sorted by done. destruct p as [a b], q as [c d]; cbn in *. unfold edge_same. cbn. repeat case_bool_decide; try done; naive_solver.
Qed.
Lemma edge_same_de p q : fst q < snd q -> edge_same (de p) (ue q) = false.
Proof. intros Hq. rewrite ue_sorted by done. unfold edge_same. cbn. rewrite (bool_decide_false (Arrow = Tail)) by done. by rewrite andb_false_r. Qed.
Lemma find_ue U D p : Forall (fun p => fst p < snd p) U -> fst p < snd p ->
  match find_edge ((ue <$> U) ++ (de <$> D)) (ue p) with
  | Some k => exists U1 U2, U = U1 ++ p :: U2 /\ length U1 = k /\ p ∉ U1
  | None => p ∉ U
  end.
Proof.
  intros HU Hp. induction HU as [|q U Hq HU IH].
  - cbn. assert (find_edge (de <$> D) (ue p) = None) as ->; [|set_solver]. apply find_edge_none. intros a Ha. apply elem_of_list_fmap in Ha as (r & -> & _). by apply edge_same_de.
  - cbn [fmap list_fmap app find_edge]. rewrite edge_same_ue by done. case_bool_decide as E.
    + subst. exists [], U. split_and!; [done|done|set_solver].
    + destruct (find_edge _ _) as [k|]; cbn.
      * destruct IH as (U1 & U2 & -> & <- & Hn). exists (q :: U1), U2. split_and!; [done|done|set_solver].
      * set_solver.
Qed.
Definition without (U : pairs) (p : nat * nat) : pairs := filter (fun q => q <> p) U.
Lemma without_split U1 U2 p : p ∉ U1 -> p ∉ U2 -> without (U1 ++ p :: U2) p = U1 ++ U2.
Proof.
  intros H1 H2. unfold without. rewrite filter_app, filter_cons, decide_False by (by intros []). f_equal.
  - clear -H1. induction U1 as [|q U1 IH]; [done|]. rewrite filter_cons, decide_True by set_solver. f_equal. apply IH. set_solver.
  - clear -H2. induction U2 as [|q U2 IH]; [done|]. rewrite filter_cons, decide_True by set_solver. f_equal. apply IH. set_solver.
Qed.
Lemma delete_undirected_pat n N U D x y : pat n N U D -> x < n -> y < n -> x <> y ->
  exists N' b, delete_undirected_edge N x y = Ok (N', b) /\ b = bool_decide (bare (x, y) ∈ U) /\ pat n N' (without U (bare (x, y))) D.
Proof.
  intros [HI Hn He Hs Hd] Hx Hy Hne. destruct (delete_undirected_edge_spec N x y HI ltac:(lia) ltac:(lia)) as (N' & b & Heq & HI' & Hnodes & _).
  exists N', b. split; [done|]. unfold delete_undirected_edge in Heq.
  destruct (lookup_lt_is_Some_2 (nt_nodes N) (x `min` y)) as [nd1 Hnd1]; [lia|]. destruct (lookup_lt_is_Some_2 (nt_nodes N) (x `max` y)) as [nd2 Hnd2]; [lia|].
  rewrite (find_node_ok _ _ _ Hnd1), (find_node_ok _ _ _ Hnd2) in Heq. cbn [mbind outcome_bind] in Heq. unfold get_undirected_edge in Heq. rewrite He in Heq.
  change (undirected_edge (x `min` y) (x `max` y)) with (ue (bare (x, y))) in Heq. pose proof (find_ue U D (bare (x, y)) Hs (bare_sorted x y Hne)) as Hf.
  destruct (find_edge _ _) as [k|].
  - destruct Hf as (U1 & U2 & -> & <- & Hn1). injection Heq as <- <-. apply NoDup_app in Hd as (Hd1 & Hd2 & Hd3). apply NoDup_cons in Hd3 as [Hn2 Hd3]. split; [rewrite bool_decide_true; [done|set_solver]|].
    rewrite without_split by done. constructor; [done|by rewrite Hnodes| | |].
    + cbn [set_edges nt_edges]. rewrite fmap_app. cbn [fmap list_fmap]. rewrite <-app_assoc. cbn [app]. rewrite <-(fmap_length ue U1), erase_at_middle. by rewrite fmap_app, <-app_assoc.
    + apply Forall_app in Hs as [H1 H2]. apply Forall_app. split; [done|]. by inversion H2.
    + apply NoDup_app. split_and!; [done| |done]. intros q Hq. specialize (Hd2 q Hq). set_solver.
  - injection Heq as <- <-. split; [by rewrite bool_decide_false|]. assert (without U (bare (x, y)) = U) as ->; [|by constructor]. unfold without. clear -Hf. induction U as [|q U IH]; [done|]. rewrite filter_cons, decide_True by set_solver. f_equal. apply IH. set_solver.
Qed.
Lemma add_directed_pat n N U D x y : pat n N U D -> x < n -> y < n -> exists N' b, add_directed_edge N x y = Ok (N', b) /\
  (b = true -> addable D x y /\ pat n N' U (D ++ [(x, y)])) /\ (b = false -> ~ addable D x y /\ pat n N' U D).
Proof.
  intros HP Hx Hy. pose proof HP as [HI Hn He Hs Hd]. destruct (add_directed_edge_spec N x y HI ltac:(lia) ltac:(lia)) as (N' & b & Heq & HI' & Hl & _ & _ & Hb & Ht & Hf).
  exists N', b. split; [done|]. assert (addable D x y <-> ~ (x = y \/ tc (has_directed N) y x)) as Hadd.
  { unfold addable. rewrite <-(acyclic_add_edge (has_directed N) x y) by apply (ni_acyclic _ HI). apply acyclic_ext. intros u v. rewrite elem_of_app, elem_of_list_singleton, (pat_directed _ _ _ _ _ _ HP). naive_solver. }
  rewrite Hadd. split; intros Hbb.
  - split; [by apply Hb|]. constructor; [done|lia| |done|done]. rewrite (Ht Hbb), He, fmap_app, <-app_assoc. done.
  - split; [intros Hc; apply Hb in Hc; congruence|]. destruct (Hf Hbb) as [He' _]. constructor; [done|lia|congruence|done|done].
Qed.
Lemma delete_directed_none N x y : x < length (nt_nodes N) -> y < length (nt_nodes N) -> ~ has_directed N x y -> delete_directed_edge N x y = Ok (N, false).
Proof.
  intros Hx Hy Hn. unfold delete_directed_edge. destruct (lookup_lt_is_Some_2 _ _ Hx) as [nd1 H1], (lookup_lt_is_Some_2 _ _ Hy) as [nd2 H2].
  rewrite (find_node_ok _ _ _ H1), (find_node_ok _ _ _ H2). cbn [mbind outcome_bind]. by rewrite (proj2 (get_directed_edge_none N x y) Hn).
Qed.
Lemma is_directed_pat n N U D x y : pat n N U D -> x < n -> y < n -> is_directed_from_to N x y = Ok (bool_decide ((x, y) ∈ D)).
Proof.
  intros HP Hx Hy. pose proof HP as [HI Hn _ _ _]. unfold is_directed_from_to. destruct (lookup_lt_is_Some_2 (nt_nodes N) x ltac:(lia)) as [nd1 H1], (lookup_lt_is_Some_2 (nt_nodes N) y ltac:(lia)) as [nd2 H2].
  rewrite (find_node_ok _ _ _ H1), (find_node_ok _ _ _ H2). cbn [mbind outcome_bind]. f_equal. apply bool_decide_ext. rewrite <-(pat_directed _ _ _ _ x y HP), <-(netinv_parent N x y HI). unfold parent_rel. rewrite H2. naive_solver.
Qed.
Lemma direct_pat n N U D cap x y : pat n N U D -> x < n -> y < n -> x <> y -> length U + length D < cap ->
  exists N' b, direct cap N x y = Ok (N', b) /\
  (b = true -> addable D x y /\ pat n N' (without U (bare (x, y))) (D ++ [(x, y)])) /\ (b = false -> ~ addable D x y /\ pat n N' U D).
Proof.
  intros HP Hx Hy Hne Hcap. destruct (add_directed_pat n N U D x y HP Hx Hy) as (N1 & b & Heq & Ht & Hf). unfold direct. rewrite Heq. cbn [mbind outcome_bind].
  destruct b; [|exists N1, false; split_and!; [done|done|by apply Hf]]. destruct (Ht eq_refl) as [Ha HP1]. rewrite bool_decide_false.
  2:{ rewrite (pt_edges _ _ _ _ HP), app_length, !fmap_length. lia. }
  destruct (delete_undirected_pat n N1 U (D ++ [(x, y)]) x y HP1 Hx Hy Hne) as (N2 & b & -> & _ & HP2). exists N2, true. split_and!; [done| |done]. intros _. done.
Qed.

(** ** Neighbours *)
Lemma linked_bound n E A x y : skeleton_of n E A -> linked A x y -> x < n /\ y < n /\ x <> y.
Proof. intros (_ & HE & _ & _ & HL) H. apply HL in H as [H|H]; apply HE in H; lia. Qed.
Lemma linked_sym n E A x y : skeleton_of n E A -> linked A x y -> linked A y x.
Proof. intros (_ & _ & _ & _ & HL) H. apply HL. apply HL in H. tauto. Qed.
Lemma linked_bare n E A x y : skeleton_of n E A -> linked A x y <-> x <> y /\ bare (x, y) ∈ E.
Proof.
  intros HS. pose proof HS as (_ & HE & _ & _ & HL). rewrite HL. split.
  - intros [H|H]; (split; [apply HE in H; lia|]); [rewrite bare_id; [done|apply HE in H; cbn; lia]|rewrite bare_swap, bare_id; [done|apply HE in H; cbn; lia]].
  - intros [Hne H]. unfold bare in H. cbn in H. destruct (decide (x < y)); [left; rewrite Nat.min_l, Nat.max_r in H by lia|right; rewrite Nat.min_r, Nat.max_l in H by lia]; done.
Qed.
Lemma is_adjacent_ok n E A x y : skeleton_of n E A -> x < n -> exists b, is_adjacent_to A x y = Ok b /\ (b = true <-> linked A x y).
Proof.
  intros (_ & _ & Hl & _ & _) Hx. destruct (lookup_lt_is_Some_2 A x ltac:(lia)) as [row Hr]. exists (bool_decide (y ∈ row)). split; [unfold is_adjacent_to, vat; by rewrite Hr|].
  rewrite bool_decide_eq_true. unfold linked. rewrite Hr. naive_solver.
Qed.
(** Every edge of the skeleton once. *)
Lemma once_disjoint E U D : NoDup E -> U ++ (bare <$> D) ≡ₚ E -> forall p, p ∈ D -> bare p ∉ U /\ forall q, q ∈ D -> bare q = bare p -> q = p.
Proof.
  intros HE HP p Hp. rewrite <-HP in HE. apply NoDup_app in HE as (_ & Hdis & HD). split.
  - intros Hin. apply (Hdis _ Hin). by apply elem_of_list_fmap_1.
  - intros q Hq Heq. apply elem_of_list_lookup in Hp as [i Hi], Hq as [j Hj]. assert (j = i) as ->; [|congruence]. apply (NoDup_lookup _ _ _ (bare p) HD); rewrite list_lookup_fmap, ?Hi, ?Hj; cbn; congruence.
Qed.
Lemma open_edge_U n E A U D x y : skeleton_of n E A -> U ++ (bare <$> D) ≡ₚ E -> open_edge A D x y <-> x <> y /\ bare (x, y) ∈ U.
Proof.
  intros HS HP. unfold open_edge. rewrite (linked_bare n E A) by done. rewrite <-HP, elem_of_app. split.
  - intros ((Hne & [H|H]) & H1 & H2); [done|]. apply elem_of_list_fmap in H as ([u v] & Heq & H). apply bare_eq in Heq as [[-> ->]|[-> ->]]; done.
  - intros (Hne & H). split_and!; [done|by left| |]; intros Hin; destruct (once_disjoint E U D (proj1 HS) HP _ Hin) as [Hn _]; apply Hn; [done|by rewrite bare_swap].
Qed.
Lemma is_undirected_pat n E A N U D x y : skeleton_of n E A -> pat n N U D -> U ++ (bare <$> D) ≡ₚ E -> x < n -> y < n -> exists b, is_undirected A N x y = Ok b /\ (b = true <-> open_edge A D x y).
Proof.
  intros HS HP Hperm Hx Hy. unfold is_undirected. destruct (is_adjacent_ok n E A x y HS Hx) as (b & -> & Hb). cbn [mbind outcome_bind]. unfold open_edge. destruct b.
  - rewrite (is_directed_pat _ _ _ _ x y HP Hx Hy), (is_directed_pat _ _ _ _ y x HP Hy Hx). cbn [mbind outcome_bind]. case_bool_decide as H1; [exists false; split; [done|]; intuition done|]. case_bool_decide as H2; (eexists; split; [done|]); cbn; intuition done.
  - exists false. split; [done|]. split; [done|]. intros [H _]. apply Hb in H. done.
Qed.
Lemma perm_move U D E x y : NoDup U -> bare (x, y) ∈ U -> U ++ (bare <$> D) ≡ₚ E -> without U (bare (x, y)) ++ (bare <$> D ++ [(x, y)]) ≡ₚ E.
Proof.
  intros HU Hin HP. rewrite <-HP. apply elem_of_list_split in Hin as (U1 & U2 & HeqU). rewrite HeqU in HU |- *. apply NoDup_app in HU as (_ & H1 & H2). apply NoDup_cons in H2 as [H2 _]. rewrite without_split; [|intros H; apply (H1 _ H); left|done].
  rewrite fmap_app. cbn [fmap list_fmap]. rewrite <-!app_assoc. cbn [app]. apply Permutation_app_head. rewrite app_assoc. symmetry. apply (Permutation_cons_append (U2 ++ (bare <$> D)) (bare (x, y))).
Qed.
