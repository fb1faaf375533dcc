(** Copies of networks. *)
From Coq Require Import Field QArith.
From Verif Require Import CopyModel GraphSpec JTSpec JTModel NetProofs2 NetProofs3 LearnProofs LearnTheorems JTTheorems CountProofs GibbsProofs Sums TableProofs.
Local Open Scope nat_scope.

(** ** What depends on the nodes only *)
Lemma jt_build_nodes o N N' pts : nt_nodes N' = nt_nodes N -> jt_build o N' pts = jt_build o N pts.
Proof. destruct N as [? ? ? ?], N' as [? ? ? ?]. cbn. intros ->. reflexivity. Qed.
Lemma learn_nodes N N' D alpha coin pts : nt_nodes N' = nt_nodes N -> learn_params N' D alpha coin pts = learn_params N D alpha coin pts.
Proof. destruct N as [? ? ? ?], N' as [? ? ? ?]. cbn. intros ->. reflexivity. Qed.
Lemma copy_spec N : netinv N -> nt_topo N = [] -> exists N1 C, copy_network N = Ok (N1, (C, [])) /\ nt_nodes N1 = nt_nodes N /\ nt_edges N1 = nt_edges N /\
  domain_sizes C = domain_sizes N /\ (forall x y, (child_rel C x y <-> has_directed N x y) /\ (parent_rel C x y <-> has_directed N x y)) /\
  (forall i, parent_idxes C i = parent_idxes N i /\ children_idxes C i = children_idxes N i) /\ check_edges C = check_edges N /\
  topological (has_directed N) (length (nt_nodes C)) (nt_topo C) /\ (0 < length (nt_nodes N) -> get_topo_ord C = Ok (C, nt_topo C)) /\
  (forall o pts, jt_build o C pts = jt_build o N pts) /\ (forall D alpha coin pts, learn_params C D alpha coin pts = learn_params N D alpha coin pts).
Proof.
  intros HI Ht. destruct (get_topo_ord_fresh N HI Ht) as (N1 & t & Hg & H1 & H2 & H3 & H4). unfold copy_network. rewrite Hg. cbn [mbind outcome_bind fst snd].
  exists N1, (mkNet (nt_nodes N1) [] t 0). rewrite H3. split_and!; [done|done|done|done| |done|done|done| | |].
  - intros x y. destruct (ni_consistent _ HI x y) as [Hc Hp]. split; [symmetry; exact Hc|symmetry; exact Hp].
  - intros Hn. unfold get_topo_ord. cbn [nt_topo]. rewrite bool_decide_false; [done|]. intros ->. destruct H4 as [HP _]. apply Permutation_length in HP. rewrite seq_length in HP. cbn in HP. lia.
  - intros o pts. by apply jt_build_nodes.
  - intros D alpha coin pts. by apply learn_nodes.
Qed.

(** ** A network without tables *)
Lemma sumv_const dom vs (c : Qc) a b : sumv dom vs (fun _ => c) a = sumv dom vs (fun _ => c) b.
Proof. revert a b. induction vs as [|v vs IH]; intros a b; [done|]. cbn. apply qsum_ext. intros x _. apply IH. Qed.
Lemma no_tables_uniform N o : net_ok N -> 0 < net_size N -> weakly_connected N -> valid_order o ->
  exists T, jt_build o N [] = Ok T /\ forall sch E, valid_scheduler sch -> evidence_in_range N E ->
    query_probs sch T E (jt_backup T) = Ok (jt_backup T, answer_all N [] E) /\ forall q x, q < net_size N -> q ∉ fst <$> E -> x < net_dom N q -> posterior N [] E q x = (1 / qn (net_dom N q))%Qc.
Proof.
  intros HN Hn Hc Ho. assert (Forall (table_of_family N) []) as Hf by constructor. assert (Forall (nonneg (net_dom N)) []) as Hnn by constructor.
  destruct (build_iff N o [] HN Hn Ho Hf Hnn) as [Hb _]. destruct (proj2 Hb Hc) as [T HT]. exists T. split; [done|]. intros sch E Hs HE.
  assert (evidence_weight N [] E <> 0%Qc) as HW by (apply evidence_weight_positive; [done|done| |done]; intros t a Ht; by apply elem_of_nil in Ht).
  split; [by apply (exact_probs N HN Hn o Ho [] Hf Hnn T HT sch E)|]. intros q x Hq HqE Hx.
  destruct (posterior_distribution N HN Hn o Ho [] Hf Hnn T HT E q HE HW Hq HqE) as [Hsum _].
  assert (forall y, posterior N [] E q y = posterior N [] E q x) as Hy by (intros y; unfold posterior; f_equal; unfold weight; apply (sumv_const _ _ 1%Qc)).
  rewrite (qsum_ext _ _ (fun _ => posterior N [] E q x)) in Hsum by (intros y _; apply Hy). rewrite qsum_const, seq_length in Hsum. rewrite <-Hsum. field. apply qn_ne. lia.
Qed.

(** ** Edge counts *)
Lemma NoDup_bind {A B} (f : A -> list B) l : NoDup l -> (forall x, x ∈ l -> NoDup (f x)) -> (forall x y z, x ∈ l -> y ∈ l -> z ∈ f x -> z ∈ f y -> x = y) -> NoDup (l ≫= f).
Proof.
  induction 1 as [|x l Hx Hl IH]; intros Hf Hd; [constructor|]. cbn. apply NoDup_app. split_and!; [apply Hf; left| |].
  - intros z Hz [y [Hz' Hy]]%elem_of_list_bind. apply Hx. rewrite (Hd x y z); [done|left|by right|done|done].
  - apply IH; [intros y Hy; apply Hf; by right|]. intros y y' z Hy Hy'. apply Hd; by right.
Qed.
Lemma sum_parents l s : foldl (fun s nd => (fst s + length (nd_parents nd), snd s + length (nd_children nd))) s l = (fst s + sum_list_with (fun nd => length (nd_parents nd)) l, snd s + sum_list_with (fun nd => length (nd_children nd)) l).
Proof. revert s. induction l as [|nd l IH]; intros [a b]; cbn [foldl sum_list_with fst snd]; [f_equal; lia|]. rewrite IH. cbn [fst snd]. f_equal; lia. Qed.
Lemma length_bind {A B} (f : A -> list B) l : length (l ≫= f) = sum_list_with (fun x => length (f x)) l.
Proof. induction l as [|x l IH]; [done|]. cbn. by rewrite app_length, IH. Qed.
Lemma sum_fmap {A B} (g : A -> B) (f : B -> nat) l : sum_list_with f (g <$> l) = sum_list_with (fun x => f (g x)) l.
Proof. induction l as [|x l IH]; [done|]. cbn. by rewrite <-IH. Qed.
Lemma sum_seq {A} (l : list A) (f : A -> nat) : sum_list_with f l = sum_list_with (fun i => from_option f 0 (l !! i)) (seq 0 (length l)).
Proof. induction l as [|x l IH]; [done|]. cbn [sum_list_with length seq]. rewrite IH, <-fmap_S_seq, sum_fmap. done. Qed.
Lemma count_pairs (l : list node) (f : node -> list nat) (h : nat -> nat -> nat * nat) (ds : list (nat * nat)) : NoDup ds -> (forall nd, nd ∈ l -> NoDup (f nd)) ->
  (forall i j i' j', h i j = h i' j' -> i = i' /\ j = j') -> (forall e, e ∈ ds <-> exists i nd j, l !! i = Some nd /\ j ∈ f nd /\ e = h i j) ->
  sum_list_with (fun nd => length (f nd)) l = length ds.
Proof.
  intros Hds Hf Hh He. rewrite sum_seq. set (g := fun i => h i <$> from_option f [] (l !! i)).
  assert (forall s, sum_list_with (fun i => from_option (fun nd => length (f nd)) 0 (l !! i)) s = sum_list_with (fun i => length (g i)) s) as ->.
  { induction s as [|i s IH]; [done|]. cbn. rewrite IH. f_equal. unfold g. rewrite fmap_length. by destruct (l !! i). }
  rewrite <-length_bind. apply Permutation_length. apply NoDup_Permutation; [|done|].
  - apply NoDup_bind; [apply NoDup_seq| |].
    + intros i _. unfold g. apply (NoDup_fmap_2_strong (h i)); [by intros j j' _ _ [_ ?]%Hh|]. destruct (l !! i) as [nd|] eqn:E; [|constructor]. apply Hf. by eapply elem_of_list_lookup_2.
    + intros i i' e _ _ (j & -> & _)%elem_of_list_fmap (j' & E & _)%elem_of_list_fmap. by apply Hh in E as [-> _].
  - intros e. rewrite elem_of_list_bind, He. split.
    + intros (i & Hi & Hs). unfold g in Hi. apply elem_of_list_fmap in Hi as (j & -> & Hj). destruct (l !! i) as [nd|] eqn:E; [|by apply elem_of_nil in Hj]. by exists i, nd, j.
    + intros (i & nd & j & Hi & Hj & ->). exists i. split; [|apply elem_of_seq; apply lookup_lt_Some in Hi; lia]. unfold g. rewrite Hi. by apply elem_of_list_fmap_1.
Qed.
Lemma sorted_nodup l : StronglySorted lt l -> NoDup l.
Proof. induction 1 as [|x l _ IH H]; [constructor|]. constructor; [|done]. intros Hx. rewrite Forall_forall in H. specialize (H x Hx). lia. Qed.
Lemma directed_pairs_spec N x y : (x, y) ∈ directed_pairs (nt_edges N) <-> has_directed N x y.
Proof.
  unfold directed_pairs, has_directed. rewrite elem_of_list_fmap. setoid_rewrite elem_of_list_filter. split.
  - intros (e & [= -> ->] & [H1 H2] & He). by exists e.
  - intros (e & He & <- & <- & H1 & H2). by exists e.
Qed.
Theorem check_edges_spec N : netinv N -> no_dup_directed N -> check_edges N = (length (directed_pairs (nt_edges N)), length (directed_pairs (nt_edges N))).
Proof.
  intros HI Hnd. unfold check_edges. rewrite sum_parents. cbn [fst snd]. f_equal.
  - apply (count_pairs _ nd_parents (fun i j => (j, i))); [done| |by intros ???? [= -> ->]|].
    + intros nd Hin. apply elem_of_list_lookup in Hin as [x Hx]. apply sorted_nodup. by apply (ni_parents _ HI x nd Hx).
    + intros [p c]. rewrite directed_pairs_spec. destruct (ni_consistent _ HI p c) as [_ ->]. unfold parent_rel. split; [intros (nd & Hx & Hp); by exists c, nd, p|]. intros (i & nd & j & Hi & Hj & [= -> ->]). by exists nd.
  - apply (count_pairs _ nd_children (fun i j => (i, j))); [done| |by intros ???? [= -> ->]|].
    + intros nd Hin. apply elem_of_list_lookup in Hin as [x Hx]. apply sorted_nodup. by apply (ni_children _ HI x nd Hx).
    + intros [p c]. rewrite directed_pairs_spec. destruct (ni_consistent _ HI p c) as [-> _]. unfold child_rel. split; [intros (nd & Hx & Hp); by exists p, nd, c|]. intros (i & nd & j & Hi & Hj & [= -> ->]). by exists nd.
Qed.
