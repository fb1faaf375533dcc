(** Small tables, large cliques: [n] roots, and for every two of them a common child. *)
From Verif Require Import IntModel IntSpec IntBuild JTSpec JTTheorems GraphSpec GraphWitness ComboProofs LearnProofs ParProofs TableSpec TableProofs.
Local Open Scope nat_scope.

Section pairs.
Context (n : nat) (Hn : 0 < n).
Definition pair_count : nat := n + n * n.
(** Node n + (i n + j) is the child of the roots i and j. *)
Definition first_of (c : nat) : nat := (c - n) / n.
Definition second_of (c : nat) : nat := (c - n) mod n.
Definition pair_edges : list (nat * nat) :=
  c ← seq n (n * n); if bool_decide (first_of c = second_of c) then [(first_of c, c)] else [(first_of c, c); (second_of c, c)].
Definition pair_vars (x : nat) : list nat :=
  if bool_decide (x < n) then [x] else if bool_decide (first_of x = second_of x) then [x; first_of x] else [x; first_of x; second_of x].
(** Every conditional probability is 1/2. *)
Definition half : Qc := Q2Qc (QArith_base.Qmake 1 2).
Definition half_table (vars : list nat) : ptable :=
  let dims := (fun _ => 2) <$> vars in let size := 2 ^ length vars in mkPT vars (replicate size half) dims (strides dims) (length vars) size.
Definition pair_tables : list ptable := half_table ∘ pair_vars <$> seq 0 pair_count.

Lemma first_lt c : n <= c < n + n * n -> first_of c < n.
Proof using Hn. intros H. unfold first_of. apply Nat.div_lt_upper_bound; nia. Qed.
Lemma second_lt c : second_of c < n.
Proof using Hn. unfold second_of. apply Nat.mod_upper_bound. lia. Qed.
Lemma child_first i j : i < n -> j < n -> first_of (n + (i * n + j)) = i.
Proof using Hn. intros Hi Hj. unfold first_of. replace (n + (i * n + j) - n) with (i * n + j) by lia. rewrite Nat.div_add_l, Nat.div_small by lia. lia. Qed.
Lemma child_second i j : i < n -> j < n -> second_of (n + (i * n + j)) = j.
Proof using Hn. intros Hi Hj. unfold second_of. replace (n + (i * n + j) - n) with (j + i * n) by lia. rewrite Nat.mod_add, Nat.mod_small by lia. done. Qed.
Lemma pair_edges_spec x c : (x, c) ∈ pair_edges <-> n <= c < n + n * n /\ (x = first_of c \/ x = second_of c).
Proof using Hn.
  unfold pair_edges. rewrite elem_of_list_bind. split.
  - intros (c' & Hx & Hc%elem_of_seq). case_bool_decide as E.
    + apply elem_of_list_singleton in Hx as [= -> ->]. split; [lia|by left].
    + apply elem_of_cons in Hx as [[= -> ->]|Hx]; [split; [lia|by left]|]. apply elem_of_list_singleton in Hx as [= -> ->]. split; [lia|by right].
  - intros [Hc Hx]. exists c. rewrite elem_of_seq. split; [|lia]. case_bool_decide as E.
    + apply elem_of_list_singleton. destruct Hx as [->| ->]; congruence.
    + destruct Hx as [->| ->]; [left|right; left].
Qed.
Lemma pair_edges_lt x c : (x, c) ∈ pair_edges -> x < n /\ n <= c < n + n * n.
Proof using Hn. intros [Hc Hx]%pair_edges_spec. split; [|done]. destruct Hx as [->| ->]; [by apply first_lt|apply second_lt]. Qed.
Lemma pair_acyclic : acyclic (fun x c => (x, c) ∈ pair_edges).
Proof using Hn.
  assert (forall x y, tc (fun x c => (x, c) ∈ pair_edges) x y -> x < y) as H.
  { induction 1 as [x y Hxy|x y z Hxy _ IH]; apply pair_edges_lt in Hxy; lia. }
  intros x Hx. specialize (H x x Hx). lia.
Qed.
Lemma pair_net : exists N, run (new_network (replicate pair_count 2)) ((fun e => AddD e.1 e.2) <$> pair_edges) = Ok N /\ net_ok N /\ net_size N = pair_count /\
  domain_sizes N = replicate pair_count 2 /\ forall x c, child_rel N x c <-> (x, c) ∈ pair_edges.
Proof using Hn.
  set (doms := replicate pair_count 2). assert (length doms = pair_count) as Hl by apply replicate_length. destruct (new_network_inv doms) as [HI _].
  destruct (add_edges_run doms pair_edges (new_network doms) []) as (N & HN & HI' & Hl' & HC & Hd).
  - intros p c Hpc%pair_edges_lt. rewrite Hl. unfold pair_count. lia.
  - exact pair_acyclic.
  - done.
  - cbn. by rewrite fmap_length.
  - intros i nd. cbn. intros (d & Hi & ->)%list_lookup_fmap_Some. split; [exact Hi|]. split; [apply NoDup_singleton|]. intros c. cbn. rewrite elem_of_list_singleton. split; [by intros ->|]. intros [Hf _]. by destruct c.
  - intros x y. split; [|by intros ?%elem_of_nil]. intros (e & He%elem_of_nil & _). done.
  - assert (domain_sizes N = doms) as Hds.
    { apply list_eq. intros i. unfold domain_sizes. rewrite list_lookup_fmap. destruct (nt_nodes N !! i) as [nd|] eqn:E; cbn; [symmetry; apply (HC i nd E)|]. apply lookup_ge_None in E. symmetry. apply lookup_ge_None. lia. }
    exists N. split_and!; [done| |unfold net_size; lia|done|].
    + apply netinv_ok; [done|]. rewrite Hds. apply Forall_replicate. lia.
    + intros x c. rewrite <-(proj1 (ni_consistent _ HI' x c)). apply Hd.
Qed.

Context (N : network) (HN : net_ok N) (Hs : net_size N = pair_count) (Hds : domain_sizes N = replicate pair_count 2) (Hch : forall x c, child_rel N x c <-> (x, c) ∈ pair_edges).
Lemma pair_dom v : v < pair_count -> net_dom N v = 2.
Proof using Hds. intros Hv. unfold net_dom, dom_of. rewrite Hds, lookup_replicate_2 by done. done. Qed.
Lemma pair_connected : weakly_connected N.
Proof using Hn Hs Hch.
  set (R := fun a b => child_rel N a b \/ child_rel N b a).
  assert (forall a b, rtc R a b -> rtc R b a) as Hsym. { intros a b. induction 1 as [|a b c Hab _ IH]; [constructor|]. eapply rtc_r; [exact IH|]. unfold R in *. tauto. }
  assert (forall i, i < n -> rtc R i 0) as Hroot.
  { intros i Hi. eapply rtc_l; [left|apply rtc_once; right]; apply Hch, pair_edges_spec; (split; [|]).
    - instantiate (1 := n + (i * n + 0)). nia.
    - left. by rewrite child_first.
    - nia.
    - right. by rewrite child_second. }
  assert (forall x, x < net_size N -> rtc R x 0) as H.
  { intros x Hx. destruct (decide (x < n)) as [|Hge]; [by apply Hroot|]. rewrite Hs in Hx. unfold pair_count in Hx. eapply rtc_l; [right|apply (Hroot (first_of x)); apply first_lt; lia]. apply Hch, pair_edges_spec. split; [lia|by left]. }
  intros x y Hx Hy. eapply rtc_transitive; [by apply H|]. apply Hsym. by apply H.
Qed.
Lemma pair_vars_spec x : x < pair_count -> NoDup (pair_vars x) /\ (forall v, v ∈ pair_vars x <-> v = x \/ child_rel N v x) /\ (forall v, v ∈ pair_vars x -> v < pair_count) /\ length (pair_vars x) <= 3 /\ pair_vars x <> [].
Proof using Hn Hs Hch.
  unfold pair_vars, pair_count. intros Hx. case_bool_decide as Hlt.
  - split_and!; [apply NoDup_singleton| | |cbn; lia|done].
    + intros v. rewrite elem_of_list_singleton, Hch. split; [by left|]. intros [->|Hv%pair_edges_lt]; [done|lia].
    + intros v ->%elem_of_list_singleton. lia.
  - pose proof (first_lt x) as Hf. pose proof (second_lt x) as Hse. case_bool_decide as E.
    + split_and!; [repeat constructor; rewrite ?elem_of_list_singleton; try (by intros ?%elem_of_nil); lia| | |cbn; lia|done].
      * intros v. rewrite elem_of_cons, elem_of_list_singleton, Hch, pair_edges_spec. split; [intros [->| ->]; [by left|right; split; [lia|by left]]|]. intros [->|[_ [->| ->]]]; [by left|by right|right; congruence].
      * intros v. rewrite elem_of_cons, elem_of_list_singleton. lia.
    + split_and!; [repeat constructor; rewrite ?elem_of_cons, ?elem_of_nil; lia| | |cbn; lia|done].
      * intros v. rewrite !elem_of_cons, elem_of_nil, Hch, pair_edges_spec. split; [intros [->|[->|[->|[]]]]; [by left|right; split; [lia|by left]|right; split; [lia|by right]]|]. intros [->|[_ [->| ->]]]; [by left|right; by left|right; right; by left].
      * intros v. rewrite !elem_of_cons, elem_of_nil. lia.
Qed.
Lemma half_table_wf vars : NoDup vars -> (forall v, v ∈ vars -> v < pair_count) -> wf (net_dom N) (half_table vars).
Proof using Hds.
  intros Hnd Hb. assert ((fun _ => 2) <$> vars = net_dom N <$> vars) as E. { apply list_fmap_ext. intros i v Hv. symmetry. apply pair_dom. apply Hb. by eapply elem_of_list_lookup_2. }
  assert (2 ^ length vars = length (configs (net_dom N <$> vars))) as F. { rewrite configs_length, <-E. clear. induction vars as [|v l IH]; [done|]. cbn [length fmap list_fmap]. rewrite Nat.pow_succ_r' , IH. done. }
  split; cbn [half_table pt_vars pt_pots pt_dims pt_cum pt_nv pt_size]; try done; rewrite ?replicate_length; rewrite E; done.
Qed.
Lemma pair_tables_ok : Forall (table_of_family N) pair_tables /\ Forall (nonneg (net_dom N)) pair_tables /\ length pair_tables = net_size N /\
  (forall x t, pair_tables !! x = Some t -> (forall v, v ∈ pt_vars t <-> v = x \/ child_rel N v x)) /\ Forall (fun t => pt_size t <= 8 /\ Forall (fun p => p = half) (pt_pots t)) pair_tables.
Proof using Hn HN Hs Hds Hch.
  assert (forall x, x ∈ seq 0 pair_count -> x < pair_count) as Hsq by (intros x Hx%elem_of_seq; lia). unfold pair_tables. split_and!.
  - apply Forall_fmap, Forall_forall. intros x Hx%Hsq. destruct (pair_vars_spec x Hx) as (H1 & H2 & H3 & H4 & H5). cbn. split; [by apply half_table_wf|]. split; [done|]. exists x. rewrite Hs. split; [done|]. intros v. apply H2.
  - apply Forall_fmap, Forall_forall. intros x _ a _. cbn. unfold tval. cbn [half_table pt_pots]. destruct (replicate _ _ !! _) as [y|] eqn:E; cbn; [|apply Qcle_refl]. apply lookup_replicate in E as [-> _]. unfold Qcle, half. vm_compute. discriminate.
  - by rewrite fmap_length, seq_length.
  - intros x t. rewrite list_lookup_fmap. destruct (seq 0 pair_count !! x) as [y|] eqn:E; [|done]. intros [= <-]. apply lookup_seq in E as [-> Hx]. apply pair_vars_spec. done.
  - apply Forall_fmap, Forall_forall. intros x Hx%Hsq. destruct (pair_vars_spec x Hx) as (_ & _ & _ & H4 & _). cbn [compose half_table pt_size pt_pots]. split.
    + change 8 with (2 ^ 3). by apply Nat.pow_le_mono_r.
    + by apply Forall_replicate.
Qed.
Lemma pair_complete x y : x ∈ seq 0 n -> y ∈ seq 0 n -> x <> y -> moral N x y.
Proof using Hn Hs Hch.
  intros Hx%elem_of_seq Hy%elem_of_seq Hne. split; [done|]. right; right. exists (n + (x * n + y)). rewrite !Hch, !pair_edges_spec, child_first, child_second by lia. split; (split; [nia|auto]).
Qed.
Lemma pair_product : prod_list (net_dom N <$> seq 0 n) = 2 ^ n.
Proof using Hn Hs Hds Hch.
  assert (net_dom N <$> seq 0 n = replicate n 2) as ->.
  { apply list_eq. intros i. rewrite list_lookup_fmap. destruct (decide (i < n)) as [Hi|Hi].
    - rewrite lookup_seq_lt, lookup_replicate_2 by done. cbn. rewrite pair_dom; [done|]. unfold pair_count. lia.
    - rewrite lookup_seq_ge by lia. symmetry. apply lookup_ge_None. rewrite replicate_length. lia. }
  clear. generalize n as m. intros m. induction m as [|k IH]; [done|]. cbn [replicate]. rewrite Nat.pow_succ_r', <-IH. done.
Qed.
End pairs.
