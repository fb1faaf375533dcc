(** Integer overflow: the statements of Properties_Int.v. *)
From Verif Require Import IntModel IntSpec IntRefine IntBuild IntFamily JTSpec JTTheorems ParProofs GraphSpec TableSpec TableProofs.
Local Open Scope nat_scope.

Lemma same_or_overflow M : (forall o N pts, unless_overflow (jt_build o N pts) (jt_build_i M o N pts)) /\
  (forall T qs st, unless_overflow (run_queries T qs st) (run_queries_i M T qs st)).
Proof. split; intros; [apply jt_build_unless|apply run_queries_unless]. Qed.
Lemma ints_suffice N o pts T M B V : net_ok N -> 0 < net_size N -> valid_order o -> Forall (table_of_family N) pts -> jt_build o N pts = Ok T ->
  (forall t, t ∈ engine_tables T -> pt_size t <= B /\ pt_nv t <= V) -> B * V <= M -> length (engine_tables T) * B <= M -> foldr Nat.add 0 (domain_sizes N) <= M ->
  jt_build_i M o N pts = Ok T /\ forall qs, Forall (fun sq => valid_scheduler (fst sq)) qs -> run_queries_i M T qs (jt_backup T) = run_queries T qs (jt_backup T).
Proof.
  intros HN Hn Ho Hp HT Hs H1 H2 H3. split; [by apply (build_within N HN Hn o Ho pts Hp T HT M B V Hs H1 H2)|by apply (session_within N HN Hn o Ho pts Hp T HT M B V Hs H1 H2)].
Qed.
Lemma ints_overflow N o pts T M S : net_ok N -> 0 < net_size N -> valid_order o -> Forall (table_of_family N) pts -> jt_build o N pts = Ok T ->
  NoDup S -> S <> [] -> (forall x, x ∈ S -> x < net_size N) -> (forall x y, x ∈ S -> y ∈ S -> x <> y -> moral N x y) -> M < foldr Nat.mul 1 (net_dom N <$> S) ->
  jt_build_i M o N pts = Err Overflow.
Proof. intros HN Hn Ho Hp HT H1 H2 H3 H4 HM. by apply (complete_overflow N HN Hn o Ho pts Hp T S M). Qed.
Lemma small_tables_overflow M o : valid_order o -> exists doms es N pts T,
  run (new_network doms) ((fun e => AddD e.1 e.2) <$> es) = Ok N /\ net_ok N /\ weakly_connected N /\ Forall (fun d => d = 2) doms /\ net_size N <= (Nat.log2 M + 2) * (Nat.log2 M + 2) /\
  Forall (table_of_family N) pts /\ length pts = net_size N /\ (forall x t, pts !! x = Some t -> forall v, v ∈ pt_vars t <-> v = x \/ child_rel N v x) /\
  Forall (fun t => pt_size t <= 8 /\ Forall (fun p => p = Q2Qc (QArith_base.Qmake 1 2)) (pt_pots t)) pts /\
  jt_build o N pts = Ok T /\ jt_build_i M o N pts = Err Overflow.
Proof.
  intros Ho. set (n := S (Nat.log2 M)). assert (0 < n) as Hn by (unfold n; lia). destruct (pair_net n Hn) as (N & Hrun & HN & Hs & Hds & Hch).
  destruct (pair_tables_ok n Hn N HN Hs Hds Hch) as (Hf & Hnn & Hlen & Hfam & Hsm). pose proof (pair_connected n Hn N Hs Hch) as Hc. assert (0 < net_size N) as Hpos by (rewrite Hs; unfold pair_count; lia).
  destruct (build_iff N o (pair_tables n) HN Hpos Ho Hf Hnn) as [[_ Hb] _]. destruct (Hb Hc) as [T HT].
  exists (replicate (pair_count n) 2), (pair_edges n), N, (pair_tables n), T. split_and!; try done.
  - by apply Forall_replicate.
  - rewrite Hs. unfold pair_count, n. nia.
  - apply (complete_overflow N HN Hpos o Ho (pair_tables n) Hf T (seq 0 n)); [done|apply NoDup_seq|by unfold n|intros x Hx%elem_of_seq; rewrite Hs; unfold pair_count; lia|intros x y; by apply (pair_complete n Hn N Hs Hch)|].
    rewrite (pair_product n Hn N Hs Hds Hch). unfold n. destruct (decide (M = 0)) as [->|]; [cbn; lia|]. apply Nat.log2_spec. lia.
Qed.
