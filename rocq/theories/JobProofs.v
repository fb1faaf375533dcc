(** Proofs about the comparison with a reference network. *)
From Coq Require Import Ascii String.
From Coq Require Import Field QArith.
From Verif Require Import JobModel JobSpec PCModel PCSpec CellSpec ShdProofs ShdTheorems DSepTheorems NetProofs3 BIFProofs2 BIFTheorems BIFMain SaveProofs ClassProofs OrientSafe PCAny.
From Verif Require Import NetProofs.
Local Open Scope nat_scope.

(** ** The loaded reference *)
Lemma reference_arc B x y : reference_graph B x y = true <-> bn_arc B x y.
Proof. unfold reference_graph, bn_arc. apply bool_decide_eq_true. Qed.
Lemma NoDup_arcs (Ds : list bdist) : NoDup (bd_node <$> Ds) -> Forall (fun D => NoDup (bd_parents D)) Ds -> NoDup (concat (bd_arcs <$> Ds)).
Proof.
  induction Ds as [|D Ds IH]; intros H1 H2; [constructor|]. cbn [fmap list_fmap concat] in H1 |- *. apply NoDup_cons in H1 as [H1 H1']. apply Forall_cons in H2 as [H2 H2'].
  apply NoDup_app. split_and!; [|intros [a b] Ha Hb|by apply IH].
  - unfold bd_arcs. apply NoDup_fmap_2; [|done]. intros a b [=]. done.
  - unfold bd_arcs in Ha. apply elem_of_list_fmap in Ha as (p & [= -> ->] & _). apply elem_of_list_In, in_concat in Hb as (l & Hl & Hb). rewrite <-elem_of_list_In in Hl. rewrite <-elem_of_list_In in Hb.
    apply elem_of_list_fmap in Hl as (D' & -> & HD'). unfold bd_arcs in Hb. apply elem_of_list_fmap in Hb as (q & [= -> E] & _). apply H1. rewrite E. apply elem_of_list_fmap. by exists D'.
Qed.
Lemma directed_pairs_arcs (l : list (nat * nat)) : directed_pairs ((fun a => directed_edge a.1 a.2) <$> l) = l.
Proof.
  induction l as [|[a b] l IH]; [done|]. rewrite fmap_cons. unfold directed_pairs in *. rewrite filter_cons_True by done. rewrite fmap_cons, IH. done.
Qed.
Lemma loaded_fresh B num L : bnet_ok B -> binv B num (bn_dists B) L ->
  fresh_dag (ld_net L) /\ (forall x y, has_directed (ld_net L) x y <-> bn_arc B x y) /\ (forall x y, arcs_of (ld_net L) x y = reference_graph B x y) /\ length (nt_nodes (ld_net L)) = bn_size B.
Proof.
  intros HB HI. pose proof (bi_edges _ _ _ _ HI) as He. fold (bn_arcs B) in He.
  assert (forall x y, arcs_of (ld_net L) x y = reference_graph B x y) as Ha. { intros x y. unfold arcs_of, reference_graph. by rewrite He, directed_pairs_arcs. }
  split_and!.
  - split; [apply (bi_inv _ _ _ _ HI)|]. split.
    { unfold no_dup_directed. rewrite He, directed_pairs_arcs. apply NoDup_arcs; [apply (bo_dists _ HB)|]. pose proof (bo_parents _ HB) as Hp. eapply Forall_impl; [exact Hp|]. by intros D (_ & ? & _). }
    split; [apply (bi_topo _ _ _ _ HI)|]. split; [rewrite (bi_nedges _ _ _ _ HI), He, fmap_length; done|].
    intros e Hin. rewrite He in Hin. apply elem_of_list_fmap in Hin as (a & -> & _). done.
  - intros x y. by rewrite <-arcs_of_spec, Ha, reference_arc.
  - done.
  - apply (bi_size _ _ _ _ HI).
Qed.
Lemma graph_same (f g : digraph) : (forall x y, f x y = g x y) -> forall h, (markov_equivalent h f <-> markov_equivalent h g) /\ (markov_equivalent f h <-> markov_equivalent g h).
Proof. intros H h. unfold markov_equivalent, adjacent, v_structure, meets, adjacent. setoid_rewrite H. done. Qed.
Lemma loaded_extra B num L : bnet_ok B -> binv B num (bn_dists B) L -> comparable B ->
  forall T1 t, get_topo_ord (ld_net L) = Ok (T1, t) -> single_extra (compelled (length (nt_nodes (ld_net L))) (arcs_of (ld_net L))) (ld_net L) t.
Proof.
  intros HB HI Hc T1 t Ht. destruct (loaded_fresh B num L HB HI) as ((Hinv & _ & Htopo & _) & Hdir & Ha & Hlen).
  destruct (get_topo_ord_fresh _ Hinv Htopo) as (N' & t' & Hg & _ & _ & _ & Htop). assert (t' = t) as -> by congruence. rewrite Hlen in *.
  assert (topological (bn_arc B) (bn_size B) t) as Htop'. { destruct Htop as [H1 H2]. split; [done|]. intros i j x y Hi Hj Hr. apply (H2 i j x y Hi Hj). by apply Hdir. }
  specialize (Hc t Htop'). intros x y z1 z2. rewrite !Hdir. setoid_rewrite Hdir. intros H1 H2 H3. apply Hc; [done|done|]. intros w Hw Hf. apply H3; [done|].
  intros h Hh Hm. apply Hf; [done|]. by apply (graph_same _ _ Ha).
Qed.
(** ** The comparison *)
Lemma structure_job_unfold accept depth fuel size ssch coin stod ss ref train d D N : load_csv_training train = Ok d -> columns_of d = Ok D -> learn_structure accept depth fuel size ssch false coin d D = Ok N ->
  structure_job accept depth fuel size ssch coin stod ss ref train = (s ← (if ss then Some <$> structure_text (d_names d) N else Ok None); k ← compare_with stod ref N; Ok (s, k)).
Proof. intros H1 H2 H3. unfold structure_job. rewrite H1. cbn [mbind outcome_bind]. rewrite H2. cbn [mbind outcome_bind]. rewrite H3. done. Qed.
Lemma learning_job_unfold accept depth fuel size ssch coin flips show stod ss sp ref train d D N : load_csv_training train = Ok d -> columns_of d = Ok D -> learn_structure accept depth fuel size ssch false coin d D = Ok N ->
  learning_job accept depth fuel size ssch coin flips show stod ss sp ref train =
    (s ← (if ss then Some <$> structure_text (d_names d) N else Ok None); k ← compare_with stod ref N; ts ← learn_params N D 1 flips []; p ← (if sp then Some <$> parameter_text show (d_names d) (d_dicts d) N ts else Ok None); Ok (s, k, p)).
Proof. intros H1 H2 H3. unfold learning_job. rewrite H1. cbn [mbind outcome_bind]. rewrite H2. cbn [mbind outcome_bind]. rewrite H3. done. Qed.
Theorem jobs_distance train header rows : csv_table train header rows -> NoDup header ->
  exists d D, load_csv_training train = Ok d /\ columns_of d = Ok D /\
  forall accept size ssch g ind gmax depth coin flips show stod num B ref, dag (length header) g -> dsep_oracle ind (length header) g ->
  decides (independence_result accept D (d_sizes d)) ind (length header) gmax -> 1 <= size <= gmax -> valid_sched ssch -> (forall v, length (dag_parents (length header) g v) < depth) ->
  bnet_ok B -> reads_numbers stod num B -> is_bif B ref -> bn_size B = length header -> comparable B ->
  exists F, forall fuel, F <= fuel ->
    ((exists x y, g x y = true) -> exists k, (k = 0 <-> markov_equivalent g (reference_graph B)) /\
       forall ss sp, exists s p, learn_network accept depth fuel size ssch coin flips show ss sp train = Ok (s, p) /\
         structure_job accept depth fuel size ssch coin stod ss (Some ref) train = Ok (s, Some k) /\
         learning_job accept depth fuel size ssch coin flips show stod ss sp (Some ref) train = Ok (s, Some k, p)) /\
    ((forall x y, g x y = false) -> structure_job accept depth fuel size ssch coin stod false (Some ref) train = Err Thrown /\
       forall sp, learning_job accept depth fuel size ssch coin flips show stod false sp (Some ref) train = Err Thrown).
Proof.
  intros HC HN. destruct (training_columns train header rows HC HN) as (d & D & Hd & HD & HT). exists d, D. split; [done|]. split; [done|].
  intros accept size ssch g ind gmax depth coin flips show stod num B ref Hdag Hor Hdec Hsz Hsch Hdeg HB Hnum Hbif Hsize Hcmp.
  destruct (load_bif_ok B HB stod num Hnum ref Hbif) as (L & HL & HI). destruct (loaded_fresh B num L HB HI) as (Hfresh & Hdir & Ha & Hlen). pose proof (loaded_extra B num L HB HI Hcmp) as Hse.
  destruct (structure_of train header rows d D HC HN Hd HD HT accept size ssch g ind gmax depth coin Hdag Hor Hdec Hsz Hsch Hdeg) as (F1 & HF1).
  assert (length (d_sizes d) = length header) as Hl by (rewrite (tr_sizes _ _ _ _ HT), fmap_length; apply (tr_dicts _ _ _ _ HT)).
  assert (length (nt_nodes (ld_net L)) = length header) as Hln by lia.
  assert (exists F2, forall fuel, F2 <= fuel -> (exists x y, g x y = true) -> exists N k, learn_structure accept depth fuel size ssch false coin d D = Ok N /\ get_shd (ld_net L) N = Ok k /\ (k = 0 <-> markov_equivalent g (reference_graph B))) as (F2 & HF2).
  { destruct (existsb (fun x => existsb (g x) (seq 0 (length header))) (seq 0 (length header))) eqn:Hg.
    2:{ exists 0. intros fuel _ (x & y & Hxy). exfalso. destruct (proj1 Hdag x y Hxy) as [Hx Hy]. apply not_true_iff_false in Hg. apply Hg, existsb_exists. exists x. split; [apply in_seq; lia|]. apply existsb_exists. exists y. split; [apply in_seq; lia|done]. }
    apply existsb_exists in Hg as (x0 & _ & Hg). apply existsb_exists in Hg as (y0 & _ & Hg).
    pose proof (pc_distance (ld_net L) g ind (independence_result accept D (d_sizes d)) gmax size ssch depth (d_sizes d) coin) as Hpd. cbv zeta in Hpd. rewrite Hln in Hpd.
    destruct Hpd as (F2 & HF2); try done. { by rewrite Hln in Hse. } { by exists x0, y0. }
    exists F2. intros fuel Hf _. destruct (HF2 fuel Hf) as (es & A & S & N & k & H1 & H2 & H3 & H4). exists N, k. split.
    - unfold learn_structure. rewrite (tr_vars _ _ _ _ HT), H1. done.
    - split; [done|]. rewrite H4. apply (graph_same _ _ Ha). }
  destruct (pc_learns (length header) g ind (independence_result accept D (d_sizes d)) gmax size ssch depth (d_sizes d) coin Hdag Hor Hdec Hsz Hsch Hdeg Hl) as (F3 & HF3).
  exists (Nat.max F1 (Nat.max F2 F3)). intros fuel Hf. destruct (HF1 fuel ltac:(lia)) as (N & HS & Hsome & Hnone). pose proof (learned_structure train header rows d D HC HT _ _ _ _ _ _ _ _ HS) as HLF.
  destruct (tables_text train header rows d D N show flips HC HN Hd HT HLF) as (ts & Hts & Hp). split.
  - intros Hg. destruct (HF2 fuel ltac:(lia) Hg) as (N' & k & HS' & Hk & Hz). assert (N' = N) as -> by congruence. exists k. split; [done|]. intros ss sp. destruct (Hsome Hg) as (ls & Hls & _).
    assert (compare_with stod (Some ref) N = Ok (Some k)) as Hcw by (cbn [compare_with]; rewrite HL; cbn [mbind outcome_bind]; rewrite Hk; done).
    rewrite (structure_job_unfold _ _ _ _ _ _ _ _ _ _ d D N Hd HD HS), (learning_job_unfold _ _ _ _ _ _ _ _ _ _ _ _ _ d D N Hd HD HS), (learn_network_unfold _ _ _ _ _ _ _ _ _ _ _ d D N Hd HD HS), Hls, Hts, Hcw.
    exists (if ss then Some (text_of (structure_lines header (length header) ls)) else None). destruct ss; cbn [mbind outcome_bind]; (destruct sp; [rewrite Hp|]; eexists; split_and!; reflexivity).
  - intros Hg. destruct (HF3 fuel ltac:(lia)) as (es & A & S & N' & H1 & H2 & Hess & [_ Hmix] & _). assert (N' = N) as ->. { unfold learn_structure in HS. rewrite (tr_vars _ _ _ _ HT), H1 in HS. cbn [mbind outcome_bind] in HS. congruence. }
    assert (nt_edges N = []) as Hed.
    { destruct (nt_edges N) as [|e0 es0] eqn:HE; [done|]. exfalso. destruct (Hmix e0) as (_ & _ & _ & Ht & Hu); [left|]. destruct (e_ep2 e0) eqn:He2.
      - destruct (Hess (e_n1 e0) (e_n2 e0)) as [_ [Hu' _]]. destruct Hu' as [[Hx|Hx] _]; [exists e0; rewrite HE; split_and!; try done; [left|by left]|by rewrite Hg in Hx..].
      - destruct (Hess (e_n1 e0) (e_n2 e0)) as [[Hd' _] _]. enough (g (e_n1 e0) (e_n2 e0) = true) as Hx by by rewrite Hg in Hx. apply Hd'; [exists e0; rewrite HE; split_and!; try done; left|done|by split]. }
    assert (compare_with stod (Some ref) N = Err Thrown) as Hcw. { cbn [compare_with]. rewrite HL. cbn [mbind outcome_bind]. unfold get_shd, is_dag. rewrite Hed. done. }
    rewrite (structure_job_unfold _ _ _ _ _ _ _ _ _ _ d D N Hd HD HS), Hcw. split; [done|]. intros sp. rewrite (learning_job_unfold _ _ _ _ _ _ _ _ _ _ _ _ _ d D N Hd HD HS), Hcw. done.
Qed.
(** ** Names *)
Lemma compare_positions stod num B B' ref ref' : bnet_ok B -> bnet_ok B' -> reads_numbers stod num B -> reads_numbers stod num B' -> is_bif B ref -> is_bif B' ref' ->
  bn_arcs B = bn_arcs B' -> (fun w => length (bv_values w)) <$> bn_vars B = (fun w => length (bv_values w)) <$> bn_vars B' ->
  forall N, compare_with stod (Some ref) N = compare_with stod (Some ref') N.
Proof.
  intros HB HB' Hn Hn' Hb Hb' Ha Hv N. destruct (load_bif_ok B HB stod num Hn ref Hb) as (L & HL & HI). destruct (load_bif_ok B' HB' stod num Hn' ref' Hb') as (L' & HL' & HI').
  assert (ld_net L = ld_net L') as E. { pose proof (bi_run _ _ _ _ HI) as R. pose proof (bi_run _ _ _ _ HI') as R'. fold (bn_arcs B) in R. fold (bn_arcs B') in R'. rewrite Ha, Hv, R' in R. by injection R. }
  cbn [compare_with]. rewrite HL, HL'. cbn [mbind outcome_bind]. by rewrite E.
Qed.
(** ** References with fewer variables *)
Lemma mfor_each {I S} (l : list I) (f : I -> S -> outcome S) s r : mfor l f s = Ok r -> forall i, i ∈ l -> exists s1 s2, f i s1 = Ok s2.
Proof.
  revert s. induction l as [|j l IH]; intros s H i Hi; [by apply elem_of_nil in Hi|]. cbn [mfor] in H. bind_in H E as s1. apply elem_of_cons in Hi as [->|Hi]; [by exists s, s1|]. by apply (IH s1).
Qed.
Lemma to_pattern_size T T' : to_pattern T = Ok T' -> length (nt_nodes T') = length (nt_nodes T).
Proof.
  unfold to_pattern. intros H. bind_in H E as [N1 ord]. bind_in H E2 as T1. bind_in H E3 as es. injection H as <-. cbn [set_edges nt_nodes].
  unfold find_compelled in E2. bind_in E2 E4 as es'. injection E2 as <-. cbn [set_edges nt_nodes fst snd] in *.
  unfold order_edge in E. bind_in E E5 as [N2 t]. cbv zeta in E. bind_in E E6 as st. case_bool_decide; [done|]. injection E as <- _. cbn [set_edges nt_nodes fst snd] in *.
  unfold get_topo_ord in E5. case_bool_decide; [|by injection E5 as <- <-]. unfold gen_topo_ord in E5. bind_in E5 E7 as gi. bind_in E5 E8 as t'. by injection E5 as <- <-.
Qed.
Lemma shd_pairs_short T L k : length (nt_nodes T) < length (nt_nodes L) -> 2 <= length (nt_nodes L) -> shd_pairs T L <> Ok k.
Proof.
  intros H1 H2 H. unfold shd_pairs in H. set (n := length (nt_nodes L)) in *.
  destruct (mfor_each _ _ _ _ H (n - 2)) as (s1 & s2 & H3); [apply elem_of_seq; lia|]. destruct (mfor_each _ _ _ _ H3 (n - 1)) as (s3 & s4 & H4); [apply elem_of_seq; lia|].
  bind_in H4 E as d. unfold shd_one in E. bind_in E E1 as x1. bind_in E E2 as x2. unfold find_node in E2. rewrite lookup_ge_None_2 in E2 by lia. done.
Qed.
Lemma get_shd_short T L k : length (nt_nodes T) < length (nt_nodes L) -> 2 <= length (nt_nodes L) -> get_shd T L <> Ok k.
Proof.
  intros H1 H2 H. unfold get_shd in H. bind_in H E as d. bind_in H E2 as T'. apply shd_pairs_short in H; [done| |done]. destruct d; [by injection E2 as <-|]. by rewrite (to_pattern_size _ _ E2).
Qed.
Lemma compare_short stod num B ref N k : bnet_ok B -> reads_numbers stod num B -> is_bif B ref -> bn_size B < length (nt_nodes N) -> 2 <= length (nt_nodes N) -> compare_with stod (Some ref) N <> Ok k.
Proof.
  intros HB Hn Hb H1 H2 H. destruct (load_bif_ok B HB stod num Hn ref Hb) as (L & HL & HI). cbn [compare_with] in H. rewrite HL in H. cbn [mbind outcome_bind] in H. bind_in H E as k'.
  apply get_shd_short in E; [done| |done]. by rewrite (bi_size _ _ _ _ HI).
Qed.
Lemma add_root_size N roots N' : add_root_node N roots = Ok N' -> length (nt_nodes N') = S (length (nt_nodes N)).
Proof.
  unfold add_root_node. intros H. bind_in H E as [N1 root]. injection H as <-. cbn [set_nodes nt_nodes fst snd]. rewrite app_length. cbn [length].
  enough (length (nt_nodes N1) = length (nt_nodes N)) by lia.
  apply (mfor_preserves (fun st : network * node => length (nt_nodes (fst st)) = length (nt_nodes N))) in E; [done| |done].
  clear. intros c [N0 r0] [N2 r2] HP H. cbn [fst snd] in *. bind_in H E as nd. injection H as <- <-. cbn [set_nodes nt_nodes]. by rewrite insert_length.
Qed.
Theorem jobs_fewer train header rows stod num B ref : csv_table train header rows -> NoDup header -> bnet_ok B -> reads_numbers stod num B -> is_bif B ref ->
  (bn_size B < length header -> 2 <= length header -> forall accept depth fuel size ssch coin flips show ss sp r,
     structure_job accept depth fuel size ssch coin stod ss (Some ref) train <> Ok r /\ forall r, learning_job accept depth fuel size ssch coin flips show stod ss sp (Some ref) train <> Ok r) /\
  (bn_size B <= length header -> forall accept depth fuel size ssch coin flips show o sch ss sp test r, classification_job accept depth fuel size ssch coin flips show stod o sch ss sp (Some ref) train test <> Ok r).
Proof.
  intros HC HN HB Hn Hb. destruct (training_columns train header rows HC HN) as (d & D & Hd & HD & HT). split.
  - intros Hlt H2 accept depth fuel size ssch coin flips show ss sp r.
    assert (forall N k, learn_structure accept depth fuel size ssch false coin d D = Ok N -> compare_with stod (Some ref) N <> Ok k) as Hx.
    { intros N k HS. pose proof (lf_size _ _ _ _ (learned_structure train header rows d D HC HT _ _ _ _ _ _ _ _ HS)) as Hl. unfold net_size in Hl. by apply (compare_short stod num B ref); rewrite ?Hl. }
    split.
    + intros H. unfold structure_job in H. rewrite Hd in H. cbn [mbind outcome_bind] in H. rewrite HD in H. cbn [mbind outcome_bind] in H. bind_in H HS as N. bind_in H E as s. bind_in H E2 as k. by apply (Hx N k eq_refl).
    + intros r' H. unfold learning_job in H. rewrite Hd in H. cbn [mbind outcome_bind] in H. rewrite HD in H. cbn [mbind outcome_bind] in H. bind_in H HS as N. bind_in H E as s. bind_in H E2 as k. by apply (Hx N k eq_refl).
  - intros Hle accept depth fuel size ssch coin flips show o sch ss sp test r H. unfold classification_job in H. rewrite Hd in H. cbn [mbind outcome_bind] in H. bind_in H E0 as trows. rewrite HD in H. cbn [mbind outcome_bind] in H.
    bind_in H HS as N. bind_in H Hr as roots. bind_in H Ha as N'. bind_in H E as s. bind_in H E2 as k. pose proof (lf_size _ _ _ _ (learned_structure train header rows d D HC HT _ _ _ _ _ _ _ _ HS)) as Hl. unfold net_size in Hl.
    apply add_root_size in Ha. assert (header <> []) as Hne by apply HC. destruct header as [|h header]; [done|]. cbn [length] in *. apply (compare_short stod num B ref N' k HB Hn Hb) in E2; [done|lia|lia].
Qed.
Theorem jobs_positions stod num B B' ref ref' : bnet_ok B -> bnet_ok B' -> reads_numbers stod num B -> reads_numbers stod num B' -> is_bif B ref -> is_bif B' ref' ->
  bn_arcs B = bn_arcs B' -> (fun w => length (bv_values w)) <$> bn_vars B = (fun w => length (bv_values w)) <$> bn_vars B' ->
  forall accept depth fuel size ssch coin flips show ss sp train,
    structure_job accept depth fuel size ssch coin stod ss (Some ref) train = structure_job accept depth fuel size ssch coin stod ss (Some ref') train /\
    learning_job accept depth fuel size ssch coin flips show stod ss sp (Some ref) train = learning_job accept depth fuel size ssch coin flips show stod ss sp (Some ref') train.
Proof.
  intros HB HB' Hn Hn' Hb Hb' Ha Hv accept depth fuel size ssch coin flips show ss sp train.
  pose proof (compare_positions stod num B B' ref ref' HB HB' Hn Hn' Hb Hb' Ha Hv) as Hc. unfold structure_job, learning_job.
  destruct (load_csv_training train) as [d|]; [|done]. cbn [mbind outcome_bind]. destruct (columns_of d) as [D|]; [|done]. cbn [mbind outcome_bind].
  destruct (learn_structure accept depth fuel size ssch false coin d D) as [N|]; [|done]. cbn [mbind outcome_bind]. rewrite (Hc N). done.
Qed.
(** ** Without a reference *)
Theorem jobs_alone accept depth fuel size ssch coin flips show stod ss sp train :
  learning_job accept depth fuel size ssch coin flips show stod ss sp None train = (sp ← learn_network accept depth fuel size ssch coin flips show ss sp train; Ok (sp.1, None, sp.2)).
Proof.
  unfold learning_job, learn_network. destruct (load_csv_training train) as [d|]; [|done]. cbn [mbind outcome_bind]. destruct (columns_of d) as [D|]; [|done]. cbn [mbind outcome_bind].
  destruct (learn_structure accept depth fuel size ssch false coin d D) as [N|]; [|done]. cbn [mbind outcome_bind compare_with]. destruct (if ss then _ else _) as [s|]; [|done]. cbn [mbind outcome_bind].
  destruct (learn_params N D 1 flips []) as [ts|]; [|done]. cbn [mbind outcome_bind]. destruct (if sp then _ else _) as [p|]; done.
Qed.
