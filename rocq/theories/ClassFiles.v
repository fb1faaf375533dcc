(** Proofs about the files written by the classification job. *)
From Coq Require Import Ascii String.
From Coq Require Import Field QArith.
From Verif Require Export ClassFileSpec.
From Verif Require Import PCSpec PCAny OrientSpec OrientSafe OrientPairs NetProofs NetProofs2 NetProofs3 StructProofs RootProofs DataProofs PipeProofs LearnProofs ClassProofs DSepTheorems LearnedProofs SaveProofs JobProofs OrientProofs OrientProofs3 OrientTheorems.
From Verif Require Import LearnTheorems TableProofs.
Local Open Scope nat_scope.

(** ** The job beside [classify] *)
Lemma class_job_unfold accept depth fuel size ssch coin flips show stod o sch ss sp train test d D N roots N' s ts p :
  load_csv_training train = Ok d -> columns_of d = Ok D -> learn_structure accept depth fuel size ssch true coin d D = Ok N -> find_roots N = Ok roots -> add_root_node N roots = Ok N' ->
  (if ss : bool then Some <$> structure_text (d_names d ++ [root_name]) N' else Ok None) = Ok s -> learn_params N' D 1 flips [] = Ok ts ->
  (if sp : bool then Some <$> parameter_text show (d_names d ++ [root_name]) (d_dicts d ++ [root_values]) N' ts else Ok None) = Ok p ->
  classification_job accept depth fuel size ssch coin flips show stod o sch ss sp None train test = (a ← classify accept depth fuel size ssch coin flips o sch train test; Ok (s, None, p, a)).
Proof.
  intros Hd HD HS Hr Ha Hs Hts Hp. unfold classification_job, classify. rewrite Hd. cbn [mbind outcome_bind]. destruct (load_csv_testing (d_nvars d) (d_dicts d) test) as [rows|]; [|done]. cbn [mbind outcome_bind].
  rewrite HD. cbn [mbind outcome_bind]. rewrite HS. cbn [mbind outcome_bind]. rewrite Hr. cbn [mbind outcome_bind]. rewrite Ha. cbn [mbind outcome_bind]. rewrite Hs. cbn [mbind outcome_bind compare_with]. rewrite Hts. cbn [mbind outcome_bind]. rewrite Hp. cbn [mbind outcome_bind].
  destruct (make_queries 0 rows) as [qs|]; [|done]. cbn [mbind outcome_bind]. destruct (jt_build o N' ts) as [T|]; [|done]. cbn [mbind outcome_bind]. destruct (mcollect qs _) as [Es|]; [|done]. cbn [mbind outcome_bind]. by destruct (predict sch T 0 Es).
Qed.
Lemma class_job_err accept depth fuel size ssch coin flips show stod o sch train test d D e :
  load_csv_training train = Ok d -> columns_of d = Ok D -> learn_structure accept depth fuel size ssch true coin d D = Err e ->
  exists e', classify accept depth fuel size ssch coin flips o sch train test = Err e' /\ forall ss sp ref, classification_job accept depth fuel size ssch coin flips show stod o sch ss sp ref train test = Err e'.
Proof.
  intros Hd HD HS. unfold classification_job, classify. rewrite Hd. cbn [mbind outcome_bind]. destruct (load_csv_testing (d_nvars d) (d_dicts d) test) as [rows|e']; [|by exists e']. cbn [mbind outcome_bind]. rewrite HD. cbn [mbind outcome_bind]. rewrite HS. cbn [mbind outcome_bind]. by exists e.
Qed.

(** ** The tables with ROOT *)
Lemma rooted_tables N D flips : family_ok N -> doms_positive N -> complete N D -> co_vars D = net_size N -> (forall x j, flips x j < 2) ->
  exists roots N' ts, find_roots N = Ok roots /\ add_root_node N roots = Ok N' /\ learn_params N' D 1 flips [] = Ok ts /\ family_ok N' /\ net_ok N' /\ net_size N' = S (net_size N) /\
    (forall v, v < net_size N -> net_dom N' v = net_dom N v) /\ net_dom N' (net_size N) = 2 /\ length ts = net_size N' /\
    forall x t, ts !! x = Some t -> is_cpt N' x (parents_of N' x) (class_probability N' D flips x) t.
Proof.
  intros HF Hd HD Hs Hf. assert (0 < 1)%Z as Hal by done. set (N1 := set_edges N (OrientSafe.canon N)). pose proof (canon_inv N HF) as HI1.
  destruct (learn_params_root N1 HI1 Hd D HD Hs 1 flips Hf Hal) as (roots & N2 & ts & HR & Hts & Hlen & Hall & tr & Htr & Hcr).
  destruct (rooted_facts N1 HI1 Hd D HD Hs roots N2 HR) as (HI2 & Hd2 & _ & Hs2 & Hroot & _ & (ndr & Hndr & Hpr) & _). destruct HR as [Hfr Har].
  assert (forall v, v < net_size N -> net_dom N2 v = net_dom N v) as Hdom.
  { intros v Hv. destruct (root_connects N1 HI1) as (roots' & N3 & Hf' & Ha' & _ & R1 & R2 & _). assert (roots' = roots) as -> by congruence.
    destruct (add_root_spec N1 HI1 roots R2 (fun r Hr => proj1 (R1 r Hr))) as (N4 & Ha4 & _ & _ & _ & Hnodes & _). assert (N4 = N2) as -> by congruence.
    destruct (lookup_lt_is_Some_2 (nt_nodes N1) v Hv) as [nd Hnd']. unfold net_dom, dom_of, domain_sizes. rewrite !list_lookup_fmap, (Hnodes _ _ Hnd'). change (nt_nodes N1) with (nt_nodes N) in Hnd'. rewrite Hnd'. cbn. case_decide; [|done]. unfold node_add_parent. by case_bool_decide. }
  unfold N1 in Hfr. rewrite find_roots_edges in Hfr. destruct (add_root_edges N _ roots N2 Har) as (N' & Ha' & Hn). exists roots, N', ts.
  pose proof (netinv_ok N2 HI2 Hd2) as HO2. pose proof (netinv_family N2 HI2) as HF2. split; [done|]. split; [done|].
  assert (forall x t, ts !! x = Some t -> is_cpt N2 x (parents_of N2 x) (class_probability N2 D flips x) t) as Hcpt.
  { intros x t Ht. change (net_size N1) with (net_size N) in *. assert (x < S (net_size N)) as Hx by (rewrite <-Hlen; by eapply lookup_lt_Some). unfold class_probability. destruct (lookup_lt_is_Some_2 (nt_nodes N2) x) as [nd Hnd]; [unfold net_size in *; lia|]. unfold parents_of. rewrite Hnd. case_decide as Hxn.
    - destruct (Hall x nd Hnd) as (t' & Ht' & Hc & _); [lia|]. assert (t' = t) as -> by congruence. exact Hc.
    - assert (x = net_size N) as -> by lia. assert (tr = t) as -> by congruence. assert (nd = ndr) as -> by congruence. rewrite Hpr. exact Hcr. }
  assert (net_size N1 = net_size N) as Hn1 by done. rewrite Hn1 in *. clear Hn1 Hall Htr Hcr Hndr Hpr tr ndr.
  destruct N2 as [nodes2 e2 t2 m2], N' as [nodes' e' t' m']. cbn in Hn. subst nodes2. split; [exact Hts|]. split; [by apply (family_same (mkNet nodes' e2 t2 m2))|].
  split; [destruct HO2 as [H1 H2 H3]; split; [exact H1|exact H2|exact H3]|]. split; [exact Hs2|]. split; [exact Hdom|]. split; [exact Hroot|]. split; [rewrite Hlen; symmetry; exact Hs2|exact Hcpt].
Qed.
Lemma class_parameters train header rows : csv_table train header rows -> NoDup header -> forall d D, load_csv_training train = Ok d -> trained header rows d D ->
  forall accept depth fuel size ssch coin flips show N, (forall x j, flips x j < 2) -> learn_structure accept depth fuel size ssch true coin d D = Ok N ->
  exists roots N' ts, find_roots N = Ok roots /\ add_root_node N roots = Ok N' /\ learn_params N' D 1 flips [] = Ok ts /\ family_ok N' /\
    parameter_text show (d_names d ++ [root_name]) (d_dicts d ++ [root_values]) N' ts = Ok (text_of (parameter_lines show (header ++ [root_name]) (d_dicts d ++ [root_values]) N' (class_probability N' D flips))).
Proof.
  intros HC HN d D Hd HT accept depth fuel size ssch coin flips show N Hf HS. pose proof (learned_structure train header rows d D HC HT _ _ _ _ _ _ _ _ HS) as [HF Hdom Hsize Hnd Hdp Hv Hcomp].
  destruct (rooted_tables N D flips HF Hdp Hcomp Hv Hf) as (roots & N' & ts & Hr & Ha & Hts & HF' & Hok & Hs' & Hd' & Hd2 & Hlen & Hcpt). exists roots, N', ts. split; [done|]. split; [done|]. split; [done|]. split; [done|].
  rewrite (names_header train header rows d HC HN Hd). pose proof (tr_dicts _ _ _ _ HT) as Hld. apply parameter_text_ok; try done.
  - rewrite app_length. cbn [length]. lia.
  - rewrite app_length. cbn [length]. lia.
  - intros x dict Hx. apply lookup_app_Some in Hx as [Hx|[Hle Hx]].
    + rewrite Hd'; [by apply Hnd|]. apply lookup_lt_Some in Hx. lia.
    + apply list_lookup_singleton_Some in Hx as [Hx <-]. replace x with (net_size N) by lia. by rewrite Hd2.
  - intros x p _. by apply parents_below.
Qed.
Theorem class_job_parameters train header rows : csv_table train header rows -> NoDup header ->
  exists d D, load_csv_training train = Ok d /\ columns_of d = Ok D /\ d_names d = header /\ (forall i dict, d_dicts d !! i = Some dict -> first_appearance (column i rows) dict) /\ coded_as (d_dicts d) rows D /\
  forall accept depth fuel size ssch coin flips show stod o sch test, (forall x j, flips x j < 2) ->
  match learn_structure accept depth fuel size ssch true coin d D with
  | Err _ => exists e, classify accept depth fuel size ssch coin flips o sch train test = Err e /\ forall ss sp ref, classification_job accept depth fuel size ssch coin flips show stod o sch ss sp ref train test = Err e
  | Ok N => exists roots N', find_roots N = Ok roots /\ add_root_node N roots = Ok N' /\
      forall sp, classification_job accept depth fuel size ssch coin flips show stod o sch false sp None train test =
        (a ← classify accept depth fuel size ssch coin flips o sch train test;
         Ok (None, None, if sp then Some (text_of (parameter_lines show (header ++ [root_name]) (d_dicts d ++ [root_values]) N' (class_probability N' D flips))) else None, a))
  end.
Proof.
  intros HC HN. destruct (training_columns train header rows HC HN) as (d & D & Hd & HD & HT). exists d, D. split; [done|]. split; [done|].
  split; [by eapply names_header|]. split; [apply (tr_first _ _ _ _ HT)|]. split; [apply (tr_coded _ _ _ _ HT)|].
  intros accept depth fuel size ssch coin flips show stod o sch test Hf. destruct (learn_structure accept depth fuel size ssch true coin d D) as [N|e] eqn:HS.
  - destruct (class_parameters train header rows HC HN d D Hd HT accept depth fuel size ssch coin flips show N Hf HS) as (roots & N' & ts & Hr & Ha & Hts & HF' & Hp). exists roots, N'. split; [done|]. split; [done|]. intros sp.
    eapply class_job_unfold; try done. destruct sp; [|done]. rewrite Hp. done.
  - by eapply class_job_err.
Qed.

(** ** The structure file *)
Lemma add_root_lists N roots N' : add_root_node N roots = Ok N' ->
  nt_edges N' = nt_edges N ++ (directed_edge (length (nt_nodes N)) <$> roots) /\ nt_num_edges N' = nt_num_edges N + length roots /\ nt_topo N' = nt_topo N.
Proof.
  unfold add_root_node. intros H. bind_in H E as [N1 root]. injection H as <-. cbn [set_nodes nt_edges nt_num_edges nt_topo fst snd].
  set (step := fun c (st : network * node) => ndc ← find_node st.1 c; _) in E. 
  enough (forall l N0 r0, mfor l step (N0, r0) = Ok (N1, root) -> nt_edges N1 = nt_edges N0 ++ (directed_edge (length (nt_nodes N)) <$> l) /\ nt_num_edges N1 = nt_num_edges N0 + length l /\ nt_topo N1 = nt_topo N0) as H by exact (H _ _ _ E).
  clear E. induction l as [|c l IH]; intros N0 r0 E.
  - cbn [mfor] in E. injection E as -> ->. cbn [fmap list_fmap length]. rewrite app_nil_r. split_and!; [done|lia|done].
  - change (mbind (M := outcome) (fun s => mfor l step s) (step c (N0, r0)) = Ok (N1, root)) in E. unfold step in E at 2. cbn [fst snd] in E. destruct (find_node N0 c) as [nd|]; [|done]. cbn [mbind outcome_bind] in E.
    apply IH in E as (E1 & E2 & E3). cbn [set_nodes nt_edges nt_num_edges nt_topo] in *. rewrite E1, E2, E3, fmap_cons, <-app_assoc. cbn [app length]. split_and!; [done|lia|done].
Qed.
Lemma rtc_ext {X} (R S : X -> X -> Prop) x y : (forall a b, R a b <-> S a b) -> rtc R x y <-> rtc S x y.
Proof. intros H. split; apply rtc_subrel; intros a b; apply H. Qed.
Theorem class_structure_of train header rows d D : csv_table train header rows -> NoDup header -> load_csv_training train = Ok d -> trained header rows d D ->
  forall accept size ssch g ind gmax depth coin, dag (length header) g -> dsep_oracle ind (length header) g ->
  decides (independence_result accept D (d_sizes d)) ind (length header) gmax -> 1 <= size <= gmax -> valid_sched ssch -> (forall v, length (dag_parents (length header) g v) < depth) ->
  (exists x y, x < length header /\ y < length header /\ x <> y /\ ~ adjacent g x y) ->
  exists F, forall fuel, F <= fuel -> exists N roots N' h ls, learn_structure accept depth fuel size ssch true coin d D = Ok N /\ find_roots N = Ok roots /\ add_root_node N roots = Ok N' /\
    dag (length header) h /\ (forall x y, adjacent h x y <-> adjacent g x y) /\ (forall x y z, v_structure g x y z -> h x y = true) /\ (forall x y, x ∈ parents_of N y <-> h x y = true) /\ one_root_each (length header) h roots /\
    structure_text (header ++ [root_name]) N' = Ok (text_of (structure_lines (header ++ [root_name]) (S (length header)) ls)) /\ lists_rooted (length header) h roots ls.
Proof.
  intros HC HN Hd HT accept size ssch g ind gmax depth coin Hdag Hor Hdec Hsz Hsch Hdeg Hmiss. set (n := length header) in *.
  assert (length (d_sizes d) = n) as Hl by (rewrite (tr_sizes _ _ _ _ HT), fmap_length; apply (tr_dicts _ _ _ _ HT)).
  destruct (pc_core n g ind _ gmax size ssch depth (d_sizes d) coin Hdag Hor Hdec Hsz Hsch Hdeg Hl) as (F & HF). exists F. intros fuel Hf.
  destruct (HF fuel Hf) as (es & A & S & N0 & Hs1 & Ho1 & E & U & D0 & L & Hes & Hfn & HSk & Hlk & Hpat & Hfu & _ & HD0 & _).
  assert (length E < edge_capacity n) as Hcap. { destruct Hmiss as (x & y & Hx & Hy & Hne & Hna). destruct (decide (length E < edge_capacity n)); [done|]. exfalso. apply Hna, Hlk, (complete_linked n E A HSk); [lia|done|done|done]. }
  destruct (left_theorem n E A (edge_capacity n) coin N0 U (D0 ++ L) fuel HSk Hpat Hcap Hfu) as (N & L2 & HN0 & HP & _).
  assert (orient_skeleton fuel (d_sizes d) true coin es A S = Ok N) as Ho by (by rewrite (Ho1 true)).
  assert (learn_structure accept depth fuel size ssch true coin d D = Ok N) as HS. { unfold learn_structure. rewrite (tr_vars _ _ _ _ HT). fold n. rewrite Hs1. cbn [mbind outcome_bind]. done. }
  pose proof (proj1 (pattern_pat n E A N [] _ HSk) HP) as [Hp Hperm]. set (K := (D0 ++ L) ++ L2) in *. cbn [app] in Hperm.
  destruct (orient_kept' _ _ _ _ _ _ _ _ Ho) as (_ & _ & Hc). unfold cached in Hc. cbn [skeleton_network nt_num_edges nt_topo] in Hc. injection Hc as Hnum Htop.
  assert (netinv N) as HI by apply HP. assert (length (nt_nodes N) = n) as Hsize by apply HP. assert (nt_edges N = (fun p => directed_edge (fst p) (snd p)) <$> K) as HeN by (destruct HP as (_ & _ & -> & _); done).
  assert (NoDup K) as HndK. { destruct HSk as (HndE & _). rewrite <-Hperm in HndE. by apply NoDup_fmap_1 in HndE. }
  assert (length es = length K) as Hle by (rewrite <-(fmap_length pe_pair es), Hes, <-Hperm, fmap_length; done).
  destruct (root_connects N HI) as (roots & N' & Hr & Ha & Hsize' & R1 & R2 & R3 & Hhd & _). pose proof (add_root_netinv N HI roots N' R2 (fun r Hr => proj1 (R1 r Hr)) Ha) as HI'.
  destruct (add_root_lists N roots N' Ha) as (He' & Hnum' & Htop'). rewrite Hsize in *.
  set (h := fun x y : nat => bool_decide ((x, y) ∈ K)). assert (forall x y, has_directed N x y <-> h x y = true) as Hh. { intros x y. unfold h. rewrite bool_decide_eq_true. apply (pat_directed _ _ _ _ x y Hp). }
  assert (roots <> []) as Hrn. { assert (0 < n) as Hn by (destruct Hmiss as (x & _ & Hx & _); lia). destruct (R3 0 Hn) as (r & Hin & _). intros ->. by apply elem_of_nil in Hin. }
  assert (forall e, e ∈ nt_edges N' -> is_directed e = true) as Hdir. { rewrite He', HeN. intros e Hin. apply elem_of_app in Hin as [Hin|Hin]; apply elem_of_list_fmap in Hin as (q & -> & _); done. }
  destruct (save_dag_ok N' HI') as (ls & Hls & Hndl & Hin); [congruence| |].
  { destruct (nt_edges N' !! 0) as [e0|] eqn:He0; [exists e0; split; [done|]; apply Hdir; by eapply elem_of_list_lookup_2|]. apply lookup_ge_None in He0. rewrite He', app_length, !fmap_length in He0. destruct roots; [done|cbn in He0; lia]. }
  assert (forall x y, Arc x y ∈ ls <-> h x y = true \/ x = n /\ y ∈ roots) as Harc. { intros x y. rewrite Hin. split; [intros (x' & y' & [= <- <-] & H); apply Hhd in H; by rewrite Hh in H|intros H; exists x, y; split; [done|]; apply Hhd; by rewrite Hh]. }
  assert (forall x y, Link x y ∉ ls) as Hlink by (intros x y H; by apply Hin in H as (? & ? & ? & _)).
  assert (forall x y, (x, y) ∈ K -> x < n /\ y < n) as Hb. { intros x y HK. rewrite <-Hsize. apply has_directed_bound; [done|]. apply (pat_directed _ _ _ _ x y Hp). done. }
  assert (length ls = length K + length roots) as Hlen.
  { assert (ls ≡ₚ (arc <$> K) ++ (Arc n <$> roots)) as Hpm.
    { apply NoDup_Permutation; [done| |].
      - apply NoDup_app. split_and!.
        + apply (NoDup_fmap_2_strong _ _); [|done]. intros [a b] [a' b'] _ _ [= -> ->]. done.
        + intros l H1 H2. apply elem_of_list_fmap in H1 as ([a b] & -> & H1). apply elem_of_list_fmap in H2 as (r & [= -> _] & _). apply Hb in H1. lia.
        + apply (NoDup_fmap_2_strong _ _); [|done]. intros a b _ _ [= ->]. done.
      - intros l. destruct l as [x y|x y]; rewrite elem_of_app, !elem_of_list_fmap.
        + rewrite Harc. unfold h. rewrite bool_decide_eq_true. split; [intros [H|[-> H]]; [left; by exists (x, y)|right; by exists y]|intros [([a b] & [= -> ->] & H)|(r & [= -> ->] & H)]; [by left|by right]].
        + split; [intros H; by apply Hlink in H|intros [(? & ? & _)|(? & ? & _)]; done]. }
    apply Permutation_length in Hpm. by rewrite app_length, !fmap_length in Hpm. }
  exists N, roots, N', h, ls. split; [done|]. split; [done|]. split; [done|]. split_and!.
  - split; [intros x y H; apply Hb; unfold h in H; by rewrite bool_decide_eq_true in H|]. destruct (get_topo_ord_fresh N HI Htop) as (N1 & t & _ & _ & _ & _ & Ht1 & Ht2). rewrite Hsize in Ht1. exists t. split; [done|]. intros i j x y Hi Hj Hxy. apply (Ht2 i j x y Hi Hj). by apply Hh.
  - intros x y. unfold adjacent at 1. rewrite <-!Hh. rewrite !(pat_directed _ _ _ _ _ _ Hp), <-Hlk, (linked_bare n E A x y HSk). rewrite <-Hperm. split.
    + intros Hxy. assert (x <> y) as Hne. { intros ->. pose proof (pat_acyclic _ _ _ _ Hp y) as Hac. apply Hac. apply tc_once. tauto. } split; [done|]. destruct Hxy as [H|H]; [by apply (elem_of_list_fmap_1 bare) in H|]. apply (elem_of_list_fmap_1 bare) in H. by rewrite bare_swap.
    + intros [Hne Hin']. apply elem_of_list_fmap in Hin' as ([u v] & Heq & Hin'). unfold bare in Heq. cbn in Heq. assert ((u = x /\ v = y) \/ (u = y /\ v = x)) as [[-> ->]|[-> ->]]; [|by left|by right]. injection Heq as Q1 Q2. lia.
  - intros x y z Hv. apply Hh, (pat_directed _ _ _ _ x y Hp). unfold K. apply elem_of_app. left. apply elem_of_app. left. apply HD0. by exists z.
  - intros x y. rewrite <-Hh, <-(netinv_parent N x y HI). unfold parent_rel, parents_of. destruct (nt_nodes N !! y) as [nd|]; [|split; [intros H; by apply elem_of_nil in H|by intros (? & ? & _)]]. split; [intros H; by exists nd|by intros (? & [= <-] & H)].
  - split; [done|]. split; [intros r Hr'; destruct (R1 r Hr') as [H1 H2]; split; [done|]; intros x; destruct (h x r) eqn:Hx; [|done]; exfalso; apply (H2 x); by apply Hh|].
    assert (forall x y, adj N x y <-> adjacent h x y) as Hadj by (intros x y; unfold adj, adjacent; by rewrite !Hh). intros v Hv. destruct (R3 v Hv) as (r & H1 & H2 & H3). exists r. split; [done|]. split; [by rewrite <-(rtc_ext _ _ _ _ Hadj)|]. intros r' Hr'. rewrite <-(rtc_ext _ _ _ _ Hadj). by apply H3.
  - assert (net_size N' = Datatypes.S n) as Hs' by done. rewrite <-Hs'. apply structure_text_ok; [rewrite app_length; cbn [length]; fold n; lia|done|lia|]. intros l Hl'. destruct l as [x y|x y]; [|by apply Hlink in Hl'].
    apply Harc in Hl' as [H|[-> H]]; [unfold h in H; rewrite bool_decide_eq_true in H; apply Hb in H; lia|apply R1 in H as [H _]; lia].
  - done.
Qed.
Theorem class_job_structure train header rows : csv_table train header rows -> NoDup header ->
  exists d D, load_csv_training train = Ok d /\ columns_of d = Ok D /\
  forall accept size ssch g ind gmax depth coin flips show stod o sch, dag (length header) g -> dsep_oracle ind (length header) g ->
  decides (independence_result accept D (d_sizes d)) ind (length header) gmax -> 1 <= size <= gmax -> valid_sched ssch -> (forall v, length (dag_parents (length header) g v) < depth) -> (forall x j, flips x j < 2) ->
  exists F, forall fuel, F <= fuel ->
    ((exists x y, x < length header /\ y < length header /\ x <> y /\ ~ adjacent g x y) -> exists h roots ls,
       dag (length header) h /\ (forall x y, adjacent h x y <-> adjacent g x y) /\ (forall x y z, v_structure g x y z -> h x y = true) /\ one_root_each (length header) h roots /\ lists_rooted (length header) h roots ls /\
       (exists N, learn_structure accept depth fuel size ssch true coin d D = Ok N /\ find_roots N = Ok roots /\ forall x y, x ∈ parents_of N y <-> h x y = true) /\
       forall sp, exists p, forall ss test, classification_job accept depth fuel size ssch coin flips show stod o sch ss sp None train test =
         (a ← classify accept depth fuel size ssch coin flips o sch train test; Ok (if ss then Some (text_of (structure_lines (header ++ [root_name]) (S (length header)) ls)) else None, None, p, a))) /\
    (2 <= length header -> (forall x y, x < length header -> y < length header -> x <> y -> adjacent g x y) -> learn_structure accept depth fuel size ssch true coin d D = Err OutOfBounds).
Proof.
  intros HC HN. destruct (training_columns train header rows HC HN) as (d & D & Hd & HD & HT). exists d, D. split; [done|]. split; [done|].
  intros accept size ssch g ind gmax depth coin flips show stod o sch Hdag Hor Hdec Hsz Hsch Hdeg Hf. set (n := length header) in *.
  assert (length (d_sizes d) = n) as Hl by (rewrite (tr_sizes _ _ _ _ HT), fmap_length; apply (tr_dicts _ _ _ _ HT)).
  destruct (decide (Forall (fun x => Forall (fun y => x <> y -> g x y = true \/ g y x = true) (seq 0 n)) (seq 0 n))) as [Hall|Hnot].
  - assert (forall x y, x < n -> y < n -> x <> y -> adjacent g x y) as Hcomp. { intros x y Hx Hy Hne. rewrite Forall_forall in Hall. specialize (Hall x). rewrite Forall_forall in Hall. apply Hall; [apply elem_of_seq; lia|apply elem_of_seq; lia|done]. }
    destruct (decide (2 <= n)) as [H2|H2].
    + destruct (pc_dsep_complete n g ind _ gmax size ssch depth (d_sizes d) coin Hdag Hor Hdec Hsz Hsch Hdeg Hl H2 Hcomp) as (F & HF). exists F. intros fuel Hfu. split.
      * intros (x & y & Hx & Hy & Hne & Hna). exfalso. by apply Hna, Hcomp.
      * intros _ _. destruct (HF fuel Hfu) as (es & A & S & Hs & Ho). unfold learn_structure. rewrite (tr_vars _ _ _ _ HT). fold n. rewrite Hs. cbn [mbind outcome_bind]. done.
    + exists 0. intros fuel _. split; [|lia]. intros (x & y & Hx & Hy & Hne & Hna). exfalso. by apply Hna, Hcomp.
  - assert (exists x y, x < n /\ y < n /\ x <> y /\ ~ adjacent g x y) as Hmiss.
    { apply not_Forall_Exists in Hnot; [|intros x; apply _]. apply Exists_exists in Hnot as (x & Hx & Hnot). apply elem_of_seq in Hx. cbn beta in Hnot. apply not_Forall_Exists in Hnot; [|intros y; apply _]. apply Exists_exists in Hnot as (y & Hy & Hnot). apply elem_of_seq in Hy. cbn beta in Hnot.
      exists x, y. split; [lia|]. split; [lia|]. split; [|intros Ha; by apply Hnot]. intros ->. by apply Hnot. }
    destruct (class_structure_of train header rows d D HC HN Hd HT accept size ssch g ind gmax depth coin Hdag Hor Hdec Hsz Hsch Hdeg Hmiss) as (F & HF). exists F. intros fuel Hfu. split.
    + intros _. destruct (HF fuel Hfu) as (N & roots & N' & h & ls & HS & Hr & Ha & Hh & Hadj & Hv & Hdir & Hone & Htxt & Hls). exists h, roots, ls. split; [done|]. split; [done|]. split; [done|]. split; [done|]. split; [done|].
      destruct (class_parameters train header rows HC HN d D Hd HT accept depth fuel size ssch coin flips show N Hf HS) as (roots' & N2 & ts & Hr' & Ha' & Hts & HF' & Hp). assert (roots' = roots) as -> by congruence. assert (N2 = N') as -> by congruence. split.
      * exists N. split; [done|]. split; [done|]. done.
      * intros sp. eexists. intros ss test. eapply class_job_unfold; try done.
        -- rewrite (names_header train header rows d HC HN Hd). destruct ss; [|done]. rewrite Htxt. done.
        -- instantiate (1 := if sp then _ else _). destruct sp; [rewrite Hp; done|done].
    + intros _ Hc. destruct Hmiss as (x & y & Hx & Hy & Hne & Hna). exfalso. by apply Hna, Hc.
Qed.
Lemma rooted_any N roots N' : family_ok N -> find_roots N = Ok roots -> add_root_node N roots = Ok N' ->
  NoDup roots /\ (forall r, r ∈ roots -> r < net_size N) /\ (0 < net_size N -> roots <> []) /\ forall x y, child_rel N' x y <-> child_rel N x y \/ x = net_size N /\ y ∈ roots.
Proof.
  intros HF Hr Ha. set (N1 := set_edges N (OrientSafe.canon N)). pose proof (canon_inv N HF) as HI1. fold N1 in HI1.
  destruct (root_connects N1 HI1) as (roots' & N2 & Hr' & Ha2 & _ & R1 & R2 & R3 & Hhd & _). unfold N1 in Hr'. rewrite find_roots_edges in Hr'. assert (roots' = roots) as -> by congruence.
  pose proof (add_root_netinv N1 HI1 roots N2 R2 (fun r Hr => proj1 (R1 r Hr)) Ha2) as HI2. destruct (add_root_edges N _ roots N2 Ha2) as (N3 & Ha3 & Hn). assert (N3 = N') as -> by congruence.
  split; [done|]. split; [intros r Hin; apply (R1 r Hin)|]. split; [intros Hn0; destruct (R3 0 Hn0) as (r & Hin & _); intros ->; by apply elem_of_nil in Hin|].
  intros x y. transitivity (child_rel N2 x y); [unfold child_rel; by rewrite Hn|]. rewrite (netinv_child N2 x y HI2), Hhd. unfold N1. rewrite canon_directed by done. done.
Qed.
(** Whatever the tests answer, the structure file is written. *)
Theorem class_job_any train header rows : csv_table train header rows -> NoDup header ->
  exists d D, load_csv_training train = Ok d /\ columns_of d = Ok D /\
  forall accept depth fuel size ssch coin flips show stod o sch N, (forall x j, flips x j < 2) -> learn_structure accept depth fuel size ssch true coin d D = Ok N ->
    exists roots E ls, find_roots N = Ok roots /\ joined_pairs N E /\
      (forall x y, Arc x y ∈ ls -> has_directed N x y \/ x = length header /\ y ∈ roots) /\ (forall x y, Link x y ∈ ls -> undirected_edge x y ∈ nt_edges N) /\
      forall sp, exists p, forall ss test, classification_job accept depth fuel size ssch coin flips show stod o sch ss sp None train test =
         (a ← classify accept depth fuel size ssch coin flips o sch train test;
          Ok (if ss then Some (text_of (structure_head (S (length header)) (length E + length roots) :: imap (shown_edge (header ++ [root_name])) ls)) else None, None, p, a)).
Proof.
  intros HC HN. destruct (training_columns train header rows HC HN) as (d & D & Hd & HD & HT). exists d, D. split; [done|]. split; [done|].
  intros accept depth fuel size ssch coin flips show stod o sch N Hf HS. pose proof (learned_structure train header rows d D HC HT _ _ _ _ _ _ _ _ HS) as HL. pose proof (lf_size _ _ _ _ HL) as Hsize.
  destruct (class_parameters train header rows HC HN d D Hd HT accept depth fuel size ssch coin flips show N Hf HS) as (roots & N' & ts & Hr & Ha & Hts & HF' & Hp).
  pose proof HS as HS0. unfold learn_structure in HS0. bind_in HS0 Es as [[es A] S]. rewrite (tr_vars _ _ _ _ HT) in Es.
  pose proof (learned_skeleton _ _ _ _ _ _ _ _ _ Es) as (Hnd & Hb & _ & _ & Hlk). pose proof (learned_held _ _ _ _ _ _ _ _ _ Es _ _ _ _ _ HS0) as (HF & [HL1 HL2] & HE). pose proof (learned_adjacencies _ _ _ _ _ _ _ _ _ Es _ _ _ _ _ HS0) as Hadj. pose proof (learned_count _ _ _ _ _ _ _ _ _ Es _ _ _ _ _ HS0) as Hcount.
  destruct (orient_kept' _ _ _ _ _ _ _ _ HS0) as (_ & _ & Hc). unfold cached, skeleton_network in Hc. cbn in Hc. injection Hc as Hnum Ht.
  destruct (add_root_lists N roots N' Ha) as (He' & Hnum' & Ht'). pose proof (add_root_size N roots N' Ha) as Hs'. change (length (nt_nodes N)) with (net_size N) in *. rewrite Hsize in *.
  destruct (rooted_any N roots N' HF Hr Ha) as (_ & Hrb & Hrn & Hch). rewrite Hsize in *. assert (header <> []) as Hhn by apply HC. assert (roots <> []) as Hrn' by (apply Hrn; destruct header; [done|cbn; lia]). clear Hrn.
  assert (forall x y, has_directed N' x y <-> has_directed N x y \/ x = length header /\ y ∈ roots) as Hhd.
  { intros x y. unfold has_directed. rewrite He'. split.
    - intros (e & [Hin|Hin]%elem_of_app & H); [left; by exists e|]. apply elem_of_list_fmap in Hin as (c & -> & Hc). right. cbn in H. destruct H as (<- & <- & _). done.
    - intros [(e & Hin & H)|[-> Hy]]; [exists e; split; [apply elem_of_app; by left|done]|]. exists (directed_edge (length header) y). split; [|done]. apply elem_of_app. right. apply elem_of_list_fmap. by exists y. }
  assert (forall x y, child_rel N' x y -> has_directed N' x y) as HL1'. { intros x y H. apply Hhd. apply Hch in H as [H|H]; [left; by apply HL1|by right]. }
  assert (forall e, e ∈ nt_edges N' -> shape e) as HL2'. { rewrite He'. intros e Hin. apply elem_of_app in Hin as [Hin|Hin]; [by apply HL2|]. apply elem_of_list_fmap in Hin as (r & -> & _). by exists (length header), r; left. }
  assert (joined_pairs N (pe_pair <$> es)) as HJ.
  { split; [done|]. intros x y. rewrite Hadj, Hlk. split; [intros Hin; split; [apply Hb in Hin; lia|by left]|]. intros [Hlt [Hin|Hin]]; [done|]. apply Hb in Hin. lia. }
  assert (exists ls, save_bn_structure N' = Ok ls /\ (forall x y, Arc x y ∈ ls -> has_directed N' x y) /\ (forall x y, Link x y ∈ ls -> undirected_edge x y ∈ nt_edges N')) as (ls & Hls & Harc & Hlink).
  { destruct (nt_edges N' !! 0) as [e0|] eqn:He0; [|apply lookup_ge_None in He0; rewrite He', app_length, fmap_length in He0; destruct roots; [done|cbn in He0; lia]].
    destruct (is_directed e0) eqn:Hdir.
    - destruct (save_arcs_family N' HF') as (lines & Hs & Hndl & Hin); [congruence|]. exists lines. split; [unfold save_bn_structure; rewrite (vget_ok _ _ _ He0); cbn [mbind outcome_bind]; rewrite Hdir; exact Hs|]. split.
      + intros x y Hxy. apply Hin in Hxy as (x' & y' & [= <- <-] & H). by apply HL1'.
      + intros x y Hxy. by apply Hin in Hxy as (? & ? & ? & _).
    - exists (shown_line <$> take (nt_num_edges N') (nt_edges N')). rewrite (save_first N' e0 He0 Hdir); [|rewrite He', Hnum', Hnum, app_length, fmap_length; lia|done]. split; [done|]. split.
      + intros x y Hxy. apply elem_of_list_fmap in Hxy as (e & Hl & Hin). apply elem_of_take in Hin as (i & Hi & _). apply elem_of_list_lookup_2 in Hi. exists e. unfold shown_line in Hl. pose proof (shape_tail e (HL2' e Hi)). destruct (e_ep2 e) eqn:Hep; [done|]. by injection Hl as <- <-.
      + intros x y Hxy. apply elem_of_list_fmap in Hxy as (e & Hl & Hin). apply elem_of_take in Hin as (i & Hi & _). apply elem_of_list_lookup_2 in Hi. unfold shown_line in Hl. destruct (e_ep2 e) eqn:Hep; [|done]. injection Hl as -> ->. destruct (HL2' e Hi) as (a & b & [->| ->]); [done|]. by rewrite undirected_again. }
  assert (forall e, e ∈ nt_edges N -> e_n1 e < length header /\ e_n2 e < length header) as Hbd.
  { intros e Hin. assert (pair_of e ∈ pe_pair <$> es) as Hpe by (apply HE; unfold pairs_of; by apply elem_of_list_fmap_1). unfold pair_of, bare in Hpe. apply Hb in Hpe. cbn [fst snd] in Hpe. lia. }
  assert (forall x y, Link x y ∈ ls -> undirected_edge x y ∈ nt_edges N) as Hlink'.
  { intros x y Hin. apply Hlink in Hin. rewrite He' in Hin. apply elem_of_app in Hin as [Hin|Hin]; [done|]. apply elem_of_list_fmap in Hin as (r & Hu & _). unfold undirected_edge in Hu. case_bool_decide; done. }
  exists roots, (pe_pair <$> es), ls. split; [done|]. split; [done|]. split; [intros x y Hin; by apply Hhd, Harc|]. split; [done|]. intros sp. eexists. intros ss test. eapply class_job_unfold; try done.
  - rewrite (names_header train header rows d HC HN Hd). destruct ss; [|done]. rewrite (structure_text_any (header ++ [root_name]) N' ls); [| |done|].
    + change (net_size N') with (length (nt_nodes N')). rewrite Hs', Hnum', Hnum, fmap_length. done.
    + rewrite app_length. change (net_size N') with (length (nt_nodes N')). cbn [length]. lia.
    + change (net_size N') with (length (nt_nodes N')). rewrite Hs'. intros l Hin. destruct l as [x y|x y].
      * apply Harc, Hhd in Hin as [(e & Hine & <- & <- & _)|[-> Hin]]; [apply Hbd in Hine; lia|apply Hrb in Hin; lia].
      * apply Hlink', Hbd in Hin. unfold undirected_edge in Hin. case_bool_decide; cbn in Hin; lia.
  - instantiate (1 := if sp then _ else _). destruct sp; [rewrite Hp; done|done].
Qed.
