(** Proofs about the files written by the learning job. *)
From Coq Require Import Ascii String.
From Coq Require Import Field QArith.
From Verif Require Export SaveSpec.
From Verif Require Import PCSpec OrientSafe NetProofs NetProofs2 NetProofs3 StructProofs RootProofs DataProofs CSVTheorems PipeProofs JTTheorems BeliefProofs LearnProofs ClassProofs DSepTheorems OrientTheorems OrientProofs.
From Verif Require Import LearnTheorems TableProofs.
Local Open Scope nat_scope.

Lemma mcollect_seq {A B} (F : nat -> outcome B) (g : A -> B) (l : list A) : (forall j x, l !! j = Some x -> F j = Ok (g x)) -> mcollect (seq 0 (length l)) F = Ok (g <$> l).
Proof.
  enough (forall s, (forall j x, l !! j = Some x -> F (s + j) = Ok (g x)) -> mcollect (seq s (length l)) F = Ok (g <$> l)) as H by (intros H0; by apply (H 0)).
  induction l as [|x l IH]; intros s H; [done|]. cbn [length seq mcollect]. rewrite <-(Nat.add_0_r s) at 1. rewrite (H 0 x) by done. cbn [mbind outcome_bind]. rewrite (IH (S s)); [done|].
  intros j y Hj. replace (S s + j) with (s + S j) by lia. by apply H.
Qed.
Lemma pop_back_snoc s c : pop_back (s ++ [c]) = Ok s.
Proof. unfold pop_back. rewrite bool_decide_false by (by destruct s). rewrite app_length. cbn [length]. rewrite Nat.add_sub, take_app. done. Qed.
Lemma joined_concat sep (l : list str) : l <> [] -> concat ((fun s => s ++ sep) <$> l) = joined sep l ++ sep.
Proof.
  induction l as [|s [|t l] IH]; intros Hn; [done| |].
  - cbn. by rewrite app_nil_r.
  - rewrite fmap_cons. cbn [concat]. rewrite IH by done. change (joined sep (s :: t :: l)) with (s ++ sep ++ joined sep (t :: l)). by rewrite <-!app_assoc.
Qed.

(** ** The parameter file *)
Section parameters.
Context (show : Qc -> str) (N : network) (names : list str) (dicts : list (list str)) (f : nat -> asg -> Qc).
Context (Hok : net_ok N) (Hnames : length names = net_size N) (Hdicts : length dicts = net_size N) (Hdom : forall x dict, dicts !! x = Some dict -> length dict = net_dom N x).
Lemma node_text_ok x : x < net_size N -> node_text names x = Ok (shown_node names x).
Proof using Hnames. clear -Hnames. intros Hx. unfold node_text, shown_node. destruct (lookup_lt_is_Some_2 names x) as [s Hs]; [lia|]. unfold vget. change (list Z) with str in *. rewrite Hs. done. Qed.
Lemma value_name_ok x v : x < net_size N -> v < net_dom N x -> value_name dicts x v = Ok (default [] (dict ← dicts !! x; dict !! v)).
Proof using Hdicts Hdom.
  clear -Hdicts Hdom. intros Hx Hv. unfold value_name. destruct (lookup_lt_is_Some_2 dicts x) as [dict Hd]; [lia|]. rewrite (vget_ok _ _ _ Hd), Hd. cbn [mbind outcome_bind option_bind].
  rewrite <-(Hdom x dict Hd) in Hv. destruct (lookup_lt_is_Some_2 dict v Hv) as [s Hs]. change (list Z) with str in *. rewrite Hs. done.
Qed.
Lemma find_node_ok x : x < net_size N -> exists nd, find_node N x = Ok nd.
Proof using. clear. intros Hx. destruct (lookup_lt_is_Some_2 (nt_nodes N) x Hx) as [nd Hnd]. exists nd. unfold find_node. by rewrite Hnd. Qed.

Section table.
Context (x : nat) (t : ptable) (ps : list nat) (Hx : x < net_size N) (Hw : TableSpec.wf (net_dom N) t) (Hv : pt_vars t = x :: ps) (Hps : forall p, p ∈ ps -> p < net_size N).
Context (Hf : forall a, valid (net_dom N) a -> tval t a = f x a).
Definition line_of (vals : list nat) : str := let a := upds (fun _ => 0) (x :: ps) vals in parameter_line show names dicts x ps a (f x a).
Lemma entry_ok j vals : configs (net_dom N <$> x :: ps) !! j = Some vals ->
  let a := upds (fun _ => 0) (x :: ps) vals in valid (net_dom N) a /\ get_config t j = Ok (a <$> pt_vars t) /\ vget (pt_pots t) j = Ok (f x a) /\ vals = a <$> (x :: ps).
Proof using Hok Hw Hv Hf.
  intros Hj a. apply configs_lookup in Hj as [Hin Hj]. pose proof (net_dom_pos N Hok) as Hpos. assert (valid (net_dom N) a) as Ha. { apply valid_upds; [intros v; apply Hpos|done]. }
  assert (NoDup (x :: ps)) as Hnd by (rewrite <-Hv; apply (wf_nodup _ _ Hw)). assert (length vals = length (x :: ps)) as Hl by (apply Forall2_length in Hin; by rewrite fmap_length in Hin).
  assert (a <$> (x :: ps) = vals) as Hvals by (by apply upds_map). assert (lex_index (pt_dims t) (a <$> pt_vars t) = j) as Hlex by (rewrite (wf_dims _ _ Hw), Hv, Hvals; done).
  split; [done|]. split; [rewrite <-Hlex at 1; by apply (get_config_spec (net_dom N) Hpos)|]. split; [|done].
  rewrite <-(Hf a Ha). unfold tval. rewrite Hlex. destruct (lookup_lt_is_Some_2 (pt_pots t) j) as [p Hp]; [|by rewrite (vget_ok _ _ _ Hp), Hp].
  rewrite <-Hlex. pose proof (lex_index_lt_size (net_dom N) Hpos t a Hw Ha) as Hlt. rewrite (wf_pots _ _ Hw), <-(wf_size _ _ Hw). done.
Qed.
Lemma root_lines_ok : ps = [] -> root_lines show names dicts x t = Ok (line_of <$> configs (net_dom N <$> x :: ps)).
Proof using All.
  intros Hp. unfold root_lines, head_text. rewrite node_text_ok by done. cbn [mbind outcome_bind]. rewrite (wf_size _ _ Hw), (wf_dims _ _ Hw), Hv. apply mcollect_seq. intros j vals Hj.
  destruct (entry_ok j vals Hj) as (Ha & _ & Hpot & Hvals). set (a := upds (fun _ => 0) (x :: ps) vals) in *. assert (a x = j) as Hax.
  { apply configs_lookup in Hj as [_ Hj]. rewrite Hvals, Hp in Hj. clearbody a. cbn in Hj. lia. }
  rewrite value_name_ok; [|done|rewrite <-Hax; apply Ha]. cbn [mbind outcome_bind]. rewrite Hpot. cbn [mbind outcome_bind]. f_equal. unfold line_of, parameter_line, shown_value. fold a. rewrite Hax, Hp. rewrite <-!app_assoc. done.
Qed.
Lemma family_line_ok j vals : ps <> [] -> configs (net_dom N <$> x :: ps) !! j = Some vals -> family_line show names dicts N x t j = Ok (line_of vals).
Proof using All.
  intros Hne Hj. destruct (entry_ok j vals Hj) as (Ha & Hcfg & Hpot & Hvals). set (a := upds (fun _ => 0) (x :: ps) vals) in *.
  unfold family_line, head_text. rewrite node_text_ok by done. cbn [mbind outcome_bind]. rewrite Hcfg, Hv. cbn [mbind outcome_bind].
  rewrite fmap_cons. rewrite (vget_ok _ 0 (a x)) by done. cbn [mbind outcome_bind]. rewrite value_name_ok by (done || apply Ha). cbn [mbind outcome_bind].
  rewrite (wf_nv _ _ Hw), Hv. cbn [length]. rewrite Nat.sub_succ, Nat.sub_0_r.
  set (body := fun k : nat => y ← vget (x :: ps) k; _ ← find_node N y; s ← node_text names y; c ← vget (a x :: (a <$> ps)) k; v ← value_name dicts y c; Ok (s ++ lit "=" ++ v ++ lit "/" ++ index c ++ lit ", ")).
  assert (mcollect (seq 1 (length ps)) body = Ok ((fun s => s ++ lit ", ") <$> (shown_value names dicts a <$> ps))) as ->.
  { rewrite <-fmap_S_seq, mcollect_map, <-list_fmap_compose. apply mcollect_seq. intros k y Hk. assert (y ∈ ps) as Hy by (by eapply elem_of_list_lookup_2). unfold body.
    rewrite (vget_ok (x :: ps) (S k) y Hk). cbn [mbind outcome_bind]. destruct (find_node_ok y (Hps y Hy)) as [nd ->]. cbn [mbind outcome_bind]. rewrite node_text_ok by (by apply Hps). cbn [mbind outcome_bind].
    rewrite (vget_ok (a x :: (a <$> ps)) (S k) (a y)) by (change ((a <$> ps) !! k = Some (a y)); by rewrite list_lookup_fmap, Hk). cbn [mbind outcome_bind]. rewrite value_name_ok by (by apply Hps || apply Ha). cbn [mbind outcome_bind]. unfold compose, shown_value. rewrite <-!app_assoc. done. }
  cbn [mbind outcome_bind]. rewrite joined_concat by (by destruct ps). set (J := joined (lit ", ") (shown_value names dicts a <$> ps)).
  match goal with |- context [pop_back ?s] => replace s with (((lit "P (" ++ shown_value names dicts a x ++ lit " | " ++ J) ++ [44%Z]) ++ [32%Z]) by (unfold shown_value; rewrite <-!app_assoc; done) end.
  rewrite pop_back_snoc. cbn [mbind outcome_bind]. rewrite pop_back_snoc. cbn [mbind outcome_bind]. rewrite Hpot. cbn [mbind outcome_bind]. f_equal. unfold line_of, parameter_line. fold a. fold J. destruct ps; [done|]. rewrite <-!app_assoc. done.
Qed.
End table.
Lemma parameter_text_ok ts : length ts = net_size N -> (forall x t, ts !! x = Some t -> is_cpt N x (parents_of N x) (f x) t) -> (forall x p, x < net_size N -> p ∈ parents_of N x -> p < net_size N) ->
  parameter_text show names dicts N ts = Ok (text_of (parameter_lines show names dicts N f)).
Proof using All.
  intros Hl Hts Hps. unfold parameter_text. set (lines_of := fun x => (fun vals => let a := upds (fun _ => 0) (x :: parents_of N x) vals in parameter_line show names dicts x (parents_of N x) a (f x a)) <$> configs (net_dom N <$> x :: parents_of N x)).
  rewrite (mcollect_ok _ _ lines_of).
  - cbn [mbind outcome_bind]. f_equal. unfold write_lines, text_of, parameter_lines. f_equal. f_equal. change (length (nt_nodes N)) with (net_size N). fold lines_of. induction (seq 0 (net_size N)) as [|y l IH]; [done|].
    rewrite fmap_cons. cbn [concat]. change ((y :: l) ≫= lines_of) with (lines_of y ++ (l ≫= lines_of)). by rewrite IH.
  - intros x Hx. apply elem_of_seq in Hx. destruct (find_node_ok x) as [nd ->]; [apply Hx|]. cbn [mbind outcome_bind]. destruct (lookup_lt_is_Some_2 ts x) as [t Ht]; [unfold net_size in *; lia|]. rewrite (vget_ok _ _ _ Ht). cbn [mbind outcome_bind].
    destruct (Hts x t Ht) as (Hw & Hv & Hf). assert (x < net_size N) as Hx' by apply Hx. rewrite (wf_nv _ _ Hw), Hv. cbn [length]. case_bool_decide as Hn.
    + apply (root_lines_ok x t (parents_of N x)); try done; [by intros p; apply Hps|]. destruct (parents_of N x); [done|cbn in Hn; lia].
    + rewrite (wf_size _ _ Hw), (wf_dims _ _ Hw), Hv. apply mcollect_seq. intros j vals Hj. apply (family_line_ok x t (parents_of N x)); try done; [by intros p; apply Hps|]. intros E. by rewrite E in Hn.
Qed.
End parameters.

(** ** The structure file *)
Lemma edge_text_ok names n k l : length names = n -> match l with Arc a b | Link a b => a < n /\ b < n end -> edge_text names k l = Ok (shown_edge names k l).
Proof.
  intros Hn Hl. unfold edge_text, shown_edge. destruct l as [a b|a b]; destruct Hl as [Ha Hb];
    (destruct (lookup_lt_is_Some_2 names a) as [s Hs]; [lia|]; destruct (lookup_lt_is_Some_2 names b) as [t Ht]; [lia|]; unfold node_text, shown_node, vget; change (list Z) with str in *; rewrite Hs, Ht; done).
Qed.
Lemma structure_text_any names N ls : length names = net_size N -> save_bn_structure N = Ok ls ->
  (forall l, l ∈ ls -> match l with Arc a b | Link a b => a < net_size N /\ b < net_size N end) -> structure_text names N = Ok (text_of (structure_head (net_size N) (nt_num_edges N) :: imap (shown_edge names) ls)).
Proof.
  intros Hn Hs Hin. unfold structure_text. rewrite Hs. cbn [mbind outcome_bind]. rewrite (mcollect_ok _ _ (fun kl => shown_edge names (fst kl) (snd kl))).
  - cbn [mbind outcome_bind]. f_equal. unfold write_lines, text_of, structure_head. change (length (nt_nodes N)) with (net_size N). do 3 f_equal.
    enough (forall s, (fun kl => shown_edge names (fst kl) (snd kl)) <$> zip (seq s (length ls)) ls = imap (fun k => shown_edge names (s + k)) ls) as H by apply (H 0).
    clear. induction ls as [|l ls IH]; intros s; [done|]. cbn [length seq zip zip_with]. rewrite fmap_cons, IH, imap_cons. cbn [fst snd]. rewrite Nat.add_0_r. f_equal. apply imap_ext. intros i x _. cbn. by rewrite Nat.add_succ_r.
  - intros [k l] Hkl. cbn [fst snd]. apply (edge_text_ok _ (net_size N)); [done|]. apply Hin. by eapply elem_of_zip_r.
Qed.
Lemma structure_text_ok names N ls : length names = net_size N -> save_bn_structure N = Ok ls -> nt_num_edges N = length ls ->
  (forall l, l ∈ ls -> match l with Arc a b | Link a b => a < net_size N /\ b < net_size N end) -> structure_text names N = Ok (text_of (structure_lines names (net_size N) ls)).
Proof. intros Hn Hs Hnum Hin. rewrite (structure_text_any names N ls Hn Hs Hin), Hnum. done. Qed.
Definition line_of_edge (e : edge) : line := match e_ep2 e with Arrow => Arc (e_n1 e) (e_n2 e) | Tail => Link (e_n1 e) (e_n2 e) end.
Definition arc (p : nat * nat) : line := Arc (fst p) (snd p).
Definition lnk (p : nat * nat) : line := Link (fst p) (snd p).
Lemma NoDup_bare E U D : NoDup E -> U ++ (bare <$> D) ≡ₚ E -> NoDup U /\ NoDup D.
Proof. intros HE Hp. rewrite <-Hp in HE. apply NoDup_app in HE as (H1 & _ & H2). split; [done|]. by eapply NoDup_fmap_1. Qed.
Lemma save_pattern n E N U D A : skeleton_of n E A -> pattern n E N U D -> nt_topo N = [] -> nt_num_edges N = length E -> E <> [] ->
  exists ls, save_bn_structure N = Ok ls /\ NoDup ls /\ length ls = length E /\ (forall x y, Arc x y ∈ ls <-> (x, y) ∈ D) /\ (forall x y, Link x y ∈ ls <-> (x, y) ∈ U).
Proof.
  intros HSk Hpat Ht Hnum Hne. pose proof (proj1 (pattern_pat n E A N U D HSk) Hpat) as [Hp _]. destruct Hpat as (HI & _ & He & Hperm). destruct HSk as (HnE & Hb & _). destruct (NoDup_bare E U D HnE Hperm) as [HnU HnD].
  assert (length E = length U + length D) as HlE by (rewrite <-Hperm, app_length, fmap_length; done).
  destruct U as [|[u v] U].
  - destruct D as [|[a b] D]; [cbn in Hperm; by apply Permutation_nil_l in Hperm|]. destruct (save_dag_ok N HI Ht) as (ls & Hls & Hnd & Hin); [exists (directed_edge a b); by rewrite He|]. exists ls. split; [done|]. split; [done|].
    assert (forall l, l ∈ ls <-> l ∈ arc <$> (a, b) :: D) as Hsame.
    { intros l. rewrite Hin, elem_of_list_fmap. split; [intros (x & y & -> & Hxy); exists (x, y); split; [done|by apply (pat_directed _ _ _ _ x y Hp)]|intros ([x y] & -> & Hxy); exists x, y; split; [done|by apply (pat_directed _ _ _ _ x y Hp)]]. }
    split_and!.
    + assert (ls ≡ₚ arc <$> (a, b) :: D) as HP. { apply NoDup_Permutation; [done| |done]. apply NoDup_fmap_2; [|done]. intros [? ?] [? ?] [=]. cbn in *. by subst. } rewrite HP, fmap_length, HlE. done.
    + intros x y. rewrite Hsame, elem_of_list_fmap. split; [intros ([p q] & [= -> ->] & H); done|]. intros H. by exists (x, y).
    + intros x y. rewrite Hsame, elem_of_list_fmap. split; [intros ([p q] & [=] & H)|by intros ?%elem_of_nil].
  - assert (forall x y, (x, y) ∈ (u, v) :: U -> x < y) as Hlt by (intros x y Hin; apply Hb; rewrite <-Hperm; apply elem_of_app; by left).
    exists ((lnk <$> (u, v) :: U) ++ (arc <$> D)). assert (Hs : save_bn_structure N = Ok ((lnk <$> (u, v) :: U) ++ (arc <$> D))).
    { rewrite save_pattern_ok.
      - f_equal. rewrite He, fmap_app, <-!list_fmap_compose. f_equal. apply list_fmap_ext. intros k [x y] Hk. unfold compose, undirected_edge. cbn [fst snd]. rewrite bool_decide_true; [done|]. apply Hlt. by eapply elem_of_list_lookup_2.
      - rewrite Hnum, He, app_length, !fmap_length. done.
      - exists (undirected_edge u v). rewrite He. split; [done|]. unfold undirected_edge. by case_bool_decide.
      - rewrite He. apply Forall_app. split; apply Forall_fmap, Forall_forall; intros [x y] _; cbn; [unfold undirected_edge; by case_bool_decide|done]. }
    split; [done|]. split_and!.
    + apply NoDup_app. split_and!.
      * apply NoDup_fmap_2; [|done]. intros [? ?] [? ?] [=]. cbn in *. by subst.
      * intros l H1 H2. apply elem_of_list_fmap in H1 as (p & -> & _). apply elem_of_list_fmap in H2 as (q & [=] & _).
      * apply NoDup_fmap_2; [|done]. intros [? ?] [? ?] [=]. cbn in *. by subst.
    + rewrite app_length, !fmap_length. done.
    + intros x y. rewrite elem_of_app, !elem_of_list_fmap. split; [intros [([p q] & [=] & _)|([p q] & [= -> ->] & H)]; done|]. intros H. right. by exists (x, y).
    + intros x y. rewrite elem_of_app, !elem_of_list_fmap. split; [intros [([p q] & [= -> ->] & H)|([p q] & [=] & H)]; done|]. intros H. left. by exists (x, y).
Qed.

(** ** The job *)
Record learned_facts (header : list str) (d : dataset) (D : columns) (N : network) : Prop := {
  lf_family : family_ok N;
  lf_sizes : domain_sizes N = length <$> d_dicts d;
  lf_size : net_size N = length header;
  lf_dom : forall v dict, d_dicts d !! v = Some dict -> length dict = net_dom N v;
  lf_pos : doms_positive N;
  lf_vars : co_vars D = net_size N;
  lf_complete : complete N D }.
Lemma learned_structure train header rows d D : csv_table train header rows -> trained header rows d D ->
  forall accept depth fuel size ssch dag coin N, learn_structure accept depth fuel size ssch dag coin d D = Ok N -> learned_facts header d D N.
Proof.
  intros HC HT accept depth fuel size ssch dag coin N HS. assert (rows <> []) as Hrn by apply HC.
  assert (family_ok N /\ domain_sizes N = d_sizes d) as [HF Hdom].
  { unfold learn_structure in HS. destruct (skeleton_search (independence_result accept D (d_sizes d)) (d_nvars d) depth fuel size ssch) as [[[es adj] sep]|]; [|done]. cbn [mbind outcome_bind] in HS. by eapply orient_kept. }
  rewrite (tr_sizes _ _ _ _ HT) in Hdom.
  assert (net_size N = length header) as Hsize by (unfold net_size; rewrite <-(tr_dicts _ _ _ _ HT); transitivity (length (domain_sizes N)); [unfold domain_sizes; by rewrite fmap_length|]; by rewrite Hdom, fmap_length).
  assert (forall v dict, d_dicts d !! v = Some dict -> length dict = net_dom N v) as Hnd by (intros v dict Hv; unfold net_dom, dom_of; rewrite Hdom, list_lookup_fmap, Hv; done).
  assert (forall v dict, d_dicts d !! v = Some dict -> 0 < length dict) as Hpos.
  { intros v dict Hv. destruct (tr_first _ _ _ _ HT v dict Hv) as (_ & Hsame & _). destruct rows as [|cells rows']; [done|]. assert (v < length cells) as Hlv by (rewrite (row_width _ _ _ 0 _ HC eq_refl), <-(tr_dicts _ _ _ _ HT); by eapply lookup_lt_Some).
    destruct (lookup_lt_is_Some_2 _ _ Hlv) as [c Hc]. assert (c ∈ dict) as Hin. { apply Hsame. unfold column. apply elem_of_list_omap. exists cells. split; [left|done]. } destruct dict; [by apply elem_of_nil in Hin|cbn; lia]. }
  destruct (tr_coded _ _ _ _ HT) as (Hcr & Hcv & _). assert (co_vars D = net_size N) as Hvars by (rewrite Hcv, Hsize; apply (tr_dicts _ _ _ _ HT)).
  split; try done.
  - unfold doms_positive. rewrite Hdom. apply Forall_forall. intros k Hin. apply elem_of_list_fmap in Hin as (dict & -> & Hin). apply elem_of_list_lookup in Hin as [v Hv]. by eapply Hpos.
  - split; [rewrite (tr_cols _ _ _ _ HT); lia|]. split; [lia|]. intros v col Hv. assert (v < length (d_dicts d)) as Hvl by (rewrite (tr_dicts _ _ _ _ HT), <-(tr_cols _ _ _ _ HT); by eapply lookup_lt_Some).
    destruct (lookup_lt_is_Some_2 _ _ Hvl) as [dict Hdict]. rewrite <-(Hnd v dict Hdict), Hcr. by apply (tr_range _ _ _ _ HT v).
Qed.
Definition estimate (N : network) (D : columns) (x : nat) (a : asg) : Qc := smoothed N (co_cols D) (co_rows D) 1 x (parents_of N x) a.
Lemma parents_below N x p : family_ok N -> p ∈ parents_of N x -> p < net_size N.
Proof.
  intros HF Hp. unfold parents_of in Hp. destruct (nt_nodes N !! x) as [nd|] eqn:Hnd; [|by apply elem_of_nil in Hp]. assert (child_rel N p x) as (ndp & Hndp & _); [|by eapply lookup_lt_Some]. apply (fo_agree N HF). by exists nd.
Qed.
Lemma learn_tables N D flips : family_ok N -> doms_positive N -> complete N D -> co_vars D = net_size N ->
  exists ts, learn_params N D 1 flips [] = Ok ts /\ length ts = net_size N /\ net_ok N /\ forall x t, ts !! x = Some t -> is_cpt N x (parents_of N x) (estimate N D x) t.
Proof.
  intros HF Hd HD Hs. assert (0 < 1)%Z as Hal by done. set (N1 := set_edges N (OrientSafe.canon N)).
  destruct (learn_params_plain N1 (canon_inv N HF) Hd D HD 1 Hs Hal flips) as (ts & Hts & Hlen & Hall). exists ts. split; [exact Hts|]. split; [exact Hlen|].
  assert (net_ok N1) as [H1 H2 H3] by (apply netinv_ok; [apply (canon_inv N HF)|exact Hd]). split; [split; [exact H1|exact H2|exact H3]|].
  intros x t Ht. assert (x < net_size N1) as Hx by (rewrite <-Hlen; by eapply lookup_lt_Some). destruct (lookup_lt_is_Some_2 (nt_nodes N1) x Hx) as [nd Hnd]. destruct (Hall x nd Hnd) as (t' & Ht' & Hc & _). assert (t' = t) as -> by congruence.
  assert (nd_parents nd = parents_of N x) as Hps. { unfold parents_of. change (nt_nodes N1) with (nt_nodes N) in Hnd. by rewrite Hnd. } rewrite Hps in Hc. exact Hc.
Qed.
Lemma learn_network_unfold accept depth fuel size ssch coin flips show ss sp train d D N : load_csv_training train = Ok d -> columns_of d = Ok D -> learn_structure accept depth fuel size ssch false coin d D = Ok N ->
  learn_network accept depth fuel size ssch coin flips show ss sp train =
    (s ← (if ss then Some <$> structure_text (d_names d) N else Ok None); ts ← learn_params N D 1 flips []; p ← (if sp then Some <$> parameter_text show (d_names d) (d_dicts d) N ts else Ok None); Ok (s, p)).
Proof. intros H1 H2 H3. unfold learn_network. rewrite H1. cbn [mbind outcome_bind]. rewrite H2. cbn [mbind outcome_bind]. rewrite H3. done. Qed.
Lemma names_header train header rows d : csv_table train header rows -> NoDup header -> load_csv_training train = Ok d -> d_names d = header.
Proof. intros HT HN Hd. destruct (csv_training train header rows HT HN) as (d' & Hd' & Hn & _). assert (d' = d) as -> by congruence. done. Qed.
Lemma tables_text train header rows d D N show flips : csv_table train header rows -> NoDup header -> load_csv_training train = Ok d -> trained header rows d D -> learned_facts header d D N ->
  exists ts, learn_params N D 1 flips [] = Ok ts /\ parameter_text show (d_names d) (d_dicts d) N ts = Ok (text_of (parameter_lines show header (d_dicts d) N (estimate N D))).
Proof.
  intros HC HN Hd HT [HF Hdom Hsize Hnd Hdp Hv Hcomp]. destruct (learn_tables N D flips HF Hdp Hcomp Hv) as (ts & Hts & Hlen & Hok & Hall). exists ts. split; [done|].
  rewrite (names_header train header rows d HC HN Hd). apply parameter_text_ok; try done.
  - rewrite Hsize. apply (tr_dicts _ _ _ _ HT).
  - intros x p _. by apply parents_below.
Qed.
Theorem learn_network_parameters train header rows : csv_table train header rows -> NoDup header ->
  forall accept depth fuel size ssch coin flips show,
  exists d D, load_csv_training train = Ok d /\ columns_of d = Ok D /\ d_names d = header /\ (forall i dict, d_dicts d !! i = Some dict -> first_appearance (column i rows) dict) /\ coded_as (d_dicts d) rows D /\
  match learn_structure accept depth fuel size ssch false coin d D with
  | Err e => forall ss sp, learn_network accept depth fuel size ssch coin flips show ss sp train = Err e
  | Ok N => acyclic (parent_rel N) /\ domain_sizes N = length <$> d_dicts d /\
      forall sp, learn_network accept depth fuel size ssch coin flips show false sp train =
        Ok (None, if sp then Some (text_of (parameter_lines show header (d_dicts d) N (fun x => smoothed N (co_cols D) (co_rows D) 1 x (parents_of N x)))) else None)
  end.
Proof.
  intros HC HN accept depth fuel size ssch coin flips show. destruct (training_columns train header rows HC HN) as (d & D & Hd & HD & HT). exists d, D. split; [done|]. split; [done|].
  split; [by eapply names_header|]. split; [apply (tr_first _ _ _ _ HT)|]. split; [apply (tr_coded _ _ _ _ HT)|].
  destruct (learn_structure accept depth fuel size ssch false coin d D) as [N|e] eqn:HS.
  - pose proof (learned_structure train header rows d D HC HT _ _ _ _ _ _ _ _ HS) as HL. split; [apply (fo_acyclic N (lf_family _ _ _ _ HL))|]. split; [apply (lf_sizes _ _ _ _ HL)|]. intros sp.
    rewrite (learn_network_unfold _ _ _ _ _ _ _ _ _ _ _ d D N Hd HD HS). cbn [mbind outcome_bind]. destruct (tables_text train header rows d D N show flips HC HN Hd HT HL) as (ts & -> & Hp). cbn [mbind outcome_bind]. destruct sp; [|done]. rewrite Hp. done.
  - intros ss sp. unfold learn_network. rewrite Hd. cbn [mbind outcome_bind]. rewrite HD. cbn [mbind outcome_bind]. by rewrite HS.
Qed.
Lemma structure_of train header rows d D : csv_table train header rows -> NoDup header -> load_csv_training train = Ok d -> columns_of d = Ok D -> trained header rows d D ->
  forall accept size ssch g ind gmax depth coin, dag (length header) g -> dsep_oracle ind (length header) g ->
  decides (independence_result accept D (d_sizes d)) ind (length header) gmax -> 1 <= size <= gmax -> valid_sched ssch -> (forall v, length (dag_parents (length header) g v) < depth) ->
  exists F, forall fuel, F <= fuel -> exists N, learn_structure accept depth fuel size ssch false coin d D = Ok N /\
    ((exists x y, g x y = true) -> exists ls, structure_text (d_names d) N = Ok (text_of (structure_lines header (length header) ls)) /\ lists_essential (length header) g ls) /\
    ((forall x y, g x y = false) -> structure_text (d_names d) N = Err OutOfBounds).
Proof.
  intros HC HN Hd HD HT accept size ssch g ind gmax depth coin Hdag Hor Hdec Hsz Hsch Hdeg. set (n := length header) in *.
  assert (length (d_sizes d) = n) as Hl by (rewrite (tr_sizes _ _ _ _ HT), fmap_length; apply (tr_dicts _ _ _ _ HT)).
  destruct (pc_core n g ind _ gmax size ssch depth (d_sizes d) coin Hdag Hor Hdec Hsz Hsch Hdeg Hl) as (F1 & HF1). destruct (pc_essential n g ind _ gmax size ssch depth (d_sizes d) coin Hdag Hor Hdec Hsz Hsch Hdeg Hl) as (F2 & HF2).
  exists (Nat.max F1 F2). intros fuel Hf. destruct (HF1 fuel ltac:(lia)) as (es & A & S & N & Hs1 & Ho1 & E & U & D0 & L & Hes & _ & HSk & Hlk & Hpat & _). destruct (HF2 fuel ltac:(lia)) as (es' & A' & S' & N' & Hs2 & Ho2 & Hdir & Hund).
  assert (es' = es /\ A' = A /\ S' = S) as (-> & -> & ->) by (rewrite Hs1 in Hs2; by injection Hs2 as -> -> ->). specialize (Ho1 false). cbv beta iota in Ho1. assert (N' = N) as -> by (rewrite Ho1 in Ho2; by injection Ho2 as ->).
  exists N. assert (learn_structure accept depth fuel size ssch false coin d D = Ok N) as HS. { unfold learn_structure. rewrite (tr_vars _ _ _ _ HT). fold n. rewrite Hs1. cbn [mbind outcome_bind]. done. } split; [done|].
  pose proof (learned_structure train header rows d D HC HT _ _ _ _ _ _ _ _ HS) as HL. pose proof (lf_size _ _ _ _ HL) as Hsize. fold n in Hsize.
  destruct (orient_kept' _ _ _ _ _ _ _ _ Ho1) as (_ & _ & Hc). unfold cached in Hc. cbn [skeleton_network nt_num_edges nt_topo] in Hc. injection Hc as Hnum Htop.
  assert (length es = length E) as Hle by (rewrite <-Hes, fmap_length; done). rewrite (names_header train header rows d HC HN Hd).
  pose proof (proj1 (pattern_pat n E A N U (D0 ++ L) HSk) Hpat) as [Hp Hperm]. split.
  - intros (x0 & y0 & Hg). assert (E <> []) as HE. { assert (linked A x0 y0) as Hl0 by (apply Hlk; by left). destruct HSk as (_ & _ & _ & _ & HL'). apply HL' in Hl0. destruct E; [destruct Hl0 as [H|H]; by apply elem_of_nil in H|done]. }
    destruct (save_pattern n E N U (D0 ++ L) A HSk Hpat Htop ltac:(lia) HE) as (ls & Hls & Hnd & Hlen & Harc & Hlink). exists ls. split.
    + rewrite <-Hsize. apply structure_text_ok; [by rewrite Hsize|done|lia|]. assert (forall x y, bare (x, y) ∈ E -> x < net_size N /\ y < net_size N) as Hb.
      { intros x y Hin. destruct HSk as (_ & Hb & _). unfold bare in Hin. cbn [fst snd] in Hin. apply Hb in Hin. lia. }
      intros l Hin. destruct l as [x y|x y].
      * apply Harc in Hin. apply Hb. rewrite <-Hperm. apply elem_of_app. right. by apply (elem_of_list_fmap_1 bare) in Hin.
      * apply Hlink in Hin. assert ((x, y) ∈ E) as HxyE by (rewrite <-Hperm; apply elem_of_app; by left). destruct HSk as (_ & Hb' & _). apply Hb' in HxyE. lia.
    + split; [done|]. split.
      * intros x y. rewrite Harc, <-(pat_directed _ _ _ _ x y Hp). apply Hdir.
      * intros x y. rewrite Hlink, <-Hund. destruct Hpat as (_ & _ & He & _). destruct HSk as (_ & Hb & _). split.
        -- intros Hin. assert ((x, y) ∈ E) as HxyE by (rewrite <-Hperm; apply elem_of_app; by left). apply Hb in HxyE. split; [lia|]. rewrite He. apply elem_of_app. left. apply elem_of_list_fmap. by exists (x, y).
        -- intros [Hlt Hin]. rewrite He in Hin. apply elem_of_app in Hin as [Hin|Hin]; apply elem_of_list_fmap in Hin as ([u v] & Heq & Hin); unfold undirected_edge in Heq; rewrite (bool_decide_true (x < y)) in Heq by done; [|done].
           assert ((u, v) ∈ E) as HuvE by (rewrite <-Hperm; apply elem_of_app; by left). apply Hb in HuvE. cbn [fst snd] in Heq. rewrite bool_decide_true in Heq by lia. by injection Heq as -> ->.
  - intros Hnone. assert (E = []) as HE. { destruct E as [|[u v] E']; [done|]. destruct HSk as (_ & _ & _ & _ & HL'). assert (linked A u v) as Hluv by (apply HL'; left; left). apply Hlk in Hluv as [H|H]; by rewrite Hnone in H. }
    assert (nt_edges N = []) as Hed. { destruct Hpat as (_ & _ & -> & _). rewrite HE in Hperm. apply Permutation_length in Hperm. rewrite app_length, fmap_length in Hperm. cbn in Hperm. destruct U; [|cbn in Hperm; lia]. destruct (D0 ++ L); [done|cbn in Hperm; lia]. }
    unfold structure_text, save_bn_structure. rewrite Hed. done.
Qed.
Theorem learn_network_structure train header rows : csv_table train header rows -> NoDup header ->
  exists d D, load_csv_training train = Ok d /\ columns_of d = Ok D /\
  forall accept size ssch g ind gmax depth coin flips show, dag (length header) g -> dsep_oracle ind (length header) g ->
  decides (independence_result accept D (d_sizes d)) ind (length header) gmax -> 1 <= size <= gmax -> valid_sched ssch -> (forall v, length (dag_parents (length header) g v) < depth) ->
  exists F, forall fuel, F <= fuel ->
    ((exists x y, g x y = true) -> forall sp, exists ls p, learn_network accept depth fuel size ssch coin flips show true sp train = Ok (Some (text_of (structure_lines header (length header) ls)), p) /\
       lists_essential (length header) g ls /\ learn_network accept depth fuel size ssch coin flips show false sp train = Ok (None, p)) /\
    ((forall x y, g x y = false) -> forall sp, learn_network accept depth fuel size ssch coin flips show true sp train = Err OutOfBounds).
Proof.
  intros HC HN. destruct (training_columns train header rows HC HN) as (d & D & Hd & HD & HT). exists d, D. split; [done|]. split; [done|].
  intros accept size ssch g ind gmax depth coin flips show Hdag Hor Hdec Hsz Hsch Hdeg. destruct (structure_of train header rows d D HC HN Hd HD HT accept size ssch g ind gmax depth coin Hdag Hor Hdec Hsz Hsch Hdeg) as (F & HF).
  exists F. intros fuel Hf. destruct (HF fuel Hf) as (N & HS & Hsome & Hnone). pose proof (learned_structure train header rows d D HC HT _ _ _ _ _ _ _ _ HS) as HL.
  destruct (tables_text train header rows d D N show flips HC HN Hd HT HL) as (ts & Hts & Hp). split.
  - intros Hg sp. destruct (Hsome Hg) as (ls & Hls & Hess). exists ls. rewrite !(learn_network_unfold _ _ _ _ _ _ _ _ _ _ _ d D N Hd HD HS), Hls, Hts. cbn [mbind outcome_bind]. destruct sp; [rewrite Hp|]; eexists; (split; [reflexivity|]); (split; [done|reflexivity]).
  - intros Hg sp. rewrite (learn_network_unfold _ _ _ _ _ _ _ _ _ _ _ d D N Hd HD HS), (Hnone Hg). done.
Qed.
