(** Cycle check and topological order of a network; edge edit histories. *)
From Verif Require Export NetProofs.
Local Open Scope nat_scope.

(** ** The adjacency matrix *)
Section adjacency.
Context (N : network) (Hok : children_ok N).
Let n := length (nt_nodes N).
Definition ch (x : nat) : list nat := match nt_nodes N !! x with Some nd => nd_children nd | None => [] end.
Lemma child_rel_ch x y : child_rel N x y <-> y ∈ ch x.
Proof.
  unfold child_rel, ch. destruct (nt_nodes N !! x) as [nd|].
  - split; [by intros (? & [= <-] & ?)|eauto].
  - rewrite elem_of_nil. split; [by intros (? & [=] & _)|done].
Qed.
Lemma ch_bound x y : y ∈ ch x -> x < n /\ y < n.
Proof.
  unfold ch. destruct (nt_nodes N !! x) as [nd|] eqn:Hx; [|by intros ?%elem_of_nil].
  intros Hy. split; [by eapply lookup_lt_Some|]. destruct (Hok _ _ Hx) as [_ Hb]. rewrite Forall_forall in Hb. by apply Hb.
Qed.
Lemma ch_NoDup x : NoDup (ch x).
Proof.
  unfold ch. destruct (nt_nodes N !! x) as [nd|] eqn:Hx; [|apply NoDup_nil_2].
  apply lt_sorted_NoDup. by apply (Hok x nd).
Qed.

Definition filled (k : nat) (cs : list nat) (st : list (list nat) * list Z) : Prop :=
  length (fst st) = n /\ (forall row, row ∈ fst st -> length row = n) /\
  (forall x y, x < n -> y < n -> exists row, fst st !! x = Some row /\
     row !! y = Some (if decide (x < k /\ y ∈ ch x \/ x = k /\ y ∈ cs) then 1 else 0)) /\
  length (snd st) = n /\
  (forall j, j < n -> snd st !! j =
     Some (Z.of_nat (length (filter (fun x => j ∈ ch x) (seq 0 k)) + (if decide (j ∈ cs) then 1 else 0)))).

Lemma adjacency_loops : exists gi, adjacency N = Ok gi /\ filled n [] gi.
Proof.
  unfold adjacency. fold n.
  match goal with |- exists gi, mfor _ ?b ?s = _ /\ _ =>
    destruct (mfor_inv (fun (dn : list nat) st => filled (length dn) [] st) (seq 0 n) b s) as (gi & -> & Hf) end.
  - split_and!; cbn [fst snd].
    + apply replicate_length.
    + intros row Hrow. apply elem_of_replicate in Hrow as [-> _]. apply replicate_length.
    + intros x y Hx Hy. exists (replicate n 0). split; [by apply lookup_replicate_2|].
      rewrite decide_False by (intros [[? _]|[_ ?%elem_of_nil]]; [cbn in *; lia|done]). by apply lookup_replicate_2.
    + apply replicate_length.
    + intros j Hj. cbn. by rewrite lookup_replicate_2.
  - intros dn i rest st Hl Hst.
    assert (i = length dn /\ i < n) as [Hi Hin].
    { assert (seq 0 n !! length dn = Some i) as Hlk by (rewrite Hl; apply list_lookup_middle; done).
      pose proof (lookup_lt_Some _ _ _ Hlk) as Hlt. rewrite seq_length in Hlt. apply lookup_seq in Hlk as [-> ?]. done. }
    rewrite <-Hi in Hst. destruct (lookup_lt_is_Some_2 (nt_nodes N) i Hin) as [nd Hnd].
    unfold find_node. rewrite Hnd. cbn [mbind outcome_bind].
    assert (nd_children nd = ch i) as Hch by (unfold ch; by rewrite Hnd).
    rewrite Hch.
    match goal with |- exists s1, mfor _ ?b ?s = _ /\ _ =>
      destruct (mfor_inv (fun (cs : list nat) st => filled i cs st) (ch i) b s Hst) as (st' & -> & Hf) end.
    { intros cs c crest [g ins] Hc (H1 & H2 & H3 & H4 & H5). cbn [fst snd] in *.
      assert (c ∈ ch i) as Hci by (rewrite Hc; apply elem_of_app; right; left).
      assert (c ∉ cs) as Hncs.
      { pose proof (ch_NoDup i) as Hnd'. rewrite Hc in Hnd'. apply NoDup_app in Hnd' as (_ & Hd & _). intros H. apply (Hd _ H). left. }
      destruct (ch_bound _ _ Hci) as [_ Hcn].
      destruct (H3 i c Hin Hcn) as (row & Hrow & Hrc). rewrite (vget_ok _ _ _ Hrow). cbn [mbind outcome_bind].
      assert (length row = n) as Hrl by (apply H2; by eapply elem_of_list_lookup_2).
      rewrite vset_ok by lia. cbn [mbind outcome_bind]. rewrite vset_ok by lia. cbn [mbind outcome_bind].
      rewrite (vget_ok ins _ _ (H5 c Hcn)). cbn [mbind outcome_bind]. rewrite vset_ok by lia. cbn [mbind outcome_bind].
      eexists; split; [done|]. split_and!; cbn [fst snd].
      - by rewrite insert_length.
      - intros row' Hr'. apply elem_of_list_lookup in Hr' as [k Hk]. destruct (decide (k = i)) as [->|].
        + rewrite list_lookup_insert in Hk by lia. injection Hk as <-. by rewrite insert_length.
        + rewrite list_lookup_insert_ne in Hk by done. apply H2. by eapply elem_of_list_lookup_2.
      - intros x y Hx Hy. destruct (H3 x y Hx Hy) as (rx & Hrx & Hry). destruct (decide (x = i)) as [->|Hne].
        + rewrite Hrow in Hrx. injection Hrx as <-. eexists. split; [apply list_lookup_insert; lia|].
          destruct (decide (y = c)) as [->|].
          * rewrite list_lookup_insert by lia. rewrite decide_True; [done|]. right. split; [done|]. apply elem_of_app. right; left.
          * rewrite list_lookup_insert_ne by done. rewrite Hry. f_equal. apply decide_ext.
            rewrite elem_of_app, elem_of_list_singleton. tauto.
        + exists rx. rewrite list_lookup_insert_ne by done. split; [done|]. rewrite Hry. f_equal. apply decide_ext. tauto.
      - by rewrite insert_length.
      - intros j Hj. destruct (decide (j = c)) as [->|].
        + rewrite list_lookup_insert by lia. f_equal. rewrite (decide_False (P := c ∈ cs)) by done.
          rewrite decide_True by (apply elem_of_app; right; left). lia.
        + rewrite list_lookup_insert_ne by done. rewrite H5 by done. do 3 f_equal. apply decide_ext.
          rewrite elem_of_app, elem_of_list_singleton. tauto. }
    eexists; split; [done|]. rewrite app_length, <-Hi. cbn [length]. destruct Hf as (H1 & H2 & H3 & H4 & H5). split_and!; try done.
    + intros x y Hx Hy. destruct (H3 x y Hx Hy) as (row & Hr & Hv). exists row. split; [done|]. rewrite Hv. f_equal.
      apply decide_ext. rewrite elem_of_nil. split.
      * intros [[? ?]|[-> ?]]; left; (split; [lia|done]).
      * intros [[? ?]|[_ []]]. destruct (decide (x = i)) as [->|]; [by right|left; split; [lia|done]].
    + intros j Hj. rewrite H5 by done. do 2 f_equal. rewrite Nat.add_1_r, seq_S, filter_app, app_length, filter_cons, filter_nil. cbn [Nat.add].
      rewrite (decide_False (P := j ∈ [])) by apply not_elem_of_nil. destruct (decide (j ∈ ch i)); cbn; lia.
  - exists gi. split; [done|]. by rewrite seq_length in Hf.
Qed.

Lemma adjacency_spec : exists graph ins, adjacency N = Ok (graph, ins) /\ square_matrix n graph /\ indegrees_of n graph ins /\
  forall x y, matrix_rel graph x y <-> child_rel N x y.
Proof.
  destruct adjacency_loops as ([graph ins] & -> & H1 & H2 & H3 & H4 & H5). cbn [fst snd] in *. exists graph, ins. split; [done|].
  assert (forall x y, matrix_rel graph x y <-> y ∈ ch x) as Hrel.
  { intros x y. split.
    - intros (row & Hr & Hy). assert (x < n) as Hx by (rewrite <-H1; by eapply lookup_lt_Some).
      assert (y < n) as Hyn. { rewrite <-(H2 row); [by eapply lookup_lt_Some|by eapply elem_of_list_lookup_2]. }
      destruct (H3 x y Hx Hyn) as (row' & Hr' & Hy'). rewrite Hr in Hr'. injection Hr' as <-. rewrite Hy in Hy'. injection Hy' as Hv.
      case_decide as Hd; [|done]. rewrite elem_of_nil in Hd. tauto.
    - intros Hy. destruct (ch_bound _ _ Hy) as [Hxn Hyn]. destruct (H3 x y Hxn Hyn) as (row & Hr & Hv). exists row. split; [done|].
      rewrite Hv, decide_True; [done|]. by left. }
  split_and!; [by split| |].
  - split; [done|]. intros j Hj. exists (filter (fun x => j ∈ ch x) (seq 0 n)). split_and!.
    + rewrite H5 by done. rewrite (decide_False (P := j ∈ [])) by apply not_elem_of_nil. by rewrite Nat.add_0_r.
    + apply NoDup_filter, NoDup_seq.
    + intros i. rewrite elem_of_list_filter, elem_of_seq, Hrel. split; [tauto|]. intros Hi. split; [done|]. apply ch_bound in Hi. lia.
  - intros x y. by rewrite Hrel, child_rel_ch.
Qed.
End adjacency.

Lemma acyclic_ext {A} (R S : A -> A -> Prop) : (forall x y, R x y <-> S x y) -> acyclic R <-> acyclic S.
Proof.
  intros H. assert (forall R S : A -> A -> Prop, (forall x y, R x y <-> S x y) -> acyclic R -> acyclic S) as Hgen.
  { intros R' S' H' Ha x Hx. apply (Ha x). clear Ha. revert Hx. generalize x at 2 4. intros y Hx.
    induction Hx as [a b ?|a b c ? _ IH]; [by apply tc_once, H'|]. eapply tc_l; [by apply H'|done]. }
  split; apply Hgen; [done|]. intros x y. by rewrite H.
Qed.

Theorem contain_circle_spec N :
  children_ok N -> exists b, contain_circle N = Ok b /\ (b = true <-> ~ acyclic (child_rel N)).
Proof.
  intros Hok. destruct (adjacency_spec N Hok) as (g & ins & Ha & Hsq & Hi & Hrel).
  unfold contain_circle. rewrite Ha. cbn [mbind outcome_bind fst snd].
  destruct (contains_circle_spec g _ ins Hsq Hi) as (b & -> & Hb). exists b. split; [done|].
  rewrite Hb. by rewrite (acyclic_ext _ _ Hrel).
Qed.
Theorem gen_topo_ord_spec N :
  children_ok N -> exists t, gen_topo_ord N = Ok (set_topo N t, t) /\
    (acyclic (child_rel N) -> topological (child_rel N) (length (nt_nodes N)) t) /\
    (~ acyclic (child_rel N) -> length t < length (nt_nodes N)).
Proof.
  intros Hok. destruct (adjacency_spec N Hok) as (g & ins & Ha & Hsq & Hi & Hrel).
  unfold gen_topo_ord. rewrite Ha. cbn [mbind outcome_bind fst snd].
  destruct (topo_sort_spec g _ ins Hsq Hi) as (t & -> & H1 & H2 & _). cbn [mbind outcome_bind]. exists t. split; [done|]. split.
  - intros Hac. rewrite <-(acyclic_ext _ _ Hrel) in Hac. destruct (H1 Hac) as [Hp Ho]. split; [done|].
    intros i j x y Hx Hy Hc. apply Hrel in Hc. by eapply Ho.
  - intros Hn. apply H2. by rewrite (acyclic_ext _ _ Hrel).
Qed.

(** ** Edits *)

Lemma find_node_ok N i nd : nt_nodes N !! i = Some nd -> find_node N i = Ok nd.
Proof. unfold find_node. by intros ->. Qed.

Lemma set_parent_child_spec N p c :
  p < length (nt_nodes N) -> c < length (nt_nodes N) ->
  exists N', set_parent_child N p c = Ok N' /\
    nt_edges N' = nt_edges N /\ nt_topo N' = nt_topo N /\ nt_num_edges N' = nt_num_edges N /\
    length (nt_nodes N') = length (nt_nodes N) /\
    forall i nd, nt_nodes N !! i = Some nd -> exists nd', nt_nodes N' !! i = Some nd' /\
      nd_dom nd' = nd_dom nd /\
      nd_children nd' = (if decide (i = p) then sins c (nd_children nd) else nd_children nd) /\
      nd_parents nd' = (if decide (i = c /\ p ∉ nd_parents nd) then sins p (nd_parents nd) else nd_parents nd) /\
      nd_pvec nd' = (if decide (i = c /\ p ∉ nd_parents nd) then nd_pvec nd ++ [p] else nd_pvec nd).
Proof.
  intros Hp Hc. destruct (lookup_lt_is_Some_2 _ _ Hp) as [ndp Hndp].
  unfold set_parent_child. rewrite (find_node_ok _ _ _ Hndp). cbn [mbind outcome_bind].
  set (N1 := set_nodes N (<[p:=node_add_child c ndp]> (nt_nodes N))).
  assert (length (nt_nodes N1) = length (nt_nodes N)) as Hlen1 by apply insert_length.
  destruct (lookup_lt_is_Some_2 (nt_nodes N1) c) as [ndc Hndc]; [lia|].
  rewrite (find_node_ok _ _ _ Hndc). cbn [mbind outcome_bind]. eexists; split; [done|]. cbn [set_nodes nt_nodes nt_edges nt_topo nt_num_edges].
  split_and!; try done; [by rewrite !insert_length|]. intros i nd Hi.
  assert (exists nd1, nt_nodes N1 !! i = Some nd1 /\ nd_dom nd1 = nd_dom nd /\ nd_parents nd1 = nd_parents nd /\ nd_pvec nd1 = nd_pvec nd /\
    nd_children nd1 = (if decide (i = p) then sins c (nd_children nd) else nd_children nd)) as (nd1 & Hnd1 & Hd & Hpa & Hpv & Hch).
  { cbn. destruct (decide (i = p)) as [->|].
    - rewrite list_lookup_insert by done. rewrite Hndp in Hi. injection Hi as <-. eexists; split; [done|]. done.
    - rewrite list_lookup_insert_ne by done. exists nd. done. }
  destruct (decide (i = c)) as [->|Hic].
  - change (<[p:=node_add_child c ndp]> (nt_nodes N)) with (nt_nodes N1). rewrite list_lookup_insert by lia.
    rewrite Hndc in Hnd1. injection Hnd1 as ->. eexists; split; [done|]. unfold node_add_parent.
    rewrite <-Hpa, <-Hpv, <-Hd, <-Hch. destruct (decide (p ∈ nd_parents nd1)) as [Hin|Hin].
    + rewrite bool_decide_true by done. destruct (decide (c = c /\ p ∉ nd_parents nd1)) as [[_ ?]|_]; done.
    + rewrite bool_decide_false by done. destruct (decide (c = c /\ p ∉ nd_parents nd1)) as [_|Hn]; [done|]. exfalso. by apply Hn.
  - change (<[p:=node_add_child c ndp]> (nt_nodes N)) with (nt_nodes N1). rewrite list_lookup_insert_ne by done.
    exists nd1. destruct (decide (i = c /\ p ∉ nd_parents nd)) as [[? _]|_]; done.
Qed.

Lemma vec_erase_first_ok p l : p ∈ l -> exists l', vec_erase_first p l = Ok l' /\ l ≡ₚ p :: l'.
Proof.
  induction l as [|y l IH]; intros Hp; [by apply elem_of_nil in Hp|]. cbn [vec_erase_first].
  case_bool_decide as Hy; [subst; by eexists|]. apply elem_of_cons in Hp as [->|Hp]; [done|].
  destruct (IH Hp) as (l' & -> & Hl'). cbn. eexists; split; [done|]. rewrite Hl'. apply perm_swap.
Qed.
Lemma vec_erase_first_snoc p l : p ∉ l -> vec_erase_first p (l ++ [p]) = Ok l.
Proof.
  induction l as [|y l IH]; intros Hp; cbn [app vec_erase_first]; [by rewrite bool_decide_true|].
  apply not_elem_of_cons in Hp as [Hy Hp]. rewrite bool_decide_false by done. rewrite IH by done. done.
Qed.

Lemma remove_parent_child_spec N p c :
  p < length (nt_nodes N) -> c < length (nt_nodes N) ->
  (forall nd, nt_nodes N !! c = Some nd -> p ∈ nd_parents nd -> p ∈ nd_pvec nd) ->
  exists N', remove_parent_child N p c = Ok N' /\
    nt_edges N' = nt_edges N /\ nt_topo N' = nt_topo N /\ nt_num_edges N' = nt_num_edges N /\
    length (nt_nodes N') = length (nt_nodes N) /\
    forall i nd, nt_nodes N !! i = Some nd -> exists nd', nt_nodes N' !! i = Some nd' /\
      nd_dom nd' = nd_dom nd /\
      nd_children nd' = (if decide (i = p) then serase c (nd_children nd) else nd_children nd) /\
      nd_parents nd' = (if decide (i = c /\ p ∈ nd_parents nd) then serase p (nd_parents nd) else nd_parents nd) /\
      (if decide (i = c /\ p ∈ nd_parents nd) then vec_erase_first p (nd_pvec nd) = Ok (nd_pvec nd') else nd_pvec nd' = nd_pvec nd).
Proof.
  intros Hp Hc Hpv. destruct (lookup_lt_is_Some_2 _ _ Hp) as [ndp Hndp].
  unfold remove_parent_child. rewrite (find_node_ok _ _ _ Hndp). cbn [mbind outcome_bind].
  set (N1 := set_nodes N (<[p:=node_remove_child c ndp]> (nt_nodes N))).
  assert (length (nt_nodes N1) = length (nt_nodes N)) as Hlen1 by apply insert_length.
  assert (forall i nd, nt_nodes N !! i = Some nd ->
    exists nd1, nt_nodes N1 !! i = Some nd1 /\ nd_dom nd1 = nd_dom nd /\ nd_parents nd1 = nd_parents nd /\ nd_pvec nd1 = nd_pvec nd /\
    nd_children nd1 = (if decide (i = p) then serase c (nd_children nd) else nd_children nd)) as Hmid.
  { intros i nd Hi. cbn. destruct (decide (i = p)) as [->|].
    - rewrite list_lookup_insert by done. rewrite Hndp in Hi. injection Hi as <-. eexists; split; [done|]. done.
    - rewrite list_lookup_insert_ne by done. exists nd. done. }
  destruct (lookup_lt_is_Some_2 (nt_nodes N) c Hc) as [ndc0 Hndc0].
  destruct (Hmid _ _ Hndc0) as (ndc & Hndc & Hd & Hpa & Hpv' & Hch).
  rewrite (find_node_ok _ _ _ Hndc). cbn [mbind outcome_bind].
  assert (exists ndc', node_remove_parent p (nd_dom ndp) ndc = Ok ndc' /\ nd_dom ndc' = nd_dom ndc /\ nd_children ndc' = nd_children ndc /\
    nd_parents ndc' = (if decide (p ∈ nd_parents ndc) then serase p (nd_parents ndc) else nd_parents ndc) /\
    (if decide (p ∈ nd_parents ndc) then vec_erase_first p (nd_pvec ndc) = Ok (nd_pvec ndc') else nd_pvec ndc' = nd_pvec ndc)) as (ndc' & -> & Hd' & Hch' & Hpa' & Hpv'').
  { unfold node_remove_parent. destruct (decide (p ∈ nd_parents ndc)) as [Hin|Hin].
    - rewrite bool_decide_true by done. destruct (vec_erase_first_ok p (nd_pvec ndc)) as (l & Hl & _).
      { rewrite Hpv'. apply (Hpv _ Hndc0). by rewrite <-Hpa. }
      rewrite Hl. cbn. eexists; split; [done|]. done.
    - rewrite bool_decide_false by done. eexists; split; [done|]. done. }
  cbn [mbind outcome_bind]. eexists; split; [done|]. cbn [set_nodes nt_nodes nt_edges nt_topo nt_num_edges].
  split_and!; try done; [by rewrite !insert_length|]. intros i nd Hi. destruct (Hmid _ _ Hi) as (nd1 & Hnd1 & E1 & E2 & E3 & E4).
  change (<[p:=node_remove_child c ndp]> (nt_nodes N)) with (nt_nodes N1).
  destruct (decide (i = c)) as [->|Hic].
  - rewrite list_lookup_insert by lia. rewrite Hndc0 in Hi. injection Hi as <-. rewrite Hndc in Hnd1. injection Hnd1 as ->.
    eexists; split; [done|]. rewrite Hd', Hch', Hpa', Hd, Hch. rewrite Hpa, Hpv' in *.
    destruct (decide (p ∈ nd_parents ndc0)), (decide (c = c /\ p ∈ nd_parents ndc0)); try done; exfalso; tauto.
  - rewrite list_lookup_insert_ne by done. exists nd1. rewrite E1, E2, E3, E4.
    destruct (decide (i = c /\ p ∈ nd_parents nd)) as [[? _]|_]; [done|]. done.
Qed.

Lemma has_directed_pairs N x y : has_directed N x y <-> (x, y) ∈ directed_pairs (nt_edges N).
Proof.
  unfold has_directed, directed_pairs. rewrite elem_of_list_fmap. split.
  - intros (e & He & <- & <- & ? & ?). exists e. split; [done|]. by apply elem_of_list_filter.
  - intros (e & [= -> ->] & [[? ?] ?]%elem_of_list_filter). exists e. done.
Qed.
Lemma has_directed_bound N x y : netinv N -> has_directed N x y -> x < length (nt_nodes N) /\ y < length (nt_nodes N).
Proof.
  intros HI (e & He & <- & <- & _). pose proof (ni_edges _ HI) as Hw. rewrite Forall_forall in Hw. destruct (Hw _ He) as (? & ? & _). done.
Qed.
Lemma has_directed_snoc N N' p c x y :
  nt_edges N' = nt_edges N ++ [directed_edge p c] -> has_directed N' x y <-> has_directed N x y \/ (x = p /\ y = c).
Proof.
  intros E. rewrite !has_directed_pairs, E. unfold directed_pairs. rewrite filter_app, fmap_app, elem_of_app.
  rewrite filter_cons, decide_True by done. cbn. rewrite elem_of_list_singleton. split; intros [?|?]; auto; right; naive_solver.
Qed.
Lemma tc_mono {A} (R S : A -> A -> Prop) x y : (forall x y, R x y -> S x y) -> tc R x y -> tc S x y.
Proof. intros H. induction 1 as [a b ?|a b c ? _ IH]; [by apply tc_once, H|]. eapply tc_l; [by apply H|done]. Qed.

(** Adding one edge to an acyclic relation. *)
Lemma tc_add_edge {A} (R : A -> A -> Prop) p c x y :
  tc (fun a b => R a b \/ (a = p /\ b = c)) x y ->
  tc R x y \/ ((x = p \/ tc R x p) /\ (c = y \/ tc (fun a b => R a b \/ (a = p /\ b = c)) c y)).
Proof.
  induction 1 as [a b H|a b d H Ht IH].
  - destruct H as [H|[-> ->]]; [left; by apply tc_once|]. right. split; by left.
  - destruct H as [H|[-> ->]].
    + destruct IH as [IH|[[->|Hp] Hc]].
      * left. by eapply tc_l.
      * right. split; [right; by apply tc_once|done].
      * right. split; [right; by eapply tc_l|done].
    + right. split; [by left|by right].
Qed.
Lemma tc_add_from {A} (R : A -> A -> Prop) p c y :
  tc (fun a b => R a b \/ (a = p /\ b = c)) c y -> c = y \/ tc R c y \/ (c = p \/ tc R c p).
Proof.
  intros H. assert (forall a, tc (fun a b => R a b \/ (a = p /\ b = c)) a y -> tc R a y \/ (a = p \/ tc R a p)) as Hg.
  { intros a Ha. apply tc_add_edge in Ha as [?|[? _]]; tauto. }
  apply Hg in H. tauto.
Qed.
Lemma acyclic_add_edge {A} (R : A -> A -> Prop) p c :
  acyclic R -> (acyclic (fun a b => R a b \/ (a = p /\ b = c)) <-> ~ (p = c \/ tc R c p)).
Proof.
  intros Hac. split.
  - intros Ha [->|Ht].
    + apply (Ha c). apply tc_once. by right.
    + apply (Ha p). eapply tc_l; [right; by split|]. eapply tc_mono; [|exact Ht]. auto.
  - intros Hn x Hx. apply tc_add_edge in Hx as [Hx|[Hp Hc]]; [by apply (Hac x)|].
    destruct Hc as [->|Hc].
    + apply Hn. destruct Hp as [->|Hp]; [by left|by right].
    + apply tc_add_from in Hc as [->|[Hc|Hc]].
      * apply Hn. destruct Hp as [->|Hp]; [by left|by right].
      * apply Hn. right. destruct Hp as [->|Hp]; [done|]. by eapply tc_transitive.
      * apply Hn. destruct Hc as [->|Hc]; [by left|by right].
Qed.

Lemma netinv_child N x y : netinv N -> child_rel N x y <-> has_directed N x y.
Proof. intros HI. symmetry. apply (ni_consistent _ HI). Qed.
Lemma netinv_parent N x y : netinv N -> parent_rel N x y <-> has_directed N x y.
Proof. intros HI. symmetry. apply (ni_consistent _ HI). Qed.

(** ** AddDirectedEdge *)
Theorem add_directed_edge_spec N p c :
  netinv N -> p < length (nt_nodes N) -> c < length (nt_nodes N) ->
  exists N' b, add_directed_edge N p c = Ok (N', b) /\ netinv N' /\
    length (nt_nodes N') = length (nt_nodes N) /\ nt_topo N' = nt_topo N /\ nt_num_edges N' = nt_num_edges N /\
    (b = true <-> ~ (p = c \/ tc (has_directed N) c p)) /\
    (b = true -> nt_edges N' = nt_edges N ++ [directed_edge p c]) /\
    (b = false -> nt_edges N' = nt_edges N /\
       forall i nd, nt_nodes N !! i = Some nd -> exists nd', nt_nodes N' !! i = Some nd' /\ node_same nd nd').
Proof.
  intros HI Hp Hc. unfold add_directed_edge.
  destruct (lookup_lt_is_Some_2 _ _ Hp) as [ndp Hndp], (lookup_lt_is_Some_2 _ _ Hc) as [ndc Hndc].
  rewrite (find_node_ok _ _ _ Hndp), (find_node_ok _ _ _ Hndc). cbn [mbind outcome_bind].
  destruct (set_parent_child_spec N p c Hp Hc) as (N1 & -> & He1 & Ht1 & Hne1 & Hl1 & Hn1). cbn [mbind outcome_bind].
  assert (forall i nd', nt_nodes N1 !! i = Some nd' -> exists nd, nt_nodes N !! i = Some nd) as Hback.
  { intros i nd' Hi. apply lookup_lt_is_Some_2. rewrite <-Hl1. by eapply lookup_lt_Some. }
  assert (forall x y, child_rel N1 x y <-> has_directed N x y \/ (x = p /\ y = c)) as Hch1.
  { intros x y. rewrite <-(netinv_child N x y HI). split.
    - intros (nd' & Hx & Hy). destruct (Hback _ _ Hx) as [nd Hnd]. destruct (Hn1 _ _ Hnd) as (nd'' & Hx'' & _ & Hc' & _).
      rewrite Hx in Hx''. injection Hx'' as <-. rewrite Hc' in Hy. case_decide as Hd; [|left; by exists nd].
      apply elem_of_sins in Hy as [->|Hy]; [by right|left; by exists nd].
    - intros [(nd & Hnd & Hy)|[-> ->]].
      + destruct (Hn1 _ _ Hnd) as (nd' & Hx' & _ & Hc' & _). exists nd'. split; [done|]. rewrite Hc'. case_decide; [apply elem_of_sins; by right|done].
      + destruct (Hn1 _ _ Hndp) as (nd' & Hx' & _ & Hc' & _). exists nd'. split; [done|]. rewrite Hc', decide_True by done. apply elem_of_sins. by left. }
  assert (forall x y, parent_rel N1 x y <-> has_directed N x y \/ (x = p /\ y = c)) as Hpa1.
  { intros x y. rewrite <-(netinv_parent N x y HI). split.
    - intros (nd' & Hy & Hx). destruct (Hback _ _ Hy) as [nd Hnd]. destruct (Hn1 _ _ Hnd) as (nd'' & Hy'' & _ & _ & Hp' & _).
      rewrite Hy in Hy''. injection Hy'' as <-. rewrite Hp' in Hx. case_decide as Hd; [|left; by exists nd].
      apply elem_of_sins in Hx as [->|Hx]; [right; tauto|left; by exists nd].
    - intros [(nd & Hnd & Hx)|[-> ->]].
      + destruct (Hn1 _ _ Hnd) as (nd' & Hy' & _ & _ & Hp' & _). exists nd'. split; [done|]. rewrite Hp'. case_decide; [apply elem_of_sins; by right|done].
      + destruct (Hn1 _ _ Hndc) as (nd' & Hy' & _ & _ & Hp' & _). exists nd'. split; [done|]. rewrite Hp'.
        case_decide as Hd; [apply elem_of_sins; by left|]. destruct (decide (p ∈ nd_parents ndc)); [done|exfalso; tauto]. }
  assert (children_ok N1) as Hok1.
  { intros x nd' Hx. destruct (Hback _ _ Hx) as [nd Hnd]. destruct (Hn1 _ _ Hnd) as (nd'' & Hx'' & _ & Hc' & _).
    rewrite Hx in Hx''. injection Hx'' as <-. rewrite Hc', Hl1. destruct (ni_children _ HI _ _ Hnd) as [Hs Hb].
    case_decide; [|done]. split; [by apply sins_sorted|]. apply Forall_forall. intros y [->|Hy]%elem_of_sins; [done|]. rewrite Forall_forall in Hb. by apply Hb. }
  assert (forall x nd, nt_nodes N1 !! x = Some nd -> StronglySorted lt (nd_parents nd) /\ nd_pvec nd ≡ₚ nd_parents nd) as Hpok1.
  { intros x nd' Hx. destruct (Hback _ _ Hx) as [nd Hnd]. destruct (Hn1 _ _ Hnd) as (nd'' & Hx'' & _ & _ & Hp' & Hv').
    rewrite Hx in Hx''. injection Hx'' as <-. rewrite Hp', Hv'. destruct (ni_parents _ HI _ _ Hnd) as [Hs Hperm].
    case_decide as Hd; [|done]. split; [by apply sins_sorted|]. destruct Hd as [_ Hni]. apply NoDup_Permutation.
    - apply NoDup_app. split_and!; [rewrite Hperm; by apply lt_sorted_NoDup| |apply NoDup_singleton].
      intros z Hz ->%elem_of_list_singleton. by rewrite Hperm in Hz.
    - by apply lt_sorted_NoDup, sins_sorted.
    - intros z. rewrite elem_of_app, elem_of_list_singleton, elem_of_sins, Hperm. tauto. }
  destruct (contain_circle_spec N1 Hok1) as (b & -> & Hb). cbn [mbind outcome_bind].
  assert (acyclic (child_rel N1) <-> ~ (p = c \/ tc (has_directed N) c p)) as Hac.
  { rewrite (acyclic_ext _ _ Hch1). apply acyclic_add_edge, (ni_acyclic _ HI). }
  destruct b.
  - (* refused *)
    assert (~ has_directed N p c) as Hnot.
    { intros Hd. assert (acyclic (child_rel N1)) as Ha; [|by apply Hb in Ha].
      rewrite (acyclic_ext _ (has_directed N)); [apply (ni_acyclic _ HI)|]. intros x y. rewrite Hch1. naive_solver. }
    destruct (remove_parent_child_spec N1 p c) as (N2 & -> & He2 & Ht2 & Hne2 & Hl2 & Hn2); [by rewrite Hl1..| |].
    { intros nd Hnd Hin. rewrite (proj2 (Hpok1 _ _ Hnd)). done. }
    cbn [mbind outcome_bind]. exists N2, false.
    assert (forall i nd, nt_nodes N !! i = Some nd -> exists nd', nt_nodes N2 !! i = Some nd' /\ node_same nd nd') as Hsame.
    { intros i nd Hnd. destruct (Hn1 _ _ Hnd) as (nd1 & Hnd1 & A1 & A2 & A3 & A4). destruct (Hn2 _ _ Hnd1) as (nd2 & Hnd2 & B1 & B2 & B3 & B4).
      exists nd2. split; [done|]. unfold node_same. rewrite B1, B2, B3, A1, A2. destruct (ni_parents _ HI _ _ Hnd) as [Hs Hperm].
      assert (nd_children nd = if decide (i = p) then serase c (if decide (i = p) then sins c (nd_children nd) else nd_children nd)
         else if decide (i = p) then sins c (nd_children nd) else nd_children nd) as Hc'.
      { destruct (decide (i = p)) as [->|]; [|done]. symmetry. apply serase_sins; [by apply (ni_children _ HI p)|].
        intros Hin. apply Hnot. apply (netinv_child N p c HI). by exists nd. }
      destruct (decide (i = c)) as [->|Hic].
      - assert (p ∉ nd_parents nd) as Hnp. { intros Hin. apply Hnot. apply (netinv_parent N p c HI). by exists nd. }
        rewrite decide_True in A3 by tauto. rewrite decide_True in A4 by tauto.
        assert (p ∈ nd_parents nd1) as Hin1 by (rewrite A3; apply elem_of_sins; by left).
        rewrite decide_True by tauto. rewrite decide_True in B4 by tauto.
        rewrite A3, serase_sins by done. rewrite A4, vec_erase_first_snoc in B4 by (by rewrite Hperm). injection B4 as B4. by rewrite <-B4.
      - rewrite decide_False in A3 by tauto. rewrite decide_False in A4 by tauto. rewrite decide_False by tauto. rewrite decide_False in B4 by tauto.
        rewrite A3, B4, A4. done. }
    assert (nt_edges N2 = nt_edges N) as HeN by (by rewrite He2).
    assert (length (nt_nodes N2) = length (nt_nodes N)) as HlN by lia.
    assert (forall i nd', nt_nodes N2 !! i = Some nd' -> exists nd, nt_nodes N !! i = Some nd /\ node_same nd nd') as Hsame'.
    { intros i nd' Hi. destruct (lookup_lt_is_Some_2 (nt_nodes N) i) as [nd Hnd]; [rewrite <-HlN; by eapply lookup_lt_Some|].
      exists nd. split; [done|]. destruct (Hsame _ _ Hnd) as (nd'' & Hi' & Hs). congruence. }
    assert (forall x y, has_directed N2 x y <-> has_directed N x y) as Hhd by (intros x y; unfold has_directed; by rewrite HeN).
    split; [done|]. split_and!; try (by rewrite ?Ht2, ?Hne2, ?Hl2).
    + split.
      * intros x nd' Hx. destruct (Hsame' _ _ Hx) as (nd & Hnd & (_ & _ & _ & ->)). rewrite HlN. by apply (ni_children _ HI _ _ Hnd).
      * intros x nd' Hx. destruct (Hsame' _ _ Hx) as (nd & Hnd & (_ & -> & -> & _)). by apply (ni_parents _ HI _ _ Hnd).
      * intros x y. rewrite Hhd. destruct (ni_consistent _ HI x y) as [C1 C2]. rewrite C1 at 1. rewrite C2. split.
        -- split; intros (nd & Hx & Hy).
           ++ destruct (Hsame _ _ Hx) as (nd' & Hx' & (_ & _ & _ & Ec)). exists nd'. by rewrite Ec.
           ++ destruct (Hsame' _ _ Hx) as (nd' & Hx' & (_ & _ & _ & Ec)). exists nd'. by rewrite <-Ec.
        -- split; intros (nd & Hx & Hy).
           ++ destruct (Hsame _ _ Hx) as (nd' & Hx' & (_ & Ec & _ & _)). exists nd'. by rewrite Ec.
           ++ destruct (Hsame' _ _ Hx) as (nd' & Hx' & (_ & Ec & _ & _)). exists nd'. by rewrite <-Ec.
      * rewrite (acyclic_ext _ _ Hhd). apply (ni_acyclic _ HI).
      * rewrite HeN, HlN. apply (ni_edges _ HI).
    + split; [done|]. intros Hn. exfalso. by apply Hac, Hb in Hn.
  - (* accepted *)
    assert (acyclic (child_rel N1)) as Ha.
    { apply Hac. intros Hcyc. assert (~ acyclic (child_rel N1)) as Hn by (rewrite Hac; tauto). apply Hb in Hn. done. }
    exists (set_edges N1 (nt_edges N1 ++ [directed_edge p c])), true. split; [done|].
    assert (forall x y, has_directed (set_edges N1 (nt_edges N1 ++ [directed_edge p c])) x y <-> has_directed N x y \/ (x = p /\ y = c)) as Hhd.
    { intros x y. apply has_directed_snoc. cbn. by rewrite He1. }
    split_and!; try (cbn; by rewrite ?Ht1, ?Hne1, ?Hl1).
    + split; cbn [set_edges nt_nodes nt_edges].
      * intros x nd Hx. by apply (Hok1 x nd).
      * done.
      * intros x y. rewrite Hhd. split.
        -- rewrite <-Hch1. done.
        -- rewrite <-Hpa1. done.
      * rewrite (acyclic_ext _ _ Hhd), <-(acyclic_ext _ _ Hch1). done.
      * rewrite Hl1, He1. apply Forall_app. split; [apply (ni_edges _ HI)|]. constructor; [|done]. unfold edge_wf. cbn. split_and!; try done.
    + split; [|done]. intros _. by apply Hac.
    + intros _. cbn. by rewrite He1.
Qed.
