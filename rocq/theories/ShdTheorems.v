(** The structural Hamming distance is measured against the essential graph. *)
From Verif Require Import PCModel PCSpec PCWitness PCTheorems OrientModel OrientSpec OrientProofs OrientTheorems DSepSpec DSepProofs EssentialSpec EssentialProofs LabelProofs DSepTheorems DSepWitness GraphModel2 GraphSpec2 NetProofs NetProofs2 OrderProofs CompelProofs2 ShdProofs.
Local Open Scope nat_scope.

Lemma arcs_of_spec N x y : arcs_of N x y = true <-> has_directed N x y.
Proof. unfold arcs_of. rewrite bool_decide_eq_true. symmetry. apply has_directed_pairs. Qed.
Lemma essential_closed n g : dag n g -> exists A D L, (forall x y, linked A x y <-> adjacent g x y) /\ (forall x y, (x, y) ∈ D <-> exists z, v_structure g x y z) /\
  directing (implied A) A D L /\ (forall x y, open_edge A (D ++ L) x y -> ~ implied A (D ++ L) x y) /\ (forall x y, (x, y) ∈ D ++ L <-> compelled n g x y).
Proof.
  intros Hg. destruct (oracle_exists n g Hg) as (ind & Hind). set (depth := S n).
  assert (forall v, length (dag_parents n g v) < depth) as Hdeg. { intros v. unfold dag_parents, depth. pose proof (filter_length (fun p => g p v = true) (seq 0 n)) as Hl. rewrite seq_length in Hl. lia. }
  destruct (pc_core n g ind (lone_test ind) 1 1 forwards depth (replicate n 2) (fun _ => false) Hg Hind (lone_decides ind n) ltac:(lia) forwards_valid Hdeg ltac:(apply replicate_length)) as (F & HF).
  destruct (HF F ltac:(lia)) as (es & A & S & N & _ & _ & E & U & D & L & _ & _ & HSk & Hlk & _ & _ & _ & HD & Hsound & Heither & Hdir & Hcl).
  exists A, D, L. split_and!; [done|done|done|done|]. intros x y. split; [intros Hxy h; by apply Hsound|]. intros Hc.
  pose proof (Hc g Hg ltac:(by split)) as Gxy. destruct (dag_rank n g Hg) as (rank & Hr). destruct (decide ((x, y) ∈ D ++ L)) as [|Hn]; [done|]. exfalso. destruct (decide ((y, x) ∈ D ++ L)) as [Hyx|Hyx].
  - apply Hsound with (h := g) in Hyx; [|done|by split]. apply Hr in Hyx, Gxy. lia.
  - destruct (Heither y x) as (h & Hh & Heq & Hyx'); [split_and!; [apply Hlk; by right|done|done]|]. destruct (dag_rank n h Hh) as (rk & Hrk). pose proof (Hc h Hh Heq) as Hxy. apply Hrk in Hxy, Hyx'. lia.
Qed.

(** ** Agreement of mixed graphs *)
Lemma joins_mixed N i j : mixed_graph N -> forall n1 n2 ep,
  (exists e, joins N i j e /\ e_n1 e = n1 /\ e_n2 e = n2 /\ e_ep2 e = ep) <->
  (n1 = i /\ n2 = j \/ n1 = j /\ n2 = i) /\ (ep = Arrow /\ has_directed N n1 n2 \/ ep = Tail /\ n1 < n2 /\ has_undirected N n1 n2).
Proof.
  intros [_ Hm] n1 n2 ep. split.
  - intros (e & [Hin Hj] & <- & <- & <-). destruct (Hm e Hin) as (_ & _ & _ & H1 & H2). split; [tauto|]. destruct (e_ep2 e) eqn:He.
    + right. split; [done|]. split; [by apply H2|]. exists e. tauto.
    + left. split; [done|]. exists e. tauto.
  - intros [Hij [[-> (e & Hin & <- & <- & H1 & H2)]|(-> & Hlt & e & Hin & H1 & H2 & He)]].
    + exists e. split_and!; [|done..]. split; [done|]. tauto.
    + destruct (Hm e Hin) as (_ & _ & _ & _ & H3). specialize (H3 H2). assert (e_n1 e = n1 /\ e_n2 e = n2) as [<- <-] by lia. exists e. split_and!; [|done..]. split; [done|]. tauto.
Qed.
Lemma und_sym N x y : has_undirected N x y -> has_undirected N y x.
Proof. intros (e & ? & ? & ? & ?). exists e. tauto. Qed.
Lemma agree_mixed N N' i j : mixed_graph N -> mixed_graph N' -> i < j ->
  agree N N' i j <-> (has_directed N i j <-> has_directed N' i j) /\ (has_directed N j i <-> has_directed N' j i) /\ (has_undirected N i j <-> has_undirected N' i j).
Proof.
  intros HN HN' Hij. unfold agree. split.
  - intros H. assert (forall M, mixed_graph M -> (exists e, joins M i j e /\ e_n1 e = i /\ e_n2 e = j /\ e_ep2 e = Arrow) <-> has_directed M i j) as J1.
    { intros M HM. rewrite joins_mixed by done. split; [intros [_ [[_ ?]|[? _]]]; done|intros ?; split; [left; done|left; done]]. }
    assert (forall M, mixed_graph M -> (exists e, joins M i j e /\ e_n1 e = j /\ e_n2 e = i /\ e_ep2 e = Arrow) <-> has_directed M j i) as J2.
    { intros M HM. rewrite joins_mixed by done. split; [intros [_ [[_ ?]|[? _]]]; done|intros ?; split; [right; done|left; done]]. }
    assert (forall M, mixed_graph M -> (exists e, joins M i j e /\ e_n1 e = i /\ e_n2 e = j /\ e_ep2 e = Tail) <-> has_undirected M i j) as J3.
    { intros M HM. rewrite joins_mixed by done. split; [intros [_ [[? _]|(_ & _ & ?)]]; done|intros ?; split; [left; done|right; done]]. }
    rewrite <-!J1, <-!J2, <-!J3 by done. split_and!; apply H.
  - intros (H1 & H2 & H3) n1 n2 ep. rewrite !joins_mixed by done. split; (intros [[[-> ->]|[-> ->]] Hc]; (split; [tauto|]); [tauto|]; destruct Hc as [?|(_ & ? & _)]; [tauto|lia]).
Qed.
Lemma mixed_irrefl N x : mixed_graph N -> ~ has_directed N x x /\ ~ has_undirected N x x.
Proof.
  intros [_ Hm]. split.
  - intros (e & He & H1 & H2 & _). destruct (Hm e He) as (_ & _ & ? & _). congruence.
  - intros (e & He & _ & _ & H). destruct (Hm e He) as (_ & _ & Hn & _). apply Hn. intuition congruence.
Qed.
Lemma mixed_bound N x y : mixed_graph N -> has_directed N x y \/ has_undirected N x y -> x < length (nt_nodes N) /\ y < length (nt_nodes N).
Proof.
  intros [_ Hm] [(e & He & <- & <- & _)|(e & He & _ & _ & H)]; destruct (Hm e He) as (? & ? & _); [done|]. destruct H as [[<- <-]|[<- <-]]; done.
Qed.
Lemma same_mixed N N' : mixed_graph N -> mixed_graph N' -> length (nt_nodes N) = length (nt_nodes N') ->
  same_graph N N' <-> forall i j, i < j -> j < length (nt_nodes N') -> agree N N' i j.
Proof.
  intros HN HN' Hlen. split.
  - intros H i j Hij _. apply agree_mixed; [done..|]. split_and!; apply H.
  - intros H x y. assert (forall i j, i < j -> agree N N' i j) as H'.
    { intros i j Hij. destruct (decide (j < length (nt_nodes N'))) as [|Hj]; [by apply H|]. apply agree_mixed; [done..|].
      split_and!; (split; intros Hx; exfalso); [pose proof (mixed_bound N i j HN (or_introl Hx))|pose proof (mixed_bound N' i j HN' (or_introl Hx))|pose proof (mixed_bound N j i HN (or_introl Hx))|pose proof (mixed_bound N' j i HN' (or_introl Hx))|pose proof (mixed_bound N i j HN (or_intror Hx))|pose proof (mixed_bound N' i j HN' (or_intror Hx))]; lia. }
    destruct (lt_eq_lt_dec x y) as [[Hxy| ->]|Hxy].
    + specialize (H' x y Hxy). rewrite agree_mixed in H' by done. tauto.
    + pose proof (mixed_irrefl N y HN). pose proof (mixed_irrefl N' y HN'). tauto.
    + specialize (H' y x Hxy). rewrite agree_mixed in H' by done. destruct H' as (? & ? & H3). split; [tauto|]. split; intros Hu; apply und_sym; apply H3; by apply und_sym.
Qed.
Lemma bad_empty N N' bad : mixed_graph N -> mixed_graph N' -> length (nt_nodes N) = length (nt_nodes N') ->
  (forall i j, (i, j) ∈ bad <-> i < j /\ j < length (nt_nodes N') /\ ~ agree N N' i j) -> length bad = 0 <-> same_graph N N'.
Proof.
  intros HN HN' Hlen Hb. rewrite (same_mixed N N') by done. split.
  - intros Hl i j Hij Hj. destruct bad as [|p bad]; [|done]. rewrite agree_mixed by done.
    assert (~ ~ agree N N' i j) as Hnn. { intros Hna. apply (not_elem_of_nil (i, j)). by apply Hb. } rewrite agree_mixed in Hnn by done.
    assert (forall M u v, mixed_graph M -> Decision (has_directed M u v)) as D1. { intros M u v _. destruct (decide ((u, v) ∈ directed_pairs (nt_edges M))); [left|right]; by rewrite has_directed_pairs. }
    assert (forall M u v, Decision (has_undirected M u v)) as D2.
    { intros M u v. destruct (decide (Exists (fun e => e_ep1 e = Tail /\ e_ep2 e = Tail /\ (e_n1 e = u /\ e_n2 e = v \/ e_n1 e = v /\ e_n2 e = u)) (nt_edges M))) as [H|H]; rewrite Exists_exists in H; [left|right]; done. }
    destruct (D1 N i j HN), (D1 N' i j HN'), (D1 N j i HN), (D1 N' j i HN'), (D2 N i j), (D2 N' i j); tauto.
  - intros H. destruct bad as [|[i j] bad]; [done|]. exfalso. destruct (proj1 (Hb i j)) as (H1 & H2 & H3); [left|]. by apply H3, H.
Qed.

(** ** The converted graph is the essential graph *)
Lemma fresh_dag_dag T : netinv T -> dag (length (nt_nodes T)) (arcs_of T).
Proof.
  intros HI. split.
  - intros x y Hxy. apply arcs_of_spec in Hxy as (e & He & <- & <- & _). pose proof (ni_edges _ HI) as Hw. rewrite Forall_forall in Hw. destruct (Hw e He) as (? & ? & _). done.
  - destruct (acyclic_order (arcs_of T)) with (l := seq 0 (length (nt_nodes T))) as (ord & Hp & Ho); [|apply NoDup_seq|by exists ord].
    eapply acyclic_ext; [|exact (ni_acyclic _ HI)]. intros x y. apply arcs_of_spec.
Qed.
Lemma fresh_mixed T : fresh_dag T -> mixed_graph T.
Proof.
  intros (HI & Hnd & _ & _ & Ha). split; [apply dag_single; try done; apply Forall_forall; intros e He; split; apply (Ha e He)|].
  intros e He. pose proof (ni_edges _ HI) as Hw. rewrite Forall_forall in Hw. destruct (Hw e He) as (? & ? & ? & _). destruct (Ha e He) as (? & Har & _). split_and!; try done; [|by rewrite Har].
  intros Heq. apply (ni_acyclic _ HI (e_n1 e)). apply tc_once. exists e. split_and!; congruence.
Qed.
Lemma pos_rank n t : t ≡ₚ seq 0 n -> exists rank : nat -> nat, forall x, x < n -> t !! rank x = Some x.
Proof.
  intros Hp. exists (fun x => match list_find (eq x) t with Some (i, _) => i | None => 0 end). intros x Hx.
  assert (x ∈ t) as Hin by (rewrite Hp; apply elem_of_seq; lia). destruct (list_find_elem_of (eq x) t x Hin eq_refl) as [[i y] Hf]. rewrite Hf. apply list_find_Some in Hf as (Hi & <- & _). done.
Qed.
Definition comp_of (P : pairs) : nat -> nat -> bool := fun x y => bool_decide ((x, y) ∈ P).
Lemma comp_rule T A D L : netinv T -> let g := arcs_of T in (forall x y, linked A x y <-> adjacent g x y) -> (forall x y, (x, y) ∈ D <-> exists z, v_structure g x y z) ->
  directing (implied A) A D L -> (forall x y, (x, y) ∈ D ++ L -> g x y = true) -> (forall x y, open_edge A (D ++ L) x y -> ~ implied A (D ++ L) x y) ->
  forall t, topological (has_directed T) (length (nt_nodes T)) t -> label_rule T t (comp_of (D ++ L)).
Proof.
  intros HI g HA HD Hdir Hg Hcl t [Hp Ho] x y b Hxy Hlast Hby. destruct (fresh_dag_dag T HI) as [Hb _]. destruct (pos_rank _ _ Hp) as (rank & Hrk).
  assert (forall x y, g x y = true -> rank x < rank y) as Hr. { intros u v Huv. destruct (Hb u v Huv). apply (Ho (rank u) (rank v) u v); [by apply Hrk|by apply Hrk|by apply arcs_of_spec]. }
  assert (forall u v, g u v = false <-> ~ has_directed T u v) as Hf. { intros u v. rewrite <-arcs_of_spec. fold g. destruct (g u v); split; try done. }
  apply arcs_of_spec in Hby as Gby. apply arcs_of_spec in Hxy as Gxy. fold g in Gby, Gxy.
  pose proof (compelled_rule _ g A D L rank Hb Hr HA HD Hdir Hg Hcl x y Gxy) as HC.
  assert (forall z, g z y = true -> z <> x -> rank z < rank x) as Hl.
  { intros z Hz Hzx. destruct (Hb z y Hz), (Hb x y Gxy). pose proof (Hlast z (rank z) (rank x) ltac:(by apply arcs_of_spec) ltac:(by apply Hrk) ltac:(by apply Hrk)). assert (rank z <> rank x); [|lia].
    intros Heq. apply Hzx. pose proof (Hrk z ltac:(done)) as E1. pose proof (Hrk x ltac:(done)) as E2. rewrite Heq in E1. congruence. }
  specialize (HC Hl b Gby). unfold comp_of. rewrite bool_decide_eq_true, HC. split.
  - intros [(w & Hw & Hwy)|[(z & Hz & Hzx & Hzg)|Hbx]].
    + left. exists w. rewrite bool_decide_eq_true. split_and!; [by apply arcs_of_spec, Hg|done|by apply Hf].
    + right. left. exists z. split_and!; [by apply arcs_of_spec|done|by apply Hf].
    + right. right. rewrite bool_decide_eq_true. split; [by apply arcs_of_spec, Hg|done].
  - intros [(w & _ & Hw & Hwy)|[(z & Hz & Hzx & Hzg)|[_ Hbx]]].
    + left. exists w. rewrite bool_decide_eq_true in Hw. split; [done|by apply Hf].
    + right. left. exists z. split_and!; [by apply arcs_of_spec|done|by apply Hf].
    + right. right. by rewrite bool_decide_eq_true in Hbx.
Qed.
Lemma mixed_loosened T T' : fresh_dag T -> nt_nodes T' = nt_nodes T -> Forall2 loosened (nt_edges T) (nt_edges T') -> single T' -> mixed_graph T'.
Proof.
  intros HT Hn HF Hs. destruct (fresh_mixed T HT) as [_ Hm]. split; [done|]. intros e' He'. rewrite Hn. apply elem_of_list_lookup in He' as [k Hk].
  destruct (Forall2_lookup_r _ _ _ _ _ HF Hk) as (e & He & Hl). apply elem_of_list_lookup_2 in He. destruct (Hm e He) as (B1 & B2 & B3 & _).
  destruct Hl as [[[E1 E2] Hp]|(E1 & E2 & Hlt & Hp)].
  - injection Hp as -> ->. rewrite E2. split_and!; done.
  - unfold epair in Hp. destruct Hp as [Hp|Hp]; injection Hp as F1 F2; rewrite F1, F2 in *; split_and!; try done; intros; lia.
Qed.
Lemma pattern_essential T T' n : fresh_dag T -> n = length (nt_nodes T) -> forall P, (forall x y, (x, y) ∈ P <-> compelled n (arcs_of T) x y) ->
  Forall2 loosened (nt_edges T) (nt_edges T') -> Forall2 (fun e e' => is_arc e' <-> comp_of P (e_n1 e) (e_n2 e) = true) (nt_edges T) (nt_edges T') ->
  essential_graph n (arcs_of T) T'.
Proof.
  intros HT -> P HP HF HC x y. destruct HT as (HI & Hnd & _ & _ & Ha). set (g := arcs_of T) in *. set (n := length (nt_nodes T)) in *. pose proof (fresh_dag_dag T HI) as Hdag. fold n g in Hdag.
  assert (forall x y, compelled n g x y -> g x y = true) as Hcg by (intros u v Hc; apply Hc; [done|by split]).
  assert (forall x y, g x y = true -> g y x = true -> False) as Hasym. { destruct (dag_rank n g Hdag) as (rk & Hrk). intros u v H1 H2. apply Hrk in H1, H2. lia. }
  assert (forall u v, g u v = true -> exists e e', e ∈ nt_edges T /\ e' ∈ nt_edges T' /\ e_n1 e = u /\ e_n2 e = v /\ loosened e e' /\ (is_arc e' <-> compelled n g u v)) as Hto.
  { intros u v Huv. apply arcs_of_spec in Huv as (e & He & <- & <- & _). apply elem_of_list_lookup in He as [k Hk]. destruct (Forall2_lookup_l _ _ _ _ _ HF Hk) as (e' & Hk' & Hl). pose proof (Forall2_lookup_lr _ _ _ _ _ _ HC Hk Hk') as Hc.
    exists e, e'. apply elem_of_list_lookup_2 in Hk, Hk'. split_and!; try done. rewrite Hc. unfold comp_of. by rewrite bool_decide_eq_true. }
  assert (forall e', e' ∈ nt_edges T' -> exists e, e ∈ nt_edges T /\ g (e_n1 e) (e_n2 e) = true /\ loosened e e' /\ (is_arc e' <-> compelled n g (e_n1 e) (e_n2 e))) as Hfrom.
  { intros e' He'. apply elem_of_list_lookup in He' as [k Hk]. destruct (Forall2_lookup_r _ _ _ _ _ HF Hk) as (e & Hk' & Hl). pose proof (Forall2_lookup_lr _ _ _ _ _ _ HC Hk' Hk) as Hc.
    exists e. apply elem_of_list_lookup_2 in Hk'. split_and!; [done| |done|].
    - apply arcs_of_spec. exists e. destruct (Ha e Hk') as (? & ? & _). done.
    - rewrite Hc. unfold comp_of. by rewrite bool_decide_eq_true. }
  split.
  - split.
    + intros (e' & He' & <- & <- & E1 & E2). destruct (Hfrom e' He') as (e & He & _ & Hl & Hc). destruct Hl as [[_ Hp]|(_ & Hb & _)]; [|congruence]. injection Hp as -> ->. by apply Hc.
    + intros Hc. destruct (Hto x y (Hcg x y Hc)) as (e & e' & _ & He' & <- & <- & Hl & Harc). apply Harc in Hc. destruct Hl as [[[E1 E2] Hp]|(_ & Hb & _)]; [|destruct Hc; congruence]. injection Hp as E3 E4. by exists e'.
  - split.
    + intros (e' & He' & E1 & E2 & Hxy). destruct (Hfrom e' He') as (e & He & Hg & Hl & Hc). destruct Hl as [[[_ Hb] _]|(_ & _ & _ & Hp)]; [congruence|].
      assert (~ compelled n g (e_n1 e) (e_n2 e)) as N1. { intros H%Hc. destruct H; congruence. }
      assert (~ compelled n g (e_n2 e) (e_n1 e)) as N2. { intros H%Hcg. by apply (Hasym _ _ Hg). }
      assert (x = e_n1 e /\ y = e_n2 e \/ x = e_n2 e /\ y = e_n1 e) as Hc'. { unfold epair in Hp. destruct Hp as [Hp|Hp]; injection Hp as F1 F2; intuition congruence. }
      destruct Hc' as [[-> ->]|[-> ->]]; (split; [|done]); [by left|by right].
    + intros (Hadj & N1 & N2). assert (forall u v, g u v = true -> ~ compelled n g u v -> has_undirected T' u v) as Hu.
      { intros u v Huv Hn. destruct (Hto u v Huv) as (e & e' & _ & He' & <- & <- & Hl & Harc). destruct Hl as [[Hb _]|(E1 & E2 & _ & Hp)]; [by apply Harc in Hb|]. exists e'. split_and!; try done. unfold epair in Hp. destruct Hp as [Hp|Hp]; injection Hp as F1 F2; [left|right]; done. }
      destruct Hadj as [H|H]; [by apply Hu|]. apply und_sym. by apply Hu.
Qed.
Lemma essential_same n g N N' : essential_graph n g N -> (same_graph N N' <-> essential_graph n g N').
Proof. intros H. split; intros H' x y; destruct (H x y), (H' x y); tauto. Qed.

Theorem shd_essential T L : fresh_dag T -> mixed_graph L -> length (nt_nodes T) = length (nt_nodes L) ->
  (exists e0, nt_edges L !! 0 = Some e0 /\ is_directed e0 = false) ->
  (forall T1 t, get_topo_ord T = Ok (T1, t) -> single_extra (compelled (length (nt_nodes T)) (arcs_of T)) T t) ->
  exists T' bad, to_pattern T = Ok T' /\ Forall2 loosened (nt_edges T) (nt_edges T') /\
    essential_graph (length (nt_nodes T)) (arcs_of T) T' /\
    get_shd T L = Ok (length bad) /\ NoDup bad /\
    (forall i j, (i, j) ∈ bad <-> i < j /\ j < length (nt_nodes L) /\ ~ agree T' L i j) /\
    (get_shd T L = Ok 0 <-> essential_graph (length (nt_nodes T)) (arcs_of T) L).
Proof.
  intros HT HL Hlen He0 Hse. pose proof HT as (HI & Hnd & Htopo & Hnum & Ha). destruct (essential_closed _ _ (fresh_dag_dag T HI)) as (A & D & LL & HA & HD & Hdir & Hcl & HP).
  assert (forall x y, (x, y) ∈ D ++ LL -> arcs_of T x y = true) as Hg. { intros x y Hxy. apply HP in Hxy. apply Hxy; [by apply fresh_dag_dag|by split]. }
  pose proof (comp_rule T A D LL HI HA HD Hdir Hg Hcl) as Hrule.
  assert (forall T1 t, get_topo_ord T = Ok (T1, t) -> single_extra (fun w x => comp_of (D ++ LL) w x = true) T t) as Hse'.
  { intros T1 t Ht x y z1 z2 A1 A2 A3. apply (Hse T1 t Ht x y z1 z2 A1 A2). intros w Hw Hc. apply A3; [done|]. unfold comp_of. rewrite bool_decide_eq_true. by apply HP. }
  destruct (get_shd_pattern T L) with (comp := comp_of (D ++ LL)) as (T' & bad & H1 & Hn & HF & HC & H2 & H3 & H4); try done; [apply HL|].
  exists T', bad. pose proof (pattern_essential T T' _ HT eq_refl (D ++ LL) HP HF HC) as Hess. split_and!; try done. rewrite H2, <-(essential_same _ _ _ _ Hess).
  assert (single T') as Hs. { destruct (to_pattern_ok T) with (comp := comp_of (D ++ LL)) as (T2 & E2 & _ & _ & Hs & _); try done. rewrite E2 in H1. by injection H1 as ->. }
  rewrite <-(bad_empty T' L bad); [split; [by intros [= ->]|by intros ->]|by apply (mixed_loosened T)|done|by rewrite Hn|done].
Qed.
Theorem shd_same T L : mixed_graph T -> mixed_graph L -> length (nt_nodes T) = length (nt_nodes L) ->
  (exists e0, nt_edges L !! 0 = Some e0 /\ is_directed e0 = true) -> get_shd T L = Ok 0 <-> same_graph T L.
Proof.
  intros HT HL Hlen He0. destruct (get_shd_dag T L) as (bad & -> & _ & Hb); [apply HT|apply HL|done|done|].
  rewrite <-(bad_empty T L bad) by done. split; [by intros [= ->]|by intros ->].
Qed.

(** ** What PC-stable learns with perfect tests *)
Theorem pc_learns n g ind tst gmax size sch depth doms coin :
  dag n g -> dsep_oracle ind n g -> decides tst ind n gmax -> 1 <= size <= gmax -> valid_sched sch ->
  (forall v, length (dag_parents n g v) < depth) -> length doms = n ->
  exists F, forall fuel, F <= fuel -> exists es A S N, skeleton_search tst n depth fuel size sch = Ok (es, A, S) /\ orient_skeleton fuel doms false coin es A S = Ok N /\
    essential_graph n g N /\ mixed_graph N /\ length (nt_nodes N) = n /\
    (forall e0, nt_edges N !! 0 = Some e0 -> is_directed e0 = true -> forall x y, ~ has_undirected N x y).
Proof.
  intros Hdag Ho Hdec Hsz Hsch Hdeg Hd.
  destruct (pc_core n g ind tst gmax size sch depth doms coin Hdag Ho Hdec Hsz Hsch Hdeg Hd) as (F & HF). exists F. intros fuel Hf.
  destruct (HF fuel Hf) as (es & A & S & N & H1 & H2 & E & U & D & L & Hes & Hfn & HSk & Hlk & Hpat & _ & _ & HD & Hsound & Heither & _).
  exists es, A, S, N. split; [done|]. split; [apply (H2 false)|]. pose proof (proj1 (pattern_pat n E A N U (D ++ L) HSk) Hpat) as [Hp Hperm]. pose proof Hpat as (HNI & HNn & HNe & _).
  assert (forall x y h, dag n h -> h x y = true -> h y x = true -> False) as Hasym. { intros x y h Hh H3 H4. destruct (dag_rank n h Hh) as (rk & Hrk). apply Hrk in H3, H4. lia. }
  assert (forall x y, adjacent g x y -> open_edge A (D ++ L) x y \/ (x, y) ∈ D ++ L \/ (y, x) ∈ D ++ L) as Hcases. { intros x y Hxy. apply Hlk in Hxy. destruct (decide ((x, y) ∈ D ++ L)); [by right; left|]. destruct (decide ((y, x) ∈ D ++ L)); [by right; right|]. by left. }
  assert (forall x y, open_edge A (D ++ L) x y -> open_edge A (D ++ L) y x) as Hosym. { intros x y (Hl & ? & ?). split_and!; [|done|done]. by apply Hlk, adjacent_sym, Hlk. }
  assert (forall x y, has_directed N x y <-> (x, y) ∈ D ++ L) as Hdird by (intros x y; apply (pat_directed _ _ _ _ x y Hp)).
  assert (forall p, p ∈ U -> fst p < snd p) as HU. { intros [u v] Huv. destruct HSk as (_ & Hb & _). apply (Hb u v). rewrite <-Hperm. apply elem_of_app. by left. }
  assert (forall x y, (x, y) ∈ D ++ L <-> compelled n g x y) as HP.
  { intros x y. split; [intros Hxy h; by apply Hsound|]. intros Hc. pose proof (Hc g Hdag ltac:(by split)) as Gxy. destruct (Hcases x y ltac:(by left)) as [Hop|[?|Hyx]]; [|done|].
    - exfalso. destruct (Heither y x (Hosym _ _ Hop)) as (h & Hh & Heq & Hyx). by apply (Hasym x y h Hh); [apply Hc|].
    - exfalso. apply (Hasym x y g Hdag Gxy). apply Hsound; [done|done|by split]. }
  assert (forall x y, has_undirected N x y <-> open_edge A (D ++ L) x y) as Hund.
  { intros x y. rewrite (open_edge_U n E A U (D ++ L) x y HSk Hperm). split.
    - intros (e & He & E1 & E2 & Hxy). rewrite HNe, elem_of_app, !elem_of_list_fmap in He. destruct He as [([u v] & -> & Hin)|(p & -> & _)]; [|done]. pose proof (HU _ Hin) as Huv. cbn [fst snd] in *.
      unfold undirected_edge in Hxy. rewrite (bool_decide_true (u < v)) in Hxy by done. cbn in Hxy. split; [lia|]. replace (bare (x, y)) with (u, v); [done|]. unfold bare. cbn. f_equal; lia.
    - intros [Hxy Hin]. pose proof (HU _ Hin) as Huv. exists (undirected_edge (fst (bare (x, y))) (snd (bare (x, y)))). split; [rewrite HNe; apply elem_of_app; left; apply elem_of_list_fmap; by exists (bare (x, y))|].
      unfold undirected_edge. rewrite bool_decide_true by done. cbn. split_and!; [done..|]. lia. }
  assert (essential_graph n g N) as Hess.
  { intros x y. rewrite Hdird, Hund, HP. split; [done|]. split.
    - intros Hop. pose proof Hop as (Hl & N1 & N2). rewrite HP in N1, N2. split_and!; [by apply Hlk|done|done].
    - intros (Hadj & N1 & N2). rewrite <-HP in N1, N2. destruct (Hcases x y Hadj) as [?|[?|?]]; done. }
  assert (mixed_graph N) as Hmix.
  { assert (forall e, e ∈ nt_edges N -> e_n1 e < n /\ e_n2 e < n /\ e_n1 e <> e_n2 e /\ e_ep1 e = Tail /\ (e_ep2 e = Tail -> e_n1 e < e_n2 e)) as Hwf.
    { intros e He. pose proof (ni_edges _ HNI) as Hw. rewrite Forall_forall in Hw. destruct (Hw e He) as (B1 & B2 & B3 & _). rewrite HNn in B1, B2. rewrite HNe, elem_of_app, !elem_of_list_fmap in He. destruct He as [([u v] & -> & Hin)|([u v] & -> & Hin)].
      - pose proof (HU _ Hin) as Huv. cbn [fst snd] in *. unfold undirected_edge in *. rewrite (bool_decide_true (u < v)) in * by done. cbn in *. split_and!; try done; lia.
      - cbn in *. split_and!; try done. intros ->. apply HP in Hin. apply (Hasym v v g Hdag); apply Hin; try done; by split. }
    split; [|by rewrite HNn]. intros i j e1 e2 [J1 K1] [J2 K2]. destruct (Hwf e1 J1) as (_ & _ & Hne1 & _).
    assert (i <> j) as Hij by (intuition congruence). pose proof (once_between n E A N U (D ++ L) i j HSk Hpat Hij) as Hon.
    unfold edges_between in Hon. set (f := filter _ _) in Hon.
    assert (e1 ∈ f /\ e2 ∈ f) as [F1 F2]. { unfold f. rewrite !elem_of_list_filter. split; (split; [|done]); unfold bare; cbn [fst snd]; f_equal; lia. }
    assert (length f <= 1) as Hf1. { destruct Hon as [O1 O2]. assert (linked A i j \/ ~ linked A i j) as [Hl|Hl]; [|rewrite O1 by done; lia|rewrite O2 by done; lia]. rewrite !Hlk. unfold adjacent. destruct (g i j), (g j i); [left; by left|left; by left|left; by right|right; by intros [?|?]]. } destruct f as [|a [|b f]]; [by apply elem_of_nil in F1| |cbn in Hf1; lia]. apply elem_of_list_singleton in F1, F2. congruence. }
  split_and!; try done. intros e0 He0 Hdir0 u v (e & He & _ & E2 & _).
  assert (U = []) as HU0. { destruct U as [|[u' v'] U']; [done|]. exfalso. rewrite HNe in He0. cbn in He0. injection He0 as <-. unfold undirected_edge in Hdir0. case_bool_decide; done. }
  rewrite HNe, HU0 in He. apply elem_of_list_fmap in He as (p & -> & _). done.
Qed.
(** A graph with the same essential graph is Markov equivalent, and conversely. *)
Lemma essential_cases n g N x y : dag n g -> essential_graph n g N -> adjacent g x y -> has_directed N x y \/ has_directed N y x \/ has_undirected N x y.
Proof.
  intros Hg HN Hxy. destruct (HN x y) as [D1 U1], (HN y x) as [D2 _]. rewrite D1, D2, U1. destruct (essential_closed n g Hg) as (_ & D & L & _ & _ & _ & _ & HP).
  destruct (decide ((x, y) ∈ D ++ L)) as [C1|C1]; rewrite HP in C1; [by left|]. destruct (decide ((y, x) ∈ D ++ L)) as [C2|C2]; rewrite HP in C2; [by right; left|]. right. right. done.
Qed.
Lemma essential_equivalent n g h N : dag n g -> dag n h -> essential_graph n g N -> (essential_graph n h N <-> markov_equivalent g h).
Proof.
  intros Hg Hh HN.
  assert (forall a b u v, markov_equivalent a b -> compelled n a u v -> compelled n b u v) as Hmono.
  { intros a b u v [E1 E2] Hc k Hk [F1 F2]. apply Hc; [done|]. split; [intros x y; by rewrite E1|intros x y z; by rewrite E2]. }
  assert (forall a u v, dag n a -> essential_graph n a N -> adjacent a u v <-> has_directed N u v \/ has_directed N v u \/ has_undirected N u v) as Hadj.
  { intros a u v Ha HaN. split; [by apply (essential_cases n)|]. destruct (HaN u v) as [D1 U1], (HaN v u) as [D2 _]. rewrite D1, D2, U1.
    intros [Hc|[Hc|Hc]]; [left; apply Hc; [done|by split]|right; apply Hc; [done|by split]|tauto]. }
  split.
  - intros HhN. split.
    + intros x y. by rewrite (Hadj g x y), (Hadj h x y).
    + assert (forall a b, dag n a -> dag n b -> essential_graph n a N -> essential_graph n b N -> forall x y z, v_structure a x y z -> v_structure b x y z) as Hv.
      { intros a b Ha Hb HaN HbN. assert (forall u v, (exists w, v_structure a u v w) -> b u v = true) as Hc.
        { intros u v Hw. destruct (essential_closed n a Ha) as (_ & D & L & _ & HD & _ & _ & HP). assert (compelled n a u v) as Hcp by (apply HP, elem_of_app; left; by apply HD). apply (HaN u v), (HbN u v) in Hcp. apply Hcp; [done|by split]. }
        intros x y z Hv. pose proof Hv as ([V1 V2] & V3 & V4). split_and!; [split; apply Hc|done|].
        - by exists z.
        - exists x. split_and!; [by split|done|]. intros Hzx. apply V4. destruct Hzx; [by right|by left].
        - rewrite (Hadj b) by done. by rewrite <-(Hadj a). }
      intros x y z. split; by apply Hv.
  - intros Heq. assert (markov_equivalent h g) as Heq'. { destruct Heq as [E1 E2]. split; [intros x y; by rewrite E1|intros x y z; by rewrite E2]. }
    assert (forall u v, compelled n h u v <-> compelled n g u v) as Hc by (intros u v; split; by apply Hmono). intros x y. rewrite !Hc. destruct Heq as [E1 _]. rewrite <-(E1 x y). apply HN.
Qed.

(** The distance between what is learned and a DAG is 0 exactly for the DAGs equivalent to the one behind the tests. *)
Theorem pc_distance T g ind tst gmax size sch depth doms coin : let n := length (nt_nodes T) in
  fresh_dag T -> (forall T1 t, get_topo_ord T = Ok (T1, t) -> single_extra (compelled n (arcs_of T)) T t) ->
  dag n g -> (exists x y, g x y = true) -> dsep_oracle ind n g -> decides tst ind n gmax -> 1 <= size <= gmax -> valid_sched sch ->
  (forall v, length (dag_parents n g v) < depth) -> length doms = n ->
  exists F, forall fuel, F <= fuel -> exists es A S N k, skeleton_search tst n depth fuel size sch = Ok (es, A, S) /\ orient_skeleton fuel doms false coin es A S = Ok N /\
    get_shd T N = Ok k /\ (k = 0 <-> markov_equivalent g (arcs_of T)).
Proof.
  intros n HT Hse Hdag Hne Ho Hdec Hsz Hsch Hdeg Hd. pose proof HT as (HI & _ & _ & _ & Ha). pose proof (fresh_dag_dag T HI) as HTdag. fold n in HTdag.
  destruct (pc_learns n g ind tst gmax size sch depth doms coin Hdag Ho Hdec Hsz Hsch Hdeg Hd) as (F & HF). exists F. intros fuel Hf.
  destruct (HF fuel Hf) as (es & A & S & N & H1 & H2 & Hess & Hmix & Hlen & Hfirst).
  pose proof (fun x y => essential_cases n g N x y Hdag Hess) as Hcases.
  assert (exists e0, nt_edges N !! 0 = Some e0) as (e0 & He0).
  { destruct Hne as (x & y & Hxy). destruct (nt_edges N) as [|e0 ?] eqn:HNe'; [|by exists e0]. exfalso. destruct (Hcases x y (or_introl Hxy)) as [(? & Hin & _)|[(? & Hin & _)|(? & Hin & _)]]; rewrite HNe' in Hin; by apply elem_of_nil in Hin. }
  exists es, A, S, N. destruct (is_directed e0) eqn:Hdir0.
  - destruct (get_shd_dag T N) as (bad & Hk & _); [by apply fresh_mixed|apply Hmix|done|by exists e0|]. exists (length bad). split_and!; try done.
    pose proof (shd_same T N (fresh_mixed T HT) Hmix ltac:(by rewrite Hlen) ltac:(by exists e0)) as Hz. rewrite Hk in Hz.
    assert (length bad = 0 <-> same_graph T N) as ->. { rewrite <-Hz. split; [by intros ->|by intros [=]]. }
    specialize (Hfirst e0 He0 Hdir0). assert (forall x y, ~ has_undirected T x y) as HnoT. { intros u v (e & He & _ & E2 & _). destruct (Ha e He) as (_ & ? & _). congruence. }
    assert (forall x y, has_directed N x y -> g x y = true) as Hto. { intros x y Hxy. apply (Hess x y) in Hxy. apply Hxy; [done|by split]. }
    assert (forall x y h, dag n h -> h x y = true -> h y x = true -> False) as Hasym. { intros x y h Hh E1 E2. destruct (dag_rank n h Hh) as (rk & Hrk). apply Hrk in E1, E2. lia. }
    assert (forall x y, g x y = true -> has_directed N x y) as Hfrom. { intros x y Hxy. destruct (Hcases x y (or_introl Hxy)) as [?|[Hyx|Hu]]; [done| |by apply Hfirst in Hu]. exfalso. apply Hto in Hyx. by apply (Hasym x y g Hdag). }
    split.
    + intros Hs. assert (forall x y, g x y = true <-> arcs_of T x y = true) as Hsame. { intros x y. rewrite arcs_of_spec. destruct (Hs x y) as [-> _]. split; auto. }
      split; [intros x y; unfold adjacent; by rewrite !Hsame|intros x y z; unfold v_structure, meets, adjacent; by rewrite !Hsame].
    + intros Heq x y. split; [|split; intros Hu; [by apply HnoT in Hu|by apply Hfirst in Hu]]. rewrite <-arcs_of_spec.
      assert (forall u v, g u v = true -> arcs_of T u v = true) as Hgt. { intros u v Huv. apply Hfrom in Huv. apply (Hess u v) in Huv. by apply Huv. }
      split; [|intros Hxy; by apply Hgt, Hto]. intros Hxy. destruct Heq as [E1 _]. destruct (proj2 (E1 x y)) as [Hg|Hg]; [by left|by apply Hfrom|]. exfalso. apply Hgt in Hg. by apply (Hasym x y (arcs_of T) HTdag).
  - destruct (shd_essential T N) as (T' & bad & _ & _ & _ & Hk & _ & _ & Hz); try done; [by exists e0|]. exists (length bad). split_and!; try done.
    rewrite <-(essential_equivalent n g (arcs_of T) N) by done. fold n in Hz. rewrite <-Hz, Hk. split; [by intros ->|by intros [=]].
Qed.
Theorem pc_distance_zero T ind tst gmax size sch depth doms coin : let n := length (nt_nodes T) in
  fresh_dag T -> nt_edges T <> [] -> (forall T1 t, get_topo_ord T = Ok (T1, t) -> single_extra (compelled n (arcs_of T)) T t) ->
  dsep_oracle ind n (arcs_of T) -> decides tst ind n gmax -> 1 <= size <= gmax -> valid_sched sch ->
  (forall v, length (dag_parents n (arcs_of T) v) < depth) -> length doms = n ->
  exists F, forall fuel, F <= fuel -> exists es A S N, skeleton_search tst n depth fuel size sch = Ok (es, A, S) /\ orient_skeleton fuel doms false coin es A S = Ok N /\
    get_shd T N = Ok 0.
Proof.
  intros n HT Hne Hse Ho Hdec Hsz Hsch Hdeg Hd. pose proof HT as (HI & _ & _ & _ & Ha).
  destruct (pc_distance T (arcs_of T) ind tst gmax size sch depth doms coin HT Hse (fresh_dag_dag T HI)) as (F & HF); try done.
  { destruct (nt_edges T) as [|e l] eqn:HTe; [done|]. exists (e_n1 e), (e_n2 e). apply arcs_of_spec. exists e. destruct (Ha e) as (? & ? & _); [left|]. rewrite HTe. split_and!; try done. left. }
  exists F. intros fuel Hf. destruct (HF fuel Hf) as (es & A & S & N & k & H1 & H2 & H3 & Hk). exists es, A, S, N. split_and!; try done. rewrite H3. f_equal. apply Hk. by split.
Qed.
