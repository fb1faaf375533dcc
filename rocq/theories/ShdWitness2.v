(** Comparisons on larger graphs: an oracle that follows simple paths only, a true DAG with three parents that is compared
    correctly and one that is compared wrongly. *)
From Verif Require Import PCModel PCSpec PCWitness OrientModel NetProofs DSepSpec DSepProofs DSepTheorems GraphWitness EssentialSpec ShdTheorems ShdWitness DSepWitness.
Local Open Scope nat_scope.

Fixpoint walks (n : nat) (g : digraph) (k : nat) (avoid : list nat) (u : nat) : list (list nat) :=
  match k with
  | O => [[]]
  | S k => [] :: (v ← filter (fun v => adjacent g u v /\ v ∉ avoid) (seq 0 n); l ← walks n g k (v :: avoid) v; [v :: l])
  end.
Fixpoint leads (n : nat) (g : digraph) (k : nat) (x y : nat) : bool :=
  match k with O => false | S k => if g x y then true else existsb (fun z => if g x z then leads n g k z y else false) (seq 0 n) end.
Lemma leads_reaches n g k x y : leads n g k x y = reaches n g k x y.
Proof. revert x. induction k as [|k IH]; intros x; [done|]. cbn [leads reaches]. destruct (g x y); [done|]. cbn [orb]. induction (seq 0 n) as [|z l IHl]; [done|]. cbn [existsb]. rewrite IHl, IH. by destruct (g x z). Qed.
Definition joined_b (n : nat) (g : digraph) (desc : nat -> nat -> bool) (x y : nat) (s : list nat) : bool :=
  existsb (fun mid => let p := x :: mid ++ [y] in bool_decide (is_path g p) && bool_decide (NoDup p) && unblocked_b g desc s p) (walks n g n [x; y] x).
Definition apart_of (n : nat) (g : digraph) (x y : nat) (s : list nat) : bool := negb (joined_b n g (leads n g n) x y s).
Lemma walks_complete n g k avoid u l : is_path g (u :: l) -> NoDup l -> (forall v, v ∈ l -> v < n /\ v ∉ avoid) -> length l <= k -> l ∈ walks n g k avoid u.
Proof.
  revert avoid u l. induction k as [|k IH]; intros avoid u l Hp Hnd Hin Hl; cbn [walks].
  - destruct l; [left|cbn in Hl; lia].
  - destruct l as [|v l]; [left|right]. destruct Hp as [Ha Hp]. apply NoDup_cons in Hnd as [Hv Hnd]. apply elem_of_list_bind. exists v. destruct (Hin v ltac:(left)) as [Hvn Hva]. split.
    + apply elem_of_list_bind. exists l. split; [left|]. apply IH; [done|done| |cbn in Hl; lia]. intros w Hw. destruct (Hin w ltac:(by right)) as [? ?]. split; [done|]. apply not_elem_of_cons. split; [by intros ->|done].
    + apply elem_of_list_filter. split; [done|]. apply elem_of_seq. lia.
Qed.
Lemma joined_b_spec n g desc : (forall x y, desc x y = true <-> descendant g x y) -> (forall x y, g x y = true -> x < n /\ y < n) ->
  forall x y s, joined_b n g desc x y s = true <-> d_connected g x y s.
Proof.
  intros Hdesc Hb x y s. rewrite <-(connected_b_spec n g desc Hdesc Hb). unfold joined_b, connected_b. rewrite !existsb_exists. setoid_rewrite <-elem_of_list_In. split.
  - intros (mid & _ & H). exists mid. split; [|exact H]. cbn zeta in H. apply andb_true_iff in H as [[H1%bool_decide_eq_true H2%bool_decide_eq_true]%andb_true_iff H3]. 
    pose proof (path_bound n g Hb _ H1 ltac:(cbn; rewrite app_length; cbn; lia)) as Hf. inversion_clear Hf as [|? ? _ Hf']. apply Forall_app in Hf' as [Hf' _].
    apply (proj2 (elem_of_all_lists n g desc Hdesc Hb n mid)). split; [|done]. inversion_clear H2 as [|? ? _ H2']. apply NoDup_app in H2' as [H2' _]. rewrite <-(seq_length n 0) at 1. apply submseteq_length, NoDup_submseteq; [done|]. intros v Hv. rewrite Forall_forall in Hf'. apply Hf' in Hv. apply elem_of_seq. lia.
  - intros (mid & Hm & H). exists mid. split; [|done]. cbn zeta in H. apply andb_true_iff in H as [[H1%bool_decide_eq_true H2%bool_decide_eq_true]%andb_true_iff _]. apply (elem_of_all_lists n g desc Hdesc Hb n mid) in Hm as [Hl Hf]. rewrite Forall_forall in Hf.
    apply NoDup_cons in H2 as [Hx H2]. apply NoDup_app in H2 as (H2 & H3 & _). apply walks_complete; [|done| |done].
    + clear -H1. revert x H1. induction mid as [|v mid IH]; intros x H1; [done|]. destruct H1 as [Ha H1]. split; [done|]. by apply IH.
    + intros v Hv. split; [by apply Hf|]. rewrite !not_elem_of_cons. split_and!; [|intros ->|apply not_elem_of_nil].
      * intros ->. apply Hx, elem_of_app. by left.
      * apply (H3 y Hv). left.
Qed.
Lemma apart_of_oracle n (l : pairs) : (forall x y, (x, y) ∈ l -> x < y /\ y < n) -> dsep_oracle (apart_of n (graph_of l)) n (graph_of l).
Proof.
  intros H. pose proof (graph_dag n l H) as [Hb _]. assert (forall x y, graph_of l x y = true -> x < y) as Hr by (intros x y Hxy; apply bool_decide_eq_true, H in Hxy; lia). set (g := graph_of l) in *.
  assert (forall x y, leads n g n x y = true <-> descendant g x y) as Hdesc. { intros x y. rewrite leads_reaches. split; [apply reaches_sound|]. intros Hd. apply (reaches_complete n g id Hb Hr x y Hd). apply (desc_range n g x y Hb) in Hd as [_ Hd]. unfold id. lia. }
  intros x y s _ _ _ _ _. unfold apart_of. rewrite negb_true_iff, <-not_true_iff_false. by rewrite (joined_b_spec n g _ Hdesc Hb).
Qed.

(** ** A true DAG compared wrongly: 0 -> 2 <- 1, 2 -> 3, all four -> 4, 2 -> 5 <- 3.  The edges of 4 take 3 -> 5 out of the order. *)
Definition wrong_true : network := Eval vm_compute in
  match run (new_network (replicate 6 2)) [AddD 0 2; AddD 1 2; AddD 2 3; AddD 0 4; AddD 1 4; AddD 2 4; AddD 3 4; AddD 2 5; AddD 3 5] with Ok N => with_count N | Err _ => new_network [] end.
Definition wrong_ind := apart_of 6 (arcs_of wrong_true).

(** Markov equivalence of concrete graphs by computation. *)
Global Instance v_structure_dec g x y z : Decision (v_structure g x y z).
Proof. unfold v_structure. apply _. Defined.
Definition all_below (n : nat) (f : nat -> bool) : bool := forallb f (seq 0 n).
Lemma all_below_spec n f : all_below n f = true -> forall x, x < n -> f x = true.
Proof. unfold all_below. rewrite forallb_forall. intros H x Hx. apply H, elem_of_list_In, elem_of_seq. lia. Qed.
Lemma bool_decide_same (P Q : Prop) `{Decision P, Decision Q} : bool_decide P = bool_decide Q -> P <-> Q.
Proof. intros HE. rewrite <-(bool_decide_eq_true P), <-(bool_decide_eq_true Q). by rewrite HE. Qed.
Definition equivalent_b (n : nat) (g h : digraph) : bool :=
  all_below n (fun x => all_below n (fun y => Bool.eqb (bool_decide (adjacent g x y)) (bool_decide (adjacent h x y)))) &&
  all_below n (fun x => all_below n (fun y => all_below n (fun z => Bool.eqb (bool_decide (v_structure g x y z)) (bool_decide (v_structure h x y z))))).
Lemma equivalent_b_spec n g h : (forall x y, g x y = true -> x < n /\ y < n) -> (forall x y, h x y = true -> x < n /\ y < n) -> equivalent_b n g h = true -> markov_equivalent g h.
Proof.
  intros Hg Hh [H1 H2]%andb_true_iff.
  assert (forall k : digraph, (forall x y, k x y = true -> x < n /\ y < n) -> forall x y, adjacent k x y -> x < n /\ y < n) as Hb by (intros k Hk x y [H|H]; apply Hk in H; tauto).
  split.
  - intros x y. assert (x < n -> y < n -> adjacent g x y <-> adjacent h x y) as Hin. { intros Hx Hy. pose proof (all_below_spec _ _ (all_below_spec _ _ H1 x Hx) y Hy) as E. apply eqb_prop in E. by apply (bool_decide_same _ _ E). }
    split; intros Ha; [pose proof (Hb g Hg x y Ha)|pose proof (Hb h Hh x y Ha)]; apply Hin; tauto.
  - intros x y z. assert (x < n -> y < n -> z < n -> v_structure g x y z <-> v_structure h x y z) as Hin. { intros Hx Hy Hz. pose proof (all_below_spec _ _ (all_below_spec _ _ (all_below_spec _ _ H2 x Hx) y Hy) z Hz) as E. apply eqb_prop in E. by apply (bool_decide_same _ _ E). }
    split; intros Hv; pose proof Hv as ([V1 V2] & _); [apply Hg in V1, V2|apply Hh in V1, V2]; apply Hin; tauto.
Qed.
Lemma built_fresh doms ops N : run (new_network doms) ops = Ok N -> forallb (rangeb (length doms)) ops = true -> no_repb (new_network doms) ops = true ->
  nt_topo N = [] -> forallb (fun e => bool_decide (e_ep1 e = Tail) && bool_decide (e_ep2 e = Arrow) && negb (e_ordered e)) (nt_edges N) = true -> fresh_dag (with_count N).
Proof.
  intros H1 H2 H3 H4 H5. destruct (reach doms ops N) as [HI Hnd]; [done|done|done|]. split_and!; [|done|done|done|].
  - eapply netinv_same; [exact HI|done|done|]. apply (ni_edges _ HI).
  - intros e He. rewrite forallb_forall in H5. specialize (H5 e ltac:(by apply elem_of_list_In)). apply andb_true_iff in H5 as [[A%bool_decide_eq_true B%bool_decide_eq_true]%andb_true_iff C%negb_true_iff]. done.
Qed.

Lemma wrong_fresh : fresh_dag wrong_true.
Proof.
  assert (exists N, run (new_network (replicate 6 2)) [AddD 0 2; AddD 1 2; AddD 2 3; AddD 0 4; AddD 1 4; AddD 2 4; AddD 3 4; AddD 2 5; AddD 3 5] = Ok N /\ with_count N = wrong_true /\ nt_topo N = [] /\
    forallb (fun e => bool_decide (e_ep1 e = Tail) && bool_decide (e_ep2 e = Arrow) && negb (e_ordered e)) (nt_edges N) = true) as (N & HN & <- & H1 & H2).
  { eexists. split; [vm_compute; reflexivity|]. split_and!; vm_compute; reflexivity. }
  eapply built_fresh; [exact HN|vm_compute; reflexivity|vm_compute; reflexivity|done|done].
Qed.
Definition wrong_arcs : pairs := [(0, 2); (1, 2); (2, 3); (0, 4); (1, 4); (2, 4); (3, 4); (2, 5); (3, 5)].
Lemma wrong_range x y : (x, y) ∈ wrong_arcs -> x < y /\ y < 6.
Proof. unfold wrong_arcs. rewrite !elem_of_cons, elem_of_nil. intros H. repeat (destruct H as [[= -> ->]|H]; [lia|]). done. Qed.
(** The same graph with 5 -> 3. *)
Definition wrong_other : digraph := graph_of [(0, 2); (1, 2); (2, 3); (0, 4); (1, 4); (2, 4); (3, 4); (2, 5); (5, 3)].
Lemma wrong_other_dag : dag 6 wrong_other.
Proof.
  unfold wrong_other, graph_of. split.
  - intros x y H%bool_decide_eq_true. rewrite !elem_of_cons, elem_of_nil in H. repeat (destruct H as [[= -> ->]|H]; [lia|]). done.
  - exists [0; 1; 2; 5; 3; 4]. split.
    + apply NoDup_Permutation; [|apply NoDup_seq|]. { apply (bool_decide_unpack _). vm_compute. exact I. }
      intros x. rewrite elem_of_seq, !elem_of_cons, elem_of_nil. lia.
    + intros i j x y Hi Hj H%bool_decide_eq_true. rewrite !elem_of_cons, elem_of_nil in H.
      assert (forall k v, [0; 1; 2; 5; 3; 4] !! k = Some v -> k = match v with 3 => 4 | 4 => 5 | 5 => 3 | _ => v end) as Hp by (intros k v Hk; do 6 (destruct k as [|k]; [by injection Hk as <-|]); done).
      rewrite (Hp _ _ Hi), (Hp _ _ Hj). repeat (destruct H as [[= -> ->]|H]; [lia|]). done.
Qed.
(** 3 -> 5 is kept although an equivalent graph has 5 -> 3; the pattern learned with perfect tests is at distance 1. *)
Lemma wrong_label : exists P h, to_pattern wrong_true = Ok P /\ has_directed P 3 5 /\ dag 6 h /\ markov_equivalent (arcs_of wrong_true) h /\ h 5 3 = true.
Proof.
  eexists _, wrong_other. split; [vm_compute; reflexivity|]. split; [|split; [apply wrong_other_dag|split; [|reflexivity]]].
  - rewrite has_directedb_spec. vm_compute. reflexivity.
  - apply (equivalent_b_spec 6); [|apply wrong_other_dag|vm_compute; reflexivity]. apply (fresh_dag_dag wrong_true). apply wrong_fresh.
Qed.
Lemma wrong_run : fresh_dag wrong_true /\ dsep_oracle wrong_ind 6 (arcs_of wrong_true) /\ decides (lone_test wrong_ind) wrong_ind 6 1 /\
  exists N, run_pc (lone_test wrong_ind) 6 false (fun _ => false) = Ok N /\ get_shd wrong_true N = Ok 1.
Proof.
  split; [apply wrong_fresh|]. split; [apply (apart_of_oracle 6 wrong_arcs), wrong_range|]. split; [apply lone_decides|].
  eexists. split; [vm_compute; reflexivity|]. vm_compute; reflexivity.
Qed.

(** ** A true DAG with three parents that is compared correctly: 0 -> 2 <- 1, 2, 3, 4 -> 5, 3 -> 6 *)
Definition three_true : network := Eval vm_compute in
  match run (new_network (replicate 7 2)) [AddD 0 2; AddD 1 2; AddD 2 5; AddD 3 5; AddD 4 5; AddD 3 6] with Ok N => with_count N | Err _ => new_network [] end.
Lemma three_fresh : fresh_dag three_true.
Proof.
  assert (exists N, run (new_network (replicate 7 2)) [AddD 0 2; AddD 1 2; AddD 2 5; AddD 3 5; AddD 4 5; AddD 3 6] = Ok N /\ with_count N = three_true /\ nt_topo N = [] /\
    forallb (fun e => bool_decide (e_ep1 e = Tail) && bool_decide (e_ep2 e = Arrow) && negb (e_ordered e)) (nt_edges N) = true) as (N & HN & <- & H1 & H2).
  { eexists. split; [vm_compute; reflexivity|]. split_and!; vm_compute; reflexivity. }
  eapply built_fresh; [exact HN|vm_compute; reflexivity|vm_compute; reflexivity|done|done].
Qed.
Lemma three_arcs x y : has_directed three_true x y -> (x, y) ∈ [(0, 2); (1, 2); (2, 5); (3, 5); (4, 5); (3, 6)].
Proof. rewrite has_directed_pairs. done. Qed.
Lemma v_compelled n g x y z : v_structure g x y z -> compelled n g x y.
Proof. intros Hv h Hh Heq. destruct Heq as [_ Heq]. destruct (proj1 (Heq x y z) Hv) as [[Hm _] _]. exact Hm. Qed.
Lemma three_extra T1 t : get_topo_ord three_true = Ok (T1, t) -> single_extra (compelled 7 (arcs_of three_true)) three_true t.
Proof.
  intros Ht. assert (t = [0; 1; 3; 4; 2; 6; 5]) as ->. { vm_compute in Ht. congruence. } clear Ht T1.
  intros x y z1 z2 H1 Hl Hc H2 H3 Hn1 Hn2 _ _. apply three_arcs in H1, H2, H3. rewrite !elem_of_cons, elem_of_nil in H1. rewrite !elem_of_cons, elem_of_nil in H2. rewrite !elem_of_cons, elem_of_nil in H3.
  assert (has_directed three_true 2 5) as H25 by (rewrite has_directedb_spec; vm_compute; reflexivity).
  destruct H1 as [[= -> ->]|[[= -> ->]|[[= -> ->]|[[= -> ->]|[[= -> ->]|[[= -> ->]|[]]]]]]].
  - assert (z1 = 1 /\ z2 = 1) as [-> ->]; [|done]. split; [destruct H2 as [[=]|[[=]|[[=]|[[=]|[[=]|[[=]|[]]]]]]]|destruct H3 as [[=]|[[=]|[[=]|[[=]|[[=]|[[=]|[]]]]]]]]; congruence.
  - assert (z1 = 0 /\ z2 = 0) as [-> ->]; [|done]. split; [destruct H2 as [[=]|[[=]|[[=]|[[=]|[[=]|[[=]|[]]]]]]]|destruct H3 as [[=]|[[=]|[[=]|[[=]|[[=]|[[=]|[]]]]]]]]; congruence.
  - exfalso. assert (has_directed three_true 0 5) as H05. { apply Hc; [rewrite has_directedb_spec; vm_compute; reflexivity|]. apply (v_compelled 7 _ 0 2 1). apply (bool_decide_unpack _). vm_compute. exact I. }
    apply has_directedb_spec in H05. vm_compute in H05. done.
  - exfalso. specialize (Hl 2 4 2 H25 eq_refl eq_refl). lia.
  - exfalso. specialize (Hl 2 4 3 H25 eq_refl eq_refl). lia.
  - exfalso. destruct H2 as [[=]|[[=]|[[=]|[[=]|[[=]|[[=]|[]]]]]]]. congruence.
Qed.
Lemma three_parents : has_directed three_true 2 5 /\ has_directed three_true 3 5 /\ has_directed three_true 4 5.
Proof. rewrite !has_directedb_spec. split_and!; vm_compute; reflexivity. Qed.
Definition three_ind := apart_of 7 (arcs_of three_true).
Lemma three_range x y : (x, y) ∈ directed_pairs (nt_edges three_true) -> x < y /\ y < 7.
Proof. change (directed_pairs (nt_edges three_true)) with [(0, 2); (1, 2); (2, 5); (3, 5); (4, 5); (3, 6)]. rewrite !elem_of_cons, elem_of_nil. intros H. repeat (destruct H as [[= -> ->]|H]; [lia|]). done. Qed.
Lemma three_run : dsep_oracle three_ind 7 (arcs_of three_true) /\ decides (lone_test three_ind) three_ind 7 1 /\ (forall v, length (dag_parents 7 (arcs_of three_true) v) < 7) /\
  exists N, run_pc (lone_test three_ind) 7 false (fun _ => false) = Ok N /\ get_shd three_true N = Ok 0.
Proof.
  split; [apply (apart_of_oracle 7 (directed_pairs (nt_edges three_true))), three_range|]. split; [apply lone_decides|]. split; [intros [|[|[|[|[|[|[|v]]]]]]]; vm_compute; lia|].
  eexists. split; [vm_compute; reflexivity|]. vm_compute; reflexivity.
Qed.

(** ** Tests of 0 -> 1 -> 2, compared with 0 <- 1 -> 2 (equivalent) and with 0 -> 1 <- 2 (not equivalent) *)
Definition away_true : network := Eval vm_compute in match run (new_network (replicate 3 2)) [AddD 1 0; AddD 1 2] with Ok N => with_count N | Err _ => new_network [] end.
Definition meet_true : network := Eval vm_compute in match run (new_network (replicate 3 2)) [AddD 0 1; AddD 2 1] with Ok N => with_count N | Err _ => new_network [] end.
Lemma away_fresh : fresh_dag away_true /\ fresh_dag meet_true.
Proof.
  assert (exists N, run (new_network (replicate 3 2)) [AddD 1 0; AddD 1 2] = Ok N /\ with_count N = away_true /\ nt_topo N = [] /\
    forallb (fun e => bool_decide (e_ep1 e = Tail) && bool_decide (e_ep2 e = Arrow) && negb (e_ordered e)) (nt_edges N) = true) as (N & HN & <- & H1 & H2).
  { eexists. split; [vm_compute; reflexivity|]. split_and!; vm_compute; reflexivity. }
  assert (exists N, run (new_network (replicate 3 2)) [AddD 0 1; AddD 2 1] = Ok N /\ with_count N = meet_true /\ nt_topo N = [] /\
    forallb (fun e => bool_decide (e_ep1 e = Tail) && bool_decide (e_ep2 e = Arrow) && negb (e_ordered e)) (nt_edges N) = true) as (N' & HN' & <- & H1' & H2').
  { eexists. split; [vm_compute; reflexivity|]. split_and!; vm_compute; reflexivity. }
  split; [eapply built_fresh; [exact HN|..]|eapply built_fresh; [exact HN'|..]]; first [assumption|vm_compute; reflexivity].
Qed.
Lemma away_extra fixed t : single_extra fixed away_true t /\ single_extra fixed meet_true t.
Proof.
  assert (directed_pairs (nt_edges away_true) = [(1, 0); (1, 2)] /\ directed_pairs (nt_edges meet_true) = [(0, 1); (2, 1)]) as [E1 E2] by (split; vm_compute; reflexivity).
  split; apply two_parents_single_extra; intros x y z1 z2; rewrite !has_directed_pairs; [rewrite E1|rewrite E2]; rewrite !elem_of_cons, !elem_of_nil; intros H1 H2 H3 N1 N2; repeat match goal with H : _ \/ _ |- _ => destruct H | H : False |- _ => destruct H end; congruence.
Qed.
Lemma away_run : dag 3 line /\ (exists x y, line x y = true) /\ dsep_oracle (dsep_of 3 line) 3 line /\ decides (lone_test (dsep_of 3 line)) (dsep_of 3 line) 3 1 /\ (forall v, length (dag_parents 3 line v) < 3) /\
  exists N, run_pc (lone_test (dsep_of 3 line)) 3 false (fun _ => false) = Ok N /\ get_shd away_true N = Ok 0 /\ get_shd meet_true N = Ok 2.
Proof.
  split; [apply graph_dag, line_bounds|]. split; [by exists 0, 1|]. split; [apply dsep_of_oracle, line_bounds|]. split; [apply lone_decides|]. split; [intros [|[|[|v]]]; cbv; lia|].
  eexists. split; [vm_compute; reflexivity|]. split; vm_compute; reflexivity.
Qed.
