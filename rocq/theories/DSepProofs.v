(** What the skeleton search and the orientation find when the tests answer by d-separation. *)
From Verif Require Import OrientModel OrientSpec DSepSpec PCSpec NetProofs.
Local Open Scope nat_scope.

Lemma dag_rank n g : dag n g -> exists rank : nat -> nat, forall x y, g x y = true -> rank x < rank y.
Proof.
  intros [Hb (ord & Hp & Ho)]. assert (forall x, x < n -> exists i, ord !! i = Some x) as Hin. { intros x Hx. apply elem_of_list_lookup. rewrite Hp. apply elem_of_seq. lia. }
  exists (fun x => match list_find (eq x) ord with Some (i, _) => i | None => 0 end). intros x y Hxy. destruct (Hb x y Hxy) as [Hx Hy]. destruct (Hin x Hx) as [i Hi], (Hin y Hy) as [j Hj].
  assert (forall x i, ord !! i = Some x -> exists k, list_find (eq x) ord = Some (k, x) /\ ord !! k = Some x) as Hf.
  { intros z k Hz. destruct (list_find_elem_of (eq z) ord z ltac:(by eapply elem_of_list_lookup_2) eq_refl) as [[k' z'] Hk]. exists k'. pose proof Hk as Hk2. apply list_find_Some in Hk2 as (H1 & <- & _). done. }
  destruct (Hf x i Hi) as (i' & -> & Hi'), (Hf y j Hj) as (j' & -> & Hj'). by eapply Ho.
Qed.
Lemma rank_desc g (rank : nat -> nat) x y : (forall x y, g x y = true -> rank x < rank y) -> descendant g x y -> rank x < rank y.
Proof. intros H. induction 1 as [a b Hab|a b c Hab _ IH]; [by apply H|]. apply H in Hab. lia. Qed.
Lemma adjacent_sym g x y : adjacent g x y -> adjacent g y x.
Proof. unfold adjacent. tauto. Qed.
Lemma adjacent_connected g x y s : x <> y -> adjacent g x y -> d_connected g x y s.
Proof. intros Hne H. exists []. cbn. split_and!; [done|done| |done]. apply NoDup_cons. split; [set_solver|apply NoDup_singleton]. Qed.
Lemma middle_connected g a b c s : a <> b -> b <> c -> a <> c -> adjacent g a b -> adjacent g b c -> (meets g a b c -> b ∈ s) -> (~ meets g a b c -> b ∉ s) -> d_connected g a c s.
Proof.
  intros Hab Hbc Hac H1 H2 Hm Hn. exists [b]. cbn. split_and!; try done.
  - repeat (apply NoDup_cons; split; [set_solver|]). constructor.
  - intros H. exists b. split; [by apply Hm|by left].
Qed.
Lemma no_open_path n g (rank : nat -> nat) x y mid : (forall u v, g u v = true -> rank u < rank v) -> (forall u v, g u v = true -> u < n) -> rank y <= rank x -> x <> y -> ~ adjacent g x y ->
  is_path g (x :: mid ++ [y]) -> unblocked g (dag_parents n g x) (x :: mid ++ [y]) -> False.
Proof.
  intros Hr Hb Hyx Hne Hna Hp Hu. destruct mid as [|v mid]; [cbn in Hp; tauto|].
  assert (forall p, p ∈ dag_parents n g x <-> g p x = true) as Hpar. { intros p. unfold dag_parents. rewrite elem_of_list_filter, elem_of_seq. split; [tauto|]. intros H. split; [done|]. apply Hb in H. lia. }
  cbn [app] in Hp, Hu. cbn [is_path] in Hp. destruct Hp as [[Hxv|Hvx] Hp].
  - (* x -> v: follow the arrows until two meet *)
    assert (forall mid u v, rank x < rank v -> g u v = true -> (v = y -> False) -> descendant g x v -> is_path g (v :: mid ++ [y]) -> unblocked g (dag_parents n g x) (u :: v :: mid ++ [y]) -> False) as Hgo.
    { clear v mid Hxv Hp Hu. induction mid as [|w mid IH]; intros u v Hxv Huv Hvy Hd Hp Hu.
      - cbn [app] in Hp, Hu. cbn [is_path] in Hp. cbn [unblocked] in Hu. destruct Hu as (Hm & _ & _). destruct Hp as [[H|H] _].
        + apply Hr in H. lia.
        + destruct Hm as (d & Hd1 & Hd2); [done|]. apply Hpar, Hr in Hd1. destruct Hd2 as [->|Hd2]; [lia|]. apply (rank_desc g rank _ _ Hr) in Hd2. lia.
      - cbn [app] in Hp, Hu. cbn [is_path] in Hp. cbn [unblocked] in Hu. destruct Hu as (Hm & _ & Hu). destruct Hp as [[H|H] Hp].
        + apply (IH v w); [apply Hr in H; lia|done| | |done|done].
          * intros ->. apply Hr in H. lia.
          * eapply tc_r; [exact Hd|done].
        + destruct Hm as (d & Hd1 & Hd2); [done|]. apply Hpar, Hr in Hd1. destruct Hd2 as [->|Hd2]; [lia|]. apply (rank_desc g rank _ _ Hr) in Hd2. lia. }
    apply (Hgo mid x v); [by apply Hr|done| | |done|exact Hu].
    + intros ->. apply Hna. by left.
    + by apply tc_once.
  - (* x <- v: v is a parent *)
    assert (exists w r, mid ++ [y] = w :: r) as (w & r & Hw) by (destruct mid; cbn; eauto). rewrite Hw in Hu. cbn [unblocked] in Hu. destruct Hu as (_ & Hn & _). apply Hn; [|by apply Hpar]. intros [Hm _]. apply Hr in Hm, Hvx. lia.
Qed.
Lemma is_path_app g l1 u l2 : is_path g (l1 ++ u :: l2) <-> is_path g (l1 ++ [u]) /\ is_path g (u :: l2).
Proof.
  induction l1 as [|a [|b l1] IH]; [cbn; destruct l2; tauto|cbn; destruct l2; tauto|]. change ((a :: b :: l1) ++ u :: l2) with (a :: b :: (l1 ++ u :: l2)). change ((a :: b :: l1) ++ [u]) with (a :: b :: (l1 ++ [u])). cbn [is_path]. change (b :: (l1 ++ u :: l2)) with ((b :: l1) ++ u :: l2). change (b :: (l1 ++ [u])) with ((b :: l1) ++ [u]). rewrite IH. tauto.
Qed.
Lemma is_path_rev g p : is_path g p -> is_path g (reverse p).
Proof.
  induction p as [|u [|v r] IH]; [done|done|]. intros [H Hp]. rewrite !reverse_cons. rewrite <-app_assoc. cbn [app]. apply is_path_app. split; [rewrite <-reverse_cons; by apply IH|]. cbn. split; [by apply adjacent_sym|done].
Qed.
Lemma meets_swap g u v w : meets g u v w <-> meets g w v u.
Proof. unfold meets. tauto. Qed.
Lemma unblocked_app g s l1 u v l2 : unblocked g s (l1 ++ u :: v :: l2) <-> unblocked g s (l1 ++ [u; v]) /\ unblocked g s (u :: v :: l2).
Proof.
  induction l1 as [|a [|b l1] IH].
  - cbn. destruct l2; tauto.
  - cbn. destruct l2; tauto.
  - assert (exists c r, l1 ++ u :: v :: l2 = c :: r /\ exists r', l1 ++ [u; v] = c :: r') as (c & r & E1 & r' & E2) by (destruct l1; cbn; eauto 10).
    change ((a :: b :: l1) ++ u :: v :: l2) with (a :: b :: (l1 ++ u :: v :: l2)). change ((a :: b :: l1) ++ [u; v]) with (a :: b :: (l1 ++ [u; v])).
    assert (unblocked g s (b :: (l1 ++ u :: v :: l2)) <-> unblocked g s (b :: (l1 ++ [u; v])) /\ unblocked g s (u :: v :: l2)) as IH' by exact IH. rewrite E1, E2 in *. cbn [unblocked] in *. tauto.
Qed.
Lemma unblocked_rev g s p : unblocked g s p -> unblocked g s (reverse p).
Proof.
  induction p as [|u [|v [|w r]] IH]; [done|done|done|]. intros (Hm & Hn & Hu). rewrite !reverse_cons. rewrite <-!app_assoc. cbn [app]. specialize (IH Hu). rewrite !reverse_cons, <-!app_assoc in IH. cbn [app] in IH. apply unblocked_app. split; [done|]. cbn. rewrite !(meets_swap g w v u). done.
Qed.
Lemma d_connected_sym g x y s : d_connected g x y s -> d_connected g y x s.
Proof.
  intros (mid & Hp & Hn & Hu). exists (reverse mid). cbn zeta in *. assert (y :: reverse mid ++ [x] = reverse (x :: mid ++ [y])) as -> by (rewrite reverse_cons, reverse_app; done).
  split_and!; [by apply is_path_rev|by rewrite reverse_Permutation|by apply unblocked_rev].
Qed.

(** ** The tests of a d-separation oracle *)
Lemma dag_parents_spec n (g : digraph) x p : (forall x y, g x y = true -> x < n /\ y < n) -> p ∈ dag_parents n g x <-> g p x = true.
Proof. intros Hb. unfold dag_parents. rewrite elem_of_list_filter, elem_of_seq. split; [tauto|]. intros H. split; [done|]. apply Hb in H. lia. Qed.
Lemma dag_parents_sorted n (g : digraph) x : StronglySorted lt (dag_parents n g x).
Proof.
  unfold dag_parents. generalize 0. induction n as [|m IH]; intros s; cbn [seq]; [constructor|]. rewrite filter_cons. case_decide; [|apply IH]. constructor; [apply IH|]. apply Forall_forall. intros v Hv. apply elem_of_list_filter in Hv as [_ Hv]. apply elem_of_seq in Hv. lia.
Qed.
Section oracle.
Context (ind : nat -> nat -> list nat -> bool) (n : nat) (g : digraph) (rank : nat -> nat).
Hypothesis Hb : forall x y, g x y = true -> x < n /\ y < n.
Hypothesis Hr : forall x y, g x y = true -> rank x < rank y.
Hypothesis Ho : dsep_oracle ind n g.
Lemma adjacent_bound x y : adjacent g x y -> x < n /\ y < n /\ x <> y.
Proof using Hb Hr. intros [H|H]; pose proof (Hb _ _ H); apply Hr in H; (split_and!; [lia|lia|intros ->; lia]). Qed.
Lemma adjacent_dependent x y s : adjacent g x y -> x ∉ s -> y ∉ s -> StronglySorted lt s -> ind (Nat.min x y) (Nat.max x y) s = false.
Proof using Hb Hr Ho.
  intros Ha Hx Hy Hs. destruct (adjacent_bound x y Ha) as (H1 & H2 & Hne). apply not_true_iff_false. intros Hi. apply Ho in Hi; [|lia|lia| |  |done].
  - apply Hi. apply adjacent_connected; [lia|]. destruct (decide (x < y)); [rewrite Nat.min_l, Nat.max_r by lia; done|rewrite Nat.min_r, Nat.max_l by lia; by apply adjacent_sym].
  - destruct (Nat.min_spec x y) as [[_ ->]|[_ ->]]; done.
  - destruct (Nat.max_spec x y) as [[_ ->]|[_ ->]]; done.
Qed.
Lemma nonadjacent_separated x y : x < n -> y < n -> x <> y -> ~ adjacent g x y -> rank y <= rank x -> ind (Nat.min x y) (Nat.max x y) (dag_parents n g x) = true.
Proof using Hb Hr Ho.
  intros Hx Hy Hne Hna Hyx. apply Ho; [lia|lia| | |apply dag_parents_sorted|].
  1,2: assert (x ∉ dag_parents n g x /\ y ∉ dag_parents n g x) as [? ?] by (rewrite !(dag_parents_spec n g _ _ Hb); split; intros H; [apply Hr in H; lia|apply Hna; by right]).
  - destruct (Nat.min_spec x y) as [[_ ->]|[_ ->]]; done.
  - destruct (Nat.max_spec x y) as [[_ ->]|[_ ->]]; done.
  - intros Hc. assert (d_connected g x y (dag_parents n g x)) as (mid & Hp & _ & Hu). { destruct (decide (x < y)); [rewrite Nat.min_l, Nat.max_r in Hc by lia; done|rewrite Nat.min_r, Nat.max_l in Hc by lia; by apply d_connected_sym]. }
    eapply (no_open_path n g rank x y mid); try done. intros u v Huv. apply Hb in Huv. lia.
Qed.
Lemma middle_decided a b c s : a < c -> adjacent g a b -> adjacent g b c -> ~ adjacent g a c -> c < n -> a ∉ s -> c ∉ s -> StronglySorted lt s -> ind a c s = true -> (b ∉ s <-> meets g a b c).
Proof using Hb Hr Ho.
  intros Hac Hab Hbc Hna Hc Has Hcs Hs Hi. apply Ho in Hi; try done. destruct (adjacent_bound _ _ Hab) as (_ & _ & H1). destruct (adjacent_bound _ _ Hbc) as (_ & _ & H2).
  assert (meets g a b c \/ ~ meets g a b c) as Hdec by (unfold meets; destruct (g a b), (g c b); intuition congruence). destruct Hdec as [Hm|Hm].
  - split; [done|]. intros _ Hin. apply Hi. apply (middle_connected g a b c s); try done; try lia; tauto.
  - split; [|done]. intros Hn. exfalso. apply Hi. apply (middle_connected g a b c s); try done; try lia; tauto.
Qed.
(** ** The skeleton *)
Lemma skeleton_contains d x y : adjacent g x y -> stable_skeleton ind n d x y.
Proof using Hb Hr Ho.
  revert x y. induction d as [|d IH]; intros x y Ha; cbn [stable_skeleton]; [destruct (adjacent_bound _ _ Ha) as (? & ? & ?); done|]. split; [by apply IH|]. intros (s & Hs & Hl & Hi & Hor).
  assert (forall d u v, stable_skeleton ind n d u v -> u <> v) as Hirr. { clear. induction d as [|d IH]; intros u v; cbn; [tauto|]. intros [H _]. by eapply IH. }
  assert (x ∉ s /\ y ∉ s) as [Hx Hy]. { destruct Hor as [H|H]; split; intros Hin; apply H in Hin as [H1 H2]; try done; by apply Hirr in H1. }
  rewrite (adjacent_dependent x y s Ha Hx Hy Hs) in Hi. done.
Qed.
Lemma skeleton_exact depth x y : (forall v, length (dag_parents n g v) < depth) -> stable_skeleton ind n depth x y <-> adjacent g x y.
Proof using Hb Hr Ho.
  intros Hdeg. split; [|apply skeleton_contains]. intros Hsk.
  assert (forall d k u v, stable_skeleton ind n (k + d) u v -> stable_skeleton ind n d u v) as Hmono. { clear. induction k as [|k IH]; intros u v; cbn; [done|]. intros [H _]. by apply IH. }
  assert (x < n /\ y < n /\ x <> y) as (Hx & Hy & Hne). { apply (Hmono 0 depth x y). by rewrite Nat.add_0_r. }
  assert (adjacent g x y \/ ~ adjacent g x y) as [Ha|Hna] by (unfold adjacent; destruct (g x y), (g y x); intuition congruence); [done|]. exfalso.
  assert (forall u v, u < n -> v < n -> u <> v -> ~ adjacent g u v -> rank v <= rank u -> separated ind (stable_skeleton ind n (length (dag_parents n g u))) (length (dag_parents n g u)) u v) as Hsep.
  { intros u v Hu Hv Huv Huvn Hrk. exists (dag_parents n g u). split_and!; [apply dag_parents_sorted|done|by apply nonadjacent_separated|]. left. intros w Hw. apply (dag_parents_spec n g _ _ Hb) in Hw. split; [apply skeleton_contains; by right|]. intros ->. apply Huvn. by right. }
  assert (forall u d, length (dag_parents n g u) < d -> exists k, d = k + S (length (dag_parents n g u))) as Hk by (intros u d Hd; exists (d - S (length (dag_parents n g u))); lia).
  destruct (decide (rank y <= rank x)) as [Hle|Hle].
  - destruct (Hk x depth (Hdeg x)) as [k ->]. apply Hmono in Hsk. cbn in Hsk. destruct Hsk as [_ Hsk]. apply Hsk. by apply Hsep.
  - destruct (Hk y depth (Hdeg y)) as [k ->]. apply Hmono in Hsk. cbn in Hsk. destruct Hsk as [_ Hsk]. apply Hsk. destruct (Hsep y x Hy Hx ltac:(done) ltac:(intros H; by apply Hna, adjacent_sym) ltac:(lia)) as (s & H1 & H2 & H3 & H4). exists s. rewrite Nat.min_comm, Nat.max_comm. split_and!; [done|done|done|tauto].
Qed.
End oracle.
