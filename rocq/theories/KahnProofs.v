(** Correctness of the queue based cycle check / topological sort (common.cpp L15-72). *)
From Verif Require Export GraphSpec.
From stdpp Require Import finite.
Local Open Scope nat_scope.

(** ** Finite graphs without a source contain a cycle *)
Lemma chain_tc {A} (R : A -> A -> Prop) (p : list A) i j x y :
  (forall k a b, p !! k = Some a -> p !! S k = Some b -> R b a) ->
  i < j -> p !! i = Some x -> p !! j = Some y -> tc R y x.
Proof.
  intros Hp Hij. revert y. induction Hij as [|j Hij IH]; intros y Hx Hy.
  - apply tc_once. by eapply Hp.
  - destruct (lookup_lt_is_Some_2 p j) as [z Hz]; [apply lookup_lt_Some in Hy; lia|].
    eapply tc_l; [by eapply Hp|]. by apply IH.
Qed.
Lemma no_source_cycle {A} (R : A -> A -> Prop) (l : list A) x0 :
  x0 ∈ l -> (forall x, x ∈ l -> exists y, y ∈ l /\ R y x) -> exists x, tc R x x.
Proof.
  intros Hx0 Hpred.
  assert (forall k, exists p, length p = S k /\ p ⊆ l /\
     (forall i a b, p !! i = Some a -> p !! S i = Some b -> R b a)) as Hpath.
  { induction k as [|k (p & Hlen & Hsub & Hp)].
    - exists [x0]. split_and!; [done| |].
      + intros x ->%elem_of_list_singleton. done.
      + intros [|i] a b; cbn; [done|]. intros H. done.
    - destruct (last p) as [z|] eqn:Hz.
      2: { apply last_None in Hz. by subst. }
      destruct (Hpred z) as (y & Hy & HR). { apply Hsub. rewrite last_lookup in Hz. by eapply elem_of_list_lookup_2. }
      exists (p ++ [y]). split_and!.
      + rewrite app_length. cbn. lia.
      + intros x [?| ->%elem_of_list_singleton]%elem_of_app; [by apply Hsub|done].
      + intros i a b Ha Hb. destruct (decide (S i < length p)).
        * rewrite lookup_app_l in Ha, Hb by lia. by eapply Hp.
        * pose proof (lookup_lt_Some _ _ _ Hb) as Hlt. rewrite app_length in Hlt. cbn in Hlt.
          assert (S i = length p) as Hi by lia.
          rewrite lookup_app_l in Ha by lia. rewrite lookup_app_r in Hb by lia.
          rewrite Hi, Nat.sub_diag in Hb. injection Hb as <-.
          rewrite last_lookup, <-Hi in Hz. cbn in Hz. rewrite Ha in Hz. injection Hz as <-. done. }
  destruct (Hpath (length l)) as (p & Hlen & Hsub & Hp).
  destruct (list_pigeonhole p l Hsub) as (i & j & x & Hij & Hi & Hj); [lia|].
  exists x. by eapply chain_tc.
Qed.

Lemma nodup_perm_seq (r : list nat) n :
  NoDup r -> (forall j, j ∈ r -> j < n) -> length r = n -> r ≡ₚ seq 0 n.
Proof.
  intros Hnd Hb Hl. apply submseteq_Permutation_length_le; [by rewrite seq_length; lia|].
  apply NoDup_submseteq; [done|]. intros x Hx. apply elem_of_seq. apply Hb in Hx. lia.
Qed.

(** A topological order excludes cycles. *)
Lemma topological_acyclic R n ord :
  topological R n ord -> (forall x y, R x y -> x < n /\ y < n) -> acyclic R.
Proof.
  intros [Hperm Hord] Hb.
  assert (forall x, x < n -> exists i, ord !! i = Some x) as Hpos.
  { intros x Hx. apply elem_of_list_lookup_1. rewrite Hperm. apply elem_of_seq. lia. }
  assert (NoDup ord) as Hnd by (rewrite Hperm; apply NoDup_seq).
  assert (forall x y, tc R x y -> forall i j, ord !! i = Some x -> ord !! j = Some y -> i < j) as H.
  { induction 1 as [x y HR|x y z HR _ IH]; intros i j Hi Hj; [by eapply Hord|].
    destruct (Hpos y) as [k Hk]; [by apply (Hb x y)|].
    pose proof (Hord _ _ _ _ Hi Hk HR). specialize (IH _ _ Hk Hj). lia. }
  intros x Hx. assert (x < n) as Hlt. { inversion Hx as [? ? HR|? ? ? HR]; subst; by apply (Hb _ _ HR). }
  destruct (Hpos x Hlt) as [i Hi]. pose proof (H _ _ Hx _ _ Hi Hi). lia.
Qed.

(** ** The loop *)
Section kahn.
Context (graph : list (list nat)) (n : nat) (Hsq : square_matrix n graph).

Definition E (x y : nat) : Prop := matrix_rel graph x y.
Local Instance E_dec x y : Decision (E x y).
Proof.
  destruct (graph !! x) as [row|] eqn:Hr.
  - destruct (decide (row !! y = Some 1)) as [H|H].
    + left. by exists row.
    + right. intros (row' & Hr' & H'). congruence.
  - right. intros (row' & Hr' & _). congruence.
Defined.
Lemma E_bound x y : E x y -> x < n /\ y < n.
Proof.
  intros (row & Hr & Hy). destruct Hsq as [<- Hrow]. split; [by eapply lookup_lt_Some|].
  rewrite <-(Hrow row); [by eapply lookup_lt_Some|by eapply elem_of_list_lookup_2].
Qed.
Lemma adj_entry_E x y : x < n -> y < n -> exists v, adj_entry graph x y = Ok v /\ (v = 1 <-> E x y).
Proof.
  intros Hx Hy. destruct Hsq as [Hlen Hrow]. destruct (lookup_lt_is_Some_2 graph x) as [row Hr]; [lia|].
  destruct (lookup_lt_is_Some_2 row y) as [v Hv].
  { rewrite (Hrow row); [done|]. by eapply elem_of_list_lookup_2. }
  exists v. unfold adj_entry. rewrite (vget_ok _ _ _ Hr). cbn. rewrite (vget_ok _ _ _ Hv). split; [done|].
  split; [intros ->; by exists row|]. intros (row' & Hr' & Hv'). congruence.
Qed.

(** In-degree with respect to the nodes outside [dn]. *)
Definition indeg (dn : list nat) (j : nat) : nat := length (filter (fun i => E i j /\ i ∉ dn) (seq 0 n)).
Lemma indeg_zero dn j : indeg dn j = 0 <-> forall i, E i j -> i ∈ dn.
Proof.
  unfold indeg. split.
  - intros H i Hi. apply nil_length_inv in H. destruct (decide (i ∈ dn)) as [|Hn]; [done|exfalso].
    assert (i ∈ filter (fun i => E i j /\ i ∉ dn) (seq 0 n)) as Hin.
    { apply elem_of_list_filter. split; [done|]. apply elem_of_seq. apply E_bound in Hi. lia. }
    rewrite H in Hin. by apply elem_of_nil in Hin.
  - intros H. destruct (filter _ _) as [|i l] eqn:Hf; [done|exfalso].
    assert (i ∈ filter (fun i => E i j /\ i ∉ dn) (seq 0 n)) as Hin by (rewrite Hf; left).
    apply elem_of_list_filter in Hin as [[HE Hn] _]. by apply Hn, H.
Qed.
Lemma filter_len_ext (P Q : nat -> Prop) `{forall x, Decision (P x)} `{forall x, Decision (Q x)} (l : list nat) :
  (forall x, x ∈ l -> P x <-> Q x) -> length (filter P l) = length (filter Q l).
Proof.
  induction l as [|x l IH]; intros HPQ; [done|]. rewrite !filter_cons.
  assert (length (filter P l) = length (filter Q l)) as Hl by (apply IH; intros y Hy; apply HPQ; by right).
  assert (P x <-> Q x) as Hx by (apply HPQ; left).
  destruct (decide (P x)), (decide (Q x)); cbn; naive_solver.
Qed.
Lemma filter_len_remove (P : nat -> Prop) `{forall x, Decision (P x)} u (l : list nat) :
  NoDup l -> u ∈ l -> P u ->
  length (filter P l) = S (length (filter (fun i => P i /\ i ≠ u) l)).
Proof.
  induction 1 as [|x l Hx Hnd IH]; intros Hu HP; [by apply elem_of_nil in Hu|].
  rewrite !filter_cons. apply elem_of_cons in Hu as [->|Hu].
  - rewrite decide_True by done. rewrite decide_False by naive_solver. cbn. f_equal.
    apply filter_len_ext. intros y Hy. assert (y ≠ x) by (by intros ->). naive_solver.
  - assert (x ≠ u) by (intros ->; done). specialize (IH Hu HP). destruct (decide (P x)).
    + rewrite decide_True by done. cbn. by rewrite IH.
    + rewrite decide_False by naive_solver. done.
Qed.

Definition ins_ok (dn : list nat) (ins : list Z) : Prop :=
  length ins = n /\ forall j, j < n -> ins !! j = Some (Z.of_nat (indeg dn j)).

Lemma indeg_snoc dn u j : u < n -> u ∉ dn ->
  indeg dn j = (if decide (E u j) then 1 else 0) + indeg (dn ++ [u]) j.
Proof.
  intros Hu Hnu. unfold indeg. destruct (decide (E u j)) as [HE|HE].
  - rewrite (filter_len_remove _ u); [|apply NoDup_seq|apply elem_of_seq; lia|done]. cbn. f_equal.
    apply filter_len_ext. intros i _. rewrite not_elem_of_app, elem_of_list_singleton. naive_solver.
  - cbn. apply filter_len_ext. intros i _. rewrite not_elem_of_app, elem_of_list_singleton.
    split; [|naive_solver]. intros [? ?]. split_and!; try done. intros ->. done.
Qed.

Lemma kahn_relax_spec dn ins que u :
  ins_ok dn ins -> u < n -> u ∉ dn ->
  exists ins', kahn_relax graph n u (ins, que) =
      Ok (ins', que ++ filter (fun j => E u j /\ indeg dn j = 1) (seq 0 n)) /\ ins_ok (dn ++ [u]) ins'.
Proof.
  intros [Hlen Hins] Hu Hnu. unfold kahn_relax.
  set (P := fun (js : list nat) (st : list Z * list nat) =>
    snd st = que ++ filter (fun j => E u j /\ indeg dn j = 1) js /\ length (fst st) = n /\
    forall j, j < n -> fst st !! j = Some (Z.of_nat (if decide (j < length js) then indeg (dn ++ [u]) j else indeg dn j))).
  match goal with |- exists i, mfor _ ?b _ = _ /\ _ => destruct (mfor_inv P (seq 0 n) b (ins, que)) as ([ins' que'] & Hok & Hq & Hl & Hv) end.
  - split_and!; [by rewrite filter_nil, app_nil_r|done|]. intros j Hj. cbn. by apply Hins.
  - intros js j rest [is qs] Hl (Hq & Hlen' & Hv). cbn [fst snd] in *.
    assert (j = length js /\ j < n) as [Hjl Hjn].
    { assert (seq 0 n !! length js = Some j) as Hlk by (rewrite Hl; apply list_lookup_middle; done).
      pose proof (lookup_lt_Some _ _ _ Hlk) as Hlt. rewrite seq_length in Hlt. apply lookup_seq in Hlk as [-> ?]. done. }
    destruct (adj_entry_E u j Hu Hjn) as (v & -> & HvE). cbn [mbind outcome_bind].
    pose proof (indeg_snoc dn u j Hu Hnu) as Hsn.
    unfold P. rewrite filter_app, app_length. cbn [length].
    destruct (decide (E u j)) as [HE|HE].
    + rewrite bool_decide_true by tauto.
      pose proof (Hv j Hjn) as Hj. rewrite decide_False in Hj by lia. rewrite (vget_ok _ _ _ Hj). cbn [mbind outcome_bind].
      rewrite vset_ok by lia. cbn [mbind outcome_bind].
      assert (forall i, i < n -> (<[j:=(Z.of_nat (indeg dn j) - 1)%Z]> is) !! i
         = Some (Z.of_nat (if decide (i < length js + 1) then indeg (dn ++ [u]) i else indeg dn i))) as Hnew.
      { intros i Hi. destruct (decide (i = j)) as [->|].
        - rewrite list_lookup_insert by lia. rewrite decide_True by lia. f_equal. lia.
        - rewrite list_lookup_insert_ne by done. rewrite Hv by done. do 2 f_equal.
          destruct (decide (i < length js)), (decide (i < length js + 1)); try done; lia. }
      case_bool_decide as Hz.
      * eexists; split; [done|]. cbn [fst snd]. rewrite insert_length. split_and!; [|done|done].
        rewrite Hq, <-app_assoc. f_equal. f_equal. rewrite filter_cons. rewrite decide_True; [done|]. split; [done|lia].
      * eexists; split; [done|]. cbn [fst snd]. rewrite insert_length. split_and!; [|done|done].
        rewrite Hq. f_equal. rewrite filter_cons, decide_False by (intros [_ ?]; lia). by rewrite app_nil_r.
    + rewrite bool_decide_false by tauto. eexists; split; [done|]. cbn [fst snd]. split_and!; [|done|].
      * rewrite Hq. f_equal. rewrite filter_cons, decide_False by tauto. by rewrite app_nil_r.
      * intros i Hi. rewrite Hv by done. do 2 f_equal.
        destruct (decide (i < length js)), (decide (i < length js + 1)); try done; try lia.
        assert (i = j) as -> by lia. cbn in Hsn. lia.
  - exists ins'. cbn [fst snd] in *. rewrite Hok, Hq. split; [done|]. split; [done|].
    intros j Hj. rewrite Hv by done. rewrite decide_True; [done|]. by rewrite seq_length.
Qed.

(** Invariant of the main loop. *)
Definition kinv (dn : list nat) (ins : list Z) (que : list nat) : Prop :=
  NoDup (dn ++ que) /\ ins_ok dn ins /\
  (forall j, j ∈ dn ++ que <-> j < n /\ indeg dn j = 0) /\
  (forall k j i, dn !! k = Some j -> E i j -> i ∈ take k dn).

Lemma kinv_step dn ins u que :
  kinv dn ins (u :: que) ->
  exists ins' que', kahn_relax graph n u (ins, que) = Ok (ins', que') /\ kinv (dn ++ [u]) ins' que'.
Proof.
  intros (Hnd & Hins & Hmem & Htop).
  assert (u < n /\ indeg dn u = 0) as [Hu Hdu]. { apply Hmem. apply elem_of_app. right. left. }
  assert (u ∉ dn) as Hnu. { apply NoDup_app in Hnd as (_ & Hd & _). intros H. apply (Hd _ H). left. }
  destruct (kahn_relax_spec dn ins que u Hins Hu Hnu) as (ins' & -> & Hins').
  do 2 eexists. split; [done|]. split_and!; [|done| |].
  - rewrite (app_assoc (dn ++ [u])), <-(app_assoc dn [u] que). cbn [app]. apply NoDup_app. split_and!; [done| |].
    + intros j Hj Hf. apply elem_of_list_filter in Hf as [[HE Hd] _]. apply Hmem in Hj as [_ Hj]. lia.
    + apply NoDup_filter, NoDup_seq.
  - intros j. rewrite (app_assoc (dn ++ [u])), <-(app_assoc dn [u] que). cbn [app]. rewrite elem_of_app, Hmem.
    rewrite elem_of_list_filter, elem_of_seq. split.
    + intros [[Hj Hd]|[[HE Hd] Hj]].
      * split; [done|]. pose proof (indeg_snoc dn u j Hu Hnu). lia.
      * split; [lia|]. pose proof (indeg_snoc dn u j Hu Hnu) as Hs. rewrite decide_True in Hs by done. lia.
    + intros [Hj Hd]. pose proof (indeg_snoc dn u j Hu Hnu) as Hs. destruct (decide (E u j)) as [HE|HE].
      * right. split; [|lia]. split; [done|lia].
      * left. split; [done|lia].
  - intros k j i Hk HE. destruct (decide (k < length dn)).
    + rewrite lookup_app_l in Hk by done. rewrite take_app_le by lia. by eapply Htop.
    + pose proof (lookup_lt_Some _ _ _ Hk) as Hlt. rewrite app_length in Hlt. cbn in Hlt.
      assert (k = length dn) as -> by lia. rewrite lookup_app_r, Nat.sub_diag in Hk by lia. injection Hk as <-.
      rewrite take_app_alt by done. by apply (proj1 (indeg_zero dn u)).
Qed.

Lemma kinv_length dn ins que : kinv dn ins que -> length dn + length que <= n.
Proof.
  intros (Hnd & _ & Hmem & _). rewrite <-app_length, <-(seq_length n 0).
  apply NoDup_incl_length; [by apply NoDup_ListNoDup|]. intros j Hj. apply elem_of_list_In, elem_of_seq.
  apply elem_of_list_In, Hmem in Hj. lia.
Qed.
Lemma kahn_loop_spec fuel dn ins que :
  kinv dn ins que -> n <= fuel + length dn ->
  exists r ins', kahn_loop fuel graph n ins que dn = Ok r /\ kinv r ins' [].
Proof.
  revert dn ins que. induction fuel as [|f IH]; intros dn ins que HI Hf; destruct que as [|u que]; cbn [kahn_loop].
  - by exists dn, ins.
  - pose proof (kinv_length _ _ _ HI) as Hl. cbn in Hl. lia.
  - by exists dn, ins.
  - destruct (kinv_step _ _ _ _ HI) as (ins' & que' & -> & HI'). cbn [mbind outcome_bind fst snd].
    apply (IH _ _ _ HI'). rewrite app_length. cbn. lia.
Qed.

Lemma indeg_nil_preds j (preds : list nat) :
  NoDup preds -> (forall i, i ∈ preds <-> E i j) -> length preds = indeg [] j.
Proof.
  intros Hnd Hp. unfold indeg. apply Permutation_length, NoDup_Permutation; [done|apply NoDup_filter, NoDup_seq|].
  intros i. rewrite Hp, elem_of_list_filter, elem_of_seq. split.
  - intros HE. split; [split; [done|apply not_elem_of_nil]|]. apply E_bound in HE. lia.
  - naive_solver.
Qed.
Lemma kahn_spec ins :
  indegrees_of n graph ins ->
  exists r ins', kahn graph ins n = Ok r /\ kinv r ins' [].
Proof.
  intros [Hlen Hins]. assert (ins_ok [] ins) as Hok.
  { split; [done|]. intros j Hj. destruct (Hins j Hj) as (preds & -> & Hnd & Hp). do 2 f_equal. by apply indeg_nil_preds. }
  unfold kahn.
  assert (mfor (seq 0 n) (fun i que => d ← vget ins i; if bool_decide (d = 0)%Z then Ok (que ++ [i]) else Ok que) []
          = Ok (filter (fun j => indeg [] j = 0) (seq 0 n))) as ->.
  { set (P := fun (js que : list nat) => que = filter (fun j => indeg [] j = 0) js).
    match goal with |- mfor _ ?b _ = _ => destruct (mfor_inv P (seq 0 n) b []) as (que & -> & HP) end.
    - done.
    - intros js j rest que Hl ->.
      assert (j < n) as Hj. { apply (elem_of_seq 0 n j). rewrite Hl. apply elem_of_app. right; left. }
      destruct Hok as [_ Hok]. rewrite (vget_ok _ _ _ (Hok j Hj)). cbn [mbind outcome_bind].
      unfold P. rewrite filter_app, filter_cons. case_bool_decide as Hz; eexists; (split; [done|]).
      + rewrite decide_True by lia. done.
      + rewrite decide_False by lia. by rewrite filter_nil, app_nil_r.
    - by rewrite HP. }
  cbn [mbind outcome_bind]. apply kahn_loop_spec; [|cbn; lia]. split_and!; cbn [app].
  - apply NoDup_filter, NoDup_seq.
  - done.
  - intros j. rewrite elem_of_list_filter, elem_of_seq. lia.
  - intros k j i Hk. done.
Qed.

(** End of the loop. *)
Lemma kinv_end r ins' : kinv r ins' [] ->
  NoDup r /\ (forall j, j ∈ r -> j < n) /\
  (forall i j x y, r !! i = Some x -> r !! j = Some y -> E x y -> i < j) /\
  (length r = n <-> acyclic E) /\ length r <= n.
Proof.
  intros HI. pose proof (kinv_length _ _ _ HI) as Hle. cbn in Hle.
  destruct HI as (Hnd & Hins & Hmem & Htop). rewrite app_nil_r in *.
  assert (forall i j x y, r !! i = Some x -> r !! j = Some y -> E x y -> i < j) as Hord.
  { intros i j x y Hi Hj HE. pose proof (Htop j y x Hj HE) as Hin.
    apply elem_of_list_lookup in Hin as [k Hk]. pose proof (lookup_lt_Some _ _ _ Hk) as Hlt. rewrite take_length in Hlt.
    rewrite lookup_take in Hk by lia. rewrite (NoDup_lookup _ _ _ _ Hnd Hi Hk). lia. }
  split_and!; [done|intros j Hj; apply Hmem in Hj; tauto|done| |lia]. split.
  - intros Hl. apply (topological_acyclic _ n r); [|apply E_bound]. split; [|done].
    apply nodup_perm_seq; [done| |done]. intros j Hj. apply Hmem in Hj. tauto.
  - intros Hac. destruct (decide (length r = n)) as [|Hne]; [done|exfalso].
    assert (exists j, j < n /\ j ∉ r) as (j & Hj & Hnj).
    { destruct (decide (Exists (fun j => j ∉ r) (seq 0 n))) as [He|He].
      - apply Exists_exists in He as (j & Hj & ?). apply elem_of_seq in Hj. exists j. split; [lia|done].
      - exfalso. apply Hne. apply not_Exists_Forall in He; [|apply _]. rewrite Forall_forall in He.
        assert (n <= length r); [|lia]. rewrite <-(seq_length n 0) at 1. apply NoDup_incl_length; [apply NoDup_ListNoDup, NoDup_seq|].
        intros j Hj. apply elem_of_list_In in Hj. apply elem_of_list_In. apply He in Hj. by apply dec_stable in Hj. }
    destruct (no_source_cycle E (filter (fun j => j ∉ r) (seq 0 n)) j) as [x Hx].
    + apply elem_of_list_filter. split; [done|]. apply elem_of_seq. lia.
    + intros x [Hx Hxn]%elem_of_list_filter. apply elem_of_seq in Hxn.
      assert (indeg r x ≠ 0) as Hd. { intros Hd. apply Hx, Hmem. split; [lia|done]. }
      destruct (filter (fun i => E i x /\ i ∉ r) (seq 0 n)) as [|i l] eqn:Hf.
      { exfalso. apply Hd. unfold indeg. by rewrite Hf. }
      assert (i ∈ filter (fun i => E i x /\ i ∉ r) (seq 0 n)) as Hin by (rewrite Hf; left).
      apply elem_of_list_filter in Hin as [[HE Hni] Hin]. exists i. split; [|done]. by apply elem_of_list_filter.
    + by apply (Hac x).
Qed.
End kahn.

(** ** Summary *)
Theorem contains_circle_spec graph n ins :
  square_matrix n graph -> indegrees_of n graph ins ->
  exists b, directed_graph_contains_circle graph ins n = Ok b /\ (b = true <-> ~ acyclic (matrix_rel graph)).
Proof.
  intros Hsq Hins. destruct (kahn_spec graph n Hsq ins Hins) as (r & ins' & Hr & HI).
  destruct (kinv_end graph n Hsq r ins' HI) as (_ & _ & _ & Hac & _).
  unfold directed_graph_contains_circle. rewrite Hr. cbn. eexists; split; [done|].
  rewrite bool_decide_eq_true. by rewrite Hac.
Qed.
Theorem topo_sort_spec graph n ins :
  square_matrix n graph -> indegrees_of n graph ins ->
  exists r, topo_sort graph ins n = Ok r /\
    (acyclic (matrix_rel graph) -> topological (matrix_rel graph) n r) /\
    (~ acyclic (matrix_rel graph) -> length r < n) /\
    (length r = n -> acyclic (matrix_rel graph)).
Proof.
  intros Hsq Hins. destruct (kahn_spec graph n Hsq ins Hins) as (r & ins' & Hr & HI).
  destruct (kinv_end graph n Hsq r ins' HI) as (Hnd & Hb & Hord & Hac & Hle).
  exists r. split; [done|]. split_and!.
  - intros Ha%Hac. split; [|done]. by apply nodup_perm_seq.
  - intros Hn. destruct (decide (length r = n)) as [H|]; [|lia]. by apply Hac in H.
  - apply Hac.
Qed.
