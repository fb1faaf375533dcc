(** Which node of each piece of the graph FindRootsInDAGForest chooses. *)
From Verif Require Import RootProofs.
Local Open Scope nat_scope.

Section choice.
Context (N : network) (HI : netinv N).
Set Default Proof Using "All".
Notation n := (length (nt_nodes N)).

(** [r] has more children than [v], or as many and a smaller index. *)
Definition beats (r v : nat) : Prop :=
  forall k m, has_children N r k -> has_children N v m -> m < k \/ m = k /\ r <= v.

Lemma children_length v nd k : nt_nodes N !! v = Some nd -> has_children N v k -> k = length (nd_children nd).
Proof.
  intros Hv (cs & Hnd & Hcs & <-). apply Permutation_length. apply NoDup_Permutation; [done| |].
  - apply lt_sorted_NoDup. by apply (ni_children _ HI v nd).
  - intros c. rewrite Hcs, <-(netinv_child N v c HI). unfold child_rel. rewrite Hv. naive_solver.
Qed.

Lemma pick_root_best vis m r : length vis = n -> pick_root N vis = Ok (Some (m, r)) ->
  forall v, v < n -> vis !! v = Some false -> (forall x, ~ has_directed N x v) -> beats r v.
Proof.
  intros Hlen. unfold pick_root.
  match goal with |- context [mfor ?l ?b ?s] =>
    destruct (mfor_inv (fun (dn : list nat) best => match best with
    | Some (m, r) => (exists nd, nt_nodes N !! r = Some nd /\ length (nd_children nd) = m) /\ r ∈ dn /\
        forall v nd, v ∈ dn -> nt_nodes N !! v = Some nd -> nd_parents nd = [] -> vis !! v = Some false ->
          length (nd_children nd) < m \/ length (nd_children nd) = m /\ r <= v
    | None => forall v nd, v ∈ dn -> nt_nodes N !! v = Some nd -> nd_parents nd = [] -> vis !! v = Some false -> False
    end) l b s) as (best & Hb & Hbest) end.
  - intros v nd Hv. by apply elem_of_nil in Hv.
  - intros dn i rest best Hs Hb. assert (i ∈ seq 0 n) as Hi by (rewrite Hs; apply elem_of_app; right; left). apply elem_of_seq in Hi.
    assert (forall v, v ∈ dn -> v < i) as Hlt.
    { intros v Hv. apply elem_of_list_lookup in Hv as [j Hj].
      assert (seq 0 n !! j = Some v) as H1 by (rewrite Hs; by apply lookup_app_l_Some).
      assert (seq 0 n !! length dn = Some i) as H2 by (rewrite Hs, lookup_app_r, Nat.sub_diag by lia; done).
      apply lookup_seq in H1, H2. apply lookup_lt_Some in Hj. lia. }
    destruct (lookup_lt_is_Some_2 (nt_nodes N) i) as [nd Hnd]; [lia|]. rewrite (find_node_ok _ _ _ Hnd). cbn [mbind outcome_bind].
    case_bool_decide as Hp; [apply length_zero_iff_nil in Hp|].
    + destruct (lookup_lt_is_Some_2 vis i) as [b Hv]; [lia|]. rewrite (vget_ok _ _ _ Hv). cbn [mbind outcome_bind].
      destruct b; [|destruct best as [[m0 r0]|]].
      * eexists. split; [done|]. destruct best as [[m0 r0]|].
        -- destruct Hb as (Hb1 & Hb2 & Hb3). split_and!; [done|apply elem_of_app; by left|].
           intros v nd' [Hin|Hin%elem_of_list_singleton]%elem_of_app Hv' Hp' Hf; [by apply (Hb3 v)|]. subst v. congruence.
        -- intros v nd' [Hin|Hin%elem_of_list_singleton]%elem_of_app Hv' Hp' Hf; [by apply (Hb v nd')|]. subst v. congruence.
      * destruct Hb as (Hb1 & Hb2 & Hb3). case_bool_decide as Hm; (eexists; split; [done|]).
        -- split_and!; [by exists nd|apply elem_of_app; right; left|].
           intros v nd' [Hin|Hin%elem_of_list_singleton]%elem_of_app Hv' Hp' Hf.
           ++ left. destruct (Hb3 v nd' Hin Hv' Hp' Hf); lia.
           ++ subst v. rewrite Hnd in Hv'. injection Hv' as <-. right. split; [done|lia].
        -- split_and!; [done|apply elem_of_app; by left|].
           intros v nd' [Hin|Hin%elem_of_list_singleton]%elem_of_app Hv' Hp' Hf; [by apply (Hb3 v)|].
           subst v. rewrite Hnd in Hv'. injection Hv' as <-. pose proof (Hlt r0 Hb2). lia.
      * eexists; split; [done|]. split_and!; [by exists nd|apply elem_of_app; right; left|].
        intros v nd' [Hin|Hin%elem_of_list_singleton]%elem_of_app Hv' Hp' Hf; [exfalso; by apply (Hb v nd')|].
        subst v. rewrite Hnd in Hv'. injection Hv' as <-. right. split; [done|lia].
    + eexists. split; [done|]. destruct best as [[m0 r0]|].
      * destruct Hb as (Hb1 & Hb2 & Hb3). split_and!; [done|apply elem_of_app; by left|].
        intros v nd' [Hin|Hin%elem_of_list_singleton]%elem_of_app Hv' Hp' Hf; [by apply (Hb3 v)|].
        subst v. rewrite Hnd in Hv'. injection Hv' as <-. by rewrite Hp' in Hp.
      * intros v nd' [Hin|Hin%elem_of_list_singleton]%elem_of_app Hv' Hp' Hf; [by apply (Hb v nd')|].
        subst v. rewrite Hnd in Hv'. injection Hv' as <-. by rewrite Hp' in Hp.
  - rewrite Hb. intros [= ->]. destruct Hbest as ((ndr & Hr & Hm) & _ & Hbest).
    intros v Hv Hf Hnp k m' Hk Hm'. destruct (lookup_lt_is_Some_2 _ _ Hv) as [nd Hnd].
    rewrite (children_length r ndr k Hr Hk), (children_length v nd m' Hnd Hm'). subst m.
    apply (Hbest v nd); [apply elem_of_seq; lia|done| |done]. by apply (parentless N HI v nd).
Qed.

Lemma loop_choice fuel vis roots roots' :
  length vis = n -> unseen_count vis <= n -> (forall v w, seen vis v -> adj N v w -> seen vis w) ->
  (forall r v, r ∈ roots -> v < n -> (forall x, ~ has_directed N x v) -> rtc (adj N) r v -> beats r v) ->
  find_roots_loop fuel N vis roots = Ok roots' ->
  forall r v, r ∈ roots' -> v < n -> (forall x, ~ has_directed N x v) -> rtc (adj N) r v -> beats r v.
Proof.
  revert vis roots; induction fuel as [|fuel IH]; intros vis roots Hlen Hu Hcl Hroots Hok; [done|]. cbn [find_roots_loop] in Hok.
  destruct (pick_root_ok N HI vis Hlen) as (best & Hpick & Hbest). rewrite Hpick in Hok. cbn [mbind outcome_bind] in Hok.
  destruct best as [[m r]|]; [|by injection Hok as <-].
  destruct Hbest as (Hrn & Hrf & Hrp). rewrite vset_ok in Hok by lia. cbn [mbind outcome_bind] in Hok.
  assert (~ seen vis r) as Hnr by (unfold seen; by rewrite Hrf).
  assert (forall v, seen (<[r:=true]> vis) v <-> v = r \/ seen vis v) as Hs1.
  { intros v. unfold seen. destruct (decide (v = r)) as [->|]; [rewrite list_lookup_insert by lia; tauto|rewrite list_lookup_insert_ne by done; tauto]. }
  pose proof (unseen_insert vis r Hrf) as Hc1.
  destruct (bfs_ok N HI n (<[r:=true]> vis) [r]) as (vis' & Hbfs & L' & Hmono & Hcl' & Hreach & Hc').
  { by rewrite insert_length. } { cbn [length]. lia. } { intros v Hv%elem_of_list_singleton. apply Hs1. by left. }
  { intros v w Hv Hnv Hvw. rewrite elem_of_list_singleton in Hnv. apply Hs1 in Hv as [->|Hv]; [done|]. apply Hs1. right. by eapply Hcl. }
  rewrite Hbfs in Hok. cbn [mbind outcome_bind] in Hok. apply (IH vis' (roots ++ [r])); [done|lia|done| |done].
  intros r' v [Hr'|Hr'%elem_of_list_singleton]%elem_of_app Hv Hnp Hrt; [by apply Hroots|]. subst r'.
  apply (pick_root_best vis m r Hlen Hpick v Hv); [|done].
  destruct (lookup_lt_is_Some_2 vis v) as [[] Hb]; [lia| |done]. exfalso. apply Hnr.
  apply (closed_rtc N HI (seen vis) v r); [done|done|]. by apply rtc_adj_sym.
Qed.
End choice.

Theorem root_choice N : netinv N ->
  exists roots, find_roots N = Ok roots /\
    forall r v k m, r ∈ roots -> v < length (nt_nodes N) -> (forall x, ~ has_directed N x v) -> rtc (adj N) r v ->
      has_children N r k -> has_children N v m -> m < k \/ m = k /\ r <= v.
Proof.
  intros HI. destruct (find_roots_ok N HI) as (roots & Hok & _). exists roots. split; [done|].
  intros r v k m Hr Hv Hnp Hrt Hk Hm.
  refine (loop_choice N HI _ _ [] roots _ _ _ _ Hok r v Hr Hv Hnp Hrt k m Hk Hm).
  - apply replicate_length.
  - pose proof (unseen_le (replicate (length (nt_nodes N)) false)) as H. by rewrite replicate_length in H.
  - intros v' w Hs. unfold seen in Hs. apply lookup_replicate in Hs as [? _]. done.
  - intros r' v' ?%elem_of_nil. done.
Qed.
