(** Concrete skeletons for Properties_Orient.v. *)
From Verif Require Import OrientModel OrientSpec NetProofs OrientProofs OrientTheorems.
Local Open Scope nat_scope.

(** 0 - 2, 1 - 2, 2 - 3, with an empty separating set for 0 and 1. *)
Definition tee_edges : pairs := [(0, 2); (1, 2); (2, 3)].
Definition tee_adj : adjs := [[2]; [2]; [0; 1; 3]; [2]].
Definition tee_sep : sepmap := <[(0, 1) := []]> (<[(0, 3) := [2]]> {[ (1, 3) := [2] ]}).
Definition linkedb (A : adjs) (x y : nat) : bool := match A !! x with Some row => bool_decide (y ∈ row) | None => false end.
Lemma linkedb_ok A x y : linkedb A x y = true <-> linked A x y.
Proof.
  unfold linkedb, linked. destruct (A !! x) as [row|]; [|split; [done|intros (r & ? & _); done]]. rewrite bool_decide_eq_true. split; [intros H; by exists row|]. intros (r & [= ->] & H). done.
Qed.
Lemma skeleton_check n (E : pairs) (A : adjs) : NoDup E -> Forall (fun p => fst p < snd p /\ snd p < n) E -> length A = n -> Forall (StronglySorted lt) A -> Forall (Forall (fun v => v < n)) A ->
  (forall x, x < n -> forall y, y < n -> linkedb A x y = bool_decide ((x, y) ∈ E \/ (y, x) ∈ E)) -> skeleton_of n E A.
Proof.
  intros HE Hb Hl Hs Hr HL. rewrite Forall_forall in Hb. assert (forall x y, (x, y) ∈ E -> x < y /\ y < n) as Hb' by (intros x y H; by apply Hb in H). split_and!; [done|done|done|intros x row Hx; rewrite Forall_forall in Hs; by apply Hs, elem_of_list_lookup_2 with x|].
  intros x y. rewrite <-linkedb_ok. destruct (decide (x < n /\ y < n)) as [[Hx Hy]|Hn].
  - rewrite HL by done. by rewrite bool_decide_eq_true.
  - split; [|intros [H|H]; apply Hb' in H; lia]. intros (row & Hx & Hy)%linkedb_ok. destruct Hn. split; [apply lookup_lt_Some in Hx; lia|]. rewrite Forall_forall in Hr. apply elem_of_list_lookup_2, Hr in Hx. rewrite Forall_forall in Hx. by apply Hx.
Qed.
Lemma tee_skeleton : skeleton_of 4 tee_edges tee_adj.
Proof.
  apply skeleton_check; [apply (bool_decide_unpack _); vm_compute; exact I|repeat constructor; cbn; lia|done|repeat constructor|repeat constructor|].
  intros x Hx y Hy. destruct x as [|[|[|[|x]]]]; [..|lia]; (destruct y as [|[|[|[|y]]]]; [..|lia]); vm_compute; reflexivity.
Qed.
Lemma tee_into x y : into tee_adj tee_sep x y -> y = 2 /\ (x = 0 \/ x = 1).
Proof.
  assert (forall a b c, collider tee_adj tee_sep a b c -> b = 2 /\ a = 0 /\ c = 1) as H.
  { intros a b c (Hac & Ha & Hc & Hn & Hs). pose proof (linked_bound 4 tee_edges _ _ _ tee_skeleton Ha) as Ha'. pose proof (linked_bound 4 tee_edges _ _ _ tee_skeleton Hc) as Hc'. rewrite <-!linkedb_ok in Ha, Hc, Hn.
    destruct b as [|[|[|[|b]]]]; try lia; destruct a as [|[|[|[|a]]]]; try lia; destruct c as [|[|[|[|c]]]]; try lia; try discriminate Ha; try discriminate Hc; try done; exfalso; apply Hs; vm_compute; left. }
  intros (z & [Hc|Hc]); apply H in Hc; lia.
Qed.
Lemma tee_ok : skeleton_of 4 tee_edges tee_adj /\ (forall x y, into tee_adj tee_sep x y -> x < y) /\ into tee_adj tee_sep 0 2 /\ pe_pair <$> (new_pedge <$> tee_edges) = tee_edges.
Proof.
  split; [exact tee_skeleton|]. split; [intros x y H; apply tee_into in H; lia|]. split; [|done]. exists 1. left. split_and!; [lia|apply linkedb_ok; done|apply linkedb_ok; done|rewrite <-linkedb_ok; vm_compute; done|]. vm_compute. intros H. inversion H.
Qed.
Lemma tee_pattern : exists N U, pattern 4 tee_edges N U [(0, 2); (1, 2)].
Proof.
  destruct tee_ok as (HS & Hr & Hi & Hp). destruct (colliders_theorem 4 tee_edges tee_adj tee_sep id [2;2;2;2] (new_pedge <$> tee_edges) 100 HS Hr eq_refl Hp ltac:(lia)) as (N & U & D & HN & HP & HD). exists N, U.
  assert (D = [(0, 2); (1, 2)]) as <-; [|done]. assert (match orient_v_structures 100 tee_adj tee_sep (skeleton_network [2;2;2;2] (new_pedge <$> tee_edges)) with Ok N => bool_decide (nt_edges N = [undirected_edge 2 3; directed_edge 0 2; directed_edge 1 2]) | Err _ => false end = true) as Hv by (vm_compute; reflexivity). rewrite HN in Hv. apply bool_decide_eq_true in Hv.
  destruct HP as (_ & _ & He & _). rewrite He in Hv. assert (forall U D D' : pairs, ((fun p => undirected_edge (fst p) (snd p)) <$> U) ++ ((fun p => directed_edge (fst p) (snd p)) <$> D) = undirected_edge 2 3 :: ((fun p => directed_edge (fst p) (snd p)) <$> D') -> D = D') as Hinj.
  { clear. assert (Inj (=) (=) (fun p : nat * nat => directed_edge (fst p) (snd p))) as Hi by (intros [] [] [= -> ->]; done). intros U D D' H. destruct U as [|p U]; [destruct D; cbn in H; [done|injection H; done]|]. cbn [fmap list_fmap app] in H. injection H as _ H. destruct U as [|q U]; [cbn [fmap list_fmap app] in H|].
    - revert H. apply (inj (fmap _)).
    - cbn [fmap list_fmap app] in H. destruct D' as [|d D']; [done|]. cbn [fmap list_fmap app] in H. injection H as H _. unfold undirected_edge, directed_edge in H. case_bool_decide; done. }
  apply (Hinj U D [(0, 2); (1, 2)]). exact Hv.
Qed.
Lemma tee_extend : exists N U, pattern 4 tee_edges N U [(0, 2); (1, 2)] /\ length tee_edges < edge_capacity 4.
Proof. destruct tee_pattern as (N & U & H). exists N, U. split; [done|]. cbv. lia. Qed.
Lemma tee_implied : exists N U, pattern 4 tee_edges N U [(0, 2); (1, 2)] /\ length tee_edges < edge_capacity 4 /\ implied tee_adj [(0, 2); (1, 2)] 2 3.
Proof. destruct tee_extend as (N & U & H & Hc). exists N, U. split; [done|]. split; [done|]. left. exists 0. split; [left|]. rewrite <-linkedb_ok. vm_compute. done. Qed.
Lemma edge_complete : skeleton_of 2 [(0, 1)] [[1]; [0]] /\ edge_capacity 2 <= length [(0, 1)].
Proof.
  split; [|cbv; lia]. apply skeleton_check; [apply (bool_decide_unpack _); vm_compute; exact I|repeat constructor; cbn; lia|done|repeat constructor|repeat constructor|].
  intros x Hx y Hy. destruct x as [|[|x]]; [..|lia]; (destruct y as [|[|y]]; [..|lia]); vm_compute; reflexivity.
Qed.
