(** Concrete searches for Properties_PC.v. *)
From Verif Require Import PCModel PCSpec PCTheorems CellWitness.
Local Open Scope nat_scope.

Definition forwards (d t k : nat) : list nat := seq 0 k.
Definition backwards (d t k : nat) : list nat := rev (seq 0 k).
Lemma forwards_valid : valid_sched forwards.
Proof. intros d t k. reflexivity. Qed.
Lemma backwards_valid : valid_sched backwards.
Proof. intros d t k. unfold backwards. symmetry. apply Permutation_rev. Qed.
(** The decisions of a chain 0 - 1 - 2 - 3: two variables are independent given a set that cuts the chain between them. *)
Definition chain_ind (x y : nat) (s : list nat) : bool := existsb (fun v => bool_decide (Nat.min x y < v < Nat.max x y)) s.
Definition chain_test (x y : nat) (zs : list nat) (g : nat) : outcome ci_result :=
  if bool_decide (zs = []) then Ok (mkCI false 0)
  else let w := length zs / g in
    let zss := (fun i => take w (drop (i * w) zs)) <$> seq 0 g in
    match first_true (chain_ind x y <$> zss) with Some i => Ok (mkCI true (Z.of_nat i)) | None => Ok (mkCI false (-1)) end.
Lemma concat_split (zss : list (list nat)) c : Forall (fun s => length s = c) zss -> (fun i => take c (drop (i * c) (concat zss))) <$> seq 0 (length zss) = zss.
Proof.
  induction 1 as [|s zss Hs Hu IH]; [done|]. cbn [length seq concat fmap list_fmap]. rewrite drop_0, take_app_alt by done. f_equal. rewrite <-fmap_S_seq, <-list_fmap_compose. etransitivity; [|exact IH]. apply list_fmap_ext. intros i j Hj. unfold compose. f_equal. cbn [Nat.mul]. rewrite <-Hs at 1. rewrite <-drop_drop. by rewrite drop_app.
Qed.
Lemma chain_decides n gmax : decides chain_test chain_ind n gmax.
Proof.
  split; [by eexists|]. intros x y c zss _ _ Hc Hu Hg. assert (Forall (fun s => length s = c) zss) as Hl by (eapply Forall_impl; [exact Hu|]; naive_solver). assert (length (concat zss) = length zss * c) as Hlen by (clear -Hl; induction Hl as [|s zss Hs _ IH]; cbn; [done|rewrite app_length; lia]).
  unfold chain_test. rewrite bool_decide_false by (intros H; rewrite H in Hlen; cbn in Hlen; destruct zss; cbn in *; lia). rewrite Hlen. rewrite Nat.mul_comm, Nat.div_mul by lia. rewrite concat_split by done. destruct (first_true _); [done|by eexists].
Qed.
Definition outline (o : outcome (list pedge * adjs * sepmap)) : option (list (nat * nat) * adjs * list (nat * nat * list nat)) :=
  match o with Ok (es, a, s) => Some (pe_pair <$> es, a, map_to_list s) | Err _ => None end.
Lemma chain_runs : outline (skeleton_search chain_test 4 5 100 1 forwards) = outline (skeleton_search chain_test 4 5 100 3 backwards) /\
  outline (skeleton_search chain_test 4 5 100 3 backwards) = Some ([(0, 1); (1, 2); (2, 3)], [[1]; [0; 2]; [1; 3]; [2]], [(1, 3, [2]); (0, 3, [1]); (0, 2, [1])]).
Proof. split; vm_compute; reflexivity. Qed.
Lemma chain_map : exists es A S, skeleton_search chain_test 4 5 100 3 backwards = Ok (es, A, S) /\ S !! (0, 3) = Some [1] /\ S !! (1, 3) = Some [2] /\ S !! (1, 2) = None.
Proof. destruct (skeleton_search chain_test 4 5 100 3 backwards) as [[[es A] S]|] eqn:E; [|vm_compute in E; done]. exists es, A, S. vm_compute in E. injection E as <- <- <-. split_and!; vm_compute; reflexivity. Qed.
(** Groups of nine tests. *)
Definition zero_df (ts : list gterm) (df : nat) : bool := bool_decide (df = 0).
Lemma eleven_search : exists D ds accept sch, tabulated D ds /\ (forall ts, Forall balanced ts -> accept ts 0 = true) /\ valid_sched sch /\
  is_ok (skeleton_search (independence_result accept D ds) (length ds) 2 1000 8 sch) = true /\ skeleton_search (independence_result accept D ds) (length ds) 2 1000 9 sch = Err OutOfBounds.
Proof.
  exists eleven, (replicate 11 2), zero_df, forwards. split; [apply tabulated_check; vm_compute; reflexivity|]. split; [done|]. split; [exact forwards_valid|]. split; vm_compute; reflexivity.
Qed.
Definition always (ts : list gterm) (df : nat) : bool := true.
Lemma sepset_races : exists accept D ds, tabulated D ds /\ level_zero_race (independence_result accept D ds) (length ds) CounterCell /\ level_zero_race (independence_result accept D ds) (length ds) SepsetMap.
Proof.
  exists always, rows5, [2;2;2;3]. split; [exact rows5_tabulated|]. pose proof (gsquare_decides always rows5 [2;2;2;3] rows5_tabulated (fun _ _ => eq_refl)) as H. split; [eapply counter_race; [exact H|cbn; lia]|].
  eapply (sepset_race _ _ _ _ H 0 1 0 2); cbn [length]; try lia; [done| |]; vm_compute; reflexivity.
Qed.
