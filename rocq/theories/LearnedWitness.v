(** A run with contradicting tests: two neighbours are joined by two edges, and one edge is not saved. *)
From Verif Require Import PCModel PCSpec PCWitness OrientModel OrientSpec OrientWitness GraphModel2 DSepSpec DSepWitness.
Local Open Scope nat_scope.

Definition clash_lines : list GraphModel2.line := [Arc 2 0; Arc 3 1; Arc 4 5; Arc 5 0; Arc 0 1].
Definition clash (es : list pedge) (A : adjs) (sep : sepmap) : bool :=
  bool_decide (A !! 4 = Some [5] /\ es <> []) &&
  match orient_skeleton 1000 (replicate 6 2) false second es A sep with
  | Ok N => bool_decide (edges_between N 4 5 = 2 /\ length (nt_edges N) = 7) && match save_bn_structure N with Ok lines => bool_decide (lines = clash_lines) | Err _ => false end
  | Err _ => false
  end.
Lemma clash_run : exists es A S N, skeleton_search (lone_test table_ind) 6 6 1000 1 forwards = Ok (es, A, S) /\ orient_skeleton 1000 (replicate 6 2) false second es A S = Ok N /\
  edges_between N 4 5 = 2 /\ linked A 4 5 /\ es <> [] /\ length (nt_edges N) = 7 /\ save_bn_structure N = Ok clash_lines.
Proof.
  assert (match skeleton_search (lone_test table_ind) 6 6 1000 1 forwards with Ok (es, A, sep) => clash es A sep | Err _ => false end = true) as H by (vm_compute; reflexivity).
  destruct (skeleton_search (lone_test table_ind) 6 6 1000 1 forwards) as [[[es A] sep]|]; [|discriminate H]. unfold clash in H. apply andb_true_iff in H as [HA H].
  destruct (orient_skeleton 1000 (replicate 6 2) false second es A sep) as [N|] eqn:HN; [|discriminate H]. apply andb_true_iff in H as [H1 H2]. destruct (save_bn_structure N) as [lines|] eqn:Hs; [|discriminate H2].
  apply bool_decide_eq_true in HA, H1, H2. destruct HA as [HA He], H1 as [H1 H3]. exists es, A, sep, N. refine (conj eq_refl (conj HN (conj H1 (conj _ (conj He (conj H3 _)))))); [exists [5]; split; [exact HA|left]|]. by rewrite Hs, H2.
Qed.
