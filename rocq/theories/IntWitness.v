(** Concrete cases for Properties_Int.v. *)
From Verif Require Import IntModel IntSpec JTSpec JTWitness ParProofs.
Local Open Scope nat_scope.

(** A session on the example network, with ints up to 24. *)
Definition int_session : list (scheduler * query) := [(wild_sched, AskProbs jt_evidence); (seq_sched, AskLabel 2 [(0, 1)]); (wild_sched, AskProbs [])].
Lemma int_bounds : (forall t, t ∈ engine_tables jt_tree -> pt_size t <= 8 /\ pt_nv t <= 3) /\ 8 * 3 <= 24 /\ length (engine_tables jt_tree) * 8 <= 24 /\ foldr Nat.add 0 (domain_sizes jt_net) <= 24.
Proof.
  split_and!; [|vm_compute; lia..]. apply Forall_forall. apply (bool_decide_unpack _). vm_compute. exact I.
Qed.
Lemma int_session_valid : Forall (fun sq => valid_scheduler (fst sq)) int_session.
Proof. apply Forall_cons; split; [exact wild_valid|]. apply Forall_cons; split; [exact seq_valid|]. apply Forall_cons; split; [exact wild_valid|]. constructor. Qed.
(** With ints up to 7 the construction overflows: node 2 and its parents have 8 combinations. *)
Lemma int_family : NoDup [0; 1; 2] /\ (forall x, x ∈ [0; 1; 2] -> x < net_size jt_net) /\ (forall x y, x ∈ [0; 1; 2] -> y ∈ [0; 1; 2] -> x <> y -> moral jt_net x y) /\
  7 < foldr Nat.mul 1 (net_dom jt_net <$> [0; 1; 2]) /\ jt_build_i 7 rev_order jt_net jt_pts = Err Overflow.
Proof.
  split_and!.
  - apply (bool_decide_unpack _). vm_compute. exact I.
  - intros x Hx. repeat (apply elem_of_cons in Hx as [->|Hx]; [vm_compute; lia|]). by apply elem_of_nil in Hx.
  - assert (child_rel jt_net 0 2 /\ child_rel jt_net 1 2) as [H0 H1] by (split; apply jt_edge; set_solver).
    intros x y Hx Hy Hne. split; [done|]. repeat (apply elem_of_cons in Hx as [->|Hx]; [repeat (apply elem_of_cons in Hy as [->|Hy]; [by eauto 6|]); by apply elem_of_nil in Hy|]). by apply elem_of_nil in Hx.
  - vm_compute. lia.
  - vm_compute. reflexivity.
Qed.
