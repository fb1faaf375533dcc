(** Concrete cases: a chain of five variables; a graph with two parentless nodes in one piece. *)
From Verif Require Import DepthSpec GraphSpec2 GraphWitness JTWitness RootProofs.
Local Open Scope nat_scope.

(** 0 -> 1 -> 2 -> 3 -> 4. *)
Definition chain_net : network := Eval vm_compute in get (new_network []) (run (new_network [2;2;2;2;2]) [AddD 0 1; AddD 1 2; AddD 2 3; AddD 3 4]).
Definition chain_table (v : nat) : ptable := mk_table [v; v - 1] [2;2] [frac 1 4; frac 1 3; frac 3 4; frac 2 3].
Definition chain_pts : list ptable := [mk_table [0] [2] [frac 1 4; frac 3 4]; chain_table 1; chain_table 2; chain_table 3; chain_table 4].
Definition chain_tree : jtree := Eval vm_compute in get (mkTree [] [] (mkMarks [] [] [] []) (mkTabs [] [])) (jt_build addr_order chain_net chain_pts).

Lemma chain_edge x y : child_rel chain_net x y <-> (x, y) ∈ [(0, 1); (1, 2); (2, 3); (3, 4)].
Proof.
  split.
  - intros (nd & Hnd & Hy). destruct x as [|[|[|[|[|x]]]]]; cbn in Hnd; try done; injection Hnd as <-; cbn in Hy; try (apply elem_of_list_singleton in Hy as ->); try by apply elem_of_nil in Hy.
    all: set_solver.
  - intros H. repeat (apply elem_of_cons in H as [[= -> ->]|H]); [..|by apply elem_of_nil in H]; eexists; (split; [reflexivity|]); cbn; left.
Qed.
Lemma chain_ok : net_ok chain_net.
Proof.
  split.
  - apply ni_children. eapply (proj1 (reach [2;2;2;2;2] [AddD 0 1; AddD 1 2; AddD 2 3; AddD 3 4] chain_net _ _ _)). Unshelve. all: vm_compute; reflexivity.
  - assert (forall x y, tc (child_rel chain_net) x y -> x < y) as H.
    { induction 1 as [x y Hxy|x y z Hxy _ IH]; apply chain_edge in Hxy; repeat (apply elem_of_cons in Hxy as [[= -> ->]|Hxy]; [lia|]); by apply elem_of_nil in Hxy. }
    intros x Hx. specialize (H x x Hx). lia.
  - vm_compute. repeat constructor.
Qed.
Lemma chain_tables : Forall (table_of_family chain_net) chain_pts.
Proof.
  repeat constructor.
  all: try (apply (bool_decide_unpack _); vm_compute; exact I); try done.
  - exists 0. split; [vm_compute; lia|]. intros v ->%elem_of_list_singleton. by left.
  - exists 1. split; [vm_compute; lia|]. intros v Hv. repeat (apply elem_of_cons in Hv as [->|Hv]); [by left|right; apply chain_edge; set_solver|by apply elem_of_nil in Hv].
  - exists 2. split; [vm_compute; lia|]. intros v Hv. repeat (apply elem_of_cons in Hv as [->|Hv]); [by left|right; apply chain_edge; set_solver|by apply elem_of_nil in Hv].
  - exists 3. split; [vm_compute; lia|]. intros v Hv. repeat (apply elem_of_cons in Hv as [->|Hv]); [by left|right; apply chain_edge; set_solver|by apply elem_of_nil in Hv].
  - exists 4. split; [vm_compute; lia|]. intros v Hv. repeat (apply elem_of_cons in Hv as [->|Hv]); [by left|right; apply chain_edge; set_solver|by apply elem_of_nil in Hv].
Qed.
Lemma chain_nonneg : Forall (nonneg (net_dom chain_net)) chain_pts.
Proof. apply Forall_forall. intros t Ht. apply nonneg_pots. repeat (apply elem_of_cons in Ht as [->|Ht]; [apply (bool_decide_unpack _); vm_compute; exact I|]). by apply elem_of_nil in Ht. Qed.
(** Four cliques; the root is not the first one. *)
Lemma chain_built : jt_build addr_order chain_net chain_pts = Ok chain_tree /\ jt_levels chain_tree !! 0 = Some [1] /\ length (jt_levels chain_tree) = 5 /\ length (t_c (jt_backup chain_tree)) = 4.
Proof. split_and!; vm_compute; reflexivity. Qed.

(** 0 -> 2 <- 1 -> 3. *)
Definition piece_net : network := Eval vm_compute in get (new_network []) (run (new_network [2;2;2;2]) [AddD 0 2; AddD 1 2; AddD 1 3]).
Lemma piece_inv : netinv piece_net.
Proof. eapply (proj1 (reach [2;2;2;2] [AddD 0 2; AddD 1 2; AddD 1 3] piece_net _ _ _)). Unshelve. all: vm_compute; reflexivity. Qed.
Lemma piece_children : has_children piece_net 0 1 /\ has_children piece_net 1 2.
Proof.
  split; [exists [2]|exists [2;3]]; (split_and!; [apply (bool_decide_unpack _); vm_compute; exact I| |done]); intros c;
    rewrite <-(netinv_child piece_net _ c piece_inv); unfold child_rel; cbn; naive_solver.
Qed.
Lemma piece_case : netinv piece_net /\ find_roots piece_net = Ok [1] /\
  (forall x, ~ has_directed piece_net x 0) /\ rtc (adj piece_net) 1 0 /\ has_children piece_net 1 2 /\ has_children piece_net 0 1.
Proof.
  split_and!; [exact piece_inv|vm_compute; reflexivity| | |apply piece_children|apply piece_children].
  - intros x Hx. rewrite <-(netinv_parent piece_net x 0 piece_inv) in Hx. destruct Hx as (nd & Hnd & Hin). cbn in Hnd. injection Hnd as <-. by apply elem_of_nil in Hin.
  - apply rtc_l with 2; [left|apply rtc_once; right]; rewrite <-(netinv_child piece_net _ 2 piece_inv); eexists; (split; [reflexivity|]); cbn; left.
Qed.
