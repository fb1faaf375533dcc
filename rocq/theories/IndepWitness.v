(** A chain and a collider. *)
From Coq Require Import QArith.
From Verif Require Import IndepSpec GSquareSpec OrientSafe SampleWitness GraphWitness NetProofs2 NetProofs3 ShdTheorems IndepProofs IndepTheorems LearnProofs LearnTheorems EquivTheorems JTWitness LearnWitness LikelihoodWitness PCSpec PCWitness DSepProofs DSepWitness EquivWitness RecoverWitness TableProofs.
Local Open Scope nat_scope.

Lemma relay_separated : ~ d_connected (arcs_of relay_net) 0 2 [1].
Proof. apply (proj1 relay_oracle 0 2 [1]); [lia|lia|set_solver..|by repeat constructor|vm_compute; reflexivity]. Qed.
Lemma relay_sets x y s : x < 3 -> y < 3 -> Forall (fun v => v < 3) s -> NoDup (x :: y :: s) -> exists w, w < 3 /\ w <> x /\ w <> y /\ (s = [] \/ s = [w]).
Proof.
  intros Hx Hy Hs Hd. apply NoDup_cons in Hd as [Hxs [Hys Hd]%NoDup_cons]. apply not_elem_of_cons in Hxs as [Hxy Hxs]. destruct s as [|w s].
  - destruct (decide (0 = x \/ 0 = y)); [|exists 0; split_and!; [lia|lia|lia|by left]]. destruct (decide (1 = x \/ 1 = y)); [exists 2|exists 1]; split_and!; try lia; by left.
  - exists w. apply not_elem_of_cons in Hxs as [Hxw Hxs], Hys as [Hyw Hys]. apply Forall_cons in Hs as [Hw Hs]. split_and!; [done|done|done|]. right. destruct s as [|u s]; [done|]. exfalso. apply Forall_cons in Hs as [Hu _]. apply NoDup_cons in Hd as [Hd _]. apply not_elem_of_cons in Hxs as [? _], Hys as [? _], Hd as [? _]. lia.
Qed.
Lemma relay_faithful : faithful relay_net relay_tables.
Proof.
  intros x y s Hx Hy Hs Hd Hc HI. change (net_size relay_net) with 3 in *. destruct (relay_sets x y s Hx Hy Hs Hd) as (w & Hw & Hwx & Hwy & Hsw). apply NoDup_cons in Hd as [Hd _]. apply not_elem_of_cons in Hd as [Hd _].
  assert (valid (net_dom relay_net) (fun _ => 0)) as Hv by (intros v; apply (LearnProofs.dpos relay_net relay_inv relay_doms)). specialize (HI (fun _ => 0) Hv). cbn [app] in HI. apply (proj2 (bool_decide_eq_true _)) in HI.
  destruct x as [|[|[|x]]]; [..|lia]; (destruct y as [|[|[|y]]]; [..|lia]); try done; (destruct w as [|[|[|w]]]; [..|lia]); try done; destruct Hsw as [->| ->]; try (vm_compute in HI; discriminate HI).
  - by apply relay_separated.
  - apply relay_separated. by apply DSepProofs.d_connected_sym.
Qed.
Lemma relay_tree : exists T, jt_build addr_order relay_net relay_tables = Ok T.
Proof. eexists. vm_compute. reflexivity. Qed.
Lemma relay_blanket : (forall p, p ∈ parents_of relay_net 0 -> p ∈ [1]) /\ (forall c, c < net_size relay_net -> 0 ∈ parents_of relay_net c -> c ∈ [1] /\ forall p, p ∈ parents_of relay_net c -> p = 0 \/ p ∈ [1]).
Proof.
  split; [intros p Hp; by apply elem_of_nil in Hp|]. intros [|[|[|c]]] Hc H; [by apply elem_of_nil in H| | |vm_compute in Hc; lia].
  - split; [left|]. intros p ->%elem_of_list_singleton. by left.
  - apply elem_of_list_singleton in H. done.
Qed.
Lemma relay_learned_posterior : evidence_weight relay_net relay_tables [(2, 1); (1, 0)] = frac 1 6 /\ posterior relay_net relay_tables [(1, 0)] 0 0 = frac 2 3 /\ posterior relay_net relay_tables [(2, 1); (1, 0)] 0 0 = frac 2 3 /\
  posterior relay_net relay_tables [] 0 0 = frac 1 2 /\ posterior relay_net relay_tables [(2, 0)] 0 0 = frac 5 9.
Proof. split_and!; apply (bool_decide_unpack _); vm_compute; exact I. Qed.
Lemma relay_last : (forall p, p ∈ parents_of relay_net 2 -> p ∈ [1; 0]) /\ (forall d, d ∈ [1; 0] -> ~ descendant (arcs_of relay_net) 2 d) /\ evidence_weight relay_net relay_tables [(1, 0); (0, 1)] = frac 1 6 /\
  posterior relay_net relay_tables [(1, 0); (0, 1)] 2 0 = frac 6 9.
Proof.
  split_and!; [by intros p ->%elem_of_list_singleton; left| |apply (bool_decide_unpack _); vm_compute; exact I..].
  assert (forall v, arcs_of relay_net 2 v = true -> False) as H. { intros v Hv. destruct (proj1 (ShdTheorems.fresh_dag_dag relay_net relay_inv) 2 v Hv) as [_ Hb]. destruct v as [|[|[|v]]]; [vm_compute in Hv; discriminate..|vm_compute in Hb; lia]. }
  intros d _ Hd. inversion Hd; subst; eapply H; eassumption.
Qed.

(** ** 0 -> 2 <- 1 *)
Definition meet_net : network := Eval vm_compute in get (new_network []) (run (new_network [2;2;2]) [AddD 0 2; AddD 1 2]).
Lemma meet_inv : netinv meet_net.
Proof. eapply (proj1 (reach [2;2;2] [AddD 0 2; AddD 1 2] meet_net _ _ _)). Unshelve. all: vm_compute; reflexivity. Qed.
Definition rows16 : columns := Eval vm_compute in
  let rs := rows_of [(3, [0;0;0]); (1, [0;0;1]); (3, [0;1;0]); (1, [0;1;1]); (3, [1;0;0]); (1, [1;0;1]); (1, [1;1;0]); (3, [1;1;1])] in mkCols [column rs 0; column rs 1; column rs 2] (length rs) 3.
(** 0 says nothing about 1, unless 2 is known. *)
Lemma meet_posterior : exists ts, learn_params meet_net rows16 0 (fun _ _ => 0) [] = Ok ts /\ posterior meet_net ts [] 0 0 = frac 1 2 /\ posterior meet_net ts [(1, 0)] 0 0 = frac 1 2 /\
  posterior meet_net ts [(2, 0)] 0 0 = frac 3 5 /\ posterior meet_net ts [(1, 0); (2, 0)] 0 0 = frac 1 2.
Proof. eexists. split; [vm_compute; reflexivity|]. split_and!; apply (bool_decide_unpack _); vm_compute; exact I. Qed.
