(** A collider and a chain. *)
From Coq Require Import Field QArith.
From Verif Require Import ExtendSpec RecoverSpec IndepSpec DSepTheorems OrientSafe SampleSpec EssentialSpec JTWitness LearnWitness SampleWitness GraphWitness NetProofs2 NetProofs3 LikelihoodProofs ShdTheorems LikelihoodWitness EquivTheorems EquivWitness CoverProofs PCSpec PCWitness DSepProofs DSepWitness BuildProofs LearnProofs RecoverWitness IndepWitness TableProofs.
Local Open Scope nat_scope.

(** ** 0 -> 2 <- 1: no edge is reversible *)
Lemma meet_doms : doms_positive meet_net.
Proof. apply (bool_decide_unpack _); vm_compute; exact I. Qed.
Definition meet_tables : list ptable := Eval vm_compute in match learn_params meet_net rows16 0 (fun _ _ => 0) [] with Ok ts => ts | _ => [] end.
Lemma rows16_complete : complete meet_net rows16 /\ co_vars rows16 = net_size meet_net.
Proof. split; [|reflexivity]. apply complete_check; [reflexivity|vm_compute; lia|vm_compute; reflexivity]. Qed.
Lemma meet_learn : learn_params meet_net rows16 0 (fun _ _ => 0) [] = Ok meet_tables.
Proof. vm_compute. reflexivity. Qed.
Lemma meet_distributions : distributions meet_net meet_tables.
Proof. eapply (learned_vars rows16 meet_net _ _ meet_inv meet_doms); [apply rows16_complete..|exact meet_learn]. Qed.
Lemma meet_representative : representative meet_net meet_tables rows16.
Proof. apply representative_check; [exact meet_inv|exact meet_doms|exact meet_distributions|reflexivity|vm_compute; lia|vm_compute; reflexivity]. Qed.
Lemma meet_positive a : valid (net_dom meet_net) a -> joint meet_tables a <> 0%Qc.
Proof. apply (positive_check meet_net); [exact meet_inv|exact meet_doms|exact meet_distributions|reflexivity|vm_compute; reflexivity]. Qed.
Definition meet_ind := dsep_of 3 (arcs_of meet_net).
Lemma meet_bounds x y : (x, y) ∈ [(0, 2); (1, 2)] -> x < y /\ y < 3.
Proof. intros [[= -> ->]|[[= -> ->]|[]%elem_of_nil]%elem_of_cons]%elem_of_cons; lia. Qed.
Lemma meet_oracle : dsep_oracle meet_ind 3 (arcs_of meet_net) /\ decides (lone_test meet_ind) meet_ind 3 1 /\ (forall v, length (parents_of meet_net v) < 3) /\
  (exists x y, x < net_size meet_net /\ y < net_size meet_net /\ x <> y /\ ~ adjacent (arcs_of meet_net) x y).
Proof.
  split; [apply (dsep_of_oracle 3 [(0, 2); (1, 2)] meet_bounds)|]. split; [apply lone_decides|]. split; [intros [|[|[|v]]]; cbv; lia|]. exists 0, 1. split_and!; [vm_compute; lia..|done|]. intros [H|H]; vm_compute in H; done.
Qed.
Lemma meet_separated : ~ d_connected (arcs_of meet_net) 0 1 [].
Proof. apply (proj1 meet_oracle 0 1 []); [lia|lia|set_solver..|by repeat constructor|vm_compute; reflexivity]. Qed.
Lemma meet_faithful : faithful meet_net meet_tables.
Proof.
  intros x y s Hx Hy Hs Hd Hc HI. change (net_size meet_net) with 3 in *. destruct (relay_sets x y s Hx Hy Hs Hd) as (w & Hw & Hwx & Hwy & Hsw). apply NoDup_cons in Hd as [Hd _]. apply not_elem_of_cons in Hd as [Hd _].
  assert (valid (net_dom meet_net) (fun v => match v with 0 | 1 | 2 => 1 | _ => 0 end)) as Hv. { intros v. destruct v as [|[|[|v]]]; vm_compute; try lia. } specialize (HI (fun v => match v with 0 | 1 | 2 => 1 | _ => 0 end) Hv). cbn [app] in HI. apply (proj2 (bool_decide_eq_true _)) in HI.
  destruct x as [|[|[|x]]]; [..|lia]; (destruct y as [|[|[|y]]]; [..|lia]); try done; (destruct w as [|[|[|w]]]; [..|lia]); try done; destruct Hsw as [->| ->]; try (vm_compute in HI; discriminate HI).
  - by apply meet_separated.
  - apply meet_separated. by apply DSepProofs.d_connected_sym.
Qed.
Lemma meet_arcs x y : arcs_of meet_net x y = true <-> (x, y) ∈ [(0, 2); (1, 2)].
Proof. unfold arcs_of. rewrite bool_decide_eq_true. match goal with |- context [directed_pairs ?l] => let r := eval vm_compute in (directed_pairs l) in change (directed_pairs l) with r end. done. Qed.
Lemma meet_compelled h : dag 3 h -> markov_equivalent (arcs_of meet_net) h -> h 0 2 = true /\ h 1 2 = true.
Proof. intros _ Heq. assert (v_structure (arcs_of meet_net) 0 2 1) as Hv. { split_and!; [split; vm_compute; reflexivity|done|]. intros [H|H]; vm_compute in H; done. } apply Heq in Hv as [Hv _]. exact Hv. Qed.
Lemma meet_cliques : reversible_cliques 3 (arcs_of meet_net).
Proof.
  intros x y z [(h & Hh & Heq & Hxy) (h' & Hh' & Heq' & Hyx)] _ _. exfalso. assert (adjacent (arcs_of meet_net) x y) as Ha by (apply Heq; by left). destruct (dag_rank 3 h Hh) as (rk & Hrk), (dag_rank 3 h' Hh') as (rk' & Hrk').
  destruct (meet_compelled h Hh Heq) as [H1%Hrk H2%Hrk], (meet_compelled h' Hh' Heq') as [H3%Hrk' H4%Hrk']. apply Hrk in Hxy. apply Hrk' in Hyx.
  destruct Ha as [Ha|Ha]; apply meet_arcs in Ha as [[= -> ->]|[[= -> ->]|[]%elem_of_nil]%elem_of_cons]%elem_of_cons; lia.
Qed.
Lemma meet_connected : weakly_connected meet_net.
Proof.
  intros x y Hx Hy. assert (forall z, z < 3 -> rtc (fun a b => child_rel meet_net a b \/ child_rel meet_net b a) z 2 /\ rtc (fun a b => child_rel meet_net a b \/ child_rel meet_net b a) 2 z) as H.
  { intros z Hz. assert (child_rel meet_net 0 2) as H02 by (eexists; split; [reflexivity|vm_compute; by left]). assert (child_rel meet_net 1 2) as H12 by (eexists; split; [reflexivity|vm_compute; by left]).
    destruct z as [|[|[|z]]]; [..|lia]; (split; [|]); try apply rtc_refl; apply rtc_once; tauto. }
  etransitivity; [apply H, Hx|apply H, Hy].
Qed.

(** ** 0 -> 1 and a node apart: the edge is reversible *)
Definition lone_edge : digraph := graph_of [(0, 1)].
Definition edge_lone : digraph := graph_of [(1, 0)].
Lemma lone_bounds x y : (x, y) ∈ [(0, 1)] -> x < y /\ y < 3.
Proof. intros [[= -> ->]|[]%elem_of_nil]%elem_of_cons; lia. Qed.
Lemma lone_arcs x y : lone_edge x y = true <-> x = 0 /\ y = 1.
Proof. unfold lone_edge, graph_of. rewrite bool_decide_eq_true, elem_of_list_singleton. split; [by intros [= -> ->]|by intros [-> ->]]. Qed.
Lemma enol_arcs x y : edge_lone x y = true <-> x = 1 /\ y = 0.
Proof. unfold edge_lone, graph_of. rewrite bool_decide_eq_true, elem_of_list_singleton. split; [by intros [= -> ->]|by intros [-> ->]]. Qed.
Lemma lone_equivalent : markov_equivalent lone_edge edge_lone.
Proof.
  split; [intros x y; unfold adjacent; rewrite !lone_arcs, !enol_arcs; tauto|]. intros x y z. split; intros (M & H3 & _); destruct M as [M1 M2]; exfalso; [apply lone_arcs in M1, M2|apply enol_arcs in M1, M2]; lia.
Qed.
Lemma lone_cliques : dag 3 lone_edge /\ reversible 3 lone_edge 0 1 /\ reversible_cliques 3 lone_edge /\ dsep_oracle (dsep_of 3 lone_edge) 3 lone_edge /\ exists x y, x < 3 /\ y < 3 /\ x <> y /\ ~ adjacent lone_edge x y.
Proof.
  assert (dag 3 lone_edge) as Hd by apply graph_dag, lone_bounds. split; [done|]. split_and!.
  - split; [exists lone_edge; split_and!; [done|by split|reflexivity]|]. exists edge_lone. split_and!; [|exact lone_equivalent|reflexivity]. split; [intros x y [-> ->]%enol_arcs; lia|].
    exists [2; 1; 0]. split; [apply (bool_decide_unpack _); vm_compute; exact I|]. intros i j x y Hi Hj [-> ->]%enol_arcs. destruct i as [|[|[|i]]]; try done; destruct j as [|[|[|j]]]; try done; lia.
  - intros x y z [(h & _ & Heq & Hxy) _] [(h' & _ & Heq' & Hzy) _] Hne. exfalso. assert (adjacent lone_edge x y) as [H1|H1] by (apply Heq; by left); assert (adjacent lone_edge z y) as [H2|H2] by (apply Heq'; by left); rewrite lone_arcs in *; lia.
  - apply dsep_of_oracle, lone_bounds.
  - exists 0, 2. split_and!; [lia..|]. intros [H|H]; apply lone_arcs in H; lia.
Qed.

(** ** 0 -> 1 -> 2: both edges are reversible *)
Lemma relay_reversible : reversible 3 (arcs_of relay_net) 0 1 /\ reversible 3 (arcs_of relay_net) 2 1 /\ ~ adjacent (arcs_of relay_net) 0 2.
Proof.
  assert (dag 3 (arcs_of relay_net)) as H1 by (apply (fresh_dag_dag relay_net relay_inv)). assert (dag 3 (arcs_of yaler_net)) as H2 by (apply (fresh_dag_dag yaler_net yaler_inv)). assert (markov_equivalent (arcs_of relay_net) (arcs_of relay_net)) as Hr by (by split).
  split_and!; [split; [exists (arcs_of relay_net)|exists (arcs_of yaler_net)]|split; [exists (arcs_of yaler_net)|exists (arcs_of relay_net)]|intros [H|H]; vm_compute in H; done]; split_and!; try done; exact relay_equivalent.
Qed.
Lemma relay_cliques : ~ reversible_cliques 3 (arcs_of relay_net).
Proof. intros H. destruct relay_reversible as (H1 & H2 & H3). apply H3. by apply (H 0 1 2). Qed.
