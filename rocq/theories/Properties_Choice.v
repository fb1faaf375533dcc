(** Choices left open by the main theorems: which clique becomes the root of the clique tree (C09),
    which node of each piece is joined to ROOT (C26), and what the factor of an observation is (C02). *)
From Verif Require Import DepthSpec GraphSpec2 LearnModel ImportanceProofs DepthProofs RootChoice DepthWitness TableProofs5 JTWitness.
Local Open Scope nat_scope.

(** ** C09 *)
(** The root is a clique from which the furthest clique is as close as possible, the first such
    clique; the tree has one level of cliques per distance and a level of separators in between. *)
Theorem C09_root_choice : forall N o pts T, net_ok N -> 0 < net_size N -> valid_order o ->
  Forall (table_of_family N) pts -> Forall (nonneg (net_dom N)) pts -> jt_build o N pts = Ok T ->
  exists cliques seps r h, jt_structure o N pts = Ok (cliques, seps) /\
    jt_levels T !! 0 = Some [r] /\ r < length cliques /\ length (jt_levels T) = 2 * h + 1 /\
    (forall k, spans (length cliques) seps k r <-> h <= k) /\
    (forall c k, c < length cliques -> spans (length cliques) seps k c -> spans (length cliques) seps k r) /\
    (forall c, c < r -> ~ spans (length cliques) seps h c).
Proof. exact root_least. Qed.
Print Assumptions C09_root_choice.
Example C09_root_choice_witness : net_ok chain_net /\ 0 < net_size chain_net /\ valid_order addr_order /\
  Forall (table_of_family chain_net) chain_pts /\ Forall (nonneg (net_dom chain_net)) chain_pts /\
  jt_build addr_order chain_net chain_pts = Ok chain_tree /\ jt_levels chain_tree !! 0 = Some [1] /\
  length (jt_levels chain_tree) = 5 /\ length (t_c (jt_backup chain_tree)) = 4.
Proof. exact (conj chain_ok (conj (Nat.lt_0_succ 4) (conj addr_order_valid (conj chain_tables (conj chain_nonneg chain_built))))). Qed.

(** ** C26 *)
(** Of the parentless nodes of a piece the one with the most children is joined to ROOT, the first
    one if there are several. *)
Theorem C26_root_choice : forall N, netinv N ->
  exists roots, find_roots N = Ok roots /\
    forall r v k m, r ∈ roots -> v < length (nt_nodes N) -> (forall x, ~ has_directed N x v) -> rtc (adj N) r v ->
      has_children N r k -> has_children N v m -> m < k \/ m = k /\ r <= v.
Proof. exact root_choice. Qed.
Print Assumptions C26_root_choice.
Example C26_root_choice_witness : netinv piece_net /\ find_roots piece_net = Ok [1] /\
  (forall x, ~ has_directed piece_net x 0) /\ rtc (adj piece_net) 1 0 /\ has_children piece_net 1 2 /\ has_children piece_net 0 1.
Proof. exact piece_case. Qed.

(** ** C02 *)
(** The factor of an observation is 1 at the observed value and 0 elsewhere. *)
Theorem C02_observation : forall dom, (forall v, 0 < dom v) -> forall nd v x, nd_dom nd = dom v ->
  TableSpec.wf dom (evidence_table nd v x) /\ pt_vars (evidence_table nd v x) = [v] /\
  forall a, valid dom a -> tval (evidence_table nd v x) a = if bool_decide (a v = x) then 1%Qc else 0%Qc.
Proof. exact observation_full. Qed.
Print Assumptions C02_observation.
(** Multiplying it in and summing the variable out is conditioning. *)
Theorem C02_observation_conditions : forall dom, (forall v, 0 < dom v) -> forall nd T v x,
  nd_dom nd = dom v -> TableSpec.wf dom T -> v ∈ pt_vars T -> x < dom v ->
  exists P S R, table_multiplication T (evidence_table nd v x) = Ok P /\ table_marginalization_one P v = Ok S /\
    table_reduction T v x = Ok R /\ pt_vars S = pt_vars R /\ forall a, valid dom a -> tval S a = tval R a.
Proof. exact observation_conditions. Qed.
Print Assumptions C02_observation_conditions.
Example C02_observation_witness : (forall v, 0 < exdom v) /\ nd_dom (new_node 2) = exdom 0 /\ TableSpec.wf exdom exT /\ 0 ∈ pt_vars exT /\ 1 < exdom 0 /\
  pt_pots (evidence_table (new_node 2) 0 1) = [0%Qc; 1%Qc].
Proof. split_and!; [exact exdom_pos|reflexivity|exact exT_wf|right; left|exact (le_n _)|reflexivity]. Qed.
