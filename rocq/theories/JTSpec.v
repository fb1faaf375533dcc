(** Specification vocabulary for the junction tree: connectedness, which tables belong to a
    network, and the posterior by summing the product of all tables. *)
From Verif Require Export Sums TableSpec GraphSpec TreeSpec BeliefSpec.
From Verif Require Import JTModel.
Local Open Scope nat_scope.

Definition net_size (N : network) : nat := length (nt_nodes N).
(** The number of values of variable [v]. *)
Definition dom_of (doms : list nat) (v : nat) : nat := default 1 (doms !! v).
Definition net_dom (N : network) : nat -> nat := dom_of (domain_sizes N).

(** The graph is in one piece when edge directions are ignored. *)
Definition weakly_connected (N : network) : Prop :=
  forall x y, x < net_size N -> y < net_size N -> rtc (fun a b => child_rel N a b \/ child_rel N b a) x y.
(** Two different nodes are joined in the moral graph: by an edge or through a common child. *)
Definition moral (N : network) (x y : nat) : Prop :=
  x <> y /\ (child_rel N x y \/ child_rel N y x \/ exists c, child_rel N x c /\ child_rel N y c).

(** A network on which the tree can be built: a DAG with recorded children in range, and at
    least one value per node. *)
Record net_ok (N : network) : Prop := {
  no_children : children_ok N;
  no_acyclic : acyclic (child_rel N);
  no_doms : Forall (fun d => 0 < d) (domain_sizes N) }.
(** The tables handed over with the network: well formed, each about some node and its parents. *)
Definition table_of_family (N : network) (t : ptable) : Prop :=
  TableSpec.wf (net_dom N) t /\ pt_vars t <> [] /\
  exists x, x < net_size N /\ forall v, v ∈ pt_vars t -> v = x \/ child_rel N v x.
Definition nonneg (dom : nat -> nat) (t : ptable) : Prop := forall a, valid dom a -> (0 <= tval t a)%Qc.

(** The joint weight of an assignment: the product of all tables. *)
Definition joint (pts : list ptable) (a : asg) : Qc := qprod pts (fun t => tval t a).
(** Evidence assigns values to variables. *)
Definition set_evidence (E : list (nat * nat)) (a : asg) : asg := foldr (fun e a => upd a (fst e) (snd e)) a E.
(** The weight of "variable q has value x, and the evidence": the sum of the joint weight over all
    assignments of the other variables. *)
Definition weight (N : network) (pts : list ptable) (E : list (nat * nat)) (q x : nat) : Qc :=
  sumv (net_dom N) (filter (fun v => v ∉ (q :: (fst <$> E))) (seq 0 (net_size N)))
    (fun a => joint pts (set_evidence E a)) (upd (fun _ => 0) q x).
(** The weight of the evidence. *)
Definition evidence_weight (N : network) (pts : list ptable) (E : list (nat * nat)) : Qc :=
  sumv (net_dom N) (filter (fun v => v ∉ (fst <$> E)) (seq 0 (net_size N)))
    (fun a => joint pts (set_evidence E a)) (fun _ => 0).
(** The posterior probability that variable [q] has value [x], given the evidence. *)
Definition posterior (N : network) (pts : list ptable) (E : list (nat * nat)) (q x : nat) : Qc :=
  (weight N pts E q x / evidence_weight N pts E)%Qc.
(** Every piece of evidence about a node of the network names one of its values. *)
Definition evidence_in_range (N : network) (E : list (nat * nat)) : Prop :=
  forall v x, (v, x) ∈ E -> v < net_size N -> x < net_dom N v.
(** The answer for all nodes: a block of posterior probabilities per node without evidence, and
    one entry -1 per node with evidence; the rest of the array is -1. *)
Definition minus_one : Qc := Q2Qc (QArith_base.inject_Z (-1)).
Definition answer_block (N : network) (pts : list ptable) (E : list (nat * nat)) (i : nat) : list Qc :=
  if bool_decide (i ∈ fst <$> E) then [minus_one] else posterior N pts E i <$> seq 0 (net_dom N i).
Definition answer_all (N : network) (pts : list ptable) (E : list (nat * nat)) : list Qc :=
  let bs := seq 0 (net_size N) ≫= answer_block N pts E in
  bs ++ replicate (sum_list (domain_sizes N) - length bs) minus_one.

(** What a junction tree of the network is. *)
Record clique_tree_of (N : network) (cliques : list clq) (seps : list sepr) : Prop := {
  (* the separators join the cliques to a tree with running intersection *)
  ct_tree : junction_tree (fun i => default [] ((cq_vars <$> cliques) !! i))
              ((fun s => (sp_a s, sp_b s)) <$> seps) (seq 0 (length cliques));
  (* only variables of the network, each once *)
  ct_vars : forall c, c ∈ cliques -> NoDup (cq_vars c) /\ forall v, v ∈ cq_vars c -> v < net_size N;
  (* each node lies in a clique together with its parents *)
  ct_family : forall x, x < net_size N -> exists c, c ∈ cliques /\ x ∈ cq_vars c /\ forall p, child_rel N p x -> p ∈ cq_vars c;
  (* no clique lies in another *)
  ct_maximal : forall i j c d, cliques !! i = Some c -> cliques !! j = Some d -> (forall v, v ∈ cq_vars c -> v ∈ cq_vars d) -> i = j;
  (* separators are intersections *)
  ct_separator : forall s, s ∈ seps -> exists c d, cliques !! sp_a s = Some c /\ cliques !! sp_b s = Some d /\
     forall v, v ∈ sp_vars s <-> v ∈ cq_vars c /\ v ∈ cq_vars d }.
(** The label reported for [q]: its first value of largest posterior probability. *)
Definition best_label (N : network) (pts : list ptable) (E : list (nat * nat)) (q l : nat) : Prop :=
  l < net_dom N q /\
  (forall x, x < net_dom N q -> (posterior N pts E q x <= posterior N pts E q l)%Qc) /\
  (forall x, x < l -> (posterior N pts E q x < posterior N pts E q l)%Qc).
