(** Specification of the classification job. *)
From Verif Require Export ClassModel.
From Verif Require Export DataSpec LearnSpec.
Local Open Scope nat_scope.

(** The recorded parents and children of the nodes agree and form no cycle. Unlike [netinv] this says nothing about the list
    of edges. *)
Record family_ok (N : network) : Prop := {
  fo_children : children_ok N;
  fo_parents : forall x nd, nt_nodes N !! x = Some nd -> StronglySorted lt (nd_parents nd) /\ nd_pvec nd ≡ₚ nd_parents nd;
  fo_agree : forall x y, child_rel N x y <-> parent_rel N x y;
  fo_acyclic : acyclic (parent_rel N) }.

(** ** The data *)
(** The value numbers in [D] stand for the cells of the rows. *)
Definition coded_as (dicts : list (list str)) (rows : list (list str)) (D : columns) : Prop :=
  co_rows D = length rows /\ co_vars D = length dicts /\
  forall i j cells c, rows !! j = Some cells -> cells !! i = Some c -> exists dict v, dicts !! i = Some dict /\ dict !! v = Some c /\ entry (co_cols D) j i = Some v.
(** The evidence of a test row: its nonempty cells with a known string, except the first cell. *)
Definition evidence_cells (dicts : list (list str)) (cells : list str) (E : list (nat * nat)) : Prop :=
  StronglySorted lt (fst <$> E) /\
  forall i v, (i, v) ∈ E <-> i <> 0 /\ exists (c : str) dict, cells !! i = Some c /\ c <> [] /\ dicts !! i = Some dict /\ dict !! v = Some c.
(** Every test row has a class that occurs in the training data. *)
Definition class_known (rows trows : list (list str)) : Prop :=
  forall cells, cells ∈ trows -> exists c : str, cells !! 0 = Some c /\ c <> [] /\ c ∈ column 0 rows.
(** Label [l] is the class of the row. *)
Definition is_class (dicts : list (list str)) (cells : list str) (l : nat) : Prop := (d ← dicts !! 0; d !! l) = cells !! 0.
Global Instance is_class_dec dicts cells l : Decision (is_class dicts cells l).
Proof. unfold is_class. apply _. Defined.

(** ** The classifier *)
(** The learned distribution for the structure [N] (with ROOT, its last node): relative frequencies with add-one smoothing;
    [flips] are the random values of ROOT that were used for the table of a variable. *)
Definition learned_joint (N : network) (D : columns) (flips : nat -> nat -> nat) (a : asg) : Qc :=
  (qprod (seq 0 (co_vars D)) (fun x => smoothed N (with_column D (flips x <$> seq 0 (co_rows D))) (co_rows D) 1 x (parents_of N x) a) * root_half (co_rows D) 1)%Qc.
(** The sum of the joint over all assignments that agree with the evidence and with [fixed]. *)
Definition learned_weight (N : network) (D : columns) (flips : nat -> nat -> nat) (E fixed : list (nat * nat)) : Qc :=
  sumv (net_dom N) (filter (fun v => v ∉ fst <$> fixed ++ E) (seq 0 (net_size N))) (fun a => learned_joint N D flips (set_evidence E a)) (set_evidence fixed (fun _ => 0)).
Definition learned_posterior (N : network) (D : columns) (flips : nat -> nat -> nat) (E : list (nat * nat)) (q x : nat) : Qc :=
  (learned_weight N D flips E [(q, x)] / learned_weight N D flips E [])%Qc.
(** The first of the most probable values of the class variable. *)
Definition most_probable (N : network) (D : columns) (flips : nat -> nat -> nat) (E : list (nat * nat)) (l : nat) : Prop :=
  l < net_dom N 0 /\
  (forall x, x < net_dom N 0 -> (learned_posterior N D flips E 0 x <= learned_posterior N D flips E 0 l)%Qc) /\
  (forall x, x < l -> (learned_posterior N D flips E 0 x < learned_posterior N D flips E 0 l)%Qc).
(** The fraction of the rows whose label is their class. *)
Definition correct_fraction (dicts : list (list str)) (trows : list (list str)) (labels : list nat) : Qc :=
  (LearnModel.qn (length (filter (fun rl => is_class dicts (fst rl) (snd rl)) (zip trows labels))) / LearnModel.qn (length trows))%Qc.
