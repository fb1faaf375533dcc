(** Specification vocabulary for counting and learning. *)
From Verif Require Export LearnModel JTSpec.
Local Open Scope nat_scope.

(** ** Histories of counts: value, parent configuration, amount *)
Notation history := (list (nat * config * Z)).
Definition sumz {A} (l : list A) (f : A -> Z) : Z := foldr (fun x s => (f x + s)%Z) 0%Z l.
(** The amount counted for value [x] under configuration [u], and under [u] for all values. *)
Definition counted (h : history) (x : nat) (u : config) : Z := sumz (filter (fun e => e.1.1 = x /\ e.1.2 = u) h) snd.
Definition counted_under (h : history) (u : config) : Z := sumz (filter (fun e => e.1.2 = u) h) snd.
Definition add_counts (nd : node) (h : history) (c : counters) : counters :=
  foldl (fun c e => add_count nd e.1.1 e.1.2 e.2 c) c h.

(** ** Data sets *)
(** Column [v] holds a value of node [v] for each row. *)
Definition complete (N : network) (D : columns) : Prop :=
  length (co_cols D) = co_vars D /\ co_vars D <= net_size N /\
  forall v col, co_cols D !! v = Some col -> length col = co_rows D /\ Forall (fun x => x < net_dom N v) col.
(** The value of variable [v] in row [j]. *)
Definition entry (cols : list (list nat)) (j v : nat) : option nat := cols !! v ≫= (.!! j).
(** Row [j] agrees with assignment [a] on the variables [vs]. *)
Definition agrees (cols : list (list nat)) (vs : list nat) (a : asg) (j : nat) : Prop := Forall (fun v => entry cols j v = Some (a v)) vs.
Global Instance agrees_dec cols vs a j : Decision (agrees cols vs a j).
Proof. unfold agrees. apply _. Defined.
(** The number of rows that agree. *)
Definition occurrences (cols : list (list nat)) (rows : nat) (vs : list nat) (a : asg) : nat :=
  length (filter (agrees cols vs a) (seq 0 rows)).
(** The smoothed relative frequency of [x]'s value given its parents' values. *)
Definition smoothed (N : network) (cols : list (list nat)) (rows : nat) (alpha : Z) (x : nat) (ps : list nat) (a : asg) : Qc :=
  ((qn (occurrences cols rows (x :: ps) a) + qz alpha) / (qn (occurrences cols rows ps a) + qz alpha * qn (net_dom N x)))%Qc.
(** Table [t] is the conditional distribution [f] of [x] given [ps]. *)
Definition is_cpt (N : network) (x : nat) (ps : list nat) (f : asg -> Qc) (t : ptable) : Prop :=
  TableSpec.wf (net_dom N) t /\ pt_vars t = x :: ps /\ forall a, valid (net_dom N) a -> tval t a = f a.
(** The data with a column for ROOT appended. *)
Definition with_column (D : columns) (col : list nat) : list (list nat) := co_cols D ++ [col].
(** A conditional probability table with positive entries whose columns sum to one. *)
Definition cpt_ok (N : network) (x : nat) (ps : list nat) (f : asg -> Qc) (t : ptable) : Prop :=
  is_cpt N x ps f t /\ (forall a, valid (net_dom N) a -> (0 < tval t a)%Qc) /\
  forall a, valid (net_dom N) a -> qsum (seq 0 (net_dom N x)) (fun y => tval t (upd a x y)) = 1%Qc.
(** Every node has at least one value. *)
Definition doms_positive (N : network) : Prop := Forall (fun d => 0 < d) (domain_sizes N).
(** The probability both values of ROOT get. *)
Definition root_half (rows : nat) (alpha : Z) : Qc := ((qn (rows / 2) + qz alpha) / (qn rows + qz alpha * qn 2))%Qc.
Definition parents_of (N : network) (x : nat) : list nat := match nt_nodes N !! x with Some nd => nd_parents nd | None => [] end.
