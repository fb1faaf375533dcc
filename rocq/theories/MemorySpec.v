(** What the theorems on the lifetime of objects say: the classes of the objects that are left at the end of
    a job, and which arguments stand for a run of the program. *)
From Verif Require Import MemoryModel.

(** The class of an object, without its address and fields. *)
Inductive kind :=
| KInts | KPointers | KCopies | KTimer | KDataset | KNode | KNetwork | KLearner | KParams | KTest
| KCounts2 | KCounts3 | KGroup | KChoices | KClique | KSeparator | KTree | KEngine | KSamples.
Definition kind_of (o : object) : kind :=
  match o with
  | OInts => KInts | OPointers _ => KPointers | OCopies => KCopies | OTimer => KTimer | ODataset _ _ _ _ => KDataset
  | ONode => KNode | ONetwork _ _ => KNetwork | OLearner _ => KLearner | OParams _ => KParams | OTest _ => KTest
  | OCounts2 _ => KCounts2 | OCounts3 _ => KCounts3 | OGroup _ => KGroup | OChoices => KChoices | OClique _ => KClique
  | OSeparator _ _ => KSeparator | OTree _ _ _ => KTree | OEngine _ _ _ _ => KEngine | OSamples _ => KSamples
  end.
Definition kinds (m : list (nat * object)) : list kind := (fun lo => kind_of (snd lo)) <$> m.

(** Before a job no object exists. *)
Definition nothing : heap := mkHeap 0 [] [].
(** A job ends well if it ends with exactly the given objects left. The only other outcome is that the list of
    answers given as argument is not the list of a whole search, so that it does not stand for a run. In particular
    no object is used or deleted after it was deleted, and no null pointer or pointer never written is used. *)
Definition leaves (job : prog unit) (left_over : heap -> list kind) : Prop :=
  match job nothing with
  | Done _ h => kinds (h_live h) ≡ₚ left_over h
  | Fault f => f = Unfinished
  end.
(** The objects left by one run. *)
Definition left_by (job : prog unit) : option (list kind) := match job nothing with Done _ h => Some (kinds (h_live h)) | Fault _ => None end.

(** A test that finds no degree of freedom forgets its table. *)
Definition lost (t : table_kind * bool) : list kind :=
  match t with
  | (TwoWay, true) => [KCounts2; KInts; KInts; KInts]
  | (ThreeWay false, true) => [KCounts3; KInts; KInts; KInts; KInts]
  | (ThreeWay true, true) => [KCounts3; KInts; KInts; KInts; KInts; KInts]
  | (Grouped _, _) | (_, false) => []
  end.
Definition lost_tables (h : heap) : list kind := h_tests h ≫= lost.

(** Edges between existing nodes. *)
Definition below_all (n : nat) (l : list (nat * nat)) : Prop := Forall (fun ab => fst ab < n /\ snd ab < n) l.
Definition proper (vars : nat) (r : learning) : Prop :=
  below_all vars (r_edges r) /\ below_all vars (r_added r) /\ Forall (fun i => i < vars) (r_roots r).
Definition proper_reference (ref : option (nat * list (nat * nat))) : Prop := match ref with None => True | Some (k, es) => below_all k es end.
(** Every clique is reached from the first over pairs with common variables: what [Triangulate] gives for
    a connected network (see C10). *)
Definition linked (t : tree_shape) : Prop :=
  0 < t_cliques t /\
  forall i, i < t_cliques t ->
    rtc (fun a b => a < t_cliques t /\ b < t_cliques t /\ t_weight t (min a b) (max a b) <> 0) 0 i.
(** The arrays [SaveBNParameter] makes: one for every node with parents. *)
Definition with_parents (n : nat) (parents : nat -> bool) : nat := length (filter (fun i => parents i = true) (seq 0 n)).
Definition saved_arrays (save : bool) (n : nat) (parents : nat -> bool) : list kind := if save then replicate (with_parents n parents) KInts else [].
(** One array for every marginal. *)
Definition index_arrays (qs : list query) : list kind := replicate (sum_list (q_marginals <$> qs)) KInts.
