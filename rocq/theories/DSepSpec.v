(** Specification: directed acyclic graphs, d-separation, Markov equivalence. *)
From Verif Require Export GraphSpec OrientSpec.
Local Open Scope nat_scope.
Notation digraph := (nat -> nat -> bool).

(** The nodes are 0..n-1 and some ordering of them has all edges going forward. *)
Definition dag (n : nat) (g : digraph) : Prop :=
  (forall x y, g x y = true -> x < n /\ y < n) /\ exists ord, topological (fun x y => g x y = true) n ord.
Definition adjacent (g : digraph) (x y : nat) : Prop := g x y = true \/ g y x = true.
Definition descendant (g : digraph) (x y : nat) : Prop := tc (fun u v => g u v = true) x y.
(** u -> v <- w *)
Definition meets (g : digraph) (u v w : nat) : Prop := g u v = true /\ g w v = true.
(** Consecutive nodes are adjacent. *)
Fixpoint is_path (g : digraph) (p : list nat) : Prop :=
  match p with u :: (v :: _) as r => adjacent g u v /\ is_path g r | _ => True end.
(** Not blocked by [s]: a node where two arrows meet is in [s] or has a descendant in [s], every other inner node is not in [s]. *)
Fixpoint unblocked (g : digraph) (s p : list nat) : Prop :=
  match p with
  | u :: (v :: w :: _) as r =>
      (meets g u v w -> exists d, d ∈ s /\ (d = v \/ descendant g v d)) /\ (~ meets g u v w -> v ∉ s) /\ unblocked g s r
  | _ => True
  end.
(** [x] and [y] are d-connected given [s]. *)
Definition d_connected (g : digraph) (x y : nat) (s : list nat) : Prop :=
  exists mid, let p := x :: mid ++ [y] in is_path g p /\ NoDup p /\ unblocked g s p.
(** A test that answers by d-separation. *)
Definition dsep_oracle (ind : nat -> nat -> list nat -> bool) (n : nat) (g : digraph) : Prop :=
  forall x y s, x < y -> y < n -> x ∉ s -> y ∉ s -> StronglySorted lt s -> ind x y s = true <-> ~ d_connected g x y s.
Definition dag_parents (n : nat) (g : digraph) (x : nat) : list nat := filter (fun p => g p x = true) (seq 0 n).
(** x -> y <- z with x and z not adjacent. *)
Definition v_structure (g : digraph) (x y z : nat) : Prop := meets g x y z /\ x <> z /\ ~ adjacent g x z.
(** The same adjacencies and the same v-structures. *)
Definition markov_equivalent (g h : digraph) : Prop :=
  (forall x y, adjacent g x y <-> adjacent h x y) /\ (forall x y z, v_structure g x y z <-> v_structure h x y z).
