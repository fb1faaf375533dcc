(** Specification of edge orientation. *)
From Verif Require Export OrientModel GraphSpec.
Local Open Scope nat_scope.
Notation pairs := (list (nat * nat)).

(** [y] is a recorded neighbour of [x]. *)
Definition linked (A : adjs) (x y : nat) : Prop := exists row, A !! x = Some row /\ y ∈ row.
(** [A] lists the neighbours in the undirected graph with nodes 0..n-1 and the edges [E], each given once as a pair x < y. *)
Definition skeleton_of (n : nat) (E : pairs) (A : adjs) : Prop :=
  NoDup E /\ (forall x y, (x, y) ∈ E -> x < y /\ y < n) /\ length A = n /\
  (forall x row, A !! x = Some row -> StronglySorted lt row) /\
  (forall x y, linked A x y <-> (x, y) ∈ E \/ (y, x) ∈ E).
(** An edge without its direction. *)
Definition bare (p : nat * nat) : nat * nat := (Nat.min (fst p) (snd p), Nat.max (fst p) (snd p)).
(** The edge list of the network [N] with [n] nodes consists of the undirected edges [U] followed by the directed edges [D];
    without directions these are the edges [E], each once. [netinv]: no directed cycle, recorded parents and children agree
    with the edges. *)
Definition pattern (n : nat) (E : pairs) (N : network) (U D : pairs) : Prop :=
  netinv N /\ length (nt_nodes N) = n /\
  nt_edges N = ((fun p => undirected_edge (fst p) (snd p)) <$> U) ++ ((fun p => directed_edge (fst p) (snd p)) <$> D) /\
  U ++ (bare <$> D) ≡ₚ E.
(** The number of edges between two nodes, of either kind. *)
Definition edges_between (N : network) (x y : nat) : nat := length (filter (fun e => bare (e_n1 e, e_n2 e) = bare (x, y)) (nt_edges N)).

(** ** Colliders *)
(** [a] and [c] are neighbours of [b] but not of each other, and [b] does not separate them: a -> b <- c is demanded. *)
Definition collider (A : adjs) (S : sepmap) (a b c : nat) : Prop :=
  a < c /\ linked A b a /\ linked A b c /\ ~ linked A a c /\ b ∉ default [] (S !! (a, c)).
(** Some collider demands x -> y. *)
Definition into (A : adjs) (S : sepmap) (x y : nat) : Prop := exists z, collider A S x y z \/ collider A S z y x.

(** ** Implied orientations *)
(** x -- y: neighbours, not directed by [D]. *)
Definition open_edge (A : adjs) (D : pairs) (x y : nat) : Prop := linked A x y /\ (x, y) ∉ D /\ (y, x) ∉ D.
(** The three rules, each with the edge x -- y to be directed as x -> y. *)
Definition implied (A : adjs) (D : pairs) (x y : nat) : Prop :=
  (exists a, (a, x) ∈ D /\ ~ linked A y a) \/
  (exists b, (x, b) ∈ D /\ (b, y) ∈ D) \/
  (exists b c, b <> c /\ ~ linked A b c /\ open_edge A D x b /\ open_edge A D x c /\ (b, y) ∈ D /\ (c, y) ∈ D).
(** x -> y can be added to [D] without closing a directed cycle. *)
Definition addable (D : pairs) (x y : nat) : Prop := acyclic (fun u v => (u, v) ∈ D ++ [(x, y)]).
(** [L] directs open edges one after the other, starting from the directed edges [D]. *)
Fixpoint directing (ok : pairs -> nat -> nat -> Prop) (A : adjs) (D L : pairs) : Prop :=
  match L with
  | [] => True
  | (x, y) :: L => open_edge A D x y /\ addable D x y /\ ok D x y /\ directing ok A (D ++ [(x, y)]) L
  end.
