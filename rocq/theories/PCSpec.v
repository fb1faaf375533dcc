(** Specification of the order-free PC-stable skeleton. *)
From Verif Require Export PCModel CellSpec UtilSpec.
Local Open Scope nat_scope.

(** [x] and [y] are separated in the graph [G] by a set of [d] neighbours of one of them. *)
Definition separated (ind : nat -> nat -> list nat -> bool) (G : nat -> nat -> Prop) (d x y : nat) : Prop :=
  exists S, StronglySorted lt S /\ length S = d /\ ind (Nat.min x y) (Nat.max x y) S = true /\
    ((forall v, v ∈ S -> G x v /\ v <> y) \/ (forall v, v ∈ S -> G y v /\ v <> x)).
(** The skeleton after the depths 0, ..., d - 1: at each depth all pairs that are separated in the graph at the
    start of that depth are removed. *)
Fixpoint stable_skeleton (ind : nat -> nat -> list nat -> bool) (n d : nat) (x y : nat) : Prop :=
  match d with
  | O => x < n /\ y < n /\ x <> y
  | S d => stable_skeleton ind n d x y /\ ~ separated ind (stable_skeleton ind n d) d x y
  end.
(** The test function answers with the decisions [ind], alone or in groups of at most [gmax]: for a group it names
    the first separating set. *)
Definition decides (tst : nat -> nat -> list nat -> nat -> outcome ci_result) (ind : nat -> nat -> list nat -> bool) (n gmax : nat) : Prop :=
  (forall x y, x < n -> y < n -> exists f, tst x y [] 1 = Ok (mkCI (ind x y []) f)) /\
  (forall x y c zss, x < n -> y < n -> 0 < c -> Forall (fun s => length s = c /\ Forall (fun v => v < n) s) zss -> 0 < length zss <= gmax ->
    match first_true (ind x y <$> zss) with
    | Some i => tst x y (concat zss) (length zss) = Ok (mkCI true (Z.of_nat i))
    | None => exists f, tst x y (concat zss) (length zss) = Ok (mkCI false f)
    end).
(** The same, asked only of tests that name no variable twice. *)
Definition decides_apart (tst : nat -> nat -> list nat -> nat -> outcome ci_result) (ind : nat -> nat -> list nat -> bool) (n gmax : nat) : Prop :=
  (forall x y, x < n -> y < n -> x <> y -> exists f, tst x y [] 1 = Ok (mkCI (ind x y []) f)) /\
  (forall x y c zss, x < n -> y < n -> 0 < c -> Forall (fun s => length s = c /\ Forall (fun v => v < n) s /\ NoDup (x :: y :: s)) zss -> 0 < length zss <= gmax ->
    match first_true (ind x y <$> zss) with
    | Some i => tst x y (concat zss) (length zss) = Ok (mkCI true (Z.of_nat i))
    | None => exists f, tst x y (concat zss) (length zss) = Ok (mkCI false f)
    end).
(** Every iteration of every parallel loop takes effect once, in any order. *)
Definition valid_sched (sch : nat -> schedule) : Prop := forall d t k, sch d t k ≡ₚ seq 0 k.
(** Two different iterations of the parallel loop over the edges at depth 0 write the same unprotected object. *)
Definition level_zero_race (tst : nat -> nat -> list nat -> nat -> outcome ci_result) (n : nat) (o : shared) : Prop :=
  exists p q lp lq, fst p < snd p /\ snd p < n /\ fst q < snd q /\ snd q < n /\ p <> q /\
    shared_writes tst (new_pedge p) = Ok lp /\ shared_writes tst (new_pedge q) = Ok lq /\ o ∈ lp /\ o ∈ lq.
