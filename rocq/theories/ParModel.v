(** Model of OpenMP [#pragma omp parallel for] loops and of the two-dimensional index of the
    flattened loops. *)
From Verif Require Export Base.
Local Open Scope nat_scope.

(** An execution of a parallel loop is an interleaving of the iterations' two phases: reading
    and computing ([Rd s]), and writing the result ([Wr s]). *)
Inductive event := Rd (s : nat) | Wr (s : nat).
Global Instance event_eq_dec : EqDecision event.
Proof. solve_decision. Defined.
(** The interleavings of [n] iterations: each phase once, reading before writing.  (OpenMP
    allows no others: an iteration runs in one thread, in program order.) *)
Definition valid_schedule (n : nat) (es : list event) : Prop :=
  es ≡ₚ (Rd <$> seq 0 n) ++ (Wr <$> seq 0 n) /\
  forall s i j, es !! i = Some (Rd s) -> es !! j = Some (Wr s) -> i < j.

(** Run the phases in the given order.  [rd s m]: what iteration [s] computes from memory
    [m]; [wr s x m]: store it.  The value travels in a thread-private variable. *)
Definition par_for {M X} (es : list event) (rd : nat -> M -> outcome X) (wr : nat -> X -> M -> outcome M)
  (m : M) : outcome M :=
  r ← mfor es (fun e (st : M * list (nat * X)) =>
    match e with
    | Rd s => x ← rd s (fst st); Ok (fst st, (s, x) :: snd st)
    | Wr s => match list_find (fun p => fst p = s) (snd st) with
              | Some (_, p) => m' ← wr s (snd p) (fst st); Ok (m', snd st)
              | None => Err Uninit
              end
    end) (m, []);
  Ok (fst r).

(** A loop over an array: iteration [s] replaces cell [s]. *)
Definition par1 {X} (es : list event) (body : nat -> X -> outcome X) (m : list X) : outcome (list X) :=
  par_for es (fun s m => x ← vget m s; body s x) (fun s y m => vset m s y) m.

(** JunctionTree.h L73-81 [Compute2DIndex]: the last row starting at or before [s]; [j] is
    uninitialised when there is none. *)
Fixpoint scan_rows (cum : list nat) (s m : nat) : outcome nat :=
  match m with
  | O => Err Uninit
  | S m' => c ← vget cum m'; if bool_decide (c <= s) then Ok m' else scan_rows cum s m'
  end.
Definition compute_2d_index (s size : nat) (cum : list nat) : outcome (nat * nat) :=
  j ← scan_rows cum s size;
  c ← vget cum j;
  Ok (j, s - c).
(** The loops computing [cum_sum] and [final_sum] (e.g. JunctionTree.cpp L396-403). *)
Definition cum_sums (sizes : list nat) : list nat * nat :=
  foldl (fun st n => (fst st ++ [snd st], snd st + n)) ([], 0) sizes.

(** A flattened loop over rows of arrays: iteration [s] replaces cell (j,k). *)
Definition par2 {X} (es : list event) (sizes : list nat) (body : nat -> nat -> X -> outcome X)
  (m : list (list X)) : outcome (list (list X)) :=
  let cum := fst (cum_sums sizes) in
  par_for es
    (fun s m => jk ← compute_2d_index s (length sizes) cum;
                row ← vget m (fst jk); x ← vget row (snd jk); body (fst jk) (snd jk) x)
    (fun s y m => jk ← compute_2d_index s (length sizes) cum;
                  row ← vget m (fst jk); row' ← vset row (snd jk) y; vset m (fst jk) row') m.

(** Arrays allocated with [new] have no contents yet; reading such a cell is an error. *)
Definition fresh {X} (sizes : list nat) : list (list (option X)) := (fun n => replicate n None) <$> sizes.
Definition thaw {X} (x : option X) : outcome X := match x with Some y => Ok y | None => Err Uninit end.
Definition thaw_rows {X} (m : list (list (option X))) : outcome (list (list X)) :=
  mcollect m (fun row => mcollect row thaw).
(** A flattened loop filling fresh arrays. *)
Definition par2_fill {X} (es : list event) (sizes : list nat) (body : nat -> nat -> outcome X)
  : outcome (list (list X)) :=
  m ← par2 es sizes (fun j k _ => x ← body j k; Ok (Some x)) (fresh sizes);
  thaw_rows m.
(** A parallel loop filling a fresh array. *)
Definition par1_fill {X} (es : list event) (n : nat) (body : nat -> outcome X) : outcome (list X) :=
  m ← par1 es (fun s _ => x ← body s; Ok (Some x)) (replicate n None);
  mcollect m thaw.
