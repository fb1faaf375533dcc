(** Base definitions shared by all model files: the outcome monad used to make
    every C++ failure a visible result, checked vector access, and loops. *)
From stdpp Require Export prelude list numbers sorting.
From Coq Require Export QArith.Qcanon ZArith Lia.
From Coq Require Export ZifyBool ZifyNat.
Global Unset Asymmetric Patterns.
Global Open Scope nat_scope.

(** How a C++ call can fail.  See DESIGN.md section 1. *)
Inductive err :=
| OutOfBounds  (* access outside an allocation, erase on empty, dangling iterator *)
| Exit1        (* exit(1) *)
| Exit0        (* exit(0) *)
| DivZero      (* integer division by zero, or a floating 0/0, x/0 *)
| NullDeref    (* null pointer dereference *)
| Uninit       (* read of an uninitialised scalar *)
| Thrown       (* uncaught C++ exception *)
| Overflow     (* signed integer overflow; only where the range of int is modelled (IntModel.v) *)
| OutOfFuel.   (* model artefact: loop bound exhausted; proved unreachable *)

Inductive outcome (A : Type) :=
| Ok (a : A)
| Err (e : err).
Arguments Ok {A} a.
Arguments Err {A} e.

Global Instance outcome_ret : MRet outcome := fun A a => Ok a.
Global Instance outcome_bind : MBind outcome := fun A B f m =>
  match m with Ok a => f a | Err e => Err e end.
Global Instance outcome_fmap : FMap outcome := fun A B f m =>
  match m with Ok a => Ok (f a) | Err e => Err e end.

Global Instance err_eq_dec : EqDecision err.
Proof. solve_decision. Defined.

(** Checked read [v[i]] of a vector or array. *)
Definition vget {A} (l : list A) (i : nat) : outcome A :=
  match l !! i with Some x => Ok x | None => Err OutOfBounds end.

(** Checked write [v[i] = x]. *)
Definition vset {A} (l : list A) (i : nat) (x : A) : outcome (list A) :=
  if bool_decide (i < length l) then Ok (<[i:=x]> l) else Err OutOfBounds.

(** [.at(i)]: throws instead of being undefined. *)
Definition vat {A} (l : list A) (i : nat) : outcome A :=
  match l !! i with Some x => Ok x | None => Err Thrown end.

(** A sequential loop over the listed indices, threading a state. *)
Fixpoint mfor {I S} (l : list I) (body : I -> S -> outcome S) (s : S) : outcome S :=
  match l with
  | [] => Ok s
  | i :: l' => s' ← body i s; mfor l' body s'
  end.

(** A loop collecting one result per index (fills a fresh array left to right). *)
Fixpoint mcollect {I A} (l : list I) (body : I -> outcome A) : outcome (list A) :=
  match l with
  | [] => Ok []
  | i :: l' => x ← body i; xs ← mcollect l' body; Ok (x :: xs)
  end.

(** Integer division and remainder with the C++ failure on a zero divisor. *)
Definition idiv (a b : nat) : outcome nat :=
  if bool_decide (b = 0) then Err DivZero else Ok (a / b).
Definition imod (a b : nat) : outcome nat :=
  if bool_decide (b = 0) then Err DivZero else Ok (a mod b).

(** ** Basic facts *)

Lemma vget_ok {A} (l : list A) i x : l !! i = Some x -> vget l i = Ok x.
Proof. unfold vget. by intros ->. Qed.
Lemma vget_inv {A} (l : list A) i x : vget l i = Ok x -> l !! i = Some x.
Proof. unfold vget. destruct (l !! i); congruence. Qed.
Lemma vset_ok {A} (l : list A) i x : i < length l -> vset l i x = Ok (<[i:=x]> l).
Proof. intros H. unfold vset. by rewrite bool_decide_true. Qed.
Lemma vset_inv {A} (l l' : list A) i x :
  vset l i x = Ok l' -> i < length l /\ l' = <[i:=x]> l.
Proof. unfold vset. case_bool_decide; intros [= <-]; auto. Qed.

Lemma bind_ok {A B} (m : outcome A) (f : A -> outcome B) b :
  m ≫= f = Ok b <-> exists a, m = Ok a /\ f a = Ok b.
Proof.
  destruct m as [a|e]; simpl; split.
  - eauto.
  - by intros (a' & [= ->] & ?).
  - discriminate.
  - by intros (a' & ? & ?).
Qed.

Lemma mcollect_ok {I A} (l : list I) (body : I -> outcome A) (f : I -> A) :
  (forall i, i ∈ l -> body i = Ok (f i)) -> mcollect l body = Ok (f <$> l).
Proof.
  induction l as [|i l IH]; intros H; [done|]; cbn.
  rewrite H by left. cbn. rewrite IH; [done|]. intros j Hj. apply H. by right.
Qed.

Lemma mcollect_inv {I A} (l : list I) (body : I -> outcome A) xs :
  mcollect l body = Ok xs ->
  length xs = length l /\
  forall k i x, l !! k = Some i -> xs !! k = Some x -> body i = Ok x.
Proof.
  revert xs; induction l as [|i l IH]; intros xs; cbn.
  - intros [= <-]. split; [done|]. intros k i x Hl. by rewrite lookup_nil in Hl.
  - intros Hb. apply bind_ok in Hb as (x & Hx & Hb).
    apply bind_ok in Hb as (xs' & Hxs & [= <-]).
    apply IH in Hxs as [Hlen Hall]. split; [cbn; by rewrite Hlen|].
    intros [|k] j y; cbn; [congruence|]. apply Hall.
Qed.

Lemma mfor_app {I S} (l1 l2 : list I) (body : I -> S -> outcome S) s :
  mfor (l1 ++ l2) body s = (s' ← mfor l1 body s; mfor l2 body s').
Proof.
  revert s; induction l1 as [|i l1 IH]; intros s; cbn; [done|].
  destruct (body i s) as [s'|e]; cbn; [apply IH|done].
Qed.

(** Loop invariant rule. *)
Lemma mfor_inv {I S} (P : list I -> S -> Prop) (l : list I) body (s : S) :
  P [] s ->
  (forall done i rest s0, l = done ++ i :: rest -> P done s0 ->
     exists s1, body i s0 = Ok s1 /\ P (done ++ [i]) s1) ->
  exists s', mfor l body s = Ok s' /\ P l s'.
Proof.
  intros H0 Hstep.
  assert (forall rest dn s0, l = dn ++ rest -> P dn s0 ->
    exists s', mfor rest body s0 = Ok s' /\ P l s') as Hgen.
  { induction rest as [|i rest IH]; intros dn s0 Hl HP; cbn.
    - exists s0. split; [done|]. by rewrite Hl, app_nil_r.
    - destruct (Hstep dn i rest s0 Hl HP) as (s1 & -> & HP1). cbn.
      apply (IH (dn ++ [i])); [|done]. by rewrite <-app_assoc. }
  by apply (Hgen l []).
Qed.

Lemma mfor_pure {I S} (l : list I) (body : I -> S -> outcome S) (f : I -> S -> S) s :
  (forall i s0, i ∈ l -> body i s0 = Ok (f i s0)) ->
  mfor l body s = Ok (foldl (fun s0 i => f i s0) s l).
Proof.
  revert s; induction l as [|i l IH]; intros s H; cbn; [done|].
  rewrite H by left. cbn. apply IH. intros j s0 Hj. apply H. by right.
Qed.
