(** Independent specifications for the utilities. *)
From Verif Require Export UtilModel.
From Coq Require Export Sorted.

(** The [r]-element subsets of {lo, ..., lo+n-1}, written as increasing lists, in
    lexicographic order. *)
Fixpoint combs (n lo r : nat) : list (list nat) :=
  match n, r with
  | _, O => [[]]
  | O, S _ => []
  | S n', S r' => (cons lo <$> combs n' (S lo) r') ++ combs n' (S lo) r
  end.

(** Strict lexicographic order on lists. *)
Inductive lex_lt : list nat -> list nat -> Prop :=
| lex_head x y l l' : x < y -> lex_lt (x :: l) (y :: l')
| lex_tail x l l' : lex_lt l l' -> lex_lt (x :: l) (x :: l').

(** The first [n] results of calling a state machine repeatedly. *)
Fixpoint calls {S R} (step : S -> outcome (S * R)) (n : nat) (s : S) : outcome (S * list R) :=
  match n with
  | O => Ok (s, [])
  | S n' => r ← step s; r' ← calls step n' (fst r); Ok (fst r', snd r :: snd r')
  end.

(** Weaving pieces and delimiters back together. *)
Fixpoint weave (pieces : list str) (ds : list Z) : str :=
  match pieces, ds with
  | p :: ps, d :: ds' => p ++ d :: weave ps ds'
  | p :: _, [] => p
  | [], _ => []
  end.
