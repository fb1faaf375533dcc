(** Models of the small self-contained utilities: ChoiceGenerator.cpp, the string and
    counting helpers of common.cpp, ArgMax/Accuracy/Round of Inference.cpp, the complete
    graph of Network.cpp and the transposition of Dataset.cpp. *)
From Verif Require Export Base.
From Coq Require Export ZArith.
Local Open Scope nat_scope.

(** ** ChoiceGenerator.cpp *)
(** include/fastpgm/ChoiceGenerator.h: fields [b], [diff], [choice] ([a] is only used in the
    constructor). *)
Record cgen := mkCG { cg_b : nat; cg_diff : Z; cg_choice : list Z }.

(** ChoiceGenerator.cpp L14-34: constructor. *)
Definition cgen_init (a b : Z) : outcome cgen :=
  if bool_decide (a < 0)%Z || bool_decide (b < 0)%Z || bool_decide (a < b)%Z then Err Exit1 else
  Ok (mkCG (Z.to_nat b) (a - b)%Z ((Z.of_nat <$> seq 0 (Z.to_nat (b - 1))) ++ [(b - 2)%Z])).

(** ChoiceGenerator.cpp L79-85 [Fill]. *)
Definition cgen_fill (b : nat) (choice : list Z) (index : nat) : outcome (list Z) :=
  x ← vget choice index;
  c ← vset choice index (x + 1)%Z;
  mfor (seq (index + 1) (b - (index + 1))) (fun i c => y ← vget c (i - 1); vset c i (y + 1)%Z) c.

(** ChoiceGenerator.cpp L65-70: the scan from the right; [i] counts down. *)
Fixpoint cgen_scan (diff : Z) (choice : list Z) (i : nat) : outcome (option nat) :=
  match i with
  | O => Ok None
  | S j => x ← vget choice j;
           if bool_decide (x < Z.of_nat j + diff)%Z then Ok (Some j) else cgen_scan diff choice j
  end.

(** ChoiceGenerator.cpp L55-72 [Next]: the new state and the returned vector. *)
Definition cgen_next (g : cgen) : outcome (cgen * list Z) :=
  if bool_decide (cg_choice g = []) then Ok (g, []) else
  r ← cgen_scan (cg_diff g) (cg_choice g) (cg_b g);
  match r with
  | Some i => c ← cgen_fill (cg_b g) (cg_choice g) i; Ok (mkCG (cg_b g) (cg_diff g) c, c)
  | None => Ok (g, [])
  end.

(** ChoiceGenerator.cpp L41-50 [NextN]. *)
Fixpoint cgen_nextn (n : nat) (g : cgen) : outcome (cgen * list (list Z)) :=
  match n with
  | O => Ok (g, [])
  | S n' => r ← cgen_next g; r' ← cgen_nextn n' (fst r); Ok (fst r', snd r :: snd r')
  end.

(** ** Strings (common.cpp).  A [string] is a list of [char] values; [char] is signed on the
    supported platforms, so a value is an integer in -128..127. *)
Definition str := list Z.

(** common.cpp L77-82 [TrimRight]. Fuel: the length of the string. *)
Fixpoint trim_right_loop (fuel : nat) (s : str) : outcome str :=
  if bool_decide (s = []) then Ok s else
  c ← vget s (length s - 1);
  if bool_decide (c < 33)%Z then
    match fuel with O => Err OutOfFuel | S f => trim_right_loop f (take (length s - 1) s) end
  else Ok s.
Definition trim_right (s : str) : outcome str := trim_right_loop (length s) s.

(** common.cpp L115-120 [TrimLeft]. *)
Fixpoint trim_left_loop (fuel : nat) (s : str) : outcome str :=
  if bool_decide (s = []) then Ok s else
  c ← vget s 0;
  if bool_decide (c < 33)%Z then
    match fuel with O => Err OutOfFuel | S f => trim_left_loop f (drop 1 s) end
  else Ok s.
Definition trim_left (s : str) : outcome str := trim_left_loop (length s) s.

(** common.cpp L125-127 [Trim]. *)
Definition trim (s : str) : outcome str := r ← trim_right s; trim_left r.

(** common.cpp L84-89, L98-110: remove one trailing character of a given set ([TrimRightComma]:
    44; [TrimRightCommaAndParenthesis]: 44, 41; [TrimRightCommaAndSemicolon]: 44, 59).  On the
    empty string [s[s.size()-1]] indexes far outside the string. *)
Definition trim_right_one (set : list Z) (s : str) : outcome str :=
  if bool_decide (s = []) then Err OutOfBounds else
  c ← vget s (length s - 1);
  if bool_decide (c ∈ set) then Ok (take (length s - 1) s) else Ok s.

(** common.cpp L91-96 [TrimLeftParenthesis]. *)
Definition trim_left_parenthesis (s : str) : outcome str :=
  match s with
  | [] => Ok []
  | c :: s' => if bool_decide (c = 40)%Z then Ok s' else Ok s
  end.

(** std::string::find_first_of(delimiter, begin): first position >= begin holding one of
    the delimiter characters. *)
Fixpoint find_first_of (s : str) (delim : list Z) (i begin : nat) : option nat :=
  match s with
  | [] => None
  | c :: s' => if bool_decide (begin <= i) && bool_decide (c ∈ delim) then Some i
               else find_first_of s' delim (S i) begin
  end.
(** std::string::substr(pos, n): throws when pos > size. *)
Definition substr (s : str) (pos n : nat) : outcome str :=
  if bool_decide (length s < pos) then Err Thrown else Ok (take n (drop pos s)).

(** common.cpp L132-141 [Split].  Fuel: the number of iterations of the while loop. *)
Fixpoint split_loop (fuel : nat) (s : str) (delim : list Z) (begin : nat) : outcome (list str) :=
  match find_first_of s delim 0 begin with
  | Some e =>
      p ← substr s begin (e - begin);
      match fuel with
      | O => Err OutOfFuel
      | S f => ps ← split_loop f s delim (S e); Ok (p :: ps)
      end
  | None => p ← substr s begin (length s - begin); Ok [p]
  end.
Definition split_str (s : str) (delim : list Z) : outcome (list str) := split_loop (length s) s delim 0.

(** common.cpp L146-218 [NaryCount].  L185-190: the carry loop; [n] = num_digits. *)
Fixpoint nary_carry (fuel : nat) (n : nat) (ranges order : list nat) (need : bool) (pos digit : nat)
  (count : list nat) : outcome (list nat) :=
  if need && bool_decide (pos < n - 1) then
    match fuel with
    | O => Err OutOfFuel
    | S f =>
        c ← vset count digit 0;
        d ← vget order (S pos);
        x ← vget c d;
        c ← vset c d (S x);
        r ← vget ranges d;
        nary_carry f n ranges order (bool_decide (r <= S x)) (S pos) d c
    end
  else Ok count.
(** L173-190: add one to the count. *)
Definition nary_step (n : nat) (ranges order : list nat) (count : list nat) : outcome (list nat) :=
  d ← vget order 0;
  x ← vget count d;
  c ← vset count d (S x);
  r ← vget ranges d;
  nary_carry n n ranges order (bool_decide (r <= S x)) 0 d c.
(** L170-191: the counting loop. *)
Fixpoint nary_loop (todo : nat) (n : nat) (ranges order : list nat) (count : list nat)
  : outcome (list (list nat)) :=
  match todo with
  | O => Ok []
  | S t => c ← nary_step n ranges order count;
           rest ← nary_loop t n ranges order c;
           Ok (count :: rest)
  end.
Definition nary_count (ranges : list nat) : outcome (list (list nat)) :=
  let n := length ranges in
  let num := foldl Nat.mul 1 ranges in
  let order := seq 1 (n - 1) ++ [0] in
  nary_loop num n ranges order (replicate n 0).

(** ** Inference.cpp *)
(** Inference.cpp L93-103 [ArgMax]; [max_index] is uninitialised ([None]) until an entry
    greater than 0 is met. *)
Definition argmax (array : list Qc) : outcome nat :=
  r ← mfor (seq 0 (length array)) (fun i (st : Qc * option nat) =>
        x ← vget array i;
        if bool_decide (fst st < x)%Qc then Ok (x, Some i) else Ok st) (0%Qc, None);
  match snd r with Some i => Ok i | None => Err Uninit end.

(** Inference.cpp L73-88 [Accuracy]; labels are integers. *)
Definition accuracy (truths predictions : list Z) : outcome Qc :=
  r ← mfor (seq 0 (length truths)) (fun i (st : nat * nat) =>
        g ← vat truths i; p ← vat predictions i;
        if bool_decide (g = p) then Ok (S (fst st), snd st) else Ok (fst st, S (snd st))) (0, 0);
  let '(ok, wrong) := r in
  if bool_decide (ok + wrong = 0) then Err DivZero
  else Ok (Q2Qc (QArith_base.inject_Z (Z.of_nat ok)) / Q2Qc (QArith_base.inject_Z (Z.of_nat (ok + wrong))))%Qc.

(** Inference.cpp L193-204 [Round] on rationals; the casts to [long long] truncate
    toward zero (overflow of [long long] is not modelled). *)
Definition qtrunc (x : Qc) : Z := Z.quot (QArith_base.Qnum (this x)) (Zpos (QArith_base.Qden (this x))).
Definition qz (z : Z) : Qc := Q2Qc (QArith_base.inject_Z z).
Definition qround (number : Qc) (bits : nat) : Qc :=
  let ip := qtrunc number in
  let n := (number - qz ip)%Qc in
  let n := Nat.iter bits (fun x => x * qz 10)%Qc n in
  let n := qz (qtrunc (n + 1 / qz 2)%Qc) in
  let n := Nat.iter bits (fun x => x / qz 10)%Qc n in
  (qz ip + n)%Qc.

(** ** Network.cpp L270-283 [GenerateUndirectedCompleteGraph] *)
(** Position of the pair (i,j) in [vec_edges]. *)
Definition edge_position (n i j : nat) : nat := (2 * n - i - 1) * i / 2 + j - i - 1.
(** The (i,j) pairs in the order in which the two nested loops visit them. *)
Definition upper_pairs (n : nat) : list (nat * nat) :=
  i ← seq 0 n; (fun j => (i, j)) <$> seq (i + 1) (n - (i + 1)).
(** The writes into [vec_edges], whose unwritten cells are default-constructed edges
    ([None]); [visit] is the order in which the pairs are processed. *)
Definition complete_graph_visit (n : nat) (visit : list (nat * nat)) : outcome (list (option (nat * nat))) :=
  mfor visit (fun p edges => vset edges (edge_position n (fst p) (snd p)) (Some p))
    (replicate ((n - 1) * n / 2) None).
Definition complete_graph (n : nat) : outcome (list (option (nat * nat))) :=
  complete_graph_visit n (upper_pairs n).

(** ** Dataset.cpp *)
(** Dataset.cpp L828-840 [Vector2IntArray]: one row of [num_vars] zeros overwritten by the
    stored (variable, value) pairs. *)
Definition dense_row (num_vars : nat) (row : list (nat * Z)) : outcome (list Z) :=
  mfor row (fun vv r => vset r (fst vv) (snd vv)) (replicate num_vars 0%Z).
Definition dense_rows (num_vars num_instance : nat) (rows : list (list (nat * Z))) : outcome (list (list Z)) :=
  mcollect (seq 0 num_instance) (fun s => row ← vget rows s; dense_row num_vars row).
(** Dataset.cpp L848-857 [RowMajor2ColumnMajor]. *)
Definition column_major (num_vars num_instance : nat) (rows : list (list Z)) : outcome (list (list Z)) :=
  mcollect (seq 0 num_vars) (fun i =>
    mcollect (seq 0 num_instance) (fun j => row ← vget rows j; vget row i)).
