(** Property theorems about the self-contained utilities: C17, C29, C30, C31, C33, C41, C42,
    C45.  Specifications used: [combs], [lex_lt], [calls], [weave] (UtilSpec.v); [in_range],
    [configs] (Sums.v).  [qz] embeds integers in the rationals. *)
From Verif Require Import UtilProofs.
From Coq Require Import QArith Qcanon.
Local Open Scope nat_scope.

(** ** C17 *)
(** [combs a 0 b] is the list of b-element subsets of {0..a-1}, each once, in lexicographic
    order, each written increasingly. *)
Theorem C17_subsets_meaning : forall a b,
  (forall c, c ∈ combs a 0 b <-> length c = b /\ StronglySorted lt c /\ Forall (fun x => x < a) c) /\
  NoDup (combs a 0 b) /\ StronglySorted lex_lt (combs a 0 b).
Proof. exact choice_combs_meaning. Qed.
Print Assumptions C17_subsets_meaning.
Example C17_subsets_meaning_witness : combs 4 0 2 = [[0;1];[0;2];[0;3];[1;2];[1;3];[2;3]].
Proof. exact eq_refl. Qed.

(** The first n calls return the first n subsets, then the empty choice forever. *)
Theorem C17_enumeration : forall a b,
  0 < b <= a -> exists g, cgen_init (Z.of_nat a) (Z.of_nat b) = Ok g /\
  forall n, exists g', calls cgen_next n g
    = Ok (g', (fun k => match combs a 0 b !! k with Some c => Z.of_nat <$> c | None => [] end) <$> seq 0 n).
Proof. exact choice_enumeration. Qed.
Print Assumptions C17_enumeration.
Example C17_enumeration_witness : 0 < 2 <= 4.
Proof. exact (conj (le_S _ _ (le_n 1)) (le_S _ _ (le_S _ _ (le_n 2)))). Qed.

(** In groups of n: m group calls return the same sequence chopped. *)
Theorem C17_groups : forall a b n m,
  0 < b <= a -> exists g g', cgen_init (Z.of_nat a) (Z.of_nat b) = Ok g /\
  calls (cgen_nextn n) m g = Ok (g', (fun i => (fun k =>
     match combs a 0 b !! (i * n + k) with Some c => Z.of_nat <$> c | None => [] end) <$> seq 0 n) <$> seq 0 m).
Proof. exact choice_groups. Qed.
Print Assumptions C17_groups.
Example C17_groups_witness : 0 < 2 <= 4.
Proof. exact C17_enumeration_witness. Qed.

(** Invalid arguments end the process with status 1. *)
Theorem C17_invalid_arguments : forall a b, (a < 0 \/ b < 0 \/ a < b)%Z -> cgen_init a b = Err Exit1.
Proof. exact choice_invalid. Qed.
Print Assumptions C17_invalid_arguments.
Example C17_invalid_arguments_witness : (2 < 3)%Z.
Proof. exact eq_refl. Qed.

(** ** C29 *)
Theorem C29_split : forall s delim,
  exists pieces, split_str s delim = Ok pieces /\
    length pieces = S (length (filter (.∈ delim) s)) /\
    (forall p c, p ∈ pieces -> c ∈ p -> c ∉ delim) /\
    weave pieces (filter (.∈ delim) s) = s.
Proof. exact split_spec_full. Qed.
Print Assumptions C29_split.
(** ",a;b," split at ',' and ';'. *)
Example C29_split_witness : split_str [44;97;59;98;44]%Z [44;59]%Z = Ok [[];[97];[98];[]]%Z.
Proof. exact eq_refl. Qed.

(** ** C30: white space = codes 0..32.  Holds for text without bytes above 127, fails
    otherwise because [char] is signed. *)
Theorem C30_trim_ascii_partial : forall s,
  Forall (fun c => (0 <= c)%Z) s ->
  exists w1 r w2, trim s = Ok r /\ s = w1 ++ r ++ w2 /\
    Forall (fun c => (0 <= c < 33)%Z) w1 /\ Forall (fun c => (0 <= c < 33)%Z) w2 /\
    (forall c, head r = Some c -> ~ (0 <= c < 33)%Z) /\ (forall c, last r = Some c -> ~ (0 <= c < 33)%Z) /\ trim r = Ok r.
Proof. exact trim_ascii. Qed.
Print Assumptions C30_trim_ascii_partial.
Example C30_trim_ascii_partial_witness : Forall (fun c => (0 <= c)%Z) [32;9;97;32;98;10]%Z /\ trim [32;9;97;32;98;10]%Z = Ok [97;32;98]%Z.
Proof. split; [|exact eq_refl]. repeat constructor; discriminate. Qed.

Theorem C30_trim_right_ascii_partial : forall s,
  Forall (fun c => (0 <= c)%Z) s ->
  exists r w, trim_right s = Ok r /\ s = r ++ w /\ Forall (fun c => (0 <= c < 33)%Z) w /\
    (forall c, last r = Some c -> ~ (0 <= c < 33)%Z) /\ trim_right r = Ok r.
Proof. exact trim_right_ascii. Qed.
Print Assumptions C30_trim_right_ascii_partial.
Example C30_trim_right_ascii_partial_witness : Forall (fun c => (0 <= c)%Z) [32;97;10]%Z /\ trim_right [32;97;10]%Z = Ok [32;97]%Z.
Proof. split; [|exact eq_refl]. repeat constructor; discriminate. Qed.

Theorem C30_trim_left_ascii_partial : forall s,
  Forall (fun c => (0 <= c)%Z) s ->
  exists r w, trim_left s = Ok r /\ s = w ++ r /\ Forall (fun c => (0 <= c < 33)%Z) w /\
    (forall c, head r = Some c -> ~ (0 <= c < 33)%Z) /\ trim_left r = Ok r.
Proof. exact trim_left_ascii. Qed.
Print Assumptions C30_trim_left_ascii_partial.
Example C30_trim_left_ascii_partial_witness : Forall (fun c => (0 <= c)%Z) [32;97;10]%Z /\ trim_left [32;97;10]%Z = Ok [97;10]%Z.
Proof. split; [|exact eq_refl]. repeat constructor; discriminate. Qed.

Theorem C30_idempotent : forall s, exists r, trim s = Ok r /\ trim r = Ok r.
Proof. exact trim_idempotent. Qed.
Print Assumptions C30_idempotent.
Example C30_idempotent_witness : trim [32;97]%Z = Ok [97]%Z.
Proof. exact eq_refl. Qed.

(** A character that is not white space is removed. *)
Theorem C30_trim_non_ascii_refuted :
  exists s r c, trim s = Ok r /\ c ∈ s /\ ~ (0 <= c < 33)%Z /\ c ∉ r.
Proof. exact trim_non_ascii_counterexample. Qed.
Print Assumptions C30_trim_non_ascii_refuted.

(** ** C31 *)
(** Order: first digit most significant, then the last digit, ..., the second digit least. *)
Theorem C31_order : forall r0 rest,
  Forall (fun d => 0 < d) (r0 :: rest) ->
  nary_count (r0 :: rest)
  = Ok ((fun c => match c with [] => [] | c0 :: cs => c0 :: reverse cs end) <$> configs (r0 :: reverse rest)).
Proof. exact nary_count_spec. Qed.
Print Assumptions C31_order.
Example C31_order_witness : Forall (fun d => 0 < d) [2;2;3] /\
  take 4 (match nary_count [2;2;3] with Ok l => l | Err _ => [] end) = [[0;0;0];[0;1;0];[0;0;1];[0;1;1]].
Proof. split; [repeat constructor|exact eq_refl]. Qed.

Theorem C31_exactly_once : forall r0 rest,
  Forall (fun d => 0 < d) (r0 :: rest) ->
  exists cs, nary_count (r0 :: rest) = Ok cs /\ NoDup cs /\ forall c, c ∈ cs <-> in_range (r0 :: rest) c.
Proof. exact nary_count_exactly_once. Qed.
Print Assumptions C31_exactly_once.
Example C31_exactly_once_witness : Forall (fun d => 0 < d) [2;2;3].
Proof. repeat constructor. Qed.

Theorem C31_no_digits : nary_count [] = Err OutOfBounds.
Proof. exact nary_count_empty. Qed.
Print Assumptions C31_no_digits.

(** ** C33 *)
Theorem C33_argmax : forall array : list Qc,
  (exists k x, array !! k = Some x /\ (0 < x)%Qc) ->
  exists i m, argmax array = Ok i /\ array !! i = Some m /\
    (forall j y, array !! j = Some y -> (y <= m)%Qc) /\
    (forall j y, j < i -> array !! j = Some y -> (y < m)%Qc).
Proof. exact argmax_spec. Qed.
Print Assumptions C33_argmax.
Example C33_argmax_witness : argmax [qz 1; qz 3; qz 2; qz 3] = Ok 1.
Proof. exact eq_refl. Qed.

(** Without any positive entry the code returns an uninitialised variable. *)
Theorem C33_argmax_no_mass : forall array : list Qc,
  (forall k x, array !! k = Some x -> (x <= 0)%Qc) -> argmax array = Err Uninit.
Proof. exact argmax_uninit. Qed.
Print Assumptions C33_argmax_no_mass.
Example C33_argmax_no_mass_witness : argmax [0%Qc; 0%Qc] = Err Uninit.
Proof. exact eq_refl. Qed.

Theorem C33_accuracy : forall truths preds : list Z,
  truths ≠ [] -> length preds = length truths ->
  accuracy truths preds = Ok (qz (Z.of_nat (length (filter (fun gp : Z * Z => fst gp = snd gp) (zip truths preds))))
                              / qz (Z.of_nat (length truths)))%Qc.
Proof. exact accuracy_spec. Qed.
Print Assumptions C33_accuracy.
Example C33_accuracy_witness : accuracy [1;0;1]%Z [1;1;1]%Z = Ok (qz 2 / qz 3)%Qc.
Proof. exact eq_refl. Qed.

(** Fewer predictions than rows: std::out_of_range is thrown; no rows: 0/0. *)
Theorem C33_accuracy_too_short : forall truths preds : list Z,
  length preds < length truths -> accuracy truths preds = Err Thrown.
Proof. exact accuracy_short. Qed.
Print Assumptions C33_accuracy_too_short.
Example C33_accuracy_too_short_witness : length [1]%Z < length [1;2]%Z.
Proof. exact (le_n _). Qed.
Theorem C33_accuracy_no_rows : forall preds, accuracy [] preds = Err DivZero.
Proof. exact accuracy_empty. Qed.
Print Assumptions C33_accuracy_no_rows.

(** ** C41: [visit] is any order in which the threads process the pairs. *)
Theorem C41_complete_graph : forall n visit,
  visit ≡ₚ upper_pairs n ->
  exists edges, complete_graph_visit n visit = Ok edges /\
    length edges = (n - 1) * n / 2 /\
    (forall i j, i < j -> j < n -> edges !! edge_position n i j = Some (Some (i, j))) /\
    (forall k, k < length edges -> exists i j, i < j /\ j < n /\ edges !! k = Some (Some (i, j)) /\
        forall k', edges !! k' = Some (Some (i, j)) -> k' = k).
Proof. exact complete_graph_any_schedule. Qed.
Print Assumptions C41_complete_graph.
Example C41_complete_graph_witness : [(1,2);(0,2);(0,1)] ≡ₚ upper_pairs 3.
Proof. etransitivity; [apply perm_swap|]. etransitivity; [apply perm_skip, perm_swap|]. apply perm_swap. Qed.
Theorem C41_no_position_twice : forall n i j i' j',
  i < j -> j < n -> i' < j' -> j' < n -> edge_position n i j = edge_position n i' j' -> i = i' /\ j = j'.
Proof. exact edge_position_inj. Qed.
Print Assumptions C41_no_position_twice.
Example C41_no_position_twice_witness : edge_position 4 1 2 = 3.
Proof. exact eq_refl. Qed.
Theorem C41_pairs_meaning : forall n i j, (i, j) ∈ upper_pairs n <-> i < j /\ j < n.
Proof. exact elem_of_upper_pairs. Qed.
Print Assumptions C41_pairs_meaning.
Theorem C41_schedule_independent : forall n v1 v2,
  v1 ≡ₚ upper_pairs n -> v2 ≡ₚ upper_pairs n -> complete_graph_visit n v1 = complete_graph_visit n v2.
Proof. exact complete_graph_schedule_independent. Qed.
Print Assumptions C41_schedule_independent.

(** ** C42 *)
Theorem C42_transpose : forall nv ni (rows : list (list Z)),
  length rows = ni -> (forall r, r ∈ rows -> length r = nv) ->
  exists cols, column_major nv ni rows = Ok cols /\ length cols = nv /\
    (forall c, c ∈ cols -> length c = ni) /\
    forall i j, i < nv -> j < ni -> exists c r x, cols !! i = Some c /\ rows !! j = Some r /\
      c !! j = Some x /\ r !! i = Some x.
Proof. exact column_major_spec. Qed.
Print Assumptions C42_transpose.
Example C42_transpose_witness : column_major 3 2 [[1;2;3];[4;5;6]]%Z = Ok [[1;4];[2;5];[3;6]]%Z.
Proof. exact eq_refl. Qed.

(** From the stored (variable, value) pairs; variables that are not stored are 0. *)
Theorem C42_from_stored_rows : forall nv (rows : list (list (nat * Z))),
  (forall row, row ∈ rows -> NoDup (fst <$> row) /\ forall vv, vv ∈ row -> fst vv < nv) ->
  exists dense cols, dense_rows nv (length rows) rows = Ok dense /\ column_major nv (length rows) dense = Ok cols /\
    forall i j row, i < nv -> rows !! j = Some row -> exists c x, cols !! i = Some c /\ c !! j = Some x /\
      ((i, x) ∈ row \/ (i ∉ fst <$> row /\ x = 0%Z)).
Proof. exact dense_then_transpose. Qed.
Print Assumptions C42_from_stored_rows.
Example C42_from_stored_rows_witness : dense_rows 3 2 [[(0,5%Z);(2,7%Z)];[(1,4%Z)]] = Ok [[5;0;7];[0;4;0]]%Z.
Proof. exact eq_refl. Qed.

(** ** C45: the result is z / 10^bits with x*10^bits - 1/2 < z <= x*10^bits + 1/2. *)
Theorem C45_round : forall (x : Qc) (bits : nat),
  (0 <= x)%Qc ->
  exists z : Z, (qround x bits * qz (10 ^ Z.of_nat bits) = qz z)%Qc /\
    (x * qz (10 ^ Z.of_nat bits) - 1 / qz 2 < qz z)%Qc /\
    (qz z <= x * qz (10 ^ Z.of_nat bits) + 1 / qz 2)%Qc.
Proof. exact qround_spec. Qed.
Print Assumptions C45_round.
(** 1.25 to one decimal is 1.3. *)
Example C45_round_witness : qround (qz 125 / qz 100)%Qc 1 = (qz 13 / qz 10)%Qc.
Proof. apply Qc_is_canon. exact eq_refl. Qed.
