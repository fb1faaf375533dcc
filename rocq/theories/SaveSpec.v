(** Specification of the files written by the learning job. *)
From Coq Require Import Ascii String.
From Verif Require Export SaveModel ClassSpec DSepSpec.
Local Open Scope nat_scope.

(** The texts with a separator between each two. *)
Fixpoint joined (sep : str) (l : list str) : str :=
  match l with [] => [] | [s] => s | s :: l => s ++ sep ++ joined sep l end.
(** "name/v3" *)
Definition shown_node (names : list str) (x : nat) : str := default [] (names !! x) ++ lit "/v" ++ index x.
(** "name/v3=value/1" for the value that the assignment [a] gives to [x]. *)
Definition shown_value (names : list str) (dicts : list (list str)) (a : asg) (x : nat) : str :=
  shown_node names x ++ lit "=" ++ default [] (dict ← dicts !! x; dict !! a x) ++ lit "/" ++ index (a x).

(** ** The parameter file *)
(** "P (x=... | y=..., z=...) = 0.25" *)
Definition parameter_line (show : Qc -> str) (names : list str) (dicts : list (list str)) (x : nat) (ps : list nat) (a : asg) (p : Qc) : str :=
  lit "P (" ++ shown_value names dicts a x ++ match ps with [] => [] | _ => lit " | " ++ joined (lit ", ") (shown_value names dicts a <$> ps) end ++ lit ") = " ++ show p.
(** One line for every variable, every value of it and all values of its parents ([upds]: the assignment of these values), with
    the probability [f]. *)
Definition parameter_lines (show : Qc -> str) (names : list str) (dicts : list (list str)) (N : network) (f : nat -> asg -> Qc) : list str :=
  seq 0 (net_size N) ≫= fun x => (fun vals => let a := upds (fun _ => 0) (x :: parents_of N x) vals in parameter_line show names dicts x (parents_of N x) a (f x a)) <$>
    configs (net_dom N <$> x :: parents_of N x).

(** ** The structure file *)
Definition shown_edge (names : list str) (k : nat) (l : line) : str :=
  index k ++ lit ": " ++ match l with Arc a b => shown_node names a ++ lit " -> " ++ shown_node names b | Link a b => shown_node names a ++ lit " -- " ++ shown_node names b end.
(** The first line with the numbers of nodes and edges, and the numbered edges. *)
Definition structure_head (n k : nat) : str := lit "number of nodes = " ++ index n ++ lit ", number of edges = " ++ index k.
Definition structure_lines (names : list str) (n : nat) (ls : list line) : list str := structure_head n (length ls) :: imap (shown_edge names) ls.
(** The list [E] of the pairs x < y that are joined by an edge of [N], each once. *)
Definition joined_pairs (N : network) (E : list (nat * nat)) : Prop := NoDup E /\ forall x y, (x, y) ∈ E <-> x < y /\ 0 < edges_between N x y.
(** The lines are those of the essential graph of [g], each once: x -> y if every graph that is Markov equivalent to [g] has it, and
    x -- y, for one order of x and y, if it is x -> y in one such graph and y -> x in another. *)
Definition lists_essential (n : nat) (g : digraph) (ls : list line) : Prop :=
  NoDup ls /\
  (forall x y, Arc x y ∈ ls <-> forall h, dag n h -> markov_equivalent g h -> h x y = true) /\
  (forall x y, Link x y ∈ ls <-> x < y /\ (exists h, dag n h /\ markov_equivalent g h /\ h x y = true) /\ (exists h, dag n h /\ markov_equivalent g h /\ h y x = true)).
