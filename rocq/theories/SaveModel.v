(** The files written by the learning job of the command line program: fastpgm_api.cpp L45-93. *)
From Coq Require Import Ascii String.
From Verif Require Export BIFModel ClassModel.
Local Open Scope nat_scope.

(** [std::to_string] of an index. *)
Definition index (n : nat) : str := to_string (Z.of_nat n).
(** The names of the nodes and of their values (StructureLearning.cpp L11-34): [names] is [node_name] by index, [dicts] is
    [possible_values_ids], represented as in DataModel.v by the list of the strings in the order of their numbers. *)
(** DiscreteNode.cpp L54-60 [GetValueNameByIndex]: for a number that is not in the map, the function ends without a [return]. *)
Definition value_name (dicts : list (list str)) (x v : nat) : outcome str :=
  d ← vget dicts x; match d !! v with Some s => Ok s | None => Err Uninit end.

(** ** StructureLearning.cpp L238-293 [SaveBNStructure], the text *)
(** "name/v3". *)
Definition node_text (names : list str) (x : nat) : outcome str := s ← vget names x; Ok (s ++ lit "/v" ++ index x).
(** L264-267, L276-286: one line; [k] is the running number. *)
Definition edge_text (names : list str) (k : nat) (l : line) : outcome str :=
  match l with
  | Arc a b => s ← node_text names a; t ← node_text names b; Ok (index k ++ lit ": " ++ s ++ lit " -> " ++ t)
  | Link a b => s ← node_text names a; t ← node_text names b; Ok (index k ++ lit ": " ++ s ++ lit " -- " ++ t)
  end.
(** Every line ends with [endl]. L246-248: the first line. The choice and the order of the edges are [save_bn_structure]. *)
Definition write_lines (ls : list str) : str := concat ((fun l => l ++ [newline]) <$> ls).
Definition structure_text (names : list str) (N : network) : outcome str :=
  ls ← save_bn_structure N;
  ts ← mcollect (zip (seq 0 (length ls)) ls) (fun kl => edge_text names (fst kl) (snd kl));
  Ok (write_lines ((lit "number of nodes = " ++ index (length (nt_nodes N)) ++ lit ", number of edges = " ++ index (nt_num_edges N)) :: ts)).

(** ** ParameterLearning.cpp L111-154 [SaveBNParameter] *)
(** [show] is [std::to_string] of a [double]. [std::string::pop_back] on an empty string is undefined. *)
Definition pop_back (s : str) : outcome str := if bool_decide (s = []) then Err OutOfBounds else Ok (take (length s - 1) s).
(** L123: "P (name/v3=". *)
Definition head_text (names : list str) (x : nat) : outcome str := s ← node_text names x; Ok (lit "P (" ++ s ++ lit "=").
(** L126-133: a node without parents. *)
Definition root_lines (show : Qc -> str) (names : list str) (dicts : list (list str)) (x : nat) (t : ptable) : outcome (list str) :=
  head ← head_text names x;
  mcollect (seq 0 (pt_size t)) (fun j =>
    v ← value_name dicts x j; p ← vget (pt_pots t) j;
    Ok (head ++ v ++ lit "/" ++ index j ++ lit ") = " ++ show p)).
(** L134-149: the entry [j] of the table of a node with parents. *)
Definition family_line (show : Qc -> str) (names : list str) (dicts : list (list str)) (N : network) (x : nat) (t : ptable) (j : nat) : outcome str :=
  head ← head_text names x;
  cfg ← get_config t j;
  c ← vget cfg 0; v ← value_name dicts x c;
  ps ← mcollect (seq 1 (pt_nv t - 1)) (fun k =>
    y ← vget (pt_vars t) k; _ ← find_node N y;
    s ← node_text names y; c ← vget cfg k; v ← value_name dicts y c;
    Ok (s ++ lit "=" ++ v ++ lit "/" ++ index c ++ lit ", "));
  s ← pop_back (head ++ v ++ lit "/" ++ index c ++ lit " | " ++ concat ps);
  s ← pop_back s;
  p ← vget (pt_pots t) j;
  Ok (s ++ lit ") = " ++ show p).
Definition parameter_text (show : Qc -> str) (names : list str) (dicts : list (list str)) (N : network) (ts : list ptable) : outcome str :=
  ls ← mcollect (seq 0 (length (nt_nodes N))) (fun x =>
    _ ← find_node N x; t ← vget ts x;
    if bool_decide (pt_nv t = 1) then root_lines show names dicts x t
    else mcollect (seq 0 (pt_size t)) (family_line show names dicts N x t));
  Ok (write_lines (concat ls)).

(** ** fastpgm_api.cpp L45-75 [BNL_PCStable] without a reference network *)
(** The structure is neither directed completely nor extended by ROOT. The two files, if they are demanded. *)
Definition learn_network (accept : list (nat * nat * nat * nat) -> nat -> bool) (depth fuel size : nat) (ssch : nat -> schedule) (coin : nat -> bool)
    (flips : nat -> nat -> nat) (show : Qc -> str) (save_struct save_param : bool) (train : str) : outcome (option str * option str) :=
  d ← load_csv_training train;
  D ← columns_of d;
  N ← learn_structure accept depth fuel size ssch false coin d D;
  s ← (if save_struct then Some <$> structure_text (d_names d) N else Ok None);
  ts ← learn_params N D 1 flips [];
  p ← (if save_param then Some <$> parameter_text show (d_names d) (d_dicts d) N ts else Ok None);
  Ok (s, p).
