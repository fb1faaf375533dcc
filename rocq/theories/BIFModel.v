(** Model of the loaders of networks: CustomNetwork.cpp and XMLBIFParser.cpp. A BIF file is its contents; an XMLBIF file
    is given as the texts of its elements (the parsing of XML by tinyxml2 is not modelled). [std::stod] is a parameter;
    [double] is exact. *)
From Coq Require Import Ascii String.
From Verif Require Export DataModel LearnModel.
Local Open Scope nat_scope.

(** A string literal. *)
Fixpoint lit (s : string) : str := match s with EmptyString => [] | String c s' => Z.of_nat (nat_of_ascii c) :: lit s' end.
(** The conversion of [prob*10000] to the [int] parameter of [AddCount]; undefined when it does not fit. *)
Definition per10000 (q : Qc) : outcome Z := let z := UtilModel.qtrunc (q * qz 10000)%Qc in if fits_int z then Ok z else Err OutOfBounds.

(** The nodes: names and [possible_values_ids]; the graph; the counters. *)
Record loaded := mkLoaded { ld_names : list str; ld_ids : list (gmap str nat); ld_net : network; ld_counters : list counters }.
(** Network.cpp L78-88 [FindNodePtrByName]; XMLBIFParser.cpp L82-87, L102-107: the first node with the name. *)
Definition find_name (names : list str) (s : str) : option nat := fst <$> list_find (eq s) names.
(** CustomNetwork.cpp L152-155: [SetParentChild], the new edge, [++num_edges]. *)
Definition load_arc (N : network) (p c : nat) : outcome network :=
  N1 ← set_parent_child N p c;
  Ok (mkNet (nt_nodes N1) (nt_edges N1 ++ [directed_edge p c]) (nt_topo N1) (S (nt_num_edges N1))).
Definition add_count_to (N : network) (x y : nat) (u : config) (k : Z) (cs : list counters) : outcome (list counters) :=
  nd ← find_node N x; c ← vget cs x; vset cs x (add_count nd y u k c).

(** ** CustomNetwork.cpp L52-203 [LoadBIFFile] *)
(** [getline] into [line]: when the end was hit before, it fails and leaves [line] as it is. *)
Definition next_line (line rest : str) (eof : bool) : str * str * bool :=
  if eof then (line, rest, eof) else let '(l, r, _, e) := getline rest in (l, r, e).
(** L91-110, one line: a variable is its name, its [num_potential_vals] (-1 in a new node, DiscreteNode.cpp L7-9) and its values. *)
Notation bif_decl := (str * Z * gmap str nat)%type.
Definition bif_var_line (toks : list str) (vs : list bif_decl) : outcome (list bif_decl) :=
  t0 ← vat toks 0;
  if bool_decide (t0 = lit "variable") then t1 ← vat toks 1; Ok (vs ++ [(t1, (-1)%Z, ∅)])
  else if bool_decide (t0 = lit "type") then
    t1 ← vat toks 1;
    if bool_decide (t1 = lit "discrete") then
      t3 ← vat toks 3; d ← stoi t3;
      match last vs with
      | None => Err NullDeref
      | Some (nm, _, ids) =>
          ids' ← mfor (seq 0 (Z.to_nat d)) (fun i ids => t ← vat toks (6 + i); v ← trim_right_one [44%Z] t; Ok (<[v := i]> ids)) ids;
          vset vs (length vs - 1) (nm, d, ids')
      end
    else Err Exit1
  else Ok vs.
(** L84-115: until the first line of a probability. Without one, the end of the file is read forever. *)
Fixpoint bif_var_loop (fuel : nat) (line rest : str) (eof : bool) (vs : list bif_decl) : outcome (str * str * bool * list bif_decl) :=
  line ← trim_left line; toks ← split_str line [blank]; t0 ← vat toks 0;
  if bool_decide (t0 = lit "probability") then Ok (line, rest, eof, vs)
  else match fuel with
       | O => Err OutOfFuel
       | S f => vs' ← bif_var_line toks vs; let '(l, r, e) := next_line line rest eof in bif_var_loop f l r e vs'
       end.
(** The network of the declared variables. A node that has no domain size, or a negative one, is outside the model: [Uninit]. *)
Definition bif_nodes (vs : list bif_decl) : outcome loaded :=
  if forallb (fun v => bool_decide (0 <= v.1.2)%Z) vs then
    Ok (mkLoaded (fst ∘ fst <$> vs) (snd <$> vs) (new_network ((fun v => Z.to_nat v.1.2) <$> vs)) (replicate (length vs) new_counters))
  else Err Uninit.
(** L143-148: the parents, up to the closing parenthesis. *)
Fixpoint bif_parents (names : list str) (toks : list str) : outcome (list (option nat)) :=
  match toks with
  | [] => Err Thrown
  | t :: toks' => if bool_decide (t = lit ")") then Ok [] else n ← trim_right_one [44%Z] t; ps ← bif_parents names toks'; Ok (find_name names n :: ps)
  end.
Definition deref {A} (o : option A) : outcome A := match o with Some x => Ok x | None => Err NullDeref end.
(** L129-157: the node, its parents, the edges. *)
Definition bif_head (toks : list str) (L : loaded) : outcome (loaded * option nat * list nat) :=
  t1 ← vat toks 1;
  if bool_decide (t1 = lit "(") then
    t2 ← vat toks 2; t3 ← vat toks 3;
    let this := find_name (ld_names L) t2 in
    if bool_decide (t3 = lit ")") then Ok (L, this, [])
    else
      ops ← bif_parents (ld_names L) (drop 4 toks);
      x ← deref this; ps ← mcollect ops deref;
      N ← mfor ps (fun p N => load_arc N p x) (ld_net L);
      Ok (mkLoaded (ld_names L) (ld_ids L) N (ld_counters L), this, ps)
  else Err Exit1.
(** L158-199: one row. [possible_values_ids[v2]] inserts an unknown value with number 0. *)
Definition bif_row (stod : str -> outcome Qc) (toks : list str) (this : option nat) (ps : list nat) (L : loaded) : outcome loaded :=
  x ← deref this; idx ← vget (ld_ids L) x;
  let nv := size idx in
  r ← mfor (seq 0 (length ps)) (fun i st =>
    let '(u, ids) := (st : config * list (gmap str nat)) in
    t ← vat toks i; v1 ← trim_left_parenthesis t; v2 ← trim_right_one [44%Z; 41%Z] v1;
    p ← vget ps i; m ← vget ids p;
    match m !! v2 with
    | Some k => Ok (cins (p, k) u, ids)
    | None => ids' ← vset ids p (<[v2 := 0]> m); Ok (cins (p, 0) u, ids')
    end) ([], ld_ids L);
  let '(u, ids) := r in
  let pos := if bool_decide (ps = []) then 1 else length ps in
  cs ← mfor (seq 0 nv) (fun i cs =>
    t ← vat toks (pos + i); v ← trim_right_one [44%Z; 59%Z] t; q ← stod v; k ← per10000 q;
    add_count_to (ld_net L) x i u k cs) (ld_counters L);
  Ok (mkLoaded (ld_names L) ids (ld_net L) cs).
(** L124-202; [line] has been read, [this] and [ps] are [this_node] and [parent_nodes]. *)
Fixpoint bif_prob_loop (fuel : nat) (stod : str -> outcome Qc) (line rest : str) (eof : bool) (this : option nat) (ps : list nat) (L : loaded) : outcome loaded :=
  if eof then Ok L else
  match fuel with
  | O => Err OutOfFuel
  | S f =>
      line ← trim_left line; toks ← split_str line [blank]; t0 ← vat toks 0;
      st ← (if bool_decide (t0 = lit "probability") then bif_head toks L
            else if bool_decide (t0 = lit "}") then Ok (L, this, ps)
            else L' ← bif_row stod toks this ps L; Ok (L', this, ps));
      let '(L', this', ps') := (st : loaded * option nat * list nat) in
      let '(l, r, e) := next_line line rest eof in bif_prob_loop f stod l r e this' ps' L'
  end.
Definition load_bif (stod : str -> outcome Qc) (text : str) : outcome loaded :=
  let '(_, r, _, e) := getline text in
  let '(l, r, e) := next_line [] r e in
  let '(l, r, e) := next_line l r e in
  st ← bif_var_loop (S (length r)) l r e [];
  let '(l, r, e, vs) := st in
  L ← bif_nodes vs;
  bif_prob_loop (S (S (length r))) stod l r e None [] L.

(** ** XMLBIFParser.cpp, CustomNetwork.cpp L15-43 [LoadXMLBIFFile] *)
(** The texts of TYPE, NAME and the VALUEs of a VARIABLE; of FOR, the GIVENs and TABLE of a PROBABILITY. *)
Record xml_var := mkXV { xv_type : str; xv_name : str; xv_values : list str }.
Record xml_prob := mkXP { xp_for : str; xp_given : list str; xp_table : str }.
(** XMLBIFParser.cpp L33-70 [GetUnconnectedNodes]: only discrete variables become nodes. *)
Definition xml_ids (values : list str) : gmap str nat := foldl (fun m iv => <[iv.2 := iv.1]> m) ∅ (imap (fun i v => (i, v)) values).
Definition xml_nodes (vars : list xml_var) : outcome loaded :=
  if bool_decide (vars = []) then Err Exit1 else
  let vs := filter (fun v => xv_type v = lit "discrete") vars in
  let ids := xml_ids ∘ xv_values <$> vs in
  Ok (mkLoaded (xv_name <$> vs) ids (new_network ((fun m => size m) <$> ids)) (replicate (length vs) new_counters)).
Definition or_exit {A} (o : option A) : outcome A := match o with Some x => Ok x | None => Err Exit1 end.
(** L115-123: [AddParent] and [AddChild]; no edge is stored. *)
Definition xml_link (N : network) (p c : nat) : outcome network := set_parent_child N p c.
(** L76-197, one PROBABILITY. *)
Definition xml_assign (stod : str -> outcome Qc) (P : xml_prob) (L : loaded) : outcome loaded :=
  x ← or_exit (find_name (ld_names L) (xp_for P));
  gs ← mcollect (xp_given P) (fun g => or_exit (find_name (ld_names L) g));
  N ← mfor gs (fun p N => xml_link N p x) (ld_net L);
  t ← trim (xp_table P); toks ← split_str t [blank];
  es ← mcollect toks stod;
  nd ← find_node N x; ds ← mcollect gs (fun g => ndg ← find_node N g; Ok (nd_dom ndg));
  digits ← nary_count (nd_dom nd :: ds);
  if bool_decide (length digits = length es) then
    cs ← mfor (seq 0 (length digits)) (fun i cs =>
      d ← vget digits i; y ← vget d 0;
      u ← mfor (seq 1 (length d - 1)) (fun j u => g ← vget gs (j - 1); k ← vget d j; Ok (cins (g, k) u)) [];
      q ← vat es i; k ← per10000 q;
      add_count_to N x y u k cs) (ld_counters L);
    Ok (mkLoaded (ld_names L) (ld_ids L) N cs)
  else Err Exit1.
(** CustomNetwork.cpp L34-42: the edges from the child sets. *)
Definition xml_edges (N : network) : network :=
  let es := concat (imap (fun x nd => directed_edge x <$> nd_children nd) (nt_nodes N)) in
  mkNet (nt_nodes N) (nt_edges N ++ es) (nt_topo N) (nt_num_edges N + length es).
Definition load_xmlbif (stod : str -> outcome Qc) (vars : list xml_var) (probs : list xml_prob) : outcome loaded :=
  if bool_decide (length vars = length probs) then
    L ← xml_nodes vars;
    L ← mfor probs (fun P L => xml_assign stod P L) L;
    Ok (mkLoaded (ld_names L) (ld_ids L) (xml_edges (ld_net L)) (ld_counters L))
  else Err Exit1.
