(** Specification of BIF and XMLBIF networks. *)
From Coq Require Import Ascii String.
From Verif Require Export BIFModel DataSpec LearnSpec GraphSpec.
Local Open Scope nat_scope.

(** ** A network as data *)
(** Variable: name and value names. Distribution: the variable, its parents in order, and for the listed value numbers of
    the parents the probabilities (as text) of the values of the variable. *)
Record bvar := mkBV { bv_name : str; bv_values : list str }.
Record bdist := mkBD { bd_node : nat; bd_parents : list nat; bd_rows : list (list nat * list str) }.
Record bnet := mkBN { bn_vars : list bvar; bn_dists : list bdist }.
Definition bn_size (B : bnet) : nat := length (bn_vars B).
Definition bn_dom (B : bnet) (v : nat) : nat := match bn_vars B !! v with Some w => length (bv_values w) | None => 0 end.
Definition bn_name (B : bnet) (v : nat) : str := match bn_vars B !! v with Some w => bv_name w | None => [] end.
Definition bn_value (B : bnet) (v x : nat) : str := default ([] : str) (bn_vars B !! v ≫= fun w => bv_values w !! x).
(** The arcs, in the order of the file. *)
Definition bd_arcs (D : bdist) : list (nat * nat) := (fun p => (p, bd_node D)) <$> bd_parents D.
Definition bn_arcs (B : bnet) : list (nat * nat) := concat (bd_arcs <$> bn_dists B).
Definition bn_arc (B : bnet) (x y : nat) : Prop := (x, y) ∈ bn_arcs B.

(** ** Its text *)
(** Every element but the last is followed by a comma; the last by [e]. *)
Fixpoint comma_list (e : str) (l : list str) : list str :=
  match l with [] => [] | [w] => [w ++ e] | w :: l' => (w ++ [comma]) :: comma_list e l' end.
Definition words (ws : list str) : str := glue blank ws.
Definition var_lines (w : bvar) : list str :=
  [words [lit "variable"; bv_name w; lit "{"];
   words ([lit "type"; lit "discrete"; lit "["; to_string (Z.of_nat (length (bv_values w))); lit "]"; lit "{"] ++ comma_list [] (bv_values w) ++ [lit "};"]);
   lit "}"].
(** "(" before the first. *)
Definition open_list (l : list str) : list str := match l with [] => [] | w :: l' => (lit "(" ++ w) :: l' end.
Definition row_words (B : bnet) (ps : list nat) (r : list nat * list str) : list str :=
  (if bool_decide (ps = []) then [lit "table"] else open_list (comma_list (lit ")") (zip_with (bn_value B) ps r.1))) ++
  comma_list (lit ";") r.2.
Definition head_words (B : bnet) (D : bdist) : list str :=
  [lit "probability"; lit "("; bn_name B (bd_node D)] ++
  (if bool_decide (bd_parents D = []) then [] else lit "|" :: comma_list [] (bn_name B <$> bd_parents D)) ++ [lit ")"; lit "{"].
Definition dist_lines (B : bnet) (D : bdist) : list str :=
  words (head_words B D) :: (words ∘ row_words B (bd_parents D) <$> bd_rows D) ++ [lit "}"].
Definition bif_lines (B : bnet) : list str := concat (var_lines <$> bn_vars B) ++ concat (dist_lines B <$> bn_dists B).
(** Lines may be indented; the first two lines of the file are free. *)
Definition indented (l l' : str) : Prop := exists b : str, Forall (fun c => (c < 33)%Z /\ c <> newline) b /\ l' = b ++ l.
Definition is_bif (B : bnet) (text : str) : Prop :=
  exists h1 h2 ls, newline ∉ h1 /\ newline ∉ h2 /\ Forall2 indented (bif_lines B) ls /\ text = text_of (h1 :: h2 :: ls).

(** ** Proper networks *)
(** A word: not empty, no blank and no newline. *)
Definition word (w : str) : Prop := w <> [] /\ blank ∉ w /\ newline ∉ w.
Definition name_ok (w : str) : Prop := word w /\ last w <> Some comma /\ w <> lit ")".
Definition value_ok (w : str) : Prop := word w /\ last w <> Some comma /\ head w <> Some 40%Z.
Definition row_ok (B : bnet) (D : bdist) (r : list nat * list str) : Prop :=
  Forall2 (fun p x => x < bn_dom B p) (bd_parents D) r.1 /\ length r.2 = bn_dom B (bd_node D) /\ Forall word r.2.
Record bnet_ok (B : bnet) : Prop := {
  bo_names : NoDup (bv_name <$> bn_vars B) /\ Forall (fun w => name_ok (bv_name w)) (bn_vars B);
  bo_values : Forall (fun w => bv_values w <> [] /\ (Z.of_nat (length (bv_values w)) <= 2147483647)%Z /\ NoDup (bv_values w) /\ Forall value_ok (bv_values w)) (bn_vars B);
  bo_dists : bn_dists B <> [] /\ NoDup (bd_node <$> bn_dists B);
  bo_parents : Forall (fun D => bd_node D < bn_size B /\ NoDup (bd_parents D) /\ Forall (fun p => p < bn_size B) (bd_parents D)) (bn_dists B);
  bo_rows : Forall (fun D => Forall (row_ok B D) (bd_rows D)) (bn_dists B);
  bo_acyclic : acyclic (bn_arc B) }.
(** The numbers of the file: [num] is what [stod] reads, and it is a probability. *)
Definition reads_numbers (stod : str -> outcome Qc) (num : str -> Qc) (B : bnet) : Prop :=
  forall D r s, D ∈ bn_dists B -> r ∈ bd_rows D -> s ∈ r.2 -> stod s = Ok (num s) /\ (0 <= num s)%Qc /\ (num s <= 1)%Qc.

(** ** What is loaded *)
(** Ten thousand times the probability, rounded down. *)
Definition scaled (q : Qc) : Z := UtilModel.qtrunc (q * qz 10000)%Qc.
(** The value that comes out for value [y] of the row [qs]. *)
Definition smoothed_entry (qs : list Qc) (y : nat) : Qc :=
  ((qz (scaled (default 0%Qc (qs !! y))) + 1) / (qz (sumz qs scaled) + qn (length qs)))%Qc.
(** Assignment [a] gives the parents of [D] the values of row [r]. *)
Definition row_agrees (D : bdist) (r : list nat * list str) (a : asg) : Prop := a <$> bd_parents D = r.1.

(** ** XMLBIF *)
(** The rows of [D] are all the configurations of its parents, each once. *)
Definition complete_rows (B : bnet) (D : bdist) : Prop :=
  NoDup (bd_rows D).*1 /\ forall vs, Forall2 (fun p x => x < bn_dom B p) (bd_parents D) vs -> vs ∈ (bd_rows D).*1.
Definition xml_var_of (w : bvar) : xml_var := mkXV (lit "discrete") (bv_name w) (bv_values w).
(** A number with its least significant digit first. *)
Fixpoint little_endian (bases digits : list nat) : nat :=
  match bases, digits with d :: ds, x :: xs => x + d * little_endian ds xs | _, _ => 0 end.
(** The TABLE lists its entries such that the value of the first GIVEN changes fastest and the value of FOR slowest. *)
Definition first_given_fastest (B : bnet) (D : bdist) (es : list str) : Prop :=
  length es = foldr Nat.mul 1 ((bn_dom B <$> bd_parents D) ++ [bn_dom B (bd_node D)]) /\
  forall r y s, r ∈ bd_rows D -> r.2 !! y = Some s ->
    es !! little_endian ((bn_dom B <$> bd_parents D) ++ [bn_dom B (bd_node D)]) (r.1 ++ [y]) = Some s.
(** The text of a TABLE: the entries separated by single blanks, with blanks around. *)
Definition table_text (es : list str) (t : str) : Prop :=
  Forall (fun e => e <> [] /\ Forall (fun c => (33 <= c)%Z) e) es /\
  exists b1 b2 : str, Forall (fun c => (c < 33)%Z) b1 /\ Forall (fun c => (c < 33)%Z) b2 /\ t = b1 ++ words es ++ b2.
Definition is_xml_prob (B : bnet) (D : bdist) (P : xml_prob) : Prop :=
  xp_for P = bn_name B (bd_node D) /\ xp_given P = bn_name B <$> bd_parents D /\
  exists es, first_given_fastest B D es /\ table_text es (xp_table P).
Definition is_xml (B : bnet) (vars : list xml_var) (probs : list xml_prob) : Prop :=
  vars = xml_var_of <$> bn_vars B /\ Forall2 (is_xml_prob B) (bn_dists B) probs.

(** ** The loaded network *)
(** Same variables, values and arcs, in the order of the file. *)
Record holds_structure (B : bnet) (L : loaded) : Prop := {
  hs_inv : netinv (ld_net L);
  hs_size : net_size (ld_net L) = bn_size B;
  hs_names : forall v, v < bn_size B -> ld_names L !! v = Some (bn_name B v);
  hs_dom : forall v, v < bn_size B -> net_dom (ld_net L) v = bn_dom B v;
  hs_values : forall v x, v < bn_size B -> x < bn_dom B v -> exists m, ld_ids L !! v = Some m /\ m !! bn_value B v x = Some x;
  hs_edges : nt_edges (ld_net L) = (fun a => directed_edge a.1 a.2) <$> bn_arcs B;
  hs_num_edges : nt_num_edges (ld_net L) = length (bn_arcs B) }.
(** A row of probabilities. *)
Definition sums_to_one (num : str -> Qc) (r : list nat * list str) : Prop := qsum (num <$> r.2) (fun q => q) = 1%Qc.
(** [num s] has at most four decimals. *)
Definition four_decimals (num : str -> Qc) (r : list nat * list str) : Prop := Forall (fun s => exists z, num s = (qz z / qz 10000)%Qc) r.2.
(** The order of the XMLBIF 0.3 format: the value of FOR changes fastest, that of the first GIVEN slowest. *)
Definition for_fastest (B : bnet) (D : bdist) (es : list str) : Prop :=
  length es = foldr Nat.mul 1 ((bn_dom B <$> bd_parents D) ++ [bn_dom B (bd_node D)]) /\
  forall r y s, r ∈ bd_rows D -> r.2 !! y = Some s ->
    es !! little_endian (bn_dom B (bd_node D) :: reverse (bn_dom B <$> bd_parents D)) (y :: reverse r.1) = Some s.
Definition is_standard_prob (B : bnet) (D : bdist) (P : xml_prob) : Prop :=
  xp_for P = bn_name B (bd_node D) /\ xp_given P = bn_name B <$> bd_parents D /\
  exists es, for_fastest B D es /\ table_text es (xp_table P).
