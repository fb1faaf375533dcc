(** C38, C51: loading networks (CustomNetwork.cpp, XMLBIFParser.cpp).

    Vocabulary (BIFSpec.v): [bnet] - a network as data: variables with their values, and for every listed variable its
    parents and rows (values of the parents, probabilities as text); [is_bif B text] - the text of a BIF file for [B];
    [is_xml B vars probs] - the elements of an XMLBIF file for [B], the TABLE listing the first GIVEN fastest; [bnet_ok] -
    names and values are distinct words, rows have the right lengths, the arcs form no cycle; [reads_numbers stod num B] -
    [std::stod] reads the numbers of [B] as [num], and they lie in [0, 1]; [holds_structure B L] - [L] has the variables,
    values and arcs of [B]; [smoothed_entry qs y] - (floor (10000 q_y) + 1) / (sum of floor (10000 q) + number of values). *)
From Verif Require Import BIFModel BIFSpec BIFProofs2 BIFMain BIFWitness JTSpec LearnSpec LearnModel JTWitness.
Local Open Scope nat_scope.

(** ** C38 *)
(** The variables, the values, the arcs and the shape of the tables are those of the file; every column of every table is
    a positive distribution; an entry is the smoothed number of the file, and uniform for a configuration without row; and
    queries on the loaded network are exact for the joint of these tables. Missing: equality with the file, see below. *)
Theorem C38_loaded_network_partial : forall B, bnet_ok B -> forall stod num, reads_numbers stod num B -> forall text, is_bif B text ->
  exists L ts, load_bif stod text = Ok L /\ holds_structure B L /\ node_tables (ld_net L) (ld_counters L) = Ok ts /\ length ts = bn_size B /\
  (forall x t, ts !! x = Some t -> cpt_ok (ld_net L) x (parents_of (ld_net L) x) (tval t) t) /\
  (forall D, D ∈ bn_dists B -> NoDup (bd_rows D).*1 -> exists t, ts !! bd_node D = Some t /\ parents_of (ld_net L) (bd_node D) ≡ₚ bd_parents D /\
    (forall r a, r ∈ bd_rows D -> valid (net_dom (ld_net L)) a -> row_agrees D r a -> tval t a = smoothed_entry (num <$> r.2) (a (bd_node D))) /\
    (forall a, valid (net_dom (ld_net L)) a -> (forall r, r ∈ bd_rows D -> ~ row_agrees D r a) -> tval t a = (1 / qn (bn_dom B (bd_node D)))%Qc)) /\
  forall o, weakly_connected (ld_net L) -> valid_order o -> exists T, jt_build o (ld_net L) ts = Ok T /\
    forall sch E, valid_scheduler sch -> evidence_in_range (ld_net L) E -> query_probs sch T E (jt_backup T) = Ok (jt_backup T, answer_all (ld_net L) ts E).
Proof. exact load_bif_main. Qed.
Print Assumptions C38_loaded_network_partial.
Example C38_loaded_network_partial_witness : bnet_ok garden /\ reads_numbers stod4 num4 garden /\ is_bif garden garden_text /\
  (L ← load_bif stod4 garden_text; tables_of L) = Ok garden_pots.
Proof. exact (conj garden_ok (conj garden_numbers (conj garden_is_bif garden_loaded))). Qed.

(** How far an entry is from the number in the file, when the row sums to one. *)
Theorem C38_entry_close_partial : forall B, bnet_ok B -> forall stod num, reads_numbers stod num B -> forall D r y s, D ∈ bn_dists B -> r ∈ bd_rows D -> sums_to_one num r -> r.2 !! y = Some s ->
  (num s - qn (bn_dom B (bd_node D)) / qz 10000 <= smoothed_entry (num <$> r.2) y)%Qc /\ (smoothed_entry (num <$> r.2) y <= num s + 1 / qz 10000)%Qc.
Proof. exact row_entry_close. Qed.
Print Assumptions C38_entry_close_partial.
(** Up to four decimals: (10000 q + 1) / (10000 + r); this is the number in the file for the uniform value 1/r only. *)
Theorem C38_entry_four_decimals_partial : forall B, bnet_ok B -> forall num D r y s, D ∈ bn_dists B -> r ∈ bd_rows D -> sums_to_one num r -> four_decimals num r -> r.2 !! y = Some s ->
  (smoothed_entry (num <$> r.2) y = (num s * qz 10000 + 1) / (qz 10000 + qn (bn_dom B (bd_node D))))%Qc /\
  (smoothed_entry (num <$> r.2) y = num s <-> num s = 1 / qn (bn_dom B (bd_node D)))%Qc.
Proof. exact row_entry_exact. Qed.
Print Assumptions C38_entry_four_decimals_partial.
Example C38_entry_witness : Forall (fun D => Forall (sums_to_one num4) (bd_rows D) /\ Forall (four_decimals num4) (bd_rows D)) (bn_dists garden).
Proof. exact garden_rows. Qed.
(** The full statement fails. *)
Theorem C38_probabilities_equal_refuted : exists B stod num text D r y s, bnet_ok B /\ reads_numbers stod num B /\ is_bif B text /\ D ∈ bn_dists B /\ r ∈ bd_rows D /\ NoDup (bd_rows D).*1 /\ sums_to_one num r /\ four_decimals num r /\ r.2 !! y = Some s /\
  exists L ts t, load_bif stod text = Ok L /\ node_tables (ld_net L) (ld_counters L) = Ok ts /\ ts !! bd_node D = Some t /\
    forall a, valid (net_dom (ld_net L)) a -> row_agrees D r a -> a (bd_node D) = y -> tval t a <> num s.
Proof. exact bif_not_equal. Qed.
Print Assumptions C38_probabilities_equal_refuted.
(** [bad_text]: A and B have values yes and no; the rows of B given A are "(yes) 0.3, 0.7;" and "(No) 0.6, 0.4;". The row
    of the unknown value is added to that of value 0 without an error. *)
Theorem C38_unknown_value_refuted : (L ← load_bif stod4 bad_text; tables_of L) = Ok [[frac 2001 10002; frac 8001 10002]; [frac 9001 20002; frac 1 2; frac 11001 20002; frac 1 2]].
Proof. exact unknown_value. Qed.
Print Assumptions C38_unknown_value_refuted.
(** [blank_text] ends in an empty line. *)
Theorem C38_blank_line_refuted : load_bif stod4 blank_text = Err Thrown.
Proof. exact blank_line_throws. Qed.
Print Assumptions C38_blank_line_refuted.

(** ** C51 *)
(** Missing: the order of the XMLBIF 0.3 format, see below; XML syntax is not modelled. *)
Theorem C51_bif_and_xmlbif_partial : forall B, bnet_ok B -> forall stod num, reads_numbers stod num B -> forall text vars probs, is_bif B text -> is_xml B vars probs -> length (bn_dists B) = bn_size B -> Forall (complete_rows B) (bn_dists B) ->
  exists L L', load_bif stod text = Ok L /\ load_xmlbif stod vars probs = Ok L' /\ ld_names L' = ld_names L /\ ld_ids L' = ld_ids L /\
    nt_nodes (ld_net L') = nt_nodes (ld_net L) /\ nt_edges (ld_net L') ≡ₚ nt_edges (ld_net L) /\ nt_num_edges (ld_net L') = nt_num_edges (ld_net L) /\
    netinv (ld_net L') /\ exists ts, node_tables (ld_net L) (ld_counters L) = Ok ts /\ node_tables (ld_net L') (ld_counters L') = Ok ts.
Proof. exact bif_xml_same. Qed.
Print Assumptions C51_bif_and_xmlbif_partial.
Example C51_bif_and_xmlbif_partial_witness : bnet_ok garden /\ reads_numbers stod4 num4 garden /\ is_bif garden garden_text /\ is_xml garden (xml_var_of <$> bn_vars garden) garden_probs /\
  (length (bn_dists garden) = bn_size garden /\ Forall (complete_rows garden) (bn_dists garden)) /\
  (L ← load_xmlbif stod4 (xml_var_of <$> bn_vars garden) garden_probs; tables_of L) = Ok garden_pots.
Proof. exact (conj garden_ok (conj garden_numbers (conj garden_is_bif (conj garden_is_xml (conj garden_complete garden_xml_loaded))))). Qed.
(** With the order of XMLBIF 0.3 the tables differ. *)
Theorem C51_standard_order_refuted : exists B stod num text vars probs, bnet_ok B /\ reads_numbers stod num B /\ length (bn_dists B) = bn_size B /\ Forall (complete_rows B) (bn_dists B) /\ is_bif B text /\
  vars = xml_var_of <$> bn_vars B /\ Forall2 (is_standard_prob B) (bn_dists B) probs /\
  exists L L' ts ts', load_bif stod text = Ok L /\ load_xmlbif stod vars probs = Ok L' /\ node_tables (ld_net L) (ld_counters L) = Ok ts /\ node_tables (ld_net L') (ld_counters L') = Ok ts' /\ (pt_pots <$> ts) <> (pt_pots <$> ts').
Proof. exact standard_order_differs. Qed.
Print Assumptions C51_standard_order_refuted.
