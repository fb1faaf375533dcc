{
 "claims": [
  {
   "property": "C01",
   "status": "proved",
   "theorems": [
    "C01_index_bijection",
    "C01_table_slots"
   ],
   "note": "All domain-size vectors; doubles idealised as rationals (not relevant here)."
  },
  {
   "property": "C02",
   "status": "proved",
   "theorems": [
    "C02_observation",
    "C02_observation_conditions",
    "C02_conditioning",
    "C02_conditioning_absent_variable",
    "C02_conditioning_out_of_range",
    "C02_lookup_entry",
    "C02_lookup_first_variable"
   ],
   "note": "Absent variable is an out-of-bounds read in the code (modelled as an error outcome); an out-of-range value yields the zero table."
  },
  {
   "property": "C03",
   "status": "proved",
   "theorems": [
    "C03_marginalisation",
    "C03_sum_out_one_variable",
    "C03_sum_out_one_variable_general",
    "C03_keep_first_variable",
    "C03_fast_variant_agrees"
   ],
   "note": "Includes total mass, single variable variants and agreement of the modulo variant."
  },
  {
   "property": "C04",
   "status": "proved",
   "theorems": [
    "C04_multiplication",
    "C04_extension",
    "C04_division",
    "C04_fast_multiplication"
   ],
   "note": "Exact rationals in place of doubles."
  },
  {
   "property": "C05",
   "status": "proved",
   "theorems": [
    "C05_reorganisation",
    "C05_move_to_tail",
    "C05_modulo_addresses_separator"
   ],
   "note": ""
  },
  {
   "property": "C06",
   "status": "proved",
   "theorems": [
    "C06_normalise",
    "C06_normalise_zero_mass",
    "C06_normalise_conditional"
   ],
   "note": "Zero mass: plain normalisation is DivZero (NaN in the code), conditional variant leaves the block unchanged."
  },
  {
   "property": "C07",
   "status": "partial",
   "theorems": [
    "C07_general_product_partial",
    "C07_single_variable_product",
    "C07_product_scalar_left_refuted",
    "C07_product_scalar_right_refuted",
    "C07_product_same_scope_refuted"
   ],
   "note": "Holds for non-scalar factors whose scopes are not reorderings of each other; refuted for a scalar operand and for equal scopes in different order."
  },
  {
   "property": "C08",
   "status": "proved",
   "theorems": [
    "C08_all_posteriors",
    "C08_posterior",
    "C08_label",
    "C08_distribution",
    "C08_impossible_evidence",
    "C08_observed_query"
   ],
   "note": "Exact rationals in place of doubles. All connected DAGs, all tables without negative entries, all evidence, address orders and thread interleavings. Zero-probability or out-of-range evidence gives a division by zero (NaN in the code); an observed query variable ends the process."
  },
  {
   "property": "C09",
   "status": "proved",
   "theorems": [
    "C09_root_choice",
    "C09_junction_tree"
   ],
   "note": "Moralisation, triangulation, clique extraction and maximum spanning tree for every tie-break."
  },
  {
   "property": "C10",
   "status": "partial",
   "theorems": [
    "C10_build_partial",
    "C10_refuted"
   ],
   "note": "Proved: the engine can be built iff the network is weakly connected. Refuted for every network in several pieces (null pointer)."
  },
  {
   "property": "C11",
   "status": "proved",
   "theorems": [
    "C11_flat_index",
    "C11_flat_index_onto",
    "C11_flat_loop",
    "C11_propagation",
    "C11_queries"
   ],
   "note": "Interleavings of the read and write phase of each iteration of every parallel loop. Within an engine built from a network also the failing outcomes agree."
  },
  {
   "property": "C12",
   "status": "proved",
   "theorems": [
    "C12_session"
   ],
   "note": "Sessions of both query kinds, each query under its own schedule."
  },
  {
   "property": "C13",
   "status": "proved",
   "theorems": [
    "C13_cycle_check_exact",
    "C13_network_cycle_check_exact"
   ],
   "note": "Matrix level and network level, any size, self loops included."
  },
  {
   "property": "C14",
   "status": "partial",
   "theorems": [
    "C14_order_of_matrix",
    "C14_generated_order",
    "C14_first_order_partial",
    "C14_cached_order_refuted"
   ],
   "note": "Every generated order is right (acyclic: topological; cyclic: shorter). The getter caches the order and returns a stale one after later edits: refuted by a witness."
  },
  {
   "property": "C15",
   "status": "partial",
   "theorems": [
    "C15_histories_partial",
    "C15_reachable",
    "C15_add_edge",
    "C15_delete_edge",
    "C15_repeated_add_refuted"
   ],
   "note": "Holds for histories that never add an edge already present (undirected edits allowed too); refuted when an edge is added twice."
  },
  {
   "property": "C16",
   "status": "partial",
   "theorems": [
    "C16_added_parents",
    "C16_removal_partial",
    "C16_removal_refuted",
    "C16_network_parents",
    "C16_refused_addition_refuted"
   ],
   "note": "Adding parents to a node, and adding edges to a network without closing a cycle: proved for all sequences. Removing a parent is right iff the parent has one value; refuted for two values, also for an addition that is refused because of a cycle."
  },
  {
   "property": "C17",
   "status": "proved",
   "theorems": [
    "C17_subsets_meaning",
    "C17_enumeration",
    "C17_groups",
    "C17_invalid_arguments"
   ],
   "note": "All a, b, group sizes and call counts."
  },
  {
   "property": "C18",
   "status": "partial",
   "theorems": [
    "C18_skeleton_partial",
    "C18_gsquare",
    "C18_gsquare_alone",
    "C18_large_groups_refuted",
    "C18_counter_race",
    "C18_sepset_race",
    "C18_races_refuted"
   ],
   "note": "Any deterministic test function, all group sizes it supports, all orders of the (atomic) iterations; instantiated with the G-square test for groups of at most eight. Refuted for larger groups (array overrun) and for unsynchronised threads (shared counter and map)."
  },
  {
   "property": "C19",
   "status": "proved",
   "theorems": [
    "C19_separating_sets"
   ],
   "note": "Same generality as C18, with atomic iterations."
  },
  {
   "property": "C20",
   "status": "partial",
   "theorems": [
    "C20_colliders_partial",
    "C20_one_edge",
    "C20_adjacencies",
    "C20_refuted"
   ],
   "note": "Holds when the demanded directions contain no cycle (some numbering increases along them); refuted for a reachable set of contradicting colliders, after which a pair has a directed and an undirected edge. C20_adjacencies: for any answers of the tests no adjacency is lost or invented."
  },
  {
   "property": "C21",
   "status": "partial",
   "theorems": [
    "C21_families",
    "C21_extension_partial",
    "C21_complete_graph",
    "C21_invalid_iterator_refuted",
    "C21_refuted"
   ],
   "note": "Holds when the edge vector has room and the undirected edges come first; refuted for every complete skeleton (invalid iterator) and for a reachable pattern (an edge is left undirected)."
  },
  {
   "property": "C22",
   "status": "proved",
   "theorems": [
    "C22_single_table",
    "C22_pair_table",
    "C22_group_table",
    "C22_position",
    "C22_margin_x",
    "C22_margin_y",
    "C22_margin_z",
    "C22_total"
   ],
   "note": "Single, pair and group tables for any data set, any conditioning set size and any number of groups; int and long counters are unbounded in the model."
  },
  {
   "property": "C23",
   "status": "partial",
   "theorems": [
    "C23_single_decision",
    "C23_group_decision_partial",
    "C23_zero_statistic",
    "C23_group_decision",
    "C23_group_decision_refuted"
   ],
   "note": "Refuted for groups of more than eight tests (array of eight results). For two to eight tests the group finds the first set that separates alone, provided 1 - pchisq(0,0) > alpha (third-party function); without degrees of freedom the statistic is proved to be zero."
  },
  {
   "property": "C24",
   "status": "proved",
   "theorems": [
    "C24_learned_tables",
    "C24_without_smoothing",
    "C24_with_root"
   ],
   "note": "Includes the behaviour without smoothing (exact frequencies, or a division by zero) and with the ROOT node."
  },
  {
   "property": "C25",
   "status": "partial",
   "theorems": [
    "C25_root_distribution_refuted",
    "C25_root_distribution_partial"
   ],
   "note": "Refuted for odd numbers of rows; exact criterion proved (sums to one iff the number of rows is even)."
  },
  {
   "property": "C26",
   "status": "proved",
   "theorems": [
    "C26_root_choice",
    "C26_root_connects"
   ],
   "note": ""
  },
  {
   "property": "C27",
   "status": "partial",
   "theorems": [
    "C27_training_partial",
    "C27_duplicate_names",
    "C27_testing_partial",
    "C27_same_codes",
    "C27_header_only_refuted",
    "C27_phantom_refuted",
    "C27_blank_refuted"
   ],
   "note": "Full statement for every CSV file with at least one data row whose lines do not end in a blank. Refuted: a file with only a header makes the loader read a row that is not there; cells that differ only in a blank at the end of a line are merged."
  },
  {
   "property": "C28",
   "status": "partial",
   "theorems": [
    "C28_testing",
    "C28_testing_sizes",
    "C28_training_partial",
    "C28_training_general",
    "C28_last_zero_refuted",
    "C28_class_last_refuted",
    "C28_store_again_refuted",
    "C28_no_newline_refuted",
    "C28_samples"
   ],
   "note": "Round trip proved for test files, and for training files when the class is not the last variable and the last variable is not always zero; what is loaded otherwise is proved in C28_training_general. Refuted: trailing all-zero column, class variable last, storing loaded data again, missing final newline of a test file."
  },
  {
   "property": "C29",
   "status": "proved",
   "theorems": [
    "C29_split"
   ],
   "note": "All strings over signed char values."
  },
  {
   "property": "C30",
   "status": "partial",
   "theorems": [
    "C30_trim_ascii_partial",
    "C30_trim_right_ascii_partial",
    "C30_trim_left_ascii_partial",
    "C30_idempotent",
    "C30_trim_non_ascii_refuted"
   ],
   "note": "Holds for text without bytes above 127; refuted for other bytes, which are negative as signed chars."
  },
  {
   "property": "C31",
   "status": "proved",
   "theorems": [
    "C31_order",
    "C31_exactly_once",
    "C31_no_digits"
   ],
   "note": "Order and exactly-once; the empty list is an out-of-bounds access."
  },
  {
   "property": "C32",
   "status": "partial",
   "theorems": [
    "C32_svm",
    "C32_csv_partial",
    "C32_iff",
    "C32_missing_refuted",
    "C32_short"
   ],
   "note": "Proved for all LIBSVM test files and for CSV rows whose cells up to the class column are known; exact criterion in C32_iff. Refuted: a missing cell before the class column turns the class value into evidence."
  },
  {
   "property": "C33",
   "status": "proved",
   "theorems": [
    "C33_argmax",
    "C33_argmax_no_mass",
    "C33_accuracy",
    "C33_accuracy_too_short",
    "C33_accuracy_no_rows"
   ],
   "note": "Also shows the outcome without positive mass (uninitialised result), for too few predictions and for no rows."
  },
  {
   "property": "C34",
   "status": "partial",
   "theorems": [
    "C34_predict_partial",
    "C34_few_rows",
    "C34_refuted"
   ],
   "note": "Proved for no rows and for 20 or more; refuted for every row count from 1 to 19 (division by zero in the progress indicator)."
  },
  {
   "property": "C35",
   "status": "partial",
   "theorems": [
    "C35_shd_of_dag",
    "C35_three_parents_refuted",
    "C35_no_edges_refuted",
    "C35_dag_zero",
    "C35_shd_of_pattern_partial",
    "C35_wrong_label_refuted"
   ],
   "note": "Learned DAG: full, distance 0 iff same edges. Learned pattern: compared with the essential graph of the true DAG (all Markov equivalent DAGs), distance 0 iff equal; for true DAGs whose labelling erases once per node (at most one extra parent of a node unless a compelled edge into its last parent already decides). Refuted otherwise: three independent parents (erase on an empty vector), a true DAG that is labelled wrongly, graphs without edges."
  },
  {
   "property": "C36",
   "status": "proved",
   "theorems": [
    "C36_edges_ordered",
    "C36_second_call"
   ],
   "note": "Also shows that a second call ends the process."
  },
  {
   "property": "C37",
   "status": "partial",
   "theorems": [
    "C37_forward_sampling_partial",
    "C37_total",
    "C37_all_samples",
    "C37_generator_partial",
    "C37_stale_order_refuted",
    "C37_zero_draw_refuted"
   ],
   "note": "For every network reachable by editing, every table and every sequence of uniform numbers in (0,1), a sample assigns each variable once, in topological order, by inverting the cumulative row of its parents' values, and the set of number vectors giving a full assignment is a box whose volume is the product of the row entries. Refuted when a topological order cached before an edge was added is reused, and when the generator yields exactly 0 with a zero first entry. The quality of the random generator itself is outside the model."
  },
  {
   "property": "C38",
   "status": "partial",
   "theorems": [
    "C38_loaded_network_partial",
    "C38_entry_close_partial",
    "C38_entry_four_decimals_partial",
    "C38_probabilities_equal_refuted",
    "C38_unknown_value_refuted",
    "C38_blank_line_refuted"
   ],
   "note": "For every well-formed BIF text (as a printed network, any indentation), loading succeeds, keeps variables, values and arcs in order, and gives positive normalised tables whose entries are (floor(10000 q)+1)/(sum+r); bounds on the deviation and the exact value for four-decimal rows are proved, and junction-tree queries on the loaded network are exact for these tables. Equality with the file is refuted (it holds only for entries equal to 1/r). Also refuted: misspelt parent values are silently counted as value 0, and a blank line in the probability section throws. Doubles are exact in the model, so the further loss when 10000*q is not an integer in floating point is not covered."
  },
  {
   "property": "C39",
   "status": "proved",
   "theorems": [
    "C39_probability",
    "C39_division_by_zero",
    "C39_sums_to_one",
    "C39_unseen_uniform",
    "C39_positive",
    "C39_tables"
   ],
   "note": "Any smoothing constant and any history; also the tables built from the counters of all nodes."
  },
  {
   "property": "C40",
   "status": "partial",
   "theorems": [
    "C40_options_partial",
    "C40_order_partial",
    "C40_missing",
    "C40_missing_refuted",
    "C40_save",
    "C40_save_refuted",
    "C40_fall_through_refuted",
    "C40_unknown_refuted"
   ],
   "note": "Every option sets exactly its own field, in any order, for the values that the parser handles. Refuted: missing values, the documented values of -ss and -sp, fall-through to the file options, documented options that do not exist."
  },
  {
   "property": "C41",
   "status": "proved",
   "theorems": [
    "C41_complete_graph",
    "C41_no_position_twice",
    "C41_pairs_meaning",
    "C41_schedule_independent"
   ],
   "note": "Every order of the pair writes."
  },
  {
   "property": "C42",
   "status": "proved",
   "theorems": [
    "C42_transpose",
    "C42_from_stored_rows"
   ],
   "note": ""
  },
  {
   "property": "C43",
   "status": "partial",
   "theorems": [
    "C43_save_dag_partial",
    "C43_save_pattern_partial",
    "C43_no_edges_refuted",
    "C43_learned_partial"
   ],
   "note": "Networks with at least one edge; refuted for every network without edges. C43_learned_partial: of a structure learned with any tests only edges of the structure are saved, exactly if the skeleton has an edge; edges may be missing (C58_missing_edge_refuted)."
  },
  {
   "property": "C44",
   "status": "proved",
   "theorems": [
    "C44_closed",
    "C44_sound",
    "C44_learned"
   ],
   "note": "C44_sound: every network with agreeing parents and children, any edge list. C44_learned: all answers of the tests. C44_closed adds that the rules come to an end and leave nothing to direct, for patterns whose undirected edges come first and an edge vector with room."
  },
  {
   "property": "C45",
   "status": "proved",
   "theorems": [
    "C45_round"
   ],
   "note": "Exact rationals; overflow of long long not modelled."
  },
  {
   "property": "C46",
   "status": "proved",
   "theorems": [
    "C46_learn_then_query",
    "C46_learn_with_root_then_query"
   ],
   "note": "End to end: learning, construction, query. Learning with ROOT: exact for the tables as learned (ROOT's mass cancels)."
  },
  {
   "property": "C47",
   "status": "partial",
   "theorems": [
    "C47_learning_again_refuted",
    "C47_learning_again_partial"
   ],
   "note": "Refuted: tables are appended, never replaced, so the second run squares the joint. Partial: the exact effect of a second run."
  },
  {
   "property": "C48",
   "status": "proved",
   "theorems": [
    "C48_pattern",
    "C48_oracle_exists"
   ],
   "note": "All DAGs; hypotheses satisfiable for every DAG (oracle exists)."
  },
  {
   "property": "C49",
   "status": "partial",
   "theorems": [
    "C49_extension_partial",
    "C49_complete_graph",
    "C49_refuted"
   ],
   "note": "Adjacencies and v-structures are kept for every graph that is not complete; refuted: new v-structures arise (chain of three nodes), and for complete graphs the program uses an invalid iterator. C78 says exactly for which graphs none arise."
  },
  {
   "property": "C50",
   "status": "partial",
   "theorems": [
    "C50_training_partial",
    "C50_testing",
    "C50_empty_refuted"
   ],
   "note": "Test data: full statement. Training data: all files without empty cells; refuted with an empty cell (exit 1)."
  },
  {
   "property": "C51",
   "status": "partial",
   "theorems": [
    "C51_bif_and_xmlbif_partial",
    "C51_standard_order_refuted"
   ],
   "note": "Proved for tables that list the first GIVEN fastest and FOR slowest (the order of the shipped alarm.xml). Refuted for the order of the XMLBIF 0.3 format. XML parsing itself (tinyxml2) is not modelled."
  },
  {
   "property": "C52",
   "status": "proved",
   "theorems": [
    "C52_essential"
   ],
   "note": "Soundness and completeness of the orientation rules (existence of both directions is shown by constructing the equivalent DAG)."
  },
  {
   "property": "C53",
   "status": "partial",
   "theorems": [
    "C53_perfect_tests_distance_zero_partial",
    "C53_zero_iff_equivalent_partial",
    "C53_wrong_distance_refuted"
   ],
   "note": "Distance 0 with perfect tests; more generally the distance to a DAG is 0 iff that DAG is Markov equivalent to the one behind the tests. Same restriction on the compared DAG as C35; C53_wrong_distance_refuted: a DAG outside it for which perfect tests give distance 1."
  },
  {
   "property": "C54",
   "status": "partial",
   "theorems": [
    "C54_errors_partial",
    "C54_zero_iff_agree_partial",
    "C54_no_average"
   ],
   "note": "Proved for at least twenty test cases, each with a positive reference entry for an unobserved node; C54_no_average shows that the code divides by zero in all other cases."
  },
  {
   "property": "C55",
   "status": "partial",
   "theorems": [
    "C55_exact_inference_partial",
    "C55_first_cell_refuted",
    "C55_unobserved_row"
   ],
   "note": "Proved with the evidence the code uses: the observed cells of each row except the first one, at least one observed cell per row, at least twenty rows. C55_first_cell_refuted refutes the claim with all observed cells as evidence; C55_unobserved_row shows that a row without an observed cell ends the program."
  },
  {
   "property": "C56",
   "status": "proved",
   "theorems": [
    "C56_generator",
    "C56_all_samples",
    "C56_readable",
    "C56_class_unchecked"
   ],
   "note": "The draws are given: the generator of the code is seeded with the clock for each sample, so its draws need not be independent. C56_class_unchecked shows that a class variable out of range is read outside the sample."
  },
  {
   "property": "C57",
   "status": "proved",
   "theorems": [
    "C57_classify",
    "C57_unknown_class_refuted",
    "C57_few_rows_refuted"
   ],
   "note": "The comparison of the statistic with the threshold is a parameter. C57_unknown_class_refuted: a test row with an unknown class is compared in another column. C57_few_rows_refuted: fewer than twenty rows divide by zero."
  },
  {
   "property": "C58",
   "status": "proved",
   "theorems": [
    "C58_parameter_file",
    "C58_structure_file",
    "C58_structure_any_tests_partial",
    "C58_undirected_refuted",
    "C58_missing_edge_refuted"
   ],
   "note": "std::to_string of a double is a parameter. C58_structure_file also shows that the job reads past the end of the edges if all variables are independent. C58_undirected_refuted: undirected edges are ignored by the parameters. C58_missing_edge_refuted: with inconsistent tests an undirected edge can be missing in the structure file. C58_structure_any_tests_partial: what the structure file contains for any tests."
  },
  {
   "property": "C59",
   "status": "partial",
   "theorems": [
    "C59_distance_partial",
    "C59_no_reference",
    "C59_positions",
    "C59_order_refuted",
    "C59_fewer_variables",
    "C59_more_variables_refuted"
   ],
   "note": "C59_distance_partial: same restriction on the reference as C35, as many variables as columns. C59_positions, C59_order_refuted: variables are compared by position, so that the same network listed in another order is reported as different. C59_fewer_variables: a reference with fewer variables makes the jobs fail, the classification job with every reference without a further variable. C59_more_variables_refuted: further variables of the reference are not compared."
  },
  {
   "property": "C60",
   "status": "partial",
   "theorems": [
    "C60_parameter_file",
    "C60_structure_file",
    "C60_structure_any_tests_partial",
    "C60_complete_refuted"
   ],
   "note": "C60_parameter_file is for all tests. C60_structure_file for the tests of a graph that is not complete. C60_structure_any_tests_partial: for all tests the file is written and lists only edges of the structure. C60_complete_refuted: if all variables are adjacent, learning reads past the end of the edges and there is nothing to save. std::to_string of a double is a parameter."
  },
  {
   "property": "C61",
   "status": "proved",
   "theorems": [
    "C61_same_tables",
    "C61_exact",
    "C61_observed",
    "C61_impossible",
    "C61_contradiction"
   ],
   "note": "OpenMP tasks of the recursive variants run one after the other in the model; the data race on their shared pointer to the child is outside it. Two values for one variable: division by zero with the second way of entering evidence (C61_contradiction), the first value counts with the first way (witness)."
  },
  {
   "property": "C62",
   "status": "partial",
   "theorems": [
    "C62_structure",
    "C62_learning",
    "C62_classification",
    "C62_inference",
    "C62_inference_unreported",
    "C62_generator",
    "C62_files",
    "C62_success_means_written",
    "C62_missing_reference",
    "C62_unsupported",
    "C62_silent_refuted",
    "C62_exit_code_refuted",
    "C62_directory_refuted",
    "C62_defaults_refuted"
   ],
   "note": "Proved for the six implemented combinations of job and method, with the jobs of C55-C60. The full statement is false of the code: methods that the help lists succeed without doing anything, a refusal exits with 0, the data directory depends on the name of the checkout, and the announced default files are not those used (C62_*_refuted). tinyxml2 and the texts printed by the parser are not modelled."
  },
  {
   "property": "C63",
   "status": "partial",
   "theorems": [
    "C63_uniform_partial",
    "C63_normalise_partial",
    "C63_normalise_scores_partial",
    "C63_lookup_partial",
    "C63_sum_out_partial",
    "C63_position",
    "C63_constructed_refuted"
   ],
   "note": "Proved for arrays that the caller has sized. The full statement is false of the code: no constructor sizes the two arrays, so resetting the importance function of any constructed factor writes outside the array (C63_constructed_refuted)."
  },
  {
   "property": "C64",
   "status": "partial",
   "theorems": [
    "C64_sampling_leaves_nothing",
    "C64_inference_leaves_index_arrays_partial",
    "C64_structure_job_leaves_partial",
    "C64_learning_job_leaves_partial",
    "C64_classification_job_leaves_partial",
    "C64_everything_is_given_back_refuted",
    "C64_nodes_are_deleted_through_their_class_refuted",
    "C64_unlinked_cliques_refuted"
   ],
   "note": "Proved: no job uses or deletes a dead, null or never written pointer, and the objects left at the end are exactly the listed ones. The full statement is false of the code: one array per marginal, the tables of tests without degree of freedom, the learners of two jobs, the timer of parameter learning and one array per saved node with parents are never given back (C64_everything_is_given_back_refuted), nodes are deleted through a base class without virtual destructor (C64_nodes_are_deleted_through_their_class_refuted), and unconnected cliques lead to a null pointer (C64_unlinked_cliques_refuted). Vectors, sets and strings are not modelled as heap objects."
  },
  {
   "property": "C65",
   "status": "partial",
   "theorems": [
    "C65_exact_case",
    "C65_construction",
    "C65_posteriors_partial",
    "C65_relative_error_partial",
    "C65_label_partial",
    "C65_clear_winner_partial",
    "C65_impossible_evidence_partial",
    "C65_parameters",
    "C65_underflow_refuted"
   ],
   "note": "Proved for every rounding whose relative error is bounded for all non-negative numbers, that is, without underflow and overflow. With underflow the statement is false of the code: evidence of probability 2^-1200 leads to a division of zero by zero although its posterior is 1/4 (C65_underflow_refuted). K is an upper bound, not the best one."
  },
  {
   "property": "C66",
   "status": "proved",
   "theorems": [
    "C66_test",
    "C66_level",
    "C66_nonnegative",
    "C66_zero",
    "C66_bound",
    "C66_no_freedom",
    "C66_order",
    "C66_copies",
    "C66_copies_degrees",
    "C66_level_order",
    "C66_independent",
    "C66_dependent",
    "C66_groups",
    "C66_learning"
   ],
   "note": "Over the real numbers of the standard library (its axioms are listed in DESIGN.md), with exact arithmetic. The chi-square distribution function comes from a library outside of the repository; of it only F(0) = 0 and F -> 1 are used, and for groups the value at (0, 0), on which C66_groups shows the agreement of groups and single tests to depend."
  },
  {
   "property": "C67",
   "status": "partial",
   "theorems": [
    "C67_same_or_overflow",
    "C67_no_overflow_partial",
    "C67_overflow",
    "C67_small_tables_refuted"
   ],
   "note": "The code refutes the unconditional statement (C67_small_tables_refuted); with the stated bounds it is proved for all networks, sessions and schedules. Without any bound, C67_same_or_overflow says that the outcome is the one of unlimited integers or an overflow. Not checked: parameter learning and the sizes of the tables read from files."
  },
  {
   "property": "C68",
   "status": "partial",
   "theorems": [
    "C68_numbers",
    "C68_every_file",
    "C68_training_partial",
    "C68_testing_partial",
    "C68_bad_word",
    "C68_bad_test_word",
    "C68_suffix_refuted",
    "C68_third_part_refuted",
    "C68_unknown_refuted"
   ],
   "note": "Proved for every text, with what the code takes as a number: a prefix of the field. The code refutes the literal statement: \"2x\" is read as 2 (C68_suffix_refuted), a third part after a second colon is ignored (C68_third_part_refuted), and so is the value of a variable a test file does not know (C68_unknown_refuted). A training file whose class variable lies beyond every feature is refused as well (class_known)."
  },
  {
   "property": "C69",
   "status": "partial",
   "theorems": [
    "C69_every_file",
    "C69_training_partial",
    "C69_testing_partial",
    "C69_long_row_refuted",
    "C69_short_row_refuted",
    "C69_header_row_refuted"
   ],
   "note": "Every text is covered: the load succeeds when no row is shorter than the header and then codes the first cells of each row. The code refutes the rest of the statement: cells beyond the header are dropped (C69_long_row_refuted), a short row is read past its end (C69_short_row_refuted), and a file that ends with its header yields an instance, the header itself when the newline is missing (C69_header_row_refuted, C27_phantom_refuted)."
  },
  {
   "property": "C70",
   "status": "partial",
   "theorems": [
    "C70_same_or_overflow",
    "C70_single_test",
    "C70_group_test",
    "C70_learning_partial",
    "C70_large_pair",
    "C70_refuted"
   ],
   "note": "The exact condition is proved: a test overflows if and only if its table (for a group: its tables together) has more than M cells, and then the outcome is the overflow, never a wrong answer before it. Learning overflows nothing when the group size times the product of all numbers of values is at most M, and always overflows when two variables have a table of more than M cells. The unconditional statement is refuted by two columns of 46341 values (C70_refuted). The number of edges n(n-1)/2 and loop counters are not checked."
  },
  {
   "property": "C71",
   "status": "proved",
   "theorems": [
    "C71_exact",
    "C71_double",
    "C71_test",
    "C71_clear",
    "C71_rows",
    "C71_independent",
    "C71_skeleton",
    "C71_essential"
   ],
   "note": "Overflow and underflow are excluded by the assumption that every result is off by at most the fraction u (rounding to 53 digits without bounds on the exponent, from Flocq, is the instance of C71_double). The accuracy of log and of stats::pchisq, which are not part of the repository, is a hypothesis."
  },
  {
   "property": "C72",
   "status": "proved",
   "theorems": [
    "C72_exact_case",
    "C72_outcome",
    "C72_tables",
    "C72_sums_refuted",
    "C72_learn_then_query",
    "C72_learn_with_root_then_query"
   ],
   "note": "As in C65, overflow and underflow are excluded by the hypothesis on the rounding. int to double conversions are exact. Exact sums to one are refuted (C72_sums_refuted)."
  },
  {
   "property": "C73",
   "status": "proved",
   "theorems": [
    "C73_likeliest",
    "C73_smoothed",
    "C73_smoothed_likeliest_refuted",
    "C73_found_refuted"
   ],
   "note": "Exact arithmetic; C72 bounds the rounding. The case of a network without ROOT node (as many nodes as data columns); networks made connected by ROOT are excluded. The two boundaries of the claim are shown by C73_smoothed_likeliest_refuted and C73_found_refuted."
  },
  {
   "property": "C74",
   "status": "proved",
   "theorems": [
    "C74_distribution",
    "C74_answers",
    "C74_adjacencies_refuted",
    "C74_smoothed_refuted",
    "C74_failure_refuted"
   ],
   "note": "Exact arithmetic; networks without ROOT node. Boundaries: C74_smoothed_refuted, C74_failure_refuted, C74_adjacencies_refuted."
  },
  {
   "property": "C75",
   "status": "partial",
   "theorems": [
    "C75_nodes_partial",
    "C75_edge_counts",
    "C75_edges_refuted",
    "C75_tables_refuted",
    "C75_uniform_answers"
   ],
   "note": "Proved for nodes, parents, children, topological order, parameter learning, and inference with tables supplied again. The copy constructor copies neither the edge list nor the tables (C75_edges_refuted, C75_tables_refuted): comparing the copy throws, and inference on it silently answers with uniform distributions (C75_uniform_answers)."
  },
  {
   "property": "C76",
   "status": "partial",
   "theorems": [
    "C76_tables",
    "C76_equivalent",
    "C76_pipeline_partial",
    "C76_pipeline_refuted",
    "C76_near_tables",
    "C76_near_answers",
    "C76_sensitivity",
    "C76_smoothed_refuted",
    "C76_limit"
   ],
   "note": "Everything proved except that the whole pipeline needs the structure found to have no additional v-structure (C76_pipeline_partial): without it the claim is false of the code (C76_pipeline_refuted). With smoothing exact data do not give the exact tables (C76_smoothed_refuted). Exact arithmetic. C78_pipeline and C78_answers state the pipeline under a condition on the true graph."
  },
  {
   "property": "C77",
   "status": "proved",
   "theorems": [
    "C77_independent",
    "C77_answers",
    "C77_blanket",
    "C77_entries",
    "C77_informative",
    "C77_data",
    "C77_faithful_data",
    "C77_test",
    "C77_learning"
   ],
   "note": "Exact arithmetic. C77_test and C77_learning use the real numbers of the standard library (through C66), the others are closed. [faithful] is a hypothesis about the parameters, shown for a chain of three nodes."
  },
  {
   "property": "C78",
   "status": "proved",
   "theorems": [
    "C78_compelled",
    "C78_class",
    "C78_leaves",
    "C78_exactly",
    "C78_pipeline",
    "C78_answers"
   ],
   "note": "Exact arithmetic. C78_answers uses the real numbers of the standard library (through C66), the others are closed. This makes C49 and the pipeline of C76 exact: their condition on the returned graph is replaced by a condition on the true graph that C78_exactly shows necessary. Complete graphs are excluded because the code overruns its edge table on them (C49_complete_graph)."
  },
  {
   "property": "C79",
   "status": "proved",
   "theorems": [
    "C79_best",
    "C79_more",
    "C79_learned",
    "C79_nearly",
    "C79_smoothed",
    "C79_from_data"
   ],
   "note": "Exact arithmetic; twenty rows or more because the progress indicator divides by zero on fewer (C34). C79_from_data uses the real numbers of the standard library (through C66)."
  },
  {
   "property": "C80",
   "status": "proved",
   "theorems": [
    "C80_frequencies",
    "C80_learned",
    "C80_predictions",
    "C80_grid",
    "C80_limit",
    "C80_predictions_limit",
    "C80_draws",
    "C80_files"
   ],
   "note": "Exact arithmetic; draws in (0, 1] (C37 shows what the number 0 does). The samples are handed to learning as columns; that the files written by the generator load to the same rows is C56, and that columns hold the rows is C42."
  }
 ]
}