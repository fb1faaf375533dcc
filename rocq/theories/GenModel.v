(** The sample generator job: fastpgm_api.cpp L137-170. *)
From Verif Require Export PipeModel SampleModel.
Local Open Scope nat_scope.

(** Dataset.cpp L652-677 (in [StoreCSVData]), with the maps of a network (Dataset.cpp L26-39) instead of the maps of a training
    file; see [csv_values] in DataModel.v. The string of a value number is searched in the map, an empty string counts as not
    found. The order of the search only matters if two strings have the same number. *)
Definition csv_values_map (n : nat) (ms : list (gmap str nat)) (row : rowv) : outcome (list str) :=
  mfor row (fun p (value : list str) =>
    m ← vget ms (fst p);
    let key : str := match list_find (fun kv => Z.of_nat (snd kv) = snd p) (map_to_list m) with Some (_, kv) => fst kv | None => [] end in
    if bool_decide (key = []) then Err Exit1 else vset value (fst p) key) (replicate n ([] : str)).
(** Dataset.cpp L614-698 [StoreCSVData]. *)
Definition store_csv_map (names : list str) (n : nat) (ms : list (gmap str nat)) (rows : list rowv) : outcome str :=
  if bool_decide (names = []) || bool_decide (ms = []) then Err Exit1 else
  if negb (bool_decide (n = length names)) then Err Exit1 else
  ls ← mcollect rows (fun row => v ← csv_values_map n ms row; Ok (csv_line v));
  Ok (concat ((fun l => l ++ [newline]) <$> (csv_line names :: ls))).

(** fastpgm_api.cpp L137-149 [Sample_Generator]: load the network, draw the samples, write the LIBSVM file. [us] holds the
    uniform numbers of each sample; the code seeds a generator with the clock for each sample. *)
Definition generate_svm (stod : str -> outcome Qc) (vars : list xml_var) (probs : list xml_prob) (cls : nat) (us : list (nat -> Qc)) : outcome str :=
  L ← load_xmlbif stod vars probs;
  g ← generate_samples (ld_net L) (ld_counters L) us;
  output_svm cls ((fun s : list nat => Z.of_nat <$> s) <$> snd g).
(** L151-169: for a CSV file the LIBSVM file is read again, as test data with the maps of the network; the names are those of the
    nodes. Loading the network is repeated here because the model passes it nowhere. *)
Definition generate_csv (stod : str -> outcome Qc) (vars : list xml_var) (probs : list xml_prob) (cls : nat) (us : list (nat -> Qc)) : outcome str :=
  svm ← generate_svm stod vars probs cls us;
  L ← load_xmlbif stod vars probs;
  rows ← load_svm_testing (length (nt_nodes (ld_net L))) cls svm;
  store_csv_map (ld_names L) (length (nt_nodes (ld_net L))) (ld_ids L) rows.
