(** The classification job on a small table, and test files with which it goes wrong. *)
From Coq Require Import Ascii String.
From Coq Require Import Field QArith.
From Verif Require Import ClassModel ClassSpec ClassProofs PCModel CellSpec PCWitness JTSpec JTWitness DataProofs CSVTheorems DataWitness EvalWitness.
Local Open Scope nat_scope.

(** The test that accepts tables with a statistic of zero. *)
Definition exactly_balanced (ts : list gterm) (df : nat) : bool := forallb (fun t => let '(obs, row, col, total) := t in bool_decide (obs * total = row * col)) ts.
Definition play_header : list str := chars <$> ["play"; "sky"; "wind"]%string.
Definition play_rows : list (list str) := [chars <$> ["yes"; "sun"; "low"]; chars <$> ["yes"; "sun"; "high"]; chars <$> ["yes"; "cloud"; "low"]; chars <$> ["yes"; "cloud"; "high"];
  chars <$> ["no"; "rain"; "low"]; chars <$> ["no"; "rain"; "high"]; chars <$> ["no"; "cloud"; "low"]; chars <$> ["no"; "cloud"; "high"]]%string.
Definition play_train : str := text_of (glue comma <$> play_header :: play_rows).
Definition play_tests : list (list str) := List.concat (replicate 5 [chars <$> ["yes"; "sun"; "low"]; chars <$> ["no"; "rain"; ""]; chars <$> ["no"; "sun"; "gale"]; chars <$> ["no"; "cloud"; "high"]]%string).
Definition play_test : str := text_of (glue comma <$> play_header :: play_tests).
Definition some_flips (x j : nat) : nat := (x + j) mod 2.
Lemma some_flips_binary x j : some_flips x j < 2.
Proof. by apply Nat.mod_upper_bound. Qed.
Lemma play_table : csv_table play_train play_header play_rows /\ NoDup play_header.
Proof. split; [apply csv_tableb_ok; [by left|by vm_compute]|]. apply (bool_decide_unpack _); vm_compute; exact I. Qed.
Lemma class_known_check rows trows : forallb (fun cells => match cells !! 0 with Some c => bool_decide (c <> []) && bool_decide (c ∈ column 0 rows) | None => false end) trows = true -> class_known rows trows.
Proof.
  rewrite forallb_forall. intros H cells Hin. specialize (H cells). rewrite <-elem_of_list_In in H. specialize (H Hin). destruct (cells !! 0) as [c|]; [|done]. exists c.
  apply andb_true_iff in H as [H1 H2]. apply bool_decide_eq_true in H1, H2. done.
Qed.
Lemma play_test_table : csv_table play_test play_header play_tests /\ 20 <= length play_tests /\ class_known play_rows play_tests.
Proof. split; [apply csv_tableb_ok; [by left|by vm_compute]|]. split; [vm_compute; lia|]. apply class_known_check. vm_compute. reflexivity. Qed.
(** The arc found is sky -> play. Ten of the twenty labels are right: the class of a cloudy day is a tie, which goes to "yes". *)
Lemma play_learned : exists d D N, load_csv_training play_train = Ok d /\ columns_of d = Ok D /\ learn_structure exactly_balanced 1000 1000 1 forwards true (fun _ => true) d D = Ok N /\ nd_parents <$> nt_nodes N = [[1]; []; []].
Proof.
  assert (match load_csv_training play_train with Ok d => match columns_of d with Ok D => match learn_structure exactly_balanced 1000 1000 1 forwards true (fun _ => true) d D with
    Ok N => bool_decide (nd_parents <$> nt_nodes N = [[1]; []; []]) | Err _ => false end | Err _ => false end | Err _ => false end = true) as H by (vm_compute; reflexivity).
  destruct (load_csv_training play_train) as [d|]; [|discriminate H]. destruct (columns_of d) as [D|] eqn:HD; [|discriminate H].
  destruct (learn_structure exactly_balanced 1000 1000 1 forwards true (fun _ => true) d D) as [N|] eqn:HN; [|discriminate H]. apply bool_decide_eq_true in H. by exists d, D, N.
Qed.
Lemma play_classified : classify exactly_balanced 1000 1000 1 forwards (fun _ => true) some_flips addr_order (fun _ => wild_sched) play_train play_test = Ok (1 / (1 + 1))%Qc.
Proof. vm_compute. f_equal. apply (bool_decide_unpack _); vm_compute; exact I. Qed.

(** ** Test rows with an unknown class *)
Definition odd_tests : list (list str) := replicate 20 (chars <$> ["maybe"; "sun"; "low"])%string.
Definition odd_test : str := text_of (glue comma <$> play_header :: odd_tests).
Lemma odd_classified : csv_table odd_test play_header odd_tests /\ 20 <= length odd_tests /\
  classify exactly_balanced 1000 1000 1 forwards (fun _ => true) some_flips addr_order (fun _ => wild_sched) play_train odd_test = Ok 1%Qc.
Proof. split; [apply csv_tableb_ok; [by left|by vm_compute]|]. split; [vm_compute; lia|]. vm_compute. f_equal. apply (bool_decide_unpack _); vm_compute; exact I. Qed.
Lemma unknown_class_counted : exists train header rows test theader trows accept depth fuel size ssch coin flips o sch,
  csv_table train header rows /\ NoDup header /\ csv_table test theader trows /\ length theader = length header /\ 20 <= length trows /\
  (forall x j, flips x j < 2) /\ valid_order o /\ (forall i : nat, valid_scheduler (sch i)) /\
  (forall cells c, cells ∈ trows -> cells !! 0 = Some c -> c ∉ column 0 rows) /\
  classify accept depth fuel size ssch coin flips o sch train test = Ok 1%Qc.
Proof.
  exists play_train, play_header, play_rows, odd_test, play_header, odd_tests, exactly_balanced, 1000, 1000, 1, forwards, (fun _ => true), some_flips, addr_order, (fun _ => wild_sched).
  destruct play_table as [H1 H2]. destruct odd_classified as (H3 & H4 & H5). refine (conj H1 (conj H2 (conj H3 (conj eq_refl (conj H4 (conj some_flips_binary (conj addr_order_valid (conj (fun _ => wild_valid) (conj _ H5))))))))).
  intros cells c Hin Hc. unfold odd_tests in Hin. apply elem_of_replicate in Hin as [-> _]. injection Hc as <-. apply (bool_decide_unpack _); vm_compute; exact I.
Qed.
(** ** A test file of fewer than twenty rows *)
Lemma few_rows : exists train header rows test theader trows accept depth fuel size ssch coin flips o sch,
  csv_table train header rows /\ NoDup header /\ csv_table test theader trows /\ length theader = length header /\ class_known rows trows /\
  (forall x j, flips x j < 2) /\ valid_order o /\ (forall i : nat, valid_scheduler (sch i)) /\
  classify accept depth fuel size ssch coin flips o sch train test = Err DivZero.
Proof.
  exists play_train, play_header, play_rows, play_train, play_header, play_rows, exactly_balanced, 1000, 1000, 1, forwards, (fun _ => true), some_flips, addr_order, (fun _ => wild_sched).
  destruct play_table as [H1 H2]. refine (conj H1 (conj H2 (conj H1 (conj eq_refl (conj _ (conj some_flips_binary (conj addr_order_valid (conj (fun _ => wild_valid) _)))))))); [|vm_compute; reflexivity].
  apply class_known_check. vm_compute. reflexivity.
Qed.
