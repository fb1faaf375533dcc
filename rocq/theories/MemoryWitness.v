(** Concrete runs for the theorems on the lifetime of objects. *)
From Verif Require Import MemoryModel MemorySpec.

(** Three variables; the test of the first edge has no degree of freedom and removes it; one level with two edges:
    the first is visited three times, over both generators, and stays, the second is found independent. *)
Definition example_answers : list (nat * answer) :=
  [ (0, mkAnswer true true true (ThreeWay true) true 1 false true);
    (1, mkAnswer false true true (Grouped false) false 3 true false);
    (0, mkAnswer true true true (ThreeWay false) true 1 false false);
    (0, mkAnswer true true false (ThreeWay false) false 1 false true) ].
Definition example_learning : learning :=
  mkLearning [(0, 1); (0, 2); (1, 2)] (fun i => (bool_decide (i = 0), bool_decide (i = 0))) [example_answers]
    (fun _ => true) [(2, 1)] 2 [0; 2] true.
(** Three cliques in a row, and a pair of the first and the last that is not needed. *)
Definition example_tree : tree_shape := mkShape 3 (fun i j => if bool_decide (i = 0 /\ j = 2) then 1 else 2) 3 4 2.
Definition example_query : query := mkQuery [1; 2] [(true, 2); (false, 1)] [(false, 2)] 2.

Lemma example_proper : proper 3 example_learning.
Proof. split_and!; repeat constructor; cbn; lia. Qed.
Lemma example_linked : linked example_tree.
Proof.
  split; [cbn; lia|]. intros i Hi. cbn in Hi. destruct (decide (i = 0)) as [-> |]; [reflexivity|].
  apply rtc_once. split_and!; [cbn; lia..|]. cbn. case_bool_decide; done.
Qed.
