(** The jobs on a small table, with reference networks. *)
From Coq Require Import Ascii String.
From Coq Require Import Field QArith.
From Verif Require Import JobModel JobSpec JobProofs PCModel PCSpec CellSpec PCWitness DataProofs CSVTheorems DataWitness ClassWitness SaveWitness BIFWitness.
From Verif Require Import DSepWitness.
Local Open Scope nat_scope.

Lemma bif_of B (h1 h2 : str) : newline ∉ h1 -> newline ∉ h2 -> is_bif B (text_of (h1 :: h2 :: bif_lines B)).
Proof. intros H1 H2. exists h1, h2, (bif_lines B). split; [done|]. split; [done|]. split; [|done]. apply Forall_Forall2_diag, Forall_forall. intros l _. by exists []. Qed.
Definition plain_bif (B : bnet) : str := text_of (lit "network {" :: lit "}" :: bif_lines B).
Lemma plain_is_bif B : is_bif B (plain_bif B).
Proof. apply bif_of; apply (bool_decide_unpack _); vm_compute; exact I. Qed.
(** A reference whose variables have at most two parents is comparable. *)
Lemma two_parents_comparable B : Forall (fun D => length (bd_parents D) <= 2) (bn_dists B) -> NoDup (bd_node <$> bn_dists B) -> Forall (fun D => NoDup (bd_parents D)) (bn_dists B) -> comparable B.
Proof.
  intros H2 Hn Hp t _ x y z1 z2 Hx _ _ H1 H3 Hne1 Hne2 _ _.
  assert (forall z, bn_arc B z y -> exists D, D ∈ bn_dists B /\ bd_node D = y /\ z ∈ bd_parents D) as Harc.
  { intros z Hz. unfold bn_arc, bn_arcs in Hz. apply elem_of_list_In, in_concat in Hz as (l & Hl & Hz). rewrite <-elem_of_list_In in Hl. rewrite <-elem_of_list_In in Hz. apply elem_of_list_fmap in Hl as (D & -> & HD). unfold bd_arcs in Hz. apply elem_of_list_fmap in Hz as (p & [= -> ->] & Hp'). by exists D. }
  destruct (Harc x Hx) as (D & HD & Hy & HxD). assert (forall z, bn_arc B z y -> z ∈ bd_parents D) as Hall.
  { intros z Hz. destruct (Harc z Hz) as (D' & HD' & Hy' & Hz'). apply elem_of_list_lookup in HD as [i Hi]. apply elem_of_list_lookup in HD' as [j Hj]. assert (i = j) as ->; [|congruence]. eapply NoDup_lookup; [exact Hn|rewrite list_lookup_fmap, Hi; cbn; by rewrite Hy|rewrite list_lookup_fmap, Hj; cbn; by rewrite Hy']. }
  apply Hall in H1. apply Hall in H3. rewrite Forall_forall in H2. specialize (H2 D HD). clear -HxD H1 H3 H2 Hne1 Hne2. destruct (bd_parents D) as [|a [|b [|c l]]]; [by apply elem_of_nil in HxD| | |cbn in H2; lia].
  - apply elem_of_list_singleton in H1. apply elem_of_list_singleton in H3. congruence.
  - rewrite !elem_of_cons in *. rewrite elem_of_nil in *. intuition congruence.
Qed.

(** ** The lamps *)
Definition lamp_dist (n a b : nat) : list bdist :=
  [mkBD a [] [([], [lit "0.5"; lit "0.5"])]; mkBD b [] [([], [lit "0.5"; lit "0.5"])];
   mkBD n [a; b] [([0; 0], [lit "1.0"; lit "0.0"]); ([0; 1], [lit "0.0"; lit "1.0"]); ([1; 0], [lit "0.0"; lit "1.0"]); ([1; 1], [lit "0.0"; lit "1.0"])]].
Definition v_left : bvar := mkBV (lit "left") [lit "off"; lit "on"].
Definition v_right : bvar := mkBV (lit "right") [lit "off"; lit "on"].
Definition v_alarm : bvar := mkBV (lit "alarm") [lit "no"; lit "yes"].
(** In the order of the columns, and with the last first. *)
Definition lamp_net : bnet := mkBN [v_left; v_right; v_alarm] (lamp_dist 2 0 1).
Definition lamp_moved : bnet := mkBN [v_alarm; v_left; v_right] (lamp_dist 0 1 2).
(** Another network over the same variables: a chain left -> alarm -> right. *)
Definition lamp_chain : bnet := mkBN [v_left; v_right; v_alarm]
  [mkBD 0 [] [([], [lit "0.5"; lit "0.5"])]; mkBD 2 [0] [([0], [lit "0.5"; lit "0.5"]); ([1], [lit "0.2"; lit "0.8"])]; mkBD 1 [2] [([0], [lit "0.5"; lit "0.5"]); ([1], [lit "0.2"; lit "0.8"])]].
(** The lamps and a fourth variable that depends on two of them. *)
Definition lamp_more : bnet := mkBN [v_left; v_right; v_alarm; mkBV (lit "siren") [lit "no"; lit "yes"]] (lamp_dist 2 0 1 ++ [mkBD 3 [0; 2] [([0; 0], [lit "0.5"; lit "0.5"])]]).
Definition lamp_less : bnet := mkBN [v_left; v_alarm] [mkBD 0 [] [([], [lit "0.5"; lit "0.5"])]; mkBD 1 [0] [([0], [lit "0.5"; lit "0.5"]); ([1], [lit "0.2"; lit "0.8"])]].
Ltac by_computing := apply (bool_decide_unpack _); vm_compute; exact I.
Lemma ok_check B rank : (NoDup (bv_name <$> bn_vars B) /\ Forall (fun w => name_ok (bv_name w)) (bn_vars B)) ->
  Forall (fun w => bv_values w <> [] /\ (Z.of_nat (length (bv_values w)) <= 2147483647)%Z /\ NoDup (bv_values w) /\ Forall value_ok (bv_values w)) (bn_vars B) -> (bn_dists B <> [] /\ NoDup (bd_node <$> bn_dists B)) ->
  Forall (fun D => bd_node D < bn_size B /\ NoDup (bd_parents D) /\ Forall (fun p => p < bn_size B) (bd_parents D)) (bn_dists B) -> Forall (fun D => Forall (row_ok B D) (bd_rows D)) (bn_dists B) ->
  Forall (fun a : nat * nat => rank a.1 < rank a.2) (bn_arcs B) -> bnet_ok B.
Proof.
  intros H1 H2 H3 H4 H5 H6. constructor; try done. intros x Hx. enough (forall a b, tc (bn_arc B) a b -> rank a < rank b) as Hlt by (specialize (Hlt x x Hx); lia).
  rewrite Forall_forall in H6. induction 1 as [a b Hab|a b c Hab _ IH]; [by apply (H6 (a, b))|]. specialize (H6 (a, b) Hab). cbn in H6. lia.
Qed.
Ltac net_ok rank := apply (ok_check _ rank); [unfold name_ok, word|unfold value_ok, word| | |unfold row_ok, word| ]; by_computing.
Lemma lamp_net_ok : bnet_ok lamp_net. Proof. net_ok (fun x : nat => x). Qed.
Lemma lamp_moved_ok : bnet_ok lamp_moved. Proof. net_ok (fun x => 3 - x). Qed.
Lemma lamp_chain_ok : bnet_ok lamp_chain. Proof. net_ok (fun x => match x with 0 => 0 | 1 => 2 | _ => 1 end). Qed.
Lemma lamp_more_ok : bnet_ok lamp_more. Proof. net_ok (fun x : nat => x). Qed.
Lemma lamp_less_ok : bnet_ok lamp_less. Proof. net_ok (fun x : nat => x). Qed.
Lemma numbers_check B : Forall (fun D => Forall (fun r : list nat * list str => Forall (fun s => s ∈ [lit "0.5"; lit "1.0"; lit "0.0"; lit "0.2"; lit "0.8"]) r.2) (bd_rows D)) (bn_dists B) -> reads_numbers stod4 num4 B.
Proof.
  intros H D r s HD Hr Hs. rewrite Forall_forall in H. specialize (H D HD). rewrite Forall_forall in H. specialize (H r Hr). rewrite Forall_forall in H. specialize (H s Hs).
  rewrite !elem_of_cons, elem_of_nil in H. repeat match goal with H : _ \/ _ |- _ => destruct H | H : False |- _ => destruct H end; subst s; (split; [reflexivity|]); by_computing.
Qed.
Lemma lamp_net_numbers : reads_numbers stod4 num4 lamp_net. Proof. apply numbers_check. by_computing. Qed.
Lemma lamp_moved_numbers : reads_numbers stod4 num4 lamp_moved. Proof. apply numbers_check. by_computing. Qed.
Lemma lamp_chain_numbers : reads_numbers stod4 num4 lamp_chain. Proof. apply numbers_check. by_computing. Qed.
Lemma lamp_more_numbers : reads_numbers stod4 num4 lamp_more. Proof. apply numbers_check. by_computing. Qed.
Lemma lamp_less_numbers : reads_numbers stod4 num4 lamp_less. Proof. apply numbers_check. by_computing. Qed.
Lemma lamp_comparable : comparable lamp_net /\ comparable lamp_chain.
Proof. split; apply two_parents_comparable; by_computing. Qed.
Definition lamp_job (ss : bool) (B : bnet) : outcome (option str * option nat) := structure_job exactly_balanced 1000 1000 1 forwards (fun _ => true) stod4 ss (Some (plain_bif B)) lamp_train.
Lemma lamp_distances : lamp_job false lamp_net = Ok (None, Some 0) /\ lamp_job false lamp_chain = Ok (None, Some 1).
Proof. split; vm_compute; reflexivity. Qed.
Lemma lamp_same : same_network lamp_net lamp_moved.
Proof.
  split; [unfold lamp_net, lamp_moved; cbn [bn_vars]; solve_Permutation|].
  assert (forall B (l : list (str * str)), (fun a : nat * nat => (bn_name B a.1, bn_name B a.2)) <$> bn_arcs B = l -> forall a b, named_arc B a b <-> (a, b) ∈ l) as Hl.
  { intros B l <- a b. split; [intros (x & y & Hxy & <- & <-); apply elem_of_list_fmap; by exists (x, y)|intros H; apply elem_of_list_fmap in H as ([x y] & [= -> ->] & Hxy); by exists x, y]. }
  intros a b. rewrite (Hl lamp_net _ eq_refl), (Hl lamp_moved _ eq_refl). reflexivity.
Qed.
Lemma lamp_reference : (csv_table lamp_train lamp_header lamp_rows /\ NoDup lamp_header) /\ (bnet_ok lamp_net /\ reads_numbers stod4 num4 lamp_net /\ is_bif lamp_net (plain_bif lamp_net) /\ bn_size lamp_net = length lamp_header /\ comparable lamp_net) /\
  (bnet_ok lamp_chain /\ reads_numbers stod4 num4 lamp_chain /\ is_bif lamp_chain (plain_bif lamp_chain) /\ bn_size lamp_chain = length lamp_header /\ comparable lamp_chain).
Proof.
  exact (conj lamp_table (conj (conj lamp_net_ok (conj lamp_net_numbers (conj (plain_is_bif _) (conj eq_refl (proj1 lamp_comparable))))) (conj lamp_chain_ok (conj lamp_chain_numbers (conj (plain_is_bif _) (conj eq_refl (proj2 lamp_comparable))))))).
Qed.
Lemma moved_reference : exists train header rows B B' ref ref' stod num accept depth fuel size ssch coin, csv_table train header rows /\ NoDup header /\ header = bv_name <$> bn_vars B /\ same_network B B' /\
  bnet_ok B /\ bnet_ok B' /\ reads_numbers stod num B /\ reads_numbers stod num B' /\ is_bif B ref /\ is_bif B' ref' /\
  structure_job accept depth fuel size ssch coin stod false (Some ref) train = Ok (None, Some 0) /\ structure_job accept depth fuel size ssch coin stod false (Some ref') train = Ok (None, Some 3).
Proof.
  exists lamp_train, lamp_header, lamp_rows, lamp_net, lamp_moved, (plain_bif lamp_net), (plain_bif lamp_moved), stod4, num4, exactly_balanced, 1000, 1000, 1, forwards, (fun _ => true).
  assert (lamp_job false lamp_moved = Ok (None, Some 3)) as H3 by (vm_compute; reflexivity). assert (lamp_header = bv_name <$> bn_vars lamp_net) as Hh by (vm_compute; reflexivity).
  exact (conj (proj1 lamp_table) (conj (proj2 lamp_table) (conj Hh (conj lamp_same (conj lamp_net_ok (conj lamp_moved_ok (conj lamp_net_numbers (conj lamp_moved_numbers (conj (plain_is_bif _) (conj (plain_is_bif _) (conj (proj1 lamp_distances) H3))))))))))).
Qed.
Lemma more_reference : exists train header rows B ref stod num accept depth fuel size ssch coin, csv_table train header rows /\ NoDup header /\ bnet_ok B /\ reads_numbers stod num B /\ is_bif B ref /\
  length header < bn_size B /\ (exists x y, bn_arc B x y /\ length header <= y) /\
  structure_job accept depth fuel size ssch coin stod false (Some ref) train = Ok (None, Some 0).
Proof.
  exists lamp_train, lamp_header, lamp_rows, lamp_more, (plain_bif lamp_more), stod4, num4, exactly_balanced, 1000, 1000, 1, forwards, (fun _ => true).
  assert (lamp_job false lamp_more = Ok (None, Some 0)) as H0 by (vm_compute; reflexivity). assert (length lamp_header < bn_size lamp_more) as Hl by (vm_compute; lia).
  assert (exists x y, bn_arc lamp_more x y /\ length lamp_header <= y) as Ha. { exists 0, 3. split; [unfold bn_arc; by_computing|vm_compute; lia]. }
  exact (conj (proj1 lamp_table) (conj (proj2 lamp_table) (conj lamp_more_ok (conj lamp_more_numbers (conj (plain_is_bif _) (conj Hl (conj Ha H0))))))).
Qed.
Lemma less_reference : bnet_ok lamp_less /\ reads_numbers stod4 num4 lamp_less /\ is_bif lamp_less (plain_bif lamp_less) /\ bn_size lamp_less < length lamp_header /\ lamp_job false lamp_less = Err Exit1.
Proof.
  assert (lamp_job false lamp_less = Err Exit1) as H0 by (vm_compute; reflexivity). assert (bn_size lamp_less < length lamp_header) as Hl by (vm_compute; lia).
  exact (conj lamp_less_ok (conj lamp_less_numbers (conj (plain_is_bif _) (conj Hl H0)))).
Qed.
(** The same positions under other names. *)
Definition lamp_renamed : bnet := mkBN [mkBV (lit "a") [lit "0"; lit "1"]; mkBV (lit "b") [lit "0"; lit "1"]; mkBV (lit "c") [lit "0"; lit "1"]] (lamp_dist 2 0 1).
Lemma lamp_renamed_ok : bnet_ok lamp_renamed. Proof. net_ok (fun x : nat => x). Qed.
Lemma renamed_reference : bnet_ok lamp_renamed /\ reads_numbers stod4 num4 lamp_renamed /\ is_bif lamp_renamed (plain_bif lamp_renamed) /\ bn_arcs lamp_renamed = bn_arcs lamp_net /\
  (fun w => length (bv_values w)) <$> bn_vars lamp_renamed = (fun w => length (bv_values w)) <$> bn_vars lamp_net /\ bv_name <$> bn_vars lamp_renamed <> bv_name <$> bn_vars lamp_net.
Proof.
  assert (reads_numbers stod4 num4 lamp_renamed) as Hn by (apply numbers_check; by_computing). assert (bv_name <$> bn_vars lamp_renamed <> bv_name <$> bn_vars lamp_net) as Hx by by_computing.
  exact (conj lamp_renamed_ok (conj Hn (conj (plain_is_bif _) (conj eq_refl (conj eq_refl Hx))))).
Qed.
