(** The files of the learning job on small tables. *)
From Coq Require Import Ascii String.
From Coq Require Import Field QArith.
From Verif Require Import SaveModel SaveSpec SaveProofs PCModel PCSpec CellSpec PCTheorems PCWitness DataProofs CSVTheorems DataWitness ClassWitness.
From Verif Require Import DSepWitness.
Local Open Scope nat_scope.

(** A number as a fraction. *)
Definition show_fraction (p : Qc) : str := to_string (Qnum p) ++ lit "/" ++ to_string (Zpos (Qden p)).
(** Two fair lamps and a third that is on if one of them is. *)
Definition lamp_header : list str := chars <$> ["left"; "right"; "alarm"]%string.
Definition lamp_rows : list (list str) := [chars <$> ["off"; "off"; "no"]; chars <$> ["off"; "on"; "yes"]; chars <$> ["on"; "off"; "yes"]; chars <$> ["on"; "on"; "yes"]]%string.
Definition lamp_train : str := text_of (glue comma <$> lamp_header :: lamp_rows).
Definition lamp_graph : digraph := graph_of [(0, 2); (1, 2)].
Lemma lamp_table : csv_table lamp_train lamp_header lamp_rows /\ NoDup lamp_header.
Proof. split; [apply csv_tableb_ok; [by left|by vm_compute]|]. apply (bool_decide_unpack _); vm_compute; exact I. Qed.
Definition lamp_structure : list str := chars <$> ["number of nodes = 3, number of edges = 2"; "0: left/v0 -> alarm/v2"; "1: right/v1 -> alarm/v2"]%string.
Definition lamp_parameters : list str := chars <$> ["P (left/v0=off/0) = 1/2"; "P (left/v0=on/1) = 1/2"; "P (right/v1=off/0) = 1/2"; "P (right/v1=on/1) = 1/2";
  "P (alarm/v2=no/0 | left/v0=off/0, right/v1=off/0) = 2/3"; "P (alarm/v2=no/0 | left/v0=off/0, right/v1=on/1) = 1/3"; "P (alarm/v2=no/0 | left/v0=on/1, right/v1=off/0) = 1/3"; "P (alarm/v2=no/0 | left/v0=on/1, right/v1=on/1) = 1/3";
  "P (alarm/v2=yes/1 | left/v0=off/0, right/v1=off/0) = 1/3"; "P (alarm/v2=yes/1 | left/v0=off/0, right/v1=on/1) = 2/3"; "P (alarm/v2=yes/1 | left/v0=on/1, right/v1=off/0) = 2/3"; "P (alarm/v2=yes/1 | left/v0=on/1, right/v1=on/1) = 2/3"]%string.
Lemma lamp_files : learn_network exactly_balanced 1000 1000 1 forwards (fun _ => true) some_flips show_fraction true true lamp_train = Ok (Some (text_of lamp_structure), Some (text_of lamp_parameters)).
Proof. vm_compute. reflexivity. Qed.

(** ** The tests on this table are those of the graph left -> alarm <- right *)
Definition lamp_ind (D : columns) (ds : list nat) (x y : nat) (s : list nat) : bool := if decide (Forall (fun v => v < 3) s) then decision exactly_balanced D ds x y s else dsep_of 3 lamp_graph x y s.
Lemma lamp_bounds x y : (x, y) ∈ [(0, 2); (1, 2)] -> x < y /\ y < 3.
Proof. rewrite !elem_of_cons, elem_of_nil. intros [[= -> ->]|[[= -> ->]|[]]]; lia. Qed.
Lemma decides_ext tst ind ind' n gmax : decides tst ind n gmax -> (forall x y s, Forall (fun v => v < n) s -> ind' x y s = ind x y s) -> decides tst ind' n gmax.
Proof.
  intros [H1 H2] He. split.
  - intros x y Hx Hy. rewrite He by constructor. by apply H1.
  - intros x y c zss Hx Hy Hc Hz Hl. specialize (H2 x y c zss Hx Hy Hc Hz Hl). replace (ind' x y <$> zss) with (ind x y <$> zss); [done|]. apply list_fmap_ext. intros k s Hk. symmetry. apply He. rewrite Forall_forall in Hz. by apply Hz; eapply elem_of_list_lookup_2.
Qed.
Definition lamp_columns : columns := mkCols [[0;0;1;1];[0;1;0;1];[0;1;1;1]] 4 3.
Lemma lamp_sets x y s : x < y -> y < 3 -> x ∉ s -> y ∉ s -> StronglySorted lt s -> Forall (fun v => v < 3) s ->
  (x = 0 /\ y = 1 /\ (s = [] \/ s = [2])) \/ (x = 0 /\ y = 2 /\ (s = [] \/ s = [1])) \/ (x = 1 /\ y = 2 /\ (s = [] \/ s = [0])).
Proof.
  intros Hxy Hy Hxs Hys Hs Hb. destruct s as [|a [|b s]].
  - assert (x = 0 /\ y = 1 \/ x = 0 /\ y = 2 \/ x = 1 /\ y = 2) as [[-> ->]|[[-> ->]|[-> ->]]] by lia; intuition.
  - apply Forall_cons in Hb as [Hb _]. rewrite elem_of_list_singleton in Hxs. rewrite elem_of_list_singleton in Hys.
    assert ((x = 0 /\ y = 1 /\ a = 2) \/ (x = 0 /\ y = 2 /\ a = 1) \/ (x = 1 /\ y = 2 /\ a = 0)) as [(-> & -> & ->)|[(-> & -> & ->)|(-> & -> & ->)]] by lia; intuition.
  - exfalso. apply StronglySorted_inv in Hs as [_ Hs]. apply Forall_cons in Hs as [Hab _]. apply Forall_cons in Hb as [Ha Hb]. apply Forall_cons in Hb as [Hb _].
    apply not_elem_of_cons in Hxs as [H1 H2], Hys as [H3 H4]. apply not_elem_of_cons in H2 as [H2 _], H4 as [H4 _]. lia.
Qed.
Lemma lamp_tests : exists d D ind, load_csv_training lamp_train = Ok d /\ columns_of d = Ok D /\ dag 3 lamp_graph /\ dsep_oracle ind 3 lamp_graph /\
  decides (independence_result exactly_balanced D (d_sizes d)) ind 3 1 /\ (forall v, length (dag_parents 3 lamp_graph v) < 1000) /\ lamp_graph 0 2 = true.
Proof.
  assert (match load_csv_training lamp_train with Ok d => match columns_of d with Ok D => bool_decide (co_cols D = co_cols lamp_columns) && bool_decide (co_rows D = 4) && bool_decide (co_vars D = 3) && bool_decide (d_sizes d = [2;2;2]) | Err _ => false end | Err _ => false end = true) as H by (vm_compute; reflexivity).
  destruct (load_csv_training lamp_train) as [d|]; [|discriminate H]. destruct (columns_of d) as [D|] eqn:HD; [|discriminate H]. apply andb_true_iff in H as [H H4]. apply andb_true_iff in H as [H H3]. apply andb_true_iff in H as [H1 H2].
  apply bool_decide_eq_true in H1, H2, H3, H4. assert (D = lamp_columns) as -> by (clear -H1 H2 H3; destruct D as [cs r v]; cbn [co_cols co_rows co_vars lamp_columns] in H1, H2, H3; rewrite H1, H2, H3; reflexivity). exists d, lamp_columns, (lamp_ind lamp_columns [2;2;2]). rewrite H4.
  refine (conj eq_refl (conj HD (conj (graph_dag 3 _ lamp_bounds) (conj _ (conj _ (conj _ eq_refl)))))).
  - intros x y s Hxy Hy Hxs Hys Hs. rewrite <-(dsep_of_oracle 3 _ lamp_bounds x y s Hxy Hy Hxs Hys Hs). unfold lamp_ind. case_decide as Hb; [|done].
    destruct (lamp_sets x y s Hxy Hy Hxs Hys Hs Hb) as [(-> & -> & [-> | ->])|[(-> & -> & [-> | ->])|(-> & -> & [-> | ->])]]; vm_compute; done.
  - apply (decides_ext _ (decision exactly_balanced lamp_columns [2;2;2])).
    + apply (gsquare_decides_alone exactly_balanced lamp_columns [2;2;2]). split; [done|]. intros [|[|[|v]]] col k Hc Hk; cbn in Hc, Hk; try done; injection Hc as <-; injection Hk as <-; (split; [done|]); repeat constructor.
    + intros x y s Hs. unfold lamp_ind. by rewrite decide_True.
  - intros [|[|[|v]]]; vm_compute; repeat constructor.
Qed.

(** ** Undirected edges *)
(** Two equal columns: the edge found is undirected, and neither table depends on the other variable. *)
Definition twin_rows : list (list str) := [chars <$> ["a"; "x"]; chars <$> ["b"; "y"]]%string.
Definition twin_header : list str := chars <$> ["one"; "two"]%string.
Definition twin_train : str := text_of (glue comma <$> twin_header :: twin_rows).
Definition twin_structure : list str := chars <$> ["number of nodes = 2, number of edges = 1"; "0: one/v0 -- two/v1"]%string.
Definition twin_parameters : list str := chars <$> ["P (one/v0=a/0) = 1/2"; "P (one/v0=b/1) = 1/2"; "P (two/v1=x/0) = 1/2"; "P (two/v1=y/1) = 1/2"]%string.
Lemma twin_files : exists train header rows accept depth fuel size ssch coin flips show, csv_table train header rows /\ NoDup header /\
  rows = twin_rows /\
  learn_network accept depth fuel size ssch coin flips show true true train = Ok (Some (text_of twin_structure), Some (text_of twin_parameters)).
Proof.
  exists twin_train, twin_header, twin_rows, exactly_balanced, 1000, 1000, 1, forwards, (fun _ => true), some_flips, show_fraction.
  assert (csv_table twin_train twin_header twin_rows) as H1 by (apply csv_tableb_ok; [by left|by vm_compute]). assert (NoDup twin_header) as H2 by (apply (bool_decide_unpack _); vm_compute; exact I).
  refine (conj H1 (conj H2 (conj eq_refl _))). vm_compute. reflexivity.
Qed.

(** ** An edge that is missing in the file *)
Lemma missing_edge : exists ind tst n coin N lines x y, decides tst ind n 1 /\ run_pc tst n false coin = Ok N /\ undirected_edge x y ∈ nt_edges N /\ x < y /\
  save_bn_structure N = Ok lines /\ Link x y ∉ lines /\ Link y x ∉ lines /\ Arc x y ∉ lines /\ Arc y x ∉ lines.
Proof.
  assert (match run_pc (lone_test table_ind) 6 false second with Ok N => match save_bn_structure N with Ok lines => bool_decide (undirected_edge 1 5 ∈ nt_edges N) && bool_decide (Link 1 5 ∉ lines /\ Link 5 1 ∉ lines /\ Arc 1 5 ∉ lines /\ Arc 5 1 ∉ lines) | Err _ => false end | Err _ => false end = true) as H by (vm_compute; reflexivity).
  destruct (run_pc (lone_test table_ind) 6 false second) as [N|] eqn:HN; [|discriminate H]. destruct (save_bn_structure N) as [lines|] eqn:Hs; [|discriminate H]. apply andb_true_iff in H as [H1 H2]. apply bool_decide_eq_true in H1, H2.
  exists table_ind, (lone_test table_ind), 6, second, N, lines, 1, 5. refine (conj (lone_decides _ _) (conj HN (conj H1 (conj _ (conj Hs H2))))). lia.
Qed.
