(** Exact inference in the garden network, with twenty-one test cases of three kinds. *)
From Coq Require Import Ascii String.
From Coq Require Import Field QArith.
From Verif Require Import BIFModel BIFSpec BIFWitness EvalModel EvalSpec EvalTheorems EvalWitness PipeModel PipeSpec PipeProofs PipeTheorems JTSpec JTWitness DataProofs CSVTheorems DataWitness.
Local Open Scope nat_scope.

Lemma observed_exists B : bnet_ok B -> forall cells, length cells = bn_size B -> observed B cells ((fun p => (p.1, Z.to_nat p.2)) <$> test_codes (bv_values <$> bn_vars B) cells).
Proof.
  intros HB cells Hl. destruct (test_codes_known (bv_values <$> bn_vars B) cells (values_NoDup B HB)) as [Hs Hin]; [by rewrite fmap_length|]. split; [by rewrite <-list_fmap_compose|].
  intros v x. rewrite elem_of_list_fmap. split.
  - intros ([v' z] & [= -> ->] & (c & d & y & H1 & H2 & H3 & H4 & ->)%Hin). rewrite Nat2Z.id. apply list_lookup_fmap_Some in H3 as (w & Hw & ->). by exists c, w.
  - intros (c & w & H1 & H2 & H3 & H4). exists (v, Z.of_nat x). cbn. rewrite Nat2Z.id. split; [done|]. apply Hin. exists c, (bv_values w), x. split_and!; try done. by rewrite list_lookup_fmap, H3.
Qed.

Definition garden_vars : list xml_var := xml_var_of <$> bn_vars garden.
Definition visit_rows : list (list str) := List.concat (replicate 7 [chars <$> ["yes"; "on"; ""]; chars <$> [""; "off"; "wet"]; chars <$> ["hail"; "on"; "damp"]]%string).
Definition visit_header : list str := chars <$> ["Rain"; "Sprinkler"; "Grass"]%string.
Definition visits : str := text_of (glue comma <$> visit_header :: visit_rows).
Definition seen_cells : list (list (nat * nat)) := List.concat (replicate 7 [[(0, 0); (1, 0)]; [(1, 1); (2, 2)]; [(1, 0); (2, 1)]]).
Lemma visits_table : csv_table visits visit_header visit_rows.
Proof. apply csv_tableb_ok; [by left|by vm_compute]. Qed.
Lemma visits_seen : Forall2 (observed garden) visit_rows seen_cells.
Proof.
  assert (seen_cells = (fun cells => (fun p => (p.1, Z.to_nat p.2)) <$> test_codes (bv_values <$> bn_vars garden) cells) <$> visit_rows) as -> by (vm_compute; reflexivity).
  apply Forall2_fmap_r, Forall_Forall2_diag. assert (Forall (fun cells : list str => length cells = bn_size garden) visit_rows) as H by (apply (bool_decide_unpack _); vm_compute; exact I).
  eapply Forall_impl; [exact H|]. intros cells Hc. by apply (observed_exists garden garden_ok).
Qed.
Lemma visits_nonempty : Forall (fun E : list (nat * nat) => E <> []) seen_cells.
Proof. apply (bool_decide_unpack _); vm_compute; exact I. Qed.
Lemma garden_connected : file_connected garden.
Proof.
  assert (forall x, x < 3 -> rtc (fun a b => bn_arc garden a b \/ bn_arc garden b a) 0 x /\ rtc (fun a b => bn_arc garden a b \/ bn_arc garden b a) x 0) as H.
  { assert (bn_arc garden 0 1 /\ bn_arc garden 0 2) as [H1 H2] by (unfold bn_arc; split; apply (bool_decide_unpack _); vm_compute; exact I).
    intros [|[|[|x]]] Hx; [done| | |lia]; split; apply rtc_once; tauto. }
  intros x y Hx Hy. etransitivity; by apply H.
Qed.

(** References: for the evidence that is used, and for all the observed cells. *)
Lemma number_line es b dim ref : newline ∉ words es ++ b -> es <> [] -> Forall (fun e => e <> [] /\ Forall (fun c => (33 <= c)%Z) e) es -> Forall (fun c => (c < 33)%Z) b ->
  mapM (fun e => match stod4 e with Ok x => Some x | Err _ => None end) es = Some (ref <$> seq 0 dim) -> reference_line stod4 false dim ref (words es ++ b).
Proof.
  intros Hnl Hne Hes Hb Hm. split; [done|]. exists es, b. split_and!; try done. intros k Hk. apply mapM_Some_1 in Hm. assert ((ref <$> seq 0 dim) !! k = Some (ref k)) as Hk' by (by rewrite list_lookup_fmap, lookup_seq_lt).
  destruct (Forall2_lookup_r _ _ _ _ _ Hm Hk') as (e & He & Hx). exists e. split; [done|]. destruct (stod4 e); congruence.
Qed.
Definition numbers (l : list (list string)) (v k : nat) : Qc := match l !! v with Some es => match es !! k with Some s => num4 (lit s) | None => 0%Qc end | None => 0%Qc end.
Definition number_lines (l : list (list string)) : list str := (fun es => words (lit <$> es) ++ []) <$> l.
Lemma number_lines_ok E l : length l = 3 -> (forall v es, l !! v = Some es -> if bool_decide (v ∈ fst <$> E) then es = [] else
    es <> [] /\ forallb (fun s => bool_decide (newline ∉ lit s) && bool_decide (lit s <> []) && bool_decide (Forall (fun c => (33 <= c)%Z) (lit s)) && match stod4 (lit s) with Ok _ => true | Err _ => false end) es = true /\ length es = net_dom (file_shape garden) v) ->
  reference_lines stod4 (file_shape garden) E (numbers l) (number_lines l).
Proof.
  intros Hl H. split; [unfold number_lines; by rewrite fmap_length, Hl|]. intros v line Hv. unfold number_lines in Hv. apply list_lookup_fmap_Some in Hv as (es & Hes & ->). specialize (H v es Hes). case_bool_decide.
  - subst es. split; [by intros ?%elem_of_nil|]. constructor.
  - destruct H as (Hne & Hb & Hlen). rewrite forallb_forall in Hb. setoid_rewrite <-elem_of_list_In in Hb. setoid_rewrite andb_true_iff in Hb. setoid_rewrite andb_true_iff in Hb. setoid_rewrite andb_true_iff in Hb. setoid_rewrite bool_decide_eq_true in Hb.
    apply number_line.
    + rewrite app_nil_r. clear -Hb. unfold words. induction es as [|s es IH]; [by intros ?%elem_of_nil|]. assert (newline ∉ lit s) as Hs by (apply (Hb s); left). assert (newline ∉ glue blank (lit <$> es)) as Hr by (apply IH; intros s' Hs'; apply Hb; by right).
      destruct es as [|s' es]; [exact Hs|]. change (glue blank (lit <$> s :: s' :: es)) with (lit s ++ blank :: glue blank (lit <$> s' :: es)). intros [?|[?|?]%elem_of_cons]%elem_of_app; done.
    + by destruct es.
    + apply Forall_fmap, Forall_forall. intros s Hs. split; by apply Hb.
    + constructor.
    + apply mapM_Some, Forall2_fmap_l. rewrite <-Hlen. apply Forall2_same_length_lookup. split; [by rewrite fmap_length, seq_length|]. intros k s q Hk Hq. rewrite list_lookup_fmap, lookup_seq_lt in Hq by (by eapply lookup_lt_Some). injection Hq as <-.
      unfold numbers. cbn. rewrite Hes, Hk. destruct (Hb s) as [_ Hok]; [by eapply elem_of_list_lookup_2|]. revert Hok. unfold stod4, num4. destruct (decimal (lit s)); done.
Qed.
Definition used_numbers : list (list (list string)) := List.concat (replicate 7 [[["0.01"; "0.99"]; []; ["0.1"; "0.3"; "0.6"]]; [["0.9"; "0.1"]; ["0.2"; "0.8"]; []]; [["0.5"; "0.5"]; ["0.3"; "0.7"]; []]])%string.
Definition all_numbers : list (list (list string)) := List.concat (replicate 7 [[[]; []; ["0.0"; "0.1"; "0.9"]]; [["0.9"; "0.1"]; []; []]; [["0.5"; "0.5"]; []; []]])%string.
Definition reference_of (l : list (list (list string))) : str := text_of (List.concat (number_lines <$> l)).
Lemma reference_of_ok Es l : length l = length Es ->
  Forall2 (fun E l => length l = 3 /\ forall v es, l !! v = Some es -> if bool_decide (v ∈ fst <$> E) then es = [] else
    es <> [] /\ forallb (fun s => bool_decide (newline ∉ lit s) && bool_decide (lit s <> []) && bool_decide (Forall (fun c => (33 <= c)%Z) (lit s)) && match stod4 (lit s) with Ok _ => true | Err _ => false end) es = true /\ length es = net_dom (file_shape garden) v) Es l ->
  is_reference stod4 (file_shape garden) Es (numbers <$> l) (reference_of l).
Proof.
  intros Hl HF. split; [by rewrite fmap_length|]. exists (number_lines <$> l). split.
  - clear Hl. induction HF as [|E x Es l [H1 H2] HF IH]; [constructor|]. cbn. constructor; [by apply number_lines_ok|exact IH].
  - left. exists []. by rewrite app_nil_r.
Qed.
Lemma used_reference : is_reference stod4 (file_shape garden) (tail <$> seen_cells) (numbers <$> used_numbers) (reference_of used_numbers).
Proof.
  apply reference_of_ok; [done|]. unfold seen_cells, used_numbers. cbn [replicate List.concat app fmap list_fmap tail].
  repeat (apply Forall2_cons; split); try (apply Forall2_nil; exact I); (split; [done|]); intros [|[|[|v]]] es Hes; try done; injection Hes as <-; vm_compute; try done; split; try done.
Qed.
Lemma all_reference : is_reference stod4 (file_shape garden) seen_cells (numbers <$> all_numbers) (reference_of all_numbers).
Proof.
  apply reference_of_ok; [done|]. unfold seen_cells, all_numbers. cbn [replicate List.concat app].
  repeat (apply Forall2_cons; split); try (apply Forall2_nil; exact I); (split; [done|]); intros [|[|[|v]]] es Hes; try done; injection Hes as <-; vm_compute; try done; split; try done.
Qed.

Lemma used_compared i E ref : seen_cells !! i = Some E -> (numbers <$> used_numbers) !! i = Some ref -> file_compared num4 garden (tail E) ref <> [].
Proof.
  assert (Forall2 (fun E l => bool_decide (file_compared num4 garden (tail E) (numbers l) = []) = false) seen_cells used_numbers) as H.
  { unfold seen_cells, used_numbers. cbn [replicate List.concat app]. repeat (apply Forall2_cons; split); try (apply Forall2_nil; exact I); vm_compute; reflexivity. }
  intros HE Hr. apply list_lookup_fmap_Some in Hr as (l & Hl & ->). apply (Forall2_lookup_lr _ _ _ _ _ _ H HE) in Hl. by apply bool_decide_eq_false in Hl.
Qed.
Definition garden_run (reference : str) : outcome (Qc * Qc) := exact_inference plain stod4 rev_order (fun _ => wild_sched) garden_vars garden_probs visits reference.
Lemma garden_run_ok : exists m, garden_run (reference_of used_numbers) = Ok (m, m) /\ (0 < m)%Qc.
Proof. eexists. split; [vm_compute; reflexivity|]. apply (bool_decide_unpack _). vm_compute. exact I. Qed.
(** With a reference for all the observed cells the numbers are not the errors. *)
Lemma garden_run_wrong : garden_run (reference_of all_numbers) <>
  Ok (average (zip_with (fun E ref => root_mean_square plain (fun x => x) (file_compared num4 garden E ref)) seen_cells (numbers <$> all_numbers)),
      average (zip_with (fun E ref => root_mean_square plain plain (file_compared num4 garden E ref)) seen_cells (numbers <$> all_numbers))).
Proof. intros H. apply (f_equal (fun r => match r with Ok p => bool_decide (p.1 < frac 1 10)%Qc | Err _ => false end)) in H. vm_compute in H. done. Qed.
(** A test file with a row in which nothing is observed. *)
Definition blind_rows : list (list str) := [chars <$> ["yes"; ""; ""]; chars <$> ["hail"; ""; ""]]%string.
Definition blind_visits : str := text_of (glue comma <$> visit_header :: blind_rows).
Lemma blind_table : csv_table blind_visits visit_header blind_rows.
Proof. apply csv_tableb_ok; [by left|by vm_compute]. Qed.
Lemma blind_seen : Forall2 (observed garden) blind_rows [[(0, 0)]; []].
Proof.
  assert ([[(0, 0)]; []] = (fun cells => (fun p => (p.1, Z.to_nat p.2)) <$> test_codes (bv_values <$> bn_vars garden) cells) <$> blind_rows) as -> by (vm_compute; reflexivity).
  apply Forall2_fmap_r, Forall_Forall2_diag. assert (Forall (fun cells : list str => length cells = bn_size garden) blind_rows) as H by (apply (bool_decide_unpack _); vm_compute; exact I).
  eapply Forall_impl; [exact H|]. intros cells Hc. by apply (observed_exists garden garden_ok).
Qed.
Lemma blind_not_all : ~ Forall (fun E : list (nat * nat) => E <> []) [[(0, 0)]; []].
Proof. intros [_ [H _]%Forall_cons]%Forall_cons. done. Qed.
Lemma first_cell_refutes : exists B stod num vars probs test header rows Es refs reference sq o sch,
  bnet_ok B /\ reads_numbers stod num B /\ is_xml B vars probs /\ length (bn_dists B) = bn_size B /\ Forall (complete_rows B) (bn_dists B) /\ file_connected B /\
  csv_table test header rows /\ length header = bn_size B /\ Forall2 (observed B) rows Es /\ Forall (fun E => E <> []) Es /\ 20 <= length rows /\
  is_reference stod (file_shape B) Es refs reference /\ valid_order o /\ (forall i : nat, valid_scheduler (sch i)) /\
  exact_inference sq stod o sch vars probs test reference <>
    Ok (average (zip_with (fun E ref => root_mean_square sq (fun x => x) (file_compared num B E ref)) Es refs),
        average (zip_with (fun E ref => root_mean_square sq sq (file_compared num B E ref)) Es refs)).
Proof.
  destruct garden_complete as [H1 H2]. eexists garden, stod4, num4, garden_vars, garden_probs, visits, visit_header, visit_rows, seen_cells, (numbers <$> all_numbers), (reference_of all_numbers), plain, rev_order, (fun _ => wild_sched).
  split_and!; [exact garden_ok|exact garden_numbers|exact garden_is_xml|exact H1|exact H2|exact garden_connected|exact visits_table|done|exact visits_seen|exact visits_nonempty|vm_compute; lia|exact all_reference|exact rev_order_valid|intros _; exact wild_valid|exact garden_run_wrong].
Qed.
