(** The command line program: which job runs, on which files. *)
From Coq Require Import Ascii String.
From Verif Require Import ProgramSpec ParamProofs ProgramProofs.
Local Open Scope nat_scope.

Section run.
Context (X : setting) (os : list cl_option) (p : params Qc) (dir : str) (w : world).
Context (Hask : asked X os p) (Hdir : data_in (x_source X) dir).

Lemma run_parsed : (0 <= p_job p <= 5)%Z -> parse_parameters (x_stod X) default_params (command_line os) = Ok p.
Proof using Hask. intros H. by apply parse_asked. Qed.

Theorem program_structure train ref : p_job p = 0%Z -> p_method p = 0%Z -> (1 <= p_threads p)%Z -> (1 <= p_group p)%Z -> holds w (dir ++ p_train p) train ->
  (p_save_struct p = true -> x_writable X (dir ++ p_train p ++ lit "_struct") = true) -> optional_file w dir (p_ref p) ref -> p_ref p <> p_train p ++ lit "_struct" ->
  match structure_job (x_accept X (p_alpha p)) 1000 (x_fuel X) (Z.to_nat (p_group p)) (x_ssch X) (x_coin X) (x_stod X) (p_save_struct p) ref train with
  | Ok (s, k) => program X (command_line os) w = (mkWorld (put_file (dir ++ p_train p ++ lit "_struct") s (w_files w)) (w_out w ++ [compared_report k]), Ok tt)
  | Err e => exists w', program X (command_line os) w = (w', Err e)
  end.
Proof using Hask Hdir.
  intros Hj Hm Ht Hg Htr Hw Href Hne. unfold program. rewrite bind_lift, run_parsed by lia. cbv zeta. rewrite (directory_ok _ _ Hdir).
  rewrite (bool_decide_true (p_job p = 0%Z)), (bool_decide_true (p_method p = 0%Z)) by done.
  rewrite (app_assoc dir) in Hw |- *. apply run_structure; auto. intros E. rewrite <- app_assoc in E. by apply app_inv_head in E.
Qed.
Theorem program_learning train ref : p_job p = 1%Z -> p_method p = 0%Z -> (1 <= p_threads p)%Z -> (1 <= p_group p)%Z -> holds w (dir ++ p_train p) train ->
  (p_save_struct p = true -> x_writable X (dir ++ p_train p ++ lit "_struct") = true) -> (p_save_param p = true -> x_writable X (dir ++ p_train p ++ lit "_param") = true) ->
  optional_file w dir (p_ref p) ref -> p_ref p <> p_train p ++ lit "_struct" ->
  match learning_job (x_accept X (p_alpha p)) 1000 (x_fuel X) (Z.to_nat (p_group p)) (x_ssch X) (x_coin X) (x_flips X) (x_show X) (x_stod X) (p_save_struct p) (p_save_param p) ref train with
  | Ok (s, k, q) => program X (command_line os) w =
      (mkWorld (put_file (dir ++ p_train p ++ lit "_param") q (put_file (dir ++ p_train p ++ lit "_struct") s (w_files w))) (w_out w ++ [compared_report k]), Ok tt)
  | Err e => exists w', program X (command_line os) w = (w', Err e)
  end.
Proof using Hask Hdir.
  intros Hj Hm Ht Hg Htr Hw Hw' Href Hne. unfold program. rewrite bind_lift, run_parsed by lia. cbv zeta. rewrite (directory_ok _ _ Hdir).
  rewrite (bool_decide_false (p_job p = 0%Z)), (bool_decide_true (p_job p = 1%Z)), (bool_decide_true (p_method p = 0%Z)) by (done || lia).
  rewrite (app_assoc dir (p_train p) (lit "_struct")) in Hw |- *. rewrite (app_assoc dir (p_train p) (lit "_param")) in Hw' |- *. apply run_learning; auto. intros E. rewrite <- app_assoc in E. by apply app_inv_head in E.
Qed.
Theorem program_classification train test ref : p_job p = 4%Z -> p_method p = 1%Z -> (1 <= p_threads p)%Z -> (1 <= p_group p)%Z -> holds w (dir ++ p_train p) train -> holds w (dir ++ p_test p) test ->
  (p_save_struct p = true -> x_writable X (dir ++ p_train p ++ lit "_struct") = true) -> (p_save_param p = true -> x_writable X (dir ++ p_train p ++ lit "_param") = true) ->
  optional_file w dir (p_ref p) ref -> p_ref p <> p_train p ++ lit "_struct" ->
  match classification_job (x_accept X (p_alpha p)) 1000 (x_fuel X) (Z.to_nat (p_group p)) (x_ssch X) (x_coin X) (x_flips X) (x_show X) (x_stod X) (x_order X) (x_sched X) (p_save_struct p) (p_save_param p) ref train test with
  | Ok (s, k, q, a) => program X (command_line os) w =
      (mkWorld (put_file (dir ++ p_train p ++ lit "_param") q (put_file (dir ++ p_train p ++ lit "_struct") s (w_files w))) (w_out w ++ [compared_report k; Accuracy a]), Ok tt)
  | Err e => exists w', program X (command_line os) w = (w', Err e)
  end.
Proof using Hask Hdir.
  intros Hj Hm Ht Hg Htr Hte Hw Hw' Href Hne. unfold program. rewrite bind_lift, run_parsed by lia. cbv zeta. rewrite (directory_ok _ _ Hdir).
  rewrite (bool_decide_false (p_job p = 0%Z)), (bool_decide_false (p_job p = 1%Z)), (bool_decide_false (p_job p = 2%Z)), (bool_decide_false (p_job p = 3%Z)), (bool_decide_true (p_job p = 4%Z)), (bool_decide_true (p_method p = 1%Z)) by (done || lia).
  rewrite (app_assoc dir (p_train p) (lit "_struct")) in Hw |- *. rewrite (app_assoc dir (p_train p) (lit "_param")) in Hw' |- *. apply run_classification; auto. intros E. rewrite <- app_assoc in E. by apply app_inv_head in E.
Qed.
Theorem program_inference xml vars probs test reference : p_job p = 2%Z -> p_method p = 1%Z -> (1 <= p_threads p)%Z ->
  holds w (dir ++ p_net p) xml -> x_xml X xml = Ok (vars, probs) -> holds w (dir ++ p_test p) test -> p_pt p <> [] -> holds w (dir ++ p_pt p) reference ->
  program X (command_line os) w =
  match exact_inference (x_sqrt X) (x_stod X) (x_order X) (x_sched X) vars probs test reference with
  | Ok (m, h) => (mkWorld (w_files w) (w_out w ++ [Errors m h]), Ok tt)
  | Err e => (w, Err e)
  end.
Proof using Hask Hdir.
  intros Hj Hm Ht Hn Hx Hte Hp Href. unfold program. rewrite bind_lift, run_parsed by lia. cbv zeta. rewrite (directory_ok _ _ Hdir).
  rewrite (bool_decide_false (p_job p = 0%Z)), (bool_decide_false (p_job p = 1%Z)), (bool_decide_true (p_job p = 2%Z)), (bool_decide_true (p_method p = 1%Z)) by (done || lia).
  by apply (run_inference X _ _ _ dir (p_pt p) w xml).
Qed.
Theorem program_generator folder file xml vars probs : p_job p = 5%Z -> p_method p = 0%Z \/ p_method p = 1%Z -> (0 <= p_samples p)%Z -> (0 <= p_class p)%Z ->
  dir ++ p_net p = folder ++ 47%Z :: file -> 47%Z ∉ file -> holds w (dir ++ p_net p) xml -> x_xml X xml = Ok (vars, probs) ->
  let svm_path := folder ++ lit "/sample_" ++ to_string (p_samples p) ++ lit "_libsvm" in
  let csv_path := folder ++ lit "/sample_" ++ to_string (p_samples p) ++ lit "_csv" in
  x_writable X svm_path = true -> (p_method p = 1%Z -> x_writable X csv_path = true) ->
  let us := x_draws X <$> seq 0 (Z.to_nat (p_samples p)) in
  forall svm table, generate_svm (x_stod X) vars probs (Z.to_nat (p_class p)) us = Ok svm -> generate_csv (x_stod X) vars probs (Z.to_nat (p_class p)) us = Ok table ->
  program X (command_line os) w = (mkWorld (put_file csv_path (if decide (p_method p = 1%Z) then Some table else None) (put_file svm_path (Some svm) (w_files w))) (w_out w), Ok tt).
Proof using Hask Hdir.
  intros Hj Hm Hn Hc Hnet Hf Hx Hxml svm_path csv_path Hw Hw' us svm table Es Et. unfold program. rewrite bind_lift, run_parsed by lia. cbv zeta. rewrite (directory_ok _ _ Hdir).
  rewrite (bool_decide_false (p_job p = 0%Z)), (bool_decide_false (p_job p = 1%Z)), (bool_decide_false (p_job p = 2%Z)), (bool_decide_false (p_job p = 3%Z)), (bool_decide_false (p_job p = 4%Z)), (bool_decide_true (p_job p = 5%Z)) by (done || lia).
  assert (bool_decide (p_method p = 0%Z) || bool_decide (p_method p = 1%Z) = true) as ->.
  { destruct Hm as [-> | ->]; done. }
  rewrite Hnet in Hx |- *. pose proof (run_generator X folder file (bool_decide (p_method p = 1%Z)) (p_samples p) (p_class p) w xml vars probs Hn Hc Hf Hx Hxml Hw) as H.
  cbv zeta in H. fold us svm_path csv_path in H. rewrite Es, Et in H.
  replace (bool_decide (p_method p <> 1%Z)) with (negb (bool_decide (p_method p = 1%Z))) by (by repeat case_bool_decide).
  rewrite H by (intros Hb; apply Hw'; by apply bool_decide_eq_true in Hb). by destruct (decide (p_method p = 1%Z)) as [-> | Hne]; [|rewrite bool_decide_false].
Qed.
(** A named reference file that does not exist: the structure has been written. *)
Theorem program_missing train d D N s : p_job p = 0%Z \/ p_job p = 1%Z -> p_method p = 0%Z -> (1 <= p_threads p)%Z -> (1 <= p_group p)%Z -> holds w (dir ++ p_train p) train ->
  p_save_struct p = true -> x_writable X (dir ++ p_train p ++ lit "_struct") = true -> p_ref p <> [] -> w_files w !! (dir ++ p_ref p) = None -> p_ref p <> p_train p ++ lit "_struct" ->
  load_csv_training train = Ok d -> columns_of d = Ok D ->
  learn_structure (x_accept X (p_alpha p)) 1000 (x_fuel X) (Z.to_nat (p_group p)) (x_ssch X) false (x_coin X) d D = Ok N -> structure_text (d_names d) N = Ok s ->
  program X (command_line os) w = (mkWorld (<[dir ++ p_train p ++ lit "_struct" := Whole s]> (w_files w)) (w_out w), Err Exit1).
Proof using Hask Hdir.
  intros Hj Hm Ht Hg Htr Hss Hw Href Hno Hne Hd HD HN Hs. unfold program. rewrite bind_lift, run_parsed by (destruct Hj; lia). cbv zeta. rewrite (directory_ok _ _ Hdir).
  assert (Hcmp : forall w' : world, w_files w' = <[dir ++ p_train p ++ lit "_struct" := Whole s]> (w_files w) -> compare_io X (in_directory dir (p_ref p)) N w' = (w', Err Exit1)).
  { intros w' Hw'. unfold compare_io, in_directory. rewrite (bool_decide_false (p_ref p = [])) by done. rewrite bool_decide_false by (intros E; apply app_eq_nil in E as [_ E]; done).
    apply bind_read_none. rewrite Hw'. refine (eq_trans (lookup_insert_ne _ _ _ _ _) Hno). intros E. by apply app_inv_head in E. }
  rewrite (app_assoc dir (p_train p) (lit "_struct")) in Hw, Hcmp |- *. rewrite Hss. destruct Hj as [Hj|Hj].
  - rewrite (bool_decide_true (p_job p = 0%Z)), (bool_decide_true (p_method p = 0%Z)) by done. unfold structure_io. rewrite (bind_read _ train) by done.
    rewrite bind_lift, Hd, bind_lift, HD, bind_lift, (checked_ok _ _ Ht Hg), bind_lift, HN, (bind_write_opt _ _ true) by done. rewrite Hs. cbn [fmap outcome_fmap put_file]. by apply Hcmp.
  - rewrite (bool_decide_false (p_job p = 0%Z)), (bool_decide_true (p_job p = 1%Z)), (bool_decide_true (p_method p = 0%Z)) by (done || lia). unfold learning_io. rewrite (bind_read _ train) by done.
    rewrite bind_lift, Hd, bind_lift, HD, bind_lift, (checked_ok _ _ Ht Hg), bind_lift, HN, (bind_write_opt _ _ true) by done. rewrite Hs. cbn [fmap outcome_fmap put_file].
    match goal with |- (compare_io _ _ _ ≫= ?f) ?v = _ => unfold mbind, io_bind; rewrite (Hcmp v) by done end. done.
Qed.
(** Without a reference file, nothing is reported. *)
Theorem program_nothing : p_job p = 2%Z -> p_method p = 1%Z -> p_pt p = [] -> exists r, program X (command_line os) w = (w, r).
Proof using Hask Hdir.
  intros Hj Hm Hp. unfold program. rewrite bind_lift, run_parsed by lia. cbv zeta. rewrite (directory_ok _ _ Hdir).
  rewrite (bool_decide_false (p_job p = 0%Z)), (bool_decide_false (p_job p = 1%Z)), (bool_decide_true (p_job p = 2%Z)), (bool_decide_true (p_method p = 1%Z)) by (done || lia).
  rewrite Hp. change (in_directory dir []) with ([] : str). unfold inference_io.
  assert (Hread : forall B path (f : str -> io B) v, (forall s, exists r, f s v = (v, r)) -> exists r, (read_file path ≫= f) v = (v, r)).
  { intros B path f v H. unfold mbind, io_bind, read_file. destruct (w_files v !! path) as [[s|]|]; eauto. }
  apply Hread. intros xml. rewrite bind_lift. destruct (_ ← x_xml X xml; _) as [L|]; [|eauto]. apply Hread. intros test.
  rewrite bind_lift. destruct (load_csv_testing_map _ _ _) as [rows|]; [|eauto]. rewrite bind_lift. destruct (make_queries 0 rows) as [qs|]; [|eauto].
  rewrite bind_lift. destruct (_ ← node_tables _ _; _) as [T|]; [|eauto]. rewrite bind_lift. destruct (mcollect _ _) as [Es|]; [|eauto].
  rewrite bind_lift. destruct (checked_size _ _); [|eauto]. change (bool_decide (([] : str) = [])) with true. unfold lift. eauto.
Qed.
(** Everything else. *)
Theorem program_unsupported : (0 <= p_job p <= 5)%Z -> ~ supported p ->
  program X (command_line os) w =
  if decide (p_job p = 0%Z) then (mkWorld (w_files w) (w_out w ++ [Complaint]), Err Exit0)
  else if decide (p_job p = 1 \/ p_job p = 2 \/ p_job p = 3 /\ p_method p = 0)%Z then (mkWorld (w_files w) (w_out w ++ [Complaint]), Err Exit1)
  else (w, Ok tt).
Proof using Hask Hdir.
  intros Hj Hs. unfold program. rewrite bind_lift, run_parsed by done. cbv zeta. unfold supported in Hs. rewrite !elem_of_cons, elem_of_nil in Hs.
  destruct (decide (p_job p = 0%Z)) as [E|E].
  { rewrite (bool_decide_true (p_job p = 0%Z)) by done. rewrite bool_decide_false; [done|]. intros Hm. apply Hs. left. by rewrite E, Hm. }
  rewrite (bool_decide_false (p_job p = 0%Z)) by done. destruct (decide (p_job p = 1%Z)) as [E1|E1].
  { rewrite (bool_decide_true (p_job p = 1%Z)) by done. rewrite decide_True by auto. rewrite bool_decide_false; [done|]. intros Hm. apply Hs. right. left. by rewrite E1, Hm. }
  rewrite (bool_decide_false (p_job p = 1%Z)) by done. destruct (decide (p_job p = 2%Z)) as [E2|E2].
  { rewrite (bool_decide_true (p_job p = 2%Z)) by done. rewrite decide_True by auto. rewrite bool_decide_false; [done|]. intros Hm. apply Hs. do 2 right. left. by rewrite E2, Hm. }
  rewrite (bool_decide_false (p_job p = 2%Z)) by done. destruct (decide (p_job p = 3%Z)) as [E3|E3].
  { rewrite (bool_decide_true (p_job p = 3%Z)) by done. destruct (decide (p_method p = 0%Z)) as [Hm|Hm].
    - rewrite decide_True by auto. by rewrite bool_decide_true.
    - rewrite decide_False by tauto. by rewrite bool_decide_false. }
  rewrite (bool_decide_false (p_job p = 3%Z)) by done. rewrite decide_False by tauto. destruct (decide (p_job p = 4%Z)) as [E4|E4].
  { rewrite (bool_decide_true (p_job p = 4%Z)) by done. rewrite bool_decide_false; [done|]. intros Hm. apply Hs. do 3 right. left. by rewrite E4, Hm. }
  rewrite (bool_decide_false (p_job p = 4%Z)) by done. rewrite bool_decide_true by lia.
  assert (p_job p = 5%Z) as E5 by lia. assert (p_method p <> 0%Z) by (intros Hm; apply Hs; do 4 right; left; by rewrite E5, Hm). assert (p_method p <> 1%Z) by (intros Hm; apply Hs; do 5 right; left; by rewrite E5, Hm).
  rewrite !bool_decide_false by done. done.
Qed.
End run.

(** Any arguments. *)
Theorem program_frame X args w w' r dir : data_in (x_source X) dir -> program X args w = (w', r) ->
  (forall path, w_files w' !! path <> w_files w !! path -> exists p, parse_parameters (x_stod X) initial args = Ok p /\ outputs dir p path) /\
  (exists q, forall path, w_files w' !! path <> w_files w !! path -> path <> q -> exists s, holds w' path s) /\
  (r = Ok tt -> forall path, w_files w' !! path <> w_files w !! path -> exists s, holds w' path s) /\
  exists l, w_out w' = w_out w ++ l.
Proof.
  intros Hdir E. change initial with default_params. unfold program in E. rewrite bind_lift in E.
  destruct (parse_parameters (x_stod X) default_params args) as [p|e] eqn:Ep.
  2:{ injection E as <- <-. repeat split; try done; [by exists []|exists []; by rewrite app_nil_r]. }
  cbv zeta in E. rewrite (directory_ok _ _ Hdir) in E.
  assert (H : tame (outputs dir p) (fun w => program X args w)).
  { unfold program. intros w1 w2 r2 E2. rewrite bind_lift, Ep in E2. cbv zeta in E2. rewrite (directory_ok _ _ Hdir) in E2. revert w1 w2 r2 E2.
    match goal with |- forall w1 w2 r2, ?m w1 = _ -> _ => change (tame (outputs dir p) m) end.
    case_bool_decide as J0. { case_bool_decide as M; [|apply tame_complain]. apply tame_structure. intros Hs. left. by rewrite <- app_assoc. }
    case_bool_decide as J1. { case_bool_decide as M; [|apply tame_complain]. apply tame_learning; intros Hs; right; left; rewrite <- app_assoc; auto 6. }
    case_bool_decide as J2. { case_bool_decide as M; [apply tame_inference|apply tame_complain]. }
    case_bool_decide as J3. { case_bool_decide as M; [apply tame_complain|apply tame_ret]. }
    case_bool_decide as J4. { case_bool_decide as M; [|apply tame_ret]. apply tame_classification; intros Hs; right; right; left; rewrite <- app_assoc; auto 6. }
    case_bool_decide as J5; [|apply tame_ret].
    destruct (bool_decide (p_method p = 0%Z) || bool_decide (p_method p = 1%Z)) eqn:M; [|apply tame_ret].
    destruct (folder_exists (dir ++ p_net p)) as (folder & file & Ef & Hf).
    { destruct Hdir as (root & rest & _ & -> & _). rewrite !elem_of_app. left. right. apply (bool_decide_unpack _). by vm_compute. }
    apply tame_generator; rewrite Ef, (last_path_ok _ _ Hf).
    - do 3 right. split; [done|]. exists folder, file. split; [done|]. split; [done|]. left. split; [|done]. apply orb_true_iff in M as [M|M]; apply bool_decide_eq_true in M; auto.
    - intros Hl. do 3 right. split; [done|]. exists folder, file. split; [done|]. split; [done|]. right. split; [|done]. apply bool_decide_eq_false in Hl. by apply Z.eq_dne. }
  assert (E0 : program X args w = (w', r)).
  { unfold program. rewrite bind_lift, Ep. cbv zeta. by rewrite (directory_ok _ _ Hdir). }
  destruct (H w w' r E0) as (H1 & H2 & H3 & H4). split; [|split; [exact H2|split; [|exact H4]]].
  - intros path Hp. exists p. auto.
  - intros -> path Hp. apply H3; eauto.
Qed.
