(** Proofs about the command line program. *)
From Coq Require Import Ascii String.
From Verif Require Import ProgramSpec ParamProofs.
Local Open Scope nat_scope.

(** ** Options *)
Lemma outcome_of_fun {D} (stod : str -> outcome D) f os v a b : outcome_of stod f os v a -> outcome_of stod f os v b -> a = b.
Proof.
  intros Ha. revert b. induction Ha as [v|o os v a Ho Ha IH|o os v v' a Ho Hq Ha IH]; intros b Hb; inversion Hb; subst; try done.
  - by apply IH.
  - apply IH. match goal with H1 : asks stod o v ?x, H2 : asks stod o v ?y |- _ => assert (x = y) as -> end; [|done].
    destruct o; cbn in *; repeat match goal with H : exists _, _ |- _ => destruct H end; repeat match goal with H : _ /\ _ |- _ => destruct H end; simplify_eq; try congruence. by match goal with H1 : _ = Ok ?x, H2 : _ = Ok ?y |- _ => assert (x = y) as -> by congruence end.
Qed.
Lemma get_inj {D} (p q : params D) : (forall f, get p f = get q f) -> p = q.
Proof.
  intros H. destruct p, q.
  pose proof (H (FInt Job)); pose proof (H (FInt Method)); pose proof (H (FInt Threads)); pose proof (H (FInt Samples)); pose proof (H (FInt Group)); pose proof (H (FInt Class)).
  pose proof (H FAlpha); pose proof (H FStruct); pose proof (H FParam).
  pose proof (H (FFile Net)); pose proof (H (FFile Ref)); pose proof (H (FFile Train)); pose proof (H (FFile Test)); pose proof (H (FFile Pt)).
  cbn in *. congruence.
Qed.
Lemma parse_asked X os p : asked X os p -> (0 <= p_job p <= 5)%Z -> parse_parameters (x_stod X) default_params (command_line os) = Ok p.
Proof.
  intros [Hg Ha] Hj. destruct (parse_good (x_stod X) default_params os [] Hg) as (q & Hq & E); [done|].
  rewrite app_nil_r in E. assert (q = p) as ->.
  { apply get_inj. intros f. exact (outcome_of_fun _ _ _ _ _ _ (Hq f) (Ha f)). }
  rewrite E. by rewrite bool_decide_true.
Qed.

(** ** The directory of the data *)
Lemma find_in_first (what root rest : str) : (forall k, k < length root -> take (length what) (drop k (root ++ what ++ rest)) <> what) ->
  find_in what (root ++ what ++ rest) = Some (length root).
Proof.
  induction root as [|c root IH]; intros H.
  - cbn [app]. assert (E : take (length what) (what ++ rest) = what) by apply take_app. destruct (what ++ rest); cbn [find_in]; by rewrite (bool_decide_true _ E).
  - cbn [app find_in]. rewrite bool_decide_false.
    + rewrite IH; [done|]. intros k Hk. apply (H (S k)). cbn; lia.
    + apply (H 0). cbn; lia.
Qed.
Lemma directory_ok source dir : data_in source dir -> data_directory source = dir.
Proof.
  intros (root & rest & -> & -> & H). unfold data_directory.
  change (lit "FastPGM/" ++ rest) with (lit "FastPGM" ++ [47%Z] ++ rest) in *.
  rewrite (find_in_first (lit "FastPGM") root ([47%Z] ++ rest)); [|exact H].
  rewrite firstn_app_2, <- app_assoc. done.
Qed.
Lemma last_path_ok folder file : 47%Z ∉ file -> last_path (folder ++ 47%Z :: file) = folder.
Proof.
  intros H. induction folder as [|c folder IH]; cbn [app last_path].
  - by rewrite bool_decide_false.
  - rewrite bool_decide_true, IH; [done|]. rewrite elem_of_app, elem_of_cons. auto.
Qed.
Lemma folder_exists (s : str) : 47%Z ∈ s -> exists folder file, s = folder ++ 47%Z :: file /\ 47%Z ∉ file.
Proof.
  induction s as [|c s IH]; intros H; [by apply elem_of_nil in H|].
  destruct (decide (47%Z ∈ s)) as [Hs|Hs].
  - destruct (IH Hs) as (f & r & -> & Hr). by exists (c :: f), r.
  - apply elem_of_cons in H as [<-|H]; [|done]. by exists [], s.
Qed.

(** ** Running *)
Lemma bind_lift {A B} (r : outcome A) (f : A -> io B) w : (lift r ≫= f) w = match r with Ok a => f a w | Err e => (w, Err e) end.
Proof. by destruct r. Qed.
Lemma bind_read {B} path s (f : str -> io B) w : holds w path s -> (read_file path ≫= f) w = f s w.
Proof. unfold holds. intros H. unfold mbind, io_bind, read_file. by rewrite H. Qed.
Lemma bind_read_none {B} path (f : str -> io B) w : w_files w !! path = None -> (read_file path ≫= f) w = (w, Err Exit1).
Proof. intros H. unfold mbind, io_bind, read_file. by rewrite H. Qed.
Lemma bind_print {B} r (f : unit -> io B) w : (print r ≫= f) w = f tt (mkWorld (w_files w) (w_out w ++ [r])).
Proof. done. Qed.
Lemma bind_write {B} wr path text (f : unit -> io B) w : wr path = true ->
  (write_file wr path text ≫= f) w = match text with Ok s => f tt (mkWorld (<[path := Whole s]> (w_files w)) (w_out w)) | Err e => (mkWorld (<[path := Torn]> (w_files w)) (w_out w), Err e) end.
Proof. intros H. unfold mbind, io_bind, write_file. rewrite H. by destruct text. Qed.
Lemma bind_write_opt {B} wr path (b : bool) text (f : unit -> io B) w : (b = true -> wr path = true) ->
  ((if b then write_file wr path text else mret tt) ≫= f) w =
  match (if b then Some <$> text else Ok None) with Ok s => f tt (mkWorld (put_file path s (w_files w)) (w_out w)) | Err e => (mkWorld (<[path := Torn]> (w_files w)) (w_out w), Err e) end.
Proof. intros H. destruct b; [rewrite bind_write by auto; by destruct text|by destruct w]. Qed.
Lemma run_write_opt wr path (b : bool) text w : (b = true -> wr path = true) ->
  (if b then write_file wr path text else mret tt) w =
  match (if b then Some <$> text else Ok None) with Ok s => (mkWorld (put_file path s (w_files w)) (w_out w), Ok tt) | Err e => (mkWorld (<[path := Torn]> (w_files w)) (w_out w), Err e) end.
Proof. intros H. destruct b; [unfold write_file; rewrite H by done; by destruct text|by destruct w]. Qed.
Lemma run_compare X N dir name ref w : optional_file w dir name ref ->
  compare_io X (in_directory dir name) N w =
  match compare_with (x_stod X) ref N with Ok k => (mkWorld (w_files w) (w_out w ++ [compared_report k]), Ok tt) | Err e => (w, Err e) end.
Proof.
  unfold optional_file, compare_io, in_directory, compare_with. destruct ref as [text|].
  - intros [Hn Ht]. rewrite (bool_decide_false (name = [])) by done. rewrite bool_decide_false by (intros E; apply app_eq_nil in E as [_ E]; done).
    rewrite (bind_read _ text) by done. rewrite bind_lift. destruct (load_bif (x_stod X) text) as [L|]; cbn [mbind outcome_bind]; [|done]. by destruct (get_shd _ _).
  - intros ->. by rewrite bool_decide_true by done.
Qed.
Lemma bind_compare {B} X N dir name ref (f : unit -> io B) w : optional_file w dir name ref ->
  (compare_io X (in_directory dir name) N ≫= f) w =
  match compare_with (x_stod X) ref N with Ok k => f tt (mkWorld (w_files w) (w_out w ++ [compared_report k])) | Err e => (w, Err e) end.
Proof. intros H. unfold mbind, io_bind. rewrite (run_compare X N dir name ref w H). by destruct (compare_with _ _ _). Qed.
Lemma optional_put w dir name ref path text out : dir ++ name <> path -> optional_file w dir name ref -> optional_file (mkWorld (put_file path text (w_files w)) out) dir name ref.
Proof.
  unfold optional_file, holds. destruct ref as [s|]; [|done]. intros Hp [Hn H]. split; [done|]. cbn. destruct text; cbn; [|done]. by rewrite lookup_insert_ne.
Qed.
Lemma checked_ok t g : (1 <= t)%Z -> (1 <= g)%Z -> checked_size t g = Ok (Z.to_nat g).
Proof. intros. unfold checked_size. by rewrite !bool_decide_true. Qed.

(** ** The jobs *)
Lemma run_structure X t g a dir name train ss ref w text :
  (1 <= t)%Z -> (1 <= g)%Z -> holds w train text -> (ss = true -> x_writable X (train ++ lit "_struct") = true) -> optional_file w dir name ref -> dir ++ name <> train ++ lit "_struct" ->
  match structure_job (x_accept X a) 1000 (x_fuel X) (Z.to_nat g) (x_ssch X) (x_coin X) (x_stod X) ss ref text with
  | Ok (s, k) => structure_io X t g a (in_directory dir name) train ss w = (mkWorld (put_file (train ++ lit "_struct") s (w_files w)) (w_out w ++ [compared_report k]), Ok tt)
  | Err e => exists w', structure_io X t g a (in_directory dir name) train ss w = (w', Err e)
  end.
Proof.
  intros Ht Hg Htr Hw Href Hne. unfold structure_io, structure_job. rewrite (bind_read _ text) by done.
  rewrite bind_lift. destruct (load_csv_training text) as [d|]; cbn [mbind outcome_bind]; [|eauto].
  rewrite bind_lift. destruct (columns_of d) as [D|]; cbn [mbind outcome_bind]; [|eauto].
  rewrite bind_lift, (checked_ok t g Ht Hg).
  rewrite bind_lift. destruct (learn_structure _ _ _ _ _ _ _ _ _) as [N|]; cbn [mbind outcome_bind]; [|eauto].
  rewrite bind_write_opt by done. destruct (if ss then _ else _) as [s|]; cbn [mbind outcome_bind]; [|eauto].
  rewrite (run_compare X N dir name ref) by (by apply optional_put). destruct (compare_with _ _ _) as [k|]; cbn [mbind outcome_bind]; eauto.
Qed.
Lemma run_learning X t g a dir name train ss sp ref w text :
  (1 <= t)%Z -> (1 <= g)%Z -> holds w train text -> (ss = true -> x_writable X (train ++ lit "_struct") = true) -> (sp = true -> x_writable X (train ++ lit "_param") = true) ->
  optional_file w dir name ref -> dir ++ name <> train ++ lit "_struct" ->
  match learning_job (x_accept X a) 1000 (x_fuel X) (Z.to_nat g) (x_ssch X) (x_coin X) (x_flips X) (x_show X) (x_stod X) ss sp ref text with
  | Ok (s, k, p) => learning_io X t g a (in_directory dir name) train ss sp w =
      (mkWorld (put_file (train ++ lit "_param") p (put_file (train ++ lit "_struct") s (w_files w))) (w_out w ++ [compared_report k]), Ok tt)
  | Err e => exists w', learning_io X t g a (in_directory dir name) train ss sp w = (w', Err e)
  end.
Proof.
  intros Ht Hg Htr Hw Hw' Href Hne. unfold learning_io, learning_job. rewrite (bind_read _ text) by done.
  rewrite bind_lift. destruct (load_csv_training text) as [d|]; cbn [mbind outcome_bind]; [|eauto].
  rewrite bind_lift. destruct (columns_of d) as [D|]; cbn [mbind outcome_bind]; [|eauto].
  rewrite bind_lift, (checked_ok t g Ht Hg).
  rewrite bind_lift. destruct (learn_structure _ _ _ _ _ _ _ _ _) as [N|]; cbn [mbind outcome_bind]; [|eauto].
  rewrite bind_write_opt by done. destruct (if ss then _ else _) as [s|]; cbn [mbind outcome_bind]; [|eauto].
  rewrite (bind_compare X N dir name ref) by (by apply optional_put). destruct (compare_with _ _ _) as [k|]; cbn [mbind outcome_bind]; [|eauto].
  rewrite bind_lift. destruct (learn_params _ _ _ _ _) as [ts|]; cbn [mbind outcome_bind]; [|eauto].
  rewrite run_write_opt by done. destruct (if sp then _ else _) as [p|]; cbn [mbind outcome_bind]; eauto.
Qed.
Lemma run_classification X t g a dir name train test ss sp ref w text ttext :
  (1 <= t)%Z -> (1 <= g)%Z -> holds w train text -> holds w test ttext -> (ss = true -> x_writable X (train ++ lit "_struct") = true) -> (sp = true -> x_writable X (train ++ lit "_param") = true) ->
  optional_file w dir name ref -> dir ++ name <> train ++ lit "_struct" ->
  match classification_job (x_accept X a) 1000 (x_fuel X) (Z.to_nat g) (x_ssch X) (x_coin X) (x_flips X) (x_show X) (x_stod X) (x_order X) (x_sched X) ss sp ref text ttext with
  | Ok (s, k, p, q) => classification_io X t g a (in_directory dir name) train test ss sp w =
      (mkWorld (put_file (train ++ lit "_param") p (put_file (train ++ lit "_struct") s (w_files w))) (w_out w ++ [compared_report k; Accuracy q]), Ok tt)
  | Err e => exists w', classification_io X t g a (in_directory dir name) train test ss sp w = (w', Err e)
  end.
Proof.
  intros Ht Hg Htr Hte Hw Hw' Href Hne. unfold classification_io, classification_job. rewrite (bind_read _ text) by done.
  rewrite bind_lift. destruct (load_csv_training text) as [d|]; cbn [mbind outcome_bind]; [|eauto].
  rewrite (bind_read _ ttext) by done.
  rewrite bind_lift. destruct (load_csv_testing _ _ _) as [rows|]; cbn [mbind outcome_bind]; [|eauto].
  rewrite bind_lift. destruct (columns_of d) as [D|]; cbn [mbind outcome_bind]; [|eauto].
  rewrite bind_lift, (checked_ok t g Ht Hg).
  rewrite bind_lift. destruct (learn_structure _ _ _ _ _ _ _ _ _) as [N|]; cbn [mbind outcome_bind]; [|eauto].
  rewrite bind_lift. destruct (find_roots N) as [roots|]; cbn [mbind outcome_bind]; [|eauto].
  rewrite bind_lift. destruct (add_root_node N roots) as [N'|]; cbn [mbind outcome_bind]; [|eauto].
  rewrite bind_write_opt by done. destruct (if ss then _ else _) as [s|]; cbn [mbind outcome_bind]; [|eauto].
  rewrite (bind_compare X N' dir name ref) by (by apply optional_put). destruct (compare_with _ _ _) as [k|]; cbn [mbind outcome_bind]; [|eauto].
  rewrite bind_lift. destruct (learn_params _ _ _ _ _) as [ts|]; cbn [mbind outcome_bind]; [|eauto].
  rewrite bind_write_opt by done. destruct (if sp then _ else _) as [p|]; cbn [mbind outcome_bind]; [|eauto].
  rewrite bind_lift. destruct (make_queries 0 rows) as [qs|]; cbn [mbind outcome_bind]; [|eauto].
  destruct (jt_build _ _ _) as [T|]; cbn [mbind outcome_bind]; [|eauto].
  destruct (mcollect _ _) as [Es|]; cbn [mbind outcome_bind]; [|eauto].
  destruct (predict _ _ _ _) as [labels|]; cbn [mbind outcome_bind]; [|eauto].
  destruct (accuracy _ _) as [q|]; cbn [mbind outcome_bind]; [|eauto].
  unfold print. cbn [w_files w_out]. by rewrite <- app_assoc.
Qed.
Lemma run_inference X t net test dir name w xml vars probs ttext reference :
  (1 <= t)%Z -> holds w net xml -> x_xml X xml = Ok (vars, probs) -> holds w test ttext -> name <> [] -> holds w (dir ++ name) reference ->
  inference_io X t net test (in_directory dir name) w =
  match exact_inference (x_sqrt X) (x_stod X) (x_order X) (x_sched X) vars probs ttext reference with
  | Ok (m, h) => (mkWorld (w_files w) (w_out w ++ [Errors m h]), Ok tt)
  | Err e => (w, Err e)
  end.
Proof.
  intros Ht Hn Hx Hte Hname Href. unfold inference_io, exact_inference. rewrite (bind_read _ xml) by done.
  rewrite bind_lift, Hx. cbn [mbind outcome_bind fst snd]. destruct (load_xmlbif _ _ _) as [L|]; cbn [mbind outcome_bind]; [|done].
  rewrite (bind_read _ ttext) by done.
  rewrite bind_lift. destruct (load_csv_testing_map _ _ _) as [rows|]; cbn [mbind outcome_bind]; [|done].
  rewrite bind_lift. destruct (make_queries 0 rows) as [qs|]; cbn [mbind outcome_bind]; [|done].
  rewrite bind_lift. destruct (node_tables _ _) as [ts|]; cbn [mbind outcome_bind]; [|done]. destruct (jt_build _ _ _) as [T|]; cbn [mbind outcome_bind]; [|done].
  rewrite bind_lift. destruct (mcollect _ _) as [Es|]; cbn [mbind outcome_bind]; [|done].
  rewrite bind_lift, (checked_ok t 1 Ht) by done. unfold in_directory. rewrite (bool_decide_false (name = [])) by done.
  rewrite bool_decide_false by (intros E; apply app_eq_nil in E as [_ E]; done).
  rewrite (bind_read _ reference) by done. rewrite bind_lift. by destruct (evaluate_errors _ _ _ _ _ _) as [[m h]|].
Qed.
Lemma run_generator X folder file (csv : bool) n cls w xml vars probs :
  (0 <= n)%Z -> (0 <= cls)%Z -> 47%Z ∉ file -> holds w (folder ++ 47%Z :: file) xml -> x_xml X xml = Ok (vars, probs) ->
  let svm_path := folder ++ lit "/sample_" ++ to_string n ++ lit "_libsvm" in
  let csv_path := folder ++ lit "/sample_" ++ to_string n ++ lit "_csv" in
  x_writable X svm_path = true -> (csv = true -> x_writable X csv_path = true) ->
  let us := x_draws X <$> seq 0 (Z.to_nat n) in
  match generate_svm (x_stod X) vars probs (Z.to_nat cls) us, generate_csv (x_stod X) vars probs (Z.to_nat cls) us with
  | Ok svm, Ok table => generator_io X (folder ++ 47%Z :: file) (negb csv) n cls w = (mkWorld (put_file csv_path (if csv then Some table else None) (put_file svm_path (Some svm) (w_files w))) (w_out w), Ok tt)
  | Ok svm, Err e => if csv then exists w', generator_io X (folder ++ 47%Z :: file) (negb csv) n cls w = (w', Err e)
                     else generator_io X (folder ++ 47%Z :: file) (negb csv) n cls w = (mkWorld (put_file svm_path (Some svm) (w_files w)) (w_out w), Ok tt)
  | Err e, _ => exists w', generator_io X (folder ++ 47%Z :: file) (negb csv) n cls w = (w', Err e)
  end.
Proof.
  intros Hn Hc Hf Hnet Hx svm_path csv_path Hw Hw' us. unfold generator_io, generate_csv, generate_svm. rewrite (bind_read _ xml) by done.
  rewrite bind_lift, Hx. cbn [mbind outcome_bind fst snd]. destruct (load_xmlbif _ _ _) as [L|]; cbn [mbind outcome_bind]; [|eauto].
  rewrite bind_lift. rewrite (bool_decide_false (n < 0)%Z) by lia. fold us. destruct (generate_samples _ _ us) as [g|]; cbn [mbind outcome_bind]; [|eauto].
  cbv zeta. rewrite (last_path_ok folder file Hf). fold svm_path csv_path. rewrite (bool_decide_false (cls < 0)%Z) by lia. cbn [andb].
  rewrite bind_write by done. destruct (output_svm _ _) as [svm|]; cbn [mbind outcome_bind]; [|eauto].
  destruct csv; cbn [negb].
  - rewrite (bind_read _ svm) by (unfold holds; cbn [w_files]; by rewrite lookup_insert).
    rewrite bind_lift. destruct (load_svm_testing _ _ _) as [rows|]; cbn [mbind outcome_bind]; [|eauto].
    rewrite bind_lift. unfold write_file. rewrite (Hw' eq_refl). unfold store_csv_map.
    destruct (bool_decide (ld_names L = []) || bool_decide (ld_ids L = [])); cbn [orb]; [eauto|].
    destruct (negb _); [eauto|]. destruct (mcollect _ _); cbn [mbind outcome_bind]; eauto.
  - destruct (rows ← _; _) as [t|]; done.
Qed.

(** ** What a run may change *)
Global Instance content_eq_dec : EqDecision content. Proof. solve_decision. Defined.
Definition whole (c : option content) : Prop := exists s, c = Some (Whole s).
Definition tame {A} (P : str -> Prop) (m : io A) : Prop := forall w w' r, m w = (w', r) ->
  (forall path, w_files w' !! path <> w_files w !! path -> P path) /\
  (exists q, forall path, w_files w' !! path <> w_files w !! path -> path <> q -> whole (w_files w' !! path)) /\
  ((exists a, r = Ok a) -> forall path, w_files w' !! path <> w_files w !! path -> whole (w_files w' !! path)) /\
  exists l, w_out w' = w_out w ++ l.
Lemma tame_weaken {A} (P Q : str -> Prop) (m : io A) : (forall x, P x -> Q x) -> tame P m -> tame Q m.
Proof. intros H Hm w w' r E. destruct (Hm w w' r E) as (H1 & H2). split; [|done]. eauto. Qed.
Lemma tame_lift {A} P (r : outcome A) : tame P (lift r).
Proof. intros w w' r' [= <- <-]. repeat split; try done; [by exists []|exists []; by rewrite app_nil_r]. Qed.
Lemma tame_ret {A} P (a : A) : tame P (mret a).
Proof. exact (tame_lift P (Ok a)). Qed.
Lemma tame_read P path : tame P (read_file path).
Proof. intros w w' r' [= <- <-]. repeat split; try done; [by exists []|exists []; by rewrite app_nil_r]. Qed.
Lemma tame_print P r : tame P (print r).
Proof. intros w w' r' [= <- <-]. cbn [w_files w_out]. repeat split; try done; [by exists []|by exists [r]]. Qed.
Lemma tame_write (P : str -> Prop) wr path text : P path -> tame P (write_file wr path text).
Proof.
  intros HP w w' r'. unfold write_file. destruct (wr path); [destruct text as [s|e]|]; intros [= <- <-]; cbn [w_files w_out].
  - repeat split.
    + intros p Hp. destruct (decide (p = path)) as [->|Hne]; [done|]. by rewrite lookup_insert_ne in Hp.
    + exists path. intros p Hp Hq. by rewrite lookup_insert_ne in Hp.
    + intros _ p Hp. destruct (decide (p = path)) as [->|Hne]; [rewrite lookup_insert; by exists s|]. by rewrite lookup_insert_ne in Hp.
    + exists []. by rewrite app_nil_r.
  - repeat split.
    + intros p Hp. destruct (decide (p = path)) as [->|Hne]; [done|]. by rewrite lookup_insert_ne in Hp.
    + exists path. intros p Hp Hq. by rewrite lookup_insert_ne in Hp.
    + by intros [? [=]].
    + exists []. by rewrite app_nil_r.
  - repeat split; try done; [by exists []|exists []; by rewrite app_nil_r].
Qed.
Lemma tame_bind {A B} P (m : io A) (f : A -> io B) : tame P m -> (forall a, tame P (f a)) -> tame P (m ≫= f).
Proof.
  intros Hm Hf w w'' r''. unfold mbind, io_bind. destruct (m w) as [w' r] eqn:E. destruct (Hm _ _ _ E) as (M1 & M2 & M3 & l & M4).
  destruct r as [a|e].
  - intros E'. destruct (Hf a _ _ _ E') as (F1 & (q & F2) & F3 & l' & F4). specialize (M3 (ex_intro _ a eq_refl)). repeat split.
    + intros p Hp. destruct (decide (w_files w' !! p = w_files w !! p)) as [He|Hne]; [|eauto]. rewrite <- He in Hp. eauto.
    + exists q. intros p Hp Hq. destruct (decide (w_files w'' !! p = w_files w' !! p)) as [He|Hne]; [|eauto]. rewrite He in *. eauto.
    + intros Hok p Hp. destruct (decide (w_files w'' !! p = w_files w' !! p)) as [He|Hne]; [|eauto]. rewrite He in *. eauto.
    + exists (l ++ l'). by rewrite F4, M4, app_assoc.
  - intros [= <- <-]. repeat split; try done; [by intros [? [=]]|eauto].
Qed.
Lemma tame_write_if (P : str -> Prop) wr path (b : bool) text : (b = true -> P path) -> tame P (if b then write_file wr path text else mret tt).
Proof. intros H. destruct b; [apply tame_write; auto|apply tame_ret]. Qed.
Lemma tame_complain P e : tame P (complain e).
Proof. apply tame_bind; [apply tame_print|intros _; apply tame_lift]. Qed.
Lemma tame_compare P X ref N : tame P (compare_io X ref N).
Proof.
  unfold compare_io. case_bool_decide; [apply tame_print|]. apply tame_bind; [apply tame_read|intros ?].
  apply tame_bind; [apply tame_lift|intros ?; apply tame_print].
Qed.
Ltac tame := repeat first [apply tame_lift | apply tame_ret | apply tame_read | apply tame_print | apply tame_compare | apply tame_complain | apply tame_bind; [|intros ?] | apply tame_write_if].
Lemma tame_structure (P : str -> Prop) X t g a ref train ss : (ss = true -> P (train ++ lit "_struct")) -> tame P (structure_io X t g a ref train ss).
Proof. intros H. unfold structure_io. tame. done. Qed.
Lemma tame_learning (P : str -> Prop) X t g a ref train ss sp : (ss = true -> P (train ++ lit "_struct")) -> (sp = true -> P (train ++ lit "_param")) -> tame P (learning_io X t g a ref train ss sp).
Proof. intros H H'. unfold learning_io. tame; done. Qed.
Lemma tame_classification (P : str -> Prop) X t g a ref train test ss sp : (ss = true -> P (train ++ lit "_struct")) -> (sp = true -> P (train ++ lit "_param")) -> tame P (classification_io X t g a ref train test ss sp).
Proof. intros H H'. unfold classification_io. tame; done. Qed.
Lemma tame_inference (P : str -> Prop) X t net test pt : tame P (inference_io X t net test pt).
Proof. unfold inference_io. tame. case_bool_decide; tame. Qed.
Lemma tame_generator (P : str -> Prop) X net libsvm n cls :
  P (last_path net ++ lit "/sample_" ++ to_string n ++ lit "_libsvm") -> (libsvm = false -> P (last_path net ++ lit "/sample_" ++ to_string n ++ lit "_csv")) -> tame P (generator_io X net libsvm n cls).
Proof.
  intros H H'. unfold generator_io. cbv zeta. apply tame_bind; [apply tame_read|intros ?]. apply tame_bind; [apply tame_lift|intros L]. apply tame_bind; [apply tame_lift|intros g].
  apply tame_bind; [by apply tame_write|intros ?]. destruct libsvm; [apply tame_ret|]. tame. apply tame_write. auto.
Qed.
