(** A program that succeeds has written all its files. *)
From Coq Require Import Ascii String.
From Verif Require Import ProgramSpec ParamProofs ProgramProofs.
Local Open Scope nat_scope.

(** After success, files that were complete are complete. *)
Definition keeps {A} (m : io A) : Prop := forall w w' a path s, m w = (w', Ok a) -> holds w path s -> exists s', holds w' path s'.
Definition makes {A} (wr : str -> bool) (path : str) (m : io A) : Prop := forall w w' a, m w = (w', Ok a) -> wr path = true /\ exists s, holds w' path s.
Lemma keeps_lift {A} (r : outcome A) : keeps (lift r).
Proof. intros w w' a path s [= <- ->]. eauto. Qed.
Lemma keeps_ret {A} (a : A) : keeps (mret a).
Proof. exact (keeps_lift (Ok a)). Qed.
Lemma keeps_read path : keeps (read_file path).
Proof. intros w w' a q s. unfold read_file. intros [= <- _]. eauto. Qed.
Lemma keeps_print r : keeps (print r).
Proof. intros w w' a q s [= <- _]. unfold holds. eauto. Qed.
Lemma makes_write wr path text : makes wr path (write_file wr path text).
Proof.
  intros w w' a. unfold write_file. destruct (wr path); [|by intros [=]]. destruct text as [s|]; [|by intros [=]]. intros [= <- <-].
  split; [done|]. exists s. unfold holds. cbn. by rewrite lookup_insert.
Qed.
Lemma keeps_write wr path text : keeps (write_file wr path text).
Proof.
  intros w w' a q s E H. destruct (decide (q = path)) as [-> |Hne]; [by apply makes_write in E as [_ ?]|].
  revert E. unfold write_file. destruct (wr path); [|by intros [=]]. destruct text as [s'|]; [|by intros [=]]. intros [= <- <-].
  exists s. unfold holds in *. cbn. by rewrite lookup_insert_ne.
Qed.
Lemma keeps_bind {A B} (m : io A) (f : A -> io B) : keeps m -> (forall a, keeps (f a)) -> keeps (m ≫= f).
Proof.
  intros Hm Hf w w' b path s. unfold mbind, io_bind. destruct (m w) as [w1 [a|]] eqn:E; [|by intros [=]].
  intros E' H. destruct (Hm _ _ _ _ _ E H) as [s1 H1]. by eapply Hf.
Qed.
Lemma makes_later {A B} wr path (m : io A) (f : A -> io B) : (forall a, makes wr path (f a)) -> makes wr path (m ≫= f).
Proof. intros Hf w w' b. unfold mbind, io_bind. destruct (m w) as [w1 [a|]] eqn:E; [|by intros [=]]. apply Hf. Qed.
Lemma makes_now {A B} wr path (m : io A) (f : A -> io B) : makes wr path m -> (forall a, keeps (f a)) -> makes wr path (m ≫= f).
Proof.
  intros Hm Hf w w' b. unfold mbind, io_bind. destruct (m w) as [w1 [a|]] eqn:E; [|by intros [=]]. intros E'.
  destruct (Hm _ _ _ E) as [Hw [s H]]. split; [done|]. by eapply Hf.
Qed.
Lemma keeps_write_if wr path (b : bool) text : keeps (if b then write_file wr path text else mret tt).
Proof. destruct b; [apply keeps_write|apply keeps_ret]. Qed.
Lemma keeps_compare X ref N : keeps (compare_io X ref N).
Proof.
  unfold compare_io. case_bool_decide; [apply keeps_print|]. apply keeps_bind; [apply keeps_read|intros ?].
  apply keeps_bind; [apply keeps_lift|intros ?; apply keeps_print].
Qed.
Ltac keep := repeat first [apply keeps_lift | apply keeps_ret | apply keeps_read | apply keeps_print | apply keeps_compare | apply keeps_write_if | apply keeps_write | apply keeps_bind; [|intros ?]].
Ltac made := repeat first [apply makes_now; [by apply makes_write|intros ?; keep] | by apply makes_write | apply makes_later; intros ?].
Lemma makes_structure X t g a ref train : makes (x_writable X) (train ++ lit "_struct") (structure_io X t g a ref train true).
Proof. unfold structure_io. made. Qed.
Lemma makes_learning_struct X t g a ref train sp : makes (x_writable X) (train ++ lit "_struct") (learning_io X t g a ref train true sp).
Proof. unfold learning_io. made. Qed.
Lemma makes_learning_param X t g a ref train ss : makes (x_writable X) (train ++ lit "_param") (learning_io X t g a ref train ss true).
Proof. unfold learning_io. do 7 (apply makes_later; intros ?). made. Qed.
Lemma makes_class_struct X t g a ref train test sp : makes (x_writable X) (train ++ lit "_struct") (classification_io X t g a ref train test true sp).
Proof. unfold classification_io. made. Qed.
Lemma makes_class_param X t g a ref train test ss : makes (x_writable X) (train ++ lit "_param") (classification_io X t g a ref train test ss true).
Proof. unfold classification_io. do 12 (apply makes_later; intros ?). made. Qed.
Lemma makes_svm X net libsvm n cls : makes (x_writable X) (last_path net ++ lit "/sample_" ++ to_string n ++ lit "_libsvm") (generator_io X net libsvm n cls).
Proof.
  unfold generator_io. cbv zeta. do 3 (apply makes_later; intros ?). apply makes_now; [apply makes_write|]. intros ?. destruct libsvm; keep.
Qed.
Lemma makes_csv X net n cls : makes (x_writable X) (last_path net ++ lit "/sample_" ++ to_string n ++ lit "_csv") (generator_io X net false n cls).
Proof. unfold generator_io. cbv zeta. do 7 (apply makes_later; intros ?). apply makes_write. Qed.

Theorem program_written X args w w' dir p path :
  data_in (x_source X) dir -> program X args w = (w', Ok tt) -> parse_parameters (x_stod X) initial args = Ok p -> outputs dir p path ->
  x_writable X path = true /\ exists s, holds w' path s.
Proof.
  intros Hdir E Hp Ho. revert E. unfold program. change default_params with initial. rewrite bind_lift, Hp. cbv zeta. rewrite (directory_ok _ _ Hdir).
  destruct Ho as [(Hj & Hm & Hs & ->)|[(Hj & Hm & Hs)|[(Hj & Hm & Hs)|(Hj & folder & file & Hf & Hn & Hs)]]].
  - rewrite Hj, Hm, Hs. cbn. rewrite app_assoc. apply makes_structure.
  - rewrite Hj, Hm. cbn. destruct Hs as [[Hs ->]|[Hs ->]]; rewrite Hs, app_assoc; [apply makes_learning_struct|apply makes_learning_param].
  - rewrite Hj, Hm. cbn. destruct Hs as [[Hs ->]|[Hs ->]]; rewrite Hs, app_assoc; [apply makes_class_struct|apply makes_class_param].
  - rewrite Hj. cbn. rewrite Hf.
    assert (L : last_path (folder ++ 47%Z :: file) = folder) by (by apply last_path_ok).
    destruct Hs as [[Hm ->]|[Hm ->]].
    + destruct Hm as [Hm|Hm]; rewrite Hm; cbn; intros E.
      * apply makes_svm in E. by rewrite L in E.
      * apply makes_svm in E. by rewrite L in E.
    + rewrite Hm. cbn. intros E. apply makes_csv in E. by rewrite L in E.
Qed.
