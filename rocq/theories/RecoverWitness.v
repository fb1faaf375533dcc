(** Concrete cases for Properties_Recover.v: 0 -> 1 -> 2 with 18 rows, and 0 -> 1 with 800 rows. *)
From Coq Require Import Field QArith.
From Verif Require Import RecoverSpec DSepTheorems OrientSafe SampleSpec EssentialSpec JTWitness LearnWitness SampleWitness GraphWitness NetProofs2 NetProofs3 LikelihoodProofs ShdTheorems LikelihoodWitness EquivTheorems EquivWitness CoverProofs PCSpec PCWitness DSepWitness BuildProofs LearnProofs TableProofs.
Local Open Scope nat_scope.

(** Only the values of the nodes matter. *)
Definition of_values (l : list nat) : asg := fun v => match l !! v with Some x => x | None => 0 end.
Lemma of_values_agree n a v : v < n -> a v = of_values (a <$> seq 0 n) v.
Proof. intros Hv. unfold of_values. rewrite list_lookup_fmap, lookup_seq_lt by done. done. Qed.
Lemma joint_values N ts a : netinv N -> doms_positive N -> distributions N ts -> joint ts a = joint ts (of_values (a <$> seq 0 (net_size N))).
Proof. intros HN Hd H. destruct (learned_family N ts HN Hd H) as [F _]. apply (BuildProofs.joint_dep N ts); [by apply netinv_ok|done|]. intros v [_ Hv]%elem_of_seq. by apply of_values_agree. Qed.
Lemma chance_values N ts l a : netinv N -> doms_positive N -> distributions N ts -> chance N ts l a = chance N ts l (of_values (a <$> seq 0 (net_size N))).
Proof.
  intros HN Hd H. destruct (learned_family N ts HN Hd H) as [F _]. unfold chance. eapply sumv_dep; [apply (BuildProofs.joint_dep N ts); [by apply netinv_ok|done]|].
  intros v [_ [_ Hv]%elem_of_seq]%elem_of_list_filter. by apply of_values_agree.
Qed.
Lemma fraction_values D n l a : (forall v, v ∈ l -> v < n) -> fraction D l a = fraction D l (of_values (a <$> seq 0 n)).
Proof.
  intros Hl. unfold fraction. do 2 f_equal. unfold occurrences. f_equal. apply list_filter_iff. intros j. unfold agrees. rewrite !Forall_forall. split; intros H v Hv; specialize (H v Hv); rewrite H; [by rewrite (of_values_agree n a v) at 1 by auto|by rewrite <-(of_values_agree n a v) by auto].
Qed.

Definition bits (n : nat) : list (list nat) := Nat.iter n (fun ls => ((0 ::.) <$> ls) ++ ((1 ::.) <$> ls)) [[]].
Lemma bits_elem n (a : asg) : (forall v, v < n -> a v < 2) -> a <$> seq 0 n ∈ bits n.
Proof.
  intros H. enough (forall i, i + n <= i + n -> forall (b : asg), (forall v, i <= v < i + n -> b v < 2) -> b <$> seq i n ∈ bits n) as E by (apply (E 0); [done|intros v Hv; apply H; lia]). clear H a.
  induction n as [|n IH]; intros i _ b Hb; [left|]. cbn [seq fmap list_fmap]. change (bits (S n)) with (((0 ::.) <$> bits n) ++ ((1 ::.) <$> bits n)). apply elem_of_app.
  assert (b <$> seq (S i) n ∈ bits n) as Hin by (apply (IH (S i)); [done|intros v Hv; apply Hb; lia]). specialize (Hb i ltac:(lia)). destruct (b i) as [|[|]]; [left|right|lia]; by apply (elem_of_list_fmap_1 _ _ _ Hin).
Qed.
(** Checks over all rows of two-valued variables. *)
Lemma representative_check N ts D : netinv N -> doms_positive N -> distributions N ts -> domain_sizes N = replicate (net_size N) 2 -> 0 < co_rows D ->
  forallb (fun l => bool_decide (fraction D (seq 0 (net_size N)) (of_values l) = joint ts (of_values l))) (bits (net_size N)) = true -> representative N ts D.
Proof.
  intros HN Hd H HB Hm HC. split; [done|]. intros a Ha. rewrite (joint_values N ts a HN Hd H), (fraction_values D (net_size N)) by (intros v [_ Hv]%elem_of_seq; done).
  rewrite forallb_forall in HC. apply (bool_decide_unpack _), Is_true_true, HC, elem_of_list_In, bits_elem. intros v Hv. specialize (Ha v). unfold net_dom, dom_of in Ha. rewrite HB in Ha. rewrite (lookup_replicate_2 _ _ _ Hv) in Ha. exact Ha.
Qed.
Lemma positive_check N ts : netinv N -> doms_positive N -> distributions N ts -> domain_sizes N = replicate (net_size N) 2 ->
  forallb (fun l => bool_decide (joint ts (of_values l) <> 0%Qc)) (bits (net_size N)) = true -> forall a, valid (net_dom N) a -> joint ts a <> 0%Qc.
Proof.
  intros HN Hd H HB HC a Ha. rewrite (joint_values N ts a HN Hd H).
  rewrite forallb_forall in HC. apply (bool_decide_unpack _), Is_true_true, HC, elem_of_list_In, bits_elem. intros v Hv. specialize (Ha v). unfold net_dom, dom_of in Ha. rewrite HB in Ha. rewrite (lookup_replicate_2 _ _ _ Hv) in Ha. exact Ha.
Qed.
Definition near_b (e : Qc) (x y : Qc) : bool := bool_decide (x <= y + e)%Qc && bool_decide (y <= x + e)%Qc.
Lemma near_b_spec e x y : near_b e x y = true -> differ_by e x y.
Proof. unfold near_b. rewrite andb_true_iff, !bool_decide_eq_true. done. Qed.
Lemma nearly_check e N ts D : netinv N -> doms_positive N -> distributions N ts -> domain_sizes N = replicate (net_size N) 2 -> 0 < co_rows D ->
  forallb (fun x => forallb (fun l => near_b e (fraction D (parents_of N x) (of_values l)) (chance N ts (parents_of N x) (of_values l)) &&
     near_b e (fraction D (x :: parents_of N x) (of_values l)) (chance N ts (x :: parents_of N x) (of_values l))) (bits (net_size N))) (seq 0 (net_size N)) = true -> nearly_representative e N ts D.
Proof.
  intros HN Hd H HB Hm HC. split; [done|]. intros x a Hx Ha. assert (forall v, v ∈ parents_of N x -> v < net_size N) as Hp by (intros v Hv; apply (parents_of_arcs N x v HN), dag_parents_elem in Hv as [_ Hv]; done).
  rewrite (fraction_values D (net_size N) (parents_of N x)), (fraction_values D (net_size N) (x :: parents_of N x)) by (try done; intros v [->|Hv]%elem_of_cons; auto).
  rewrite !(chance_values N ts _ a HN Hd H). rewrite forallb_forall in HC. specialize (HC x ltac:(apply elem_of_list_In, elem_of_seq; lia)). rewrite forallb_forall in HC.
  assert (a <$> seq 0 (net_size N) ∈ bits (net_size N)) as Hin. { apply bits_elem. intros v Hv. specialize (Ha v). unfold net_dom, dom_of in Ha. rewrite HB in Ha. rewrite (lookup_replicate_2 _ _ _ Hv) in Ha. exact Ha. }
  specialize (HC _ (proj1 (elem_of_list_In _ _) Hin)). apply andb_true_iff in HC as [H1 H2]. split; by apply near_b_spec.
Qed.
Lemma chance_check p N ts : netinv N -> doms_positive N -> distributions N ts -> domain_sizes N = replicate (net_size N) 2 ->
  forallb (fun x => forallb (fun l => bool_decide (p <= chance N ts (parents_of N x) (of_values l))%Qc) (bits (net_size N))) (seq 0 (net_size N)) = true ->
  forall x a, x < net_size N -> valid (net_dom N) a -> (p <= chance N ts (parents_of N x) a)%Qc.
Proof.
  intros HN Hd H HB HC x a Hx Ha. rewrite (chance_values N ts _ a HN Hd H). rewrite forallb_forall in HC. specialize (HC x ltac:(apply elem_of_list_In, elem_of_seq; lia)). rewrite forallb_forall in HC.
  apply (bool_decide_unpack _), Is_true_true, HC, elem_of_list_In, bits_elem. intros v Hv. specialize (Ha v). unfold net_dom, dom_of in Ha. rewrite HB in Ha. rewrite (lookup_replicate_2 _ _ _ Hv) in Ha. exact Ha.
Qed.

(** ** 0 -> 1 -> 2 *)
Definition relay_net : network := Eval vm_compute in get (new_network []) (run (new_network [2;2;2]) [AddD 0 1; AddD 1 2]).
Definition yaler_net : network := Eval vm_compute in get (new_network []) (run (new_network [2;2;2]) [AddD 2 1; AddD 1 0]).
Lemma relay_inv : netinv relay_net.
Proof. eapply (proj1 (reach [2;2;2] [AddD 0 1; AddD 1 2] relay_net _ _ _)). Unshelve. all: vm_compute; reflexivity. Qed.
Lemma yaler_inv : netinv yaler_net.
Proof. eapply (proj1 (reach [2;2;2] [AddD 2 1; AddD 1 0] yaler_net _ _ _)). Unshelve. all: vm_compute; reflexivity. Qed.
Lemma relay_doms : doms_positive relay_net.
Proof. apply (bool_decide_unpack _); vm_compute; exact I. Qed.
Lemma relay_equivalent : markov_equivalent (arcs_of relay_net) (arcs_of yaler_net).
Proof. exact chain_equivalent. Qed.
(** Each value is passed on with probability 2/3. *)
Definition relay_tables : list ptable := [mk_table [0] [2] [frac 9 18; frac 9 18]; mk_table [1;0] [2;2] [frac 6 9; frac 3 9; frac 3 9; frac 6 9]; mk_table [2;1] [2;2] [frac 6 9; frac 3 9; frac 3 9; frac 6 9]].
Definition rows_of (l : list (nat * list nat)) : list (list nat) := concat ((fun p => replicate p.1 p.2) <$> l).
Definition column (rows : list (list nat)) (v : nat) : list nat := (fun r => of_values r v) <$> rows.
Definition rows18 : columns := Eval vm_compute in
  let rs := rows_of [(4, [0;0;0]); (2, [0;0;1]); (1, [0;1;0]); (2, [0;1;1]); (2, [1;0;0]); (1, [1;0;1]); (2, [1;1;0]); (4, [1;1;1])] in mkCols [column rs 0; column rs 1; column rs 2] (length rs) 3.
Lemma rows18_complete : complete relay_net rows18 /\ co_vars rows18 = net_size relay_net.
Proof. split; [|reflexivity]. apply complete_check; [reflexivity|vm_compute; lia|vm_compute; reflexivity]. Qed.
Lemma relay_learn : learn_params relay_net rows18 0 (fun _ _ => 0) [] = Ok relay_tables.
Proof. vm_compute. reflexivity. Qed.
Lemma relay_distributions : distributions relay_net relay_tables.
Proof. eapply (learned_vars rows18 relay_net _ _ relay_inv relay_doms); [apply rows18_complete..|exact relay_learn]. Qed.
Lemma relay_representative : representative relay_net relay_tables rows18.
Proof. apply representative_check; [exact relay_inv|exact relay_doms|exact relay_distributions|reflexivity|vm_compute; lia|vm_compute; reflexivity]. Qed.
Lemma relay_hyps : netinv relay_net /\ netinv yaler_net /\ doms_positive relay_net /\ 0 < net_size relay_net /\ domain_sizes relay_net = domain_sizes yaler_net /\ markov_equivalent (arcs_of relay_net) (arcs_of yaler_net) /\
  distributions relay_net relay_tables /\ complete relay_net rows18 /\ co_vars rows18 = net_size relay_net /\ representative relay_net relay_tables rows18.
Proof. split_and!; [exact relay_inv|exact yaler_inv|exact relay_doms|vm_compute; lia|reflexivity|exact relay_equivalent|exact relay_distributions|apply rows18_complete|reflexivity|exact relay_representative]. Qed.
Lemma relay_connected : weakly_connected relay_net.
Proof.
  intros x y Hx Hy. assert (forall z, z < 3 -> rtc (fun a b => child_rel relay_net a b \/ child_rel relay_net b a) z 1 /\ rtc (fun a b => child_rel relay_net a b \/ child_rel relay_net b a) 1 z) as H.
  { intros z Hz. assert (child_rel relay_net 0 1) as H01 by (eexists; split; [reflexivity|vm_compute; by left]). assert (child_rel relay_net 1 2) as H12 by (eexists; split; [reflexivity|vm_compute; by left]).
    destruct z as [|[|[|z]]]; [..|lia]; (split; [|]); try apply rtc_refl; apply rtc_once; tauto. }
  etransitivity; [apply H, Hx|apply H, Hy].
Qed.
Lemma relay_weight : evidence_weight relay_net relay_tables [(2, 0)] = frac 1 2 /\ posterior relay_net relay_tables [(2, 0)] 0 0 = frac 5 9.
Proof. split; apply (bool_decide_unpack _); vm_compute; exact I. Qed.
(** The other direction: all tables are different, the distribution is not. *)
Lemma yaler_learn : exists ts, learn_params yaler_net rows18 0 (fun _ _ => 0) [] = Ok ts /\ pt_vars <$> ts = [[0; 1]; [1; 2]; [2]] /\ posterior yaler_net ts [(2, 0)] 0 0 = frac 5 9.
Proof. eexists. split; [vm_compute; reflexivity|]. split; [reflexivity|]. apply (bool_decide_unpack _); vm_compute; exact I. Qed.

(** ** The whole pipeline *)
Definition relay_ind := dsep_of 3 (arcs_of relay_net).
Lemma relay_oracle : dsep_oracle relay_ind 3 (arcs_of relay_net) /\ decides (lone_test relay_ind) relay_ind 3 1 /\ (forall v, length (parents_of relay_net v) < 3) /\
  (exists x y, x < net_size relay_net /\ y < net_size relay_net /\ x <> y /\ ~ adjacent (arcs_of relay_net) x y).
Proof.
  split; [apply (dsep_of_oracle 3 [(0, 1); (1, 2)] line_bounds)|]. split; [apply lone_decides|]. split; [intros [|[|[|v]]]; cbv; lia|]. exists 0, 2. split_and!; [vm_compute; lia..|done|]. intros [H|H]; vm_compute in H; done.
Qed.
Lemma relay_positive a : valid (net_dom relay_net) a -> joint relay_tables a <> 0%Qc.
Proof. apply (positive_check relay_net); [exact relay_inv|exact relay_doms|exact relay_distributions|reflexivity|vm_compute; reflexivity]. Qed.
(** The coin that takes the first way finds 0 -> 1 -> 2. *)
Lemma relay_found : exists es A S N, skeleton_search (lone_test relay_ind) 3 3 1000 1 forwards = Ok (es, A, S) /\ orient_skeleton 1000 (domain_sizes relay_net) true (fun _ => false) es A S = Ok N /\
  forall x y z, v_structure (arcs_of N) x y z -> v_structure (arcs_of relay_net) x y z.
Proof.
  do 4 eexists. split; [vm_compute; reflexivity|]. split; [vm_compute; reflexivity|]. intros x y z (M & Hne & _). exfalso. destruct M as [M1 M2]. revert M1 M2. unfold arcs_of. rewrite !bool_decide_eq_true. match goal with |- context [directed_pairs ?l] => let r := eval vm_compute in (directed_pairs l) in change (directed_pairs l) with r end. rewrite !elem_of_cons, !elem_of_nil.
  intros [[= -> ->]|[[= -> ->]|[]]] [[= ->]|[[= ->]|[]]]; done.
Qed.
(** Another coin finds 0 -> 1 <- 2, and the distribution learned on it is another one. *)
Lemma pipeline_refutes : exists N0 ind tst size psch depth pcoin fuel ts D es A S N coin ts2 a, netinv N0 /\ doms_positive N0 /\ dsep_oracle ind (net_size N0) (arcs_of N0) /\ decides tst ind (net_size N0) size /\ 1 <= size /\ valid_sched psch /\
  (forall v, length (parents_of N0 v) < depth) /\ distributions N0 ts /\ (forall b, valid (net_dom N0) b -> joint ts b <> 0%Qc) /\ complete N0 D /\ co_vars D = net_size N0 /\ representative N0 ts D /\
  skeleton_search tst (net_size N0) depth fuel size psch = Ok (es, A, S) /\ orient_skeleton fuel (domain_sizes N0) true pcoin es A S = Ok N /\ learn_params N D 0 coin [] = Ok ts2 /\ valid (net_dom N0) a /\ joint ts2 a <> joint ts a.
Proof.
  exists relay_net, relay_ind, (lone_test relay_ind), 1, forwards, 3, second, 1000, relay_tables, rows18. do 4 eexists. exists (fun _ _ => 0). eexists. exists (fun _ => 0). destruct relay_oracle as (O1 & O2 & O3 & _).
  split_and!; [exact relay_inv|exact relay_doms|exact O1|exact O2|done|exact forwards_valid|exact O3|exact relay_distributions|exact relay_positive|apply rows18_complete|reflexivity|exact relay_representative|vm_compute; reflexivity|vm_compute; reflexivity|vm_compute; reflexivity| |].
  - intros v. apply (LearnProofs.dpos relay_net relay_inv relay_doms).
  - apply (bool_decide_unpack _); vm_compute; exact I.
Qed.
(** With smoothing, data that are exactly representative give other tables: 10/20 of the rows, but 7/11 instead of 2/3. *)
Lemma smoothed_refutes : exists N ts D k coin ts2 x q t a, netinv N /\ doms_positive N /\ distributions N ts /\ complete N D /\ co_vars D = net_size N /\ representative N ts D /\
  learn_params N D k coin [] = Ok ts2 /\ ts !! x = Some q /\ ts2 !! x = Some t /\ valid (net_dom N) a /\ tval q a = frac 2 3 /\ tval t a = frac 7 11.
Proof.
  exists relay_net, relay_tables, rows18, 1%Z, (fun _ _ => 0). eexists. exists 1. do 2 eexists. exists (fun _ => 0).
  split_and!; [exact relay_inv|exact relay_doms|exact relay_distributions|apply rows18_complete|reflexivity|exact relay_representative|vm_compute; reflexivity|reflexivity|reflexivity| | |].
  - intros v. apply (LearnProofs.dpos relay_net relay_inv relay_doms).
  - apply (bool_decide_unpack _); vm_compute; exact I.
  - apply (bool_decide_unpack _); vm_compute; exact I.
Qed.

(** ** 0 -> 1, 800 rows that are nearly representative *)
Definition wire_tables : list ptable := arrow_tables (frac 1 2) (frac 1 2) (frac 3 4) (frac 1 4) (frac 1 4) (frac 3 4).
Lemma wire_distributions : distributions arrow_net wire_tables.
Proof. apply arrow_distributions. split_and!; apply (bool_decide_unpack _); vm_compute; exact I. Qed.
Definition rows800 : columns := Eval vm_compute in
  let rs := rows_of [(301, [0;0]); (99, [0;1]); (101, [1;0]); (299, [1;1])] in mkCols [column rs 0; column rs 1] (length rs) 2.
Lemma rows800_complete : complete arrow_net rows800 /\ co_vars rows800 = net_size arrow_net.
Proof. split; [|reflexivity]. apply complete_check; [reflexivity|vm_compute; lia|vm_compute; reflexivity]. Qed.
Lemma wire_near : nearly_representative (frac 1 800) arrow_net wire_tables rows800 /\ ~ representative arrow_net wire_tables rows800.
Proof.
  split; [apply nearly_check; [exact arrow_inv|exact arrow_doms|exact wire_distributions|reflexivity|vm_compute; lia|vm_compute; reflexivity]|].
  intros [_ H]. specialize (H (fun _ => 0) (fun v => LearnProofs.dpos arrow_net arrow_inv arrow_doms v)). revert H. apply (bool_decide_unpack _); vm_compute; exact I.
Qed.
Lemma wire_chance : forall x a, x < net_size arrow_net -> valid (net_dom arrow_net) a -> (frac 1 2 <= chance arrow_net wire_tables (parents_of arrow_net x) a)%Qc.
Proof. apply chance_check; [exact arrow_inv|exact arrow_doms|exact wire_distributions|reflexivity|vm_compute; reflexivity]. Qed.
(** One occurrence added: the bound of the entries is 4/399 and that of the answers, for the evidence that 1 has the value 0, 128/399. *)
Lemma wire_bounds : (((1 + 1) * frac 1 800 + qn 1 / qn (co_rows rows800) * qn (net_dom arrow_net 1)) / (frac 1 2 - frac 1 800))%Qc = frac 4 399 /\
  let h := (qn (net_size arrow_net * prod_list (domain_sizes arrow_net)) * (((1 + 1) * frac 1 800 + qn 1 / qn (co_rows rows800) * qn 2) / (frac 1 2 - frac 1 800)))%Qc in
  (h < evidence_weight arrow_net wire_tables [(1, 0)%nat])%Qc /\ ((1 + 1) * h / evidence_weight arrow_net wire_tables [(1, 0)%nat])%Qc = frac 128 399.
Proof. split; [|split]; apply (bool_decide_unpack _); vm_compute; exact I. Qed.
Lemma relay_small : (qn (net_size relay_net * prod_list (domain_sizes relay_net)) * frac 1 1000 < evidence_weight relay_net relay_tables [(2, 0)%nat])%Qc.
Proof. apply (bool_decide_unpack _); vm_compute; exact I. Qed.
