(** Samples drawn with evenly spread numbers are nearly as frequent as the network says. *)
From Coq Require Import Field QArith Lqa.
From Verif Require Import SimulateSpec BayesProofs UtilProofs NetProofs2 BuildProofs CountProofs QueryProofs Sums BeliefProofs LearnProofs LearnTheorems LikelihoodSpec SampleProofs GenProofs EquivTheorems RecoverProofs RecoverTheorems RecoverClose GibbsProofs TableProofs2 TableProofs.
Local Open Scope nat_scope.

Lemma filter_indices {A} (l : list A) (P : nat -> Prop) (Q : A -> Prop) `{forall j, Decision (P j)} `{forall x, Decision (Q x)} : (forall j x, l !! j = Some x -> P j <-> Q x) ->
  length (filter P (seq 0 (length l))) = length (filter Q l).
Proof.
  induction l as [|x l IH] using rev_ind; intros HPQ; [done|]. rewrite app_length. cbn [length]. rewrite seq_app, !filter_app, !app_length. cbn [seq]. f_equal.
  - apply IH. intros j y Hj. apply HPQ. by apply lookup_app_l_Some.
  - assert (P (length l) <-> Q x) as HE by (apply HPQ; rewrite lookup_app_r by lia; by rewrite Nat.sub_diag). rewrite Nat.add_0_l. destruct (decide (Q x)) as [H1|H1]; [rewrite !filter_cons_True by tauto; done|rewrite !filter_cons_False by tauto; done].
Qed.
Lemma filter_pairs {A B} (l : list A) (l' : list B) (R : A -> B -> Prop) (P : A -> Prop) (Q : B -> Prop) `{forall x, Decision (P x)} `{forall x, Decision (Q x)} : Forall2 R l l' -> (forall x y, x ∈ l -> R x y -> P x <-> Q y) ->
  length (filter P l) = length (filter Q l').
Proof.
  induction 1 as [|x y l l' HR HF IH]; intros HPQ; [done|]. assert (P x <-> Q y) as HE by (apply HPQ; [left|done]). assert (length (filter P l) = length (filter Q l')) as IH' by (apply IH; intros; apply HPQ; [by right|done]).
  destruct (decide (Q y)) as [H1|H1]; [rewrite !filter_cons_True by tauto; cbn [length]; by rewrite IH'|by rewrite !filter_cons_False by tauto].
Qed.
Lemma column_entry n samples j s v : samples !! j = Some s -> v < n -> entry (co_cols (sample_columns n samples)) j v = Some (values s v).
Proof. intros Hj Hv. unfold entry. cbn [sample_columns co_cols]. rewrite list_lookup_fmap, lookup_seq_lt by done. cbn. rewrite list_lookup_fmap, Hj. done. Qed.
Lemma whole_row n (s : list nat) (a : asg) : length s = n -> (forall v, v < n -> values s v = a v) <-> s = a <$> seq 0 n.
Proof.
  intros Hl. split.
  - intros H. apply list_eq. intros v. rewrite list_lookup_fmap. destruct (decide (v < n)) as [Hv|Hv]; [|rewrite !lookup_ge_None_2; [done|rewrite seq_length; lia|lia]]. rewrite lookup_seq_lt by done. cbn. specialize (H v Hv). unfold values in H. destruct (lookup_lt_is_Some_2 s v) as [x Hx]; [lia|]. rewrite Hx in *. cbn in H. congruence.
  - intros -> v Hv. unfold values. by rewrite list_lookup_fmap, lookup_seq_lt.
Qed.
Lemma sample_occurrences n samples a : (forall s, s ∈ samples -> length s = n) -> occurrences (co_cols (sample_columns n samples)) (length samples) (seq 0 n) a = length (filter (fun s => s = a <$> seq 0 n) samples).
Proof.
  intros Hl. unfold occurrences. apply filter_indices. intros j s Hj. rewrite <-(whole_row n s a) by (apply Hl; by eapply elem_of_list_lookup_2). unfold agrees. rewrite Forall_forall. split.
  - intros H v Hv. specialize (H v ltac:(apply elem_of_seq; lia)). rewrite (column_entry n samples j s v Hj Hv) in H. congruence.
  - intros H v Hv. apply elem_of_seq in Hv. rewrite (column_entry n samples j s v Hj) by lia. f_equal. apply H. lia.
Qed.
Lemma sample_complete N samples : (forall s, s ∈ samples -> full_sample N s) -> complete N (sample_columns (net_size N) samples).
Proof.
  intros H. split_and!; [cbn; by rewrite fmap_length, seq_length|done|]. intros v col Hv. cbn [sample_columns co_cols co_rows] in *. rewrite list_lookup_fmap in Hv. destruct (seq 0 (net_size N) !! v) as [w|] eqn:E; [|done]. cbn in Hv. injection Hv as <-. apply lookup_seq in E as [-> Hn]. rewrite Nat.add_0_l.
  split; [apply fmap_length|]. apply Forall_fmap, Forall_forall. intros s Hs. cbn. destruct (H s Hs) as [Hl Hd]. unfold values. destruct (lookup_lt_is_Some_2 s v) as [x Hx]; [lia|]. rewrite Hx. by apply Hd.
Qed.

Section simulate.
Context (N : network) (HN : netinv N) (Hd : doms_positive N) (ts : list ptable) (Hts : distributions N ts) (topo : list nat) (Htopo : topological (has_directed N) (net_size N) topo).
Notation dom := (net_dom N).
Notation n := (net_size N).
Set Default Proof Using "All".
Lemma one_uniform : uniform (fun _ => 1%Qc).
Proof. intros k. split; by vm_compute. Qed.
Lemma sample_box s : full_sample N s -> unit_box n (interval ts s <$> topo).
Proof.
  intros Hs. split; [rewrite fmap_length; destruct Htopo as [HP _]; by rewrite HP, seq_length|]. apply Forall_fmap, Forall_forall. intros v Hv. cbn. assert (v < n) as Hvn. { destruct Htopo as [HP _]. rewrite HP in Hv. apply elem_of_seq in Hv. lia. }
  destruct Hts as [Hl Ht]. destruct (lookup_lt_is_Some_2 ts v) as [t Htv]; [lia|]. unfold interval. rewrite Htv. cbn [fst snd]. destruct (Ht v t Htv) as (_ & _ & Hnn & Hsum).
  pose proof (full_valid N HN Hd ts (conj Hl Ht) topo Htopo _ one_uniform s Hs) as Ha. assert (forall y, y < dom v -> (0 <= tval t (upd (values s) v y))%Qc) as Hy by (intros y Hy; apply Hnn; by apply valid_upd).
  pose proof (Ha v) as Hsv. assert (0 <= below t v s)%Qc as H0 by (unfold below; apply qsum_nonneg; intros y Hin; apply elem_of_seq in Hin; apply Hy; lia). assert (0 <= tval t (values s))%Qc as H1 by (by apply Hnn).
  specialize (Hsum (values s) Ha). replace (dom v) with (values s v + S (dom v - values s v - 1)) in Hsum by lia. rewrite seq_app, qsum_app in Hsum. cbn [seq] in Hsum. rewrite qsum_cons, Nat.add_0_l in Hsum. fold (below t v s) in Hsum.
  rewrite (tval_self N HN Hd ts (conj Hl Ht) topo Htopo _ one_uniform) in Hsum. set (r := qsum _ _) in Hsum. assert (0 <= r)%Qc as H2 by (apply qsum_nonneg; intros y Hin; apply elem_of_seq in Hin; apply Hy; lia). clearbody r. set (b := below t v s) in *. set (w := tval t (values s)) in *. clearbody b w.
  assert (this (b + (w + r))%Qc == this 1%Qc)%Q as HQ by (by rewrite Hsum). clear Hsum. clear -H0 H1 H2 HQ. split_and!; to_q; lra.
Qed.
Lemma simulated us samples e : us <> [] -> (forall u, u ∈ us -> uniform u) -> discrepancy e n us -> Forall2 (fun u s => sample_once ts topo n u = Ok s /\ full_sample N s) us samples ->
  forall a, valid dom a -> differ_by e (fraction (sample_columns n samples) (seq 0 n) a) (joint ts a).
Proof.
  intros Hne Hu HD HF a Ha. assert (forall s, s ∈ samples -> full_sample N s) as Hfull. { intros s Hs. apply elem_of_list_lookup in Hs as [j Hj]. destruct (Forall2_lookup_r _ _ _ _ _ HF Hj) as (u & _ & _ & Hf). done. }
  set (s0 := a <$> seq 0 n). assert (full_sample N s0) as Hs0. { split; [unfold s0; by rewrite fmap_length, seq_length|]. intros v x Hv. unfold s0 in Hv. rewrite list_lookup_fmap in Hv. destruct (seq 0 n !! v) as [w|] eqn:E; [|done]. cbn in Hv. injection Hv as <-. apply lookup_seq in E as [-> _]. apply Ha. }
  unfold fraction. change (co_rows (sample_columns n samples)) with (length samples). rewrite sample_occurrences by (intros s Hs; by apply Hfull). fold s0. rewrite <-(Forall2_length _ _ _ HF).
  assert (length (filter (fun s => s = s0) samples) = hits us (interval ts s0 <$> topo)) as ->.
  { symmetry. apply (filter_pairs us samples _ _ _ HF). intros u s Hin [Hs _]. rewrite <-(sample_iff N HN Hd ts Hts topo Htopo u (Hu u Hin) s0 Hs0), Hs. split; [by intros [= ->]|by intros ->]. }
  assert (joint ts a = joint ts (values s0)) as ->. { apply (SampleProofs.joint_dep N HN Hd ts Hts topo Htopo). intros v Hv. symmetry. by apply (whole_row n s0 a (proj1 Hs0)). }
  rewrite <-(box_volume N HN Hd ts Hts topo Htopo _ one_uniform s0). apply HD. by apply sample_box.
Qed.
Lemma simulated_possible us samples : (forall u, u ∈ us -> uniform u) -> Forall2 (fun u s => sample_once ts topo n u = Ok s /\ full_sample N s) us samples ->
  forall j, j < length samples -> joint ts (data_row (sample_columns n samples) j) <> 0%Qc.
Proof.
  intros Hu HF j Hj. destruct (lookup_lt_is_Some_2 samples j Hj) as [s Hs]. destruct (Forall2_lookup_r _ _ _ _ _ HF Hs) as (u & Hju & Hsu & Hf).
  rewrite (SampleProofs.joint_dep N HN Hd ts Hts topo Htopo _ (values s)) by (intros v Hv; unfold data_row; by rewrite (column_entry n samples j s v Hs Hv)). apply Qc_pos_ne, BeliefProofs.qprod_pos. intros t Ht. apply elem_of_list_lookup in Ht as [v Hv].
  apply (sample_positive N HN Hd ts Hts topo Htopo u (Hu u ltac:(by eapply elem_of_list_lookup_2)) s t v Hsu Hv).
Qed.
End simulate.
