(** Directing edges never creates a cycle of recorded parents, whatever the tests decide. *)
From Verif Require Export ClassSpec.
From Verif Require Import NetProofs3 StructProofs.
Local Open Scope nat_scope.

(** ** Edge lists do not matter *)
Definition canon (N : network) : list edge := mjoin (imap (fun x nd => directed_edge x <$> nd_children nd) (nt_nodes N)).
Lemma canon_elem N e : e ∈ canon N <-> exists x y, child_rel N x y /\ e = directed_edge x y.
Proof.
  unfold canon. rewrite elem_of_list_join. split.
  - intros (l & He & Hl). apply elem_of_lookup_imap in Hl as (x & nd & -> & Hx). apply elem_of_list_fmap in He as (y & -> & Hy). exists x, y. split; [by exists nd|done].
  - intros (x & y & (nd & Hx & Hy) & ->). exists (directed_edge x <$> nd_children nd). split; [by apply elem_of_list_fmap_1|]. apply elem_of_lookup_imap. by exists x, nd.
Qed.
Lemma canon_directed N x y : has_directed (set_edges N (canon N)) x y <-> child_rel N x y.
Proof.
  unfold has_directed. cbn [set_edges nt_edges]. split.
  - intros (e & He & <- & <- & _). apply canon_elem in He as (x & y & H & ->). done.
  - intros H. exists (directed_edge x y). split; [apply canon_elem; by exists x, y|done].
Qed.
Lemma acyclic_child N : family_ok N -> acyclic (child_rel N).
Proof. intros HF. apply (acyclic_ext _ _ (fo_agree N HF)), (fo_acyclic N HF). Qed.
Lemma canon_inv N : family_ok N -> netinv (set_edges N (canon N)).
Proof.
  intros HF. split.
  - apply (fo_children N HF).
  - apply (fo_parents N HF).
  - intros x y. rewrite canon_directed. split; [done|]. apply (fo_agree N HF).
  - apply (acyclic_ext _ _ (canon_directed N)), acyclic_child, HF.
  - apply Forall_forall. intros e He. apply canon_elem in He as (x & y & (nd & Hx & Hy) & ->). split_and!; cbn; [by eapply lookup_lt_Some| |done|done].
    destruct (fo_children N HF x nd Hx) as [_ HB]. rewrite Forall_forall in HB. by apply HB.
Qed.
Lemma netinv_family N : netinv N -> family_ok N.
Proof.
  intros HN. split.
  - apply (ni_children _ HN).
  - apply (ni_parents _ HN).
  - intros x y. rewrite (netinv_child N x y HN), (netinv_parent N x y HN). done.
  - apply (acyclic_ext _ (has_directed N)); [|apply (ni_acyclic _ HN)]. intros x y. by apply netinv_parent.
Qed.
Lemma family_same N N' : nt_nodes N' = nt_nodes N -> family_ok N -> family_ok N'.
Proof.
  destruct N as [nodes es t m], N' as [nodes' es' t' m']. cbn. intros ->. intros [H1 H2 H3 H4]. split; [exact H1|exact H2|exact H3|exact H4].
Qed.

(** ** The steps *)
Definition cached (N : network) : nat * list nat := (nt_num_edges N, nt_topo N).
Definition kept (N N' : network) : Prop := family_ok N' /\ domain_sizes N' = domain_sizes N /\ cached N' = cached N.
Lemma kept_refl N : family_ok N -> kept N N.
Proof. done. Qed.
Lemma kept_trans N1 N2 N3 : kept N1 N2 -> kept N2 N3 -> kept N1 N3.
Proof. intros (_ & H1 & H1') (H2 & H3 & H3'). split; [done|]. split; congruence. Qed.
Lemma kept_nodes N N1 N' : nt_nodes N' = nt_nodes N1 -> cached N' = cached N1 -> kept N N1 -> kept N N'.
Proof. intros E Hc (H1 & H2 & H3). split; [by apply (family_same N1)|]. split; [unfold domain_sizes; by rewrite E|congruence]. Qed.
Lemma sizes_ext N N' : length (nt_nodes N') = length (nt_nodes N) ->
  (forall i nd, nt_nodes N !! i = Some nd -> exists nd', nt_nodes N' !! i = Some nd' /\ nd_dom nd' = nd_dom nd) -> domain_sizes N' = domain_sizes N.
Proof.
  intros Hl H. unfold domain_sizes. apply list_eq. intros i. rewrite !list_lookup_fmap. destruct (nt_nodes N !! i) as [nd|] eqn:E.
  - destruct (H i nd E) as (nd' & -> & Hd). cbn. by rewrite Hd.
  - assert (nt_nodes N' !! i = None) as -> by (apply lookup_ge_None; rewrite Hl; by apply lookup_ge_None). done.
Qed.
Lemma find_node_lt N i nd : find_node N i = Ok nd -> i < length (nt_nodes N).
Proof. unfold find_node. destruct (nt_nodes N !! i) eqn:E; [|done]. intros _. by eapply lookup_lt_Some. Qed.
Lemma set_parent_child_edges N es p c : set_parent_child (set_edges N es) p c = (fun M => set_edges M es) <$> set_parent_child N p c.
Proof.
  unfold set_parent_child. change (find_node (set_edges N es) p) with (find_node N p). destruct (find_node N p) as [ndp|]; [|done]. cbn [mbind outcome_bind].
  change (find_node (set_nodes (set_edges N es) (<[p:=node_add_child c ndp]> (nt_nodes (set_edges N es)))) c) with (find_node (set_nodes N (<[p:=node_add_child c ndp]> (nt_nodes N))) c).
  by destruct (find_node (set_nodes N (<[p:=node_add_child c ndp]> (nt_nodes N))) c).
Qed.
Lemma remove_parent_child_edges N es p c : remove_parent_child (set_edges N es) p c = (fun M => set_edges M es) <$> remove_parent_child N p c.
Proof.
  unfold remove_parent_child. change (find_node (set_edges N es) p) with (find_node N p). destruct (find_node N p) as [ndp|]; [|done]. cbn [mbind outcome_bind].
  change (find_node (set_nodes (set_edges N es) (<[p:=node_remove_child c ndp]> (nt_nodes (set_edges N es)))) c) with (find_node (set_nodes N (<[p:=node_remove_child c ndp]> (nt_nodes N))) c).
  destruct (find_node (set_nodes N (<[p:=node_remove_child c ndp]> (nt_nodes N))) c) as [ndc|]; [|done]. cbn [mbind outcome_bind]. by destruct (node_remove_parent p (nd_dom ndp) ndc).
Qed.
Lemma add_directed_nodes N es p c N' b : add_directed_edge N p c = Ok (N', b) -> exists N2, add_directed_edge (set_edges N es) p c = Ok (N2, b) /\ nt_nodes N2 = nt_nodes N'.
Proof.
  unfold add_directed_edge. rewrite set_parent_child_edges. change (find_node (set_edges N es)) with (find_node N).
  destruct (find_node N p); [|done]. destruct (find_node N c); [|done]. cbn [mbind outcome_bind].
  destruct (set_parent_child N p c) as [N1|]; [|done]. change ((fun M => set_edges M es) <$> Ok N1) with (Ok (set_edges N1 es)). cbn [mbind outcome_bind].
  change (contain_circle (set_edges N1 es)) with (contain_circle N1). destruct (contain_circle N1) as [[]|]; [| |done]; cbn [mbind outcome_bind].
  - rewrite remove_parent_child_edges. destruct (remove_parent_child N1 p c) as [N2|]; [|done]. intros [= <- <-]. by eexists.
  - intros [= <- <-]. by eexists.
Qed.
Lemma set_parent_sizes N p c N1 : set_parent_child N p c = Ok N1 -> domain_sizes N1 = domain_sizes N.
Proof.
  intros H. assert (p < length (nt_nodes N) /\ c < length (nt_nodes N)) as [Hp Hc].
  { unfold set_parent_child in H. destruct (find_node N p) as [ndp|] eqn:E; [|done]. cbn [mbind outcome_bind] in H.
    destruct (find_node (set_nodes N (<[p:=node_add_child c ndp]> (nt_nodes N))) c) as [ndc|] eqn:E2; [|done]. apply find_node_lt in E, E2. cbn [set_nodes nt_nodes] in E2. rewrite insert_length in E2. done. }
  destruct (set_parent_child_spec N p c Hp Hc) as (N2 & H2 & _ & _ & _ & Hl & Hn). assert (N2 = N1) as -> by congruence. apply sizes_ext; [done|].
  intros i nd Hi. destruct (Hn i nd Hi) as (nd' & ? & ? & _). by exists nd'.
Qed.
Lemma remove_parent_same N p c N1 : remove_parent_child N p c = Ok N1 -> family_ok N -> kept N N1 /\ length (nt_nodes N1) = length (nt_nodes N).
Proof.
  intros H HF. assert (p < length (nt_nodes N) /\ c < length (nt_nodes N)) as [Hp Hc].
  { unfold remove_parent_child in H. destruct (find_node N p) as [ndp|] eqn:E; [|done]. cbn [mbind outcome_bind] in H.
    destruct (find_node (set_nodes N (<[p:=node_remove_child c ndp]> (nt_nodes N))) c) as [ndc|] eqn:E2; [|done]. apply find_node_lt in E, E2. cbn [set_nodes nt_nodes] in E2. rewrite insert_length in E2. done. }
  destruct (remove_parent_child_spec N p c Hp Hc) as (N2 & H2 & _ & Ht1 & Hne1 & Hl1 & Hn1).
  { intros nd Hnd' Hin. by rewrite (proj2 (fo_parents _ HF _ _ Hnd')). }
  assert (N2 = N1) as -> by congruence. split; [|done].
  assert (forall i nd', nt_nodes N1 !! i = Some nd' -> exists nd, nt_nodes N !! i = Some nd) as Hback.
  { intros i nd' Hi. apply lookup_lt_is_Some_2. rewrite <-Hl1. by eapply lookup_lt_Some. }
  assert (forall x y, child_rel N1 x y <-> child_rel N x y /\ ~ (x = p /\ y = c)) as Hch.
  { intros x y. split.
    - intros (nd' & Hx & Hy). destruct (Hback _ _ Hx) as [nd Hnd']. destruct (Hn1 _ _ Hnd') as (nd'' & Hx'' & _ & Hc' & _).
      rewrite Hx in Hx''. injection Hx'' as <-. rewrite Hc' in Hy. case_decide.
      + apply elem_of_serase in Hy as [Hy Hne]. split; [by exists nd|]. naive_solver.
      + split; [by exists nd|]. naive_solver.
    - intros [(nd & Hx & Hy) Hne]. destruct (Hn1 _ _ Hx) as (nd' & Hx' & _ & Hc' & _). exists nd'. split; [done|]. rewrite Hc'.
      case_decide; [|done]. apply elem_of_serase. split; [done|]. naive_solver. }
  assert (forall x y, parent_rel N1 x y <-> parent_rel N x y /\ ~ (x = p /\ y = c)) as Hpa.
  { intros x y. split.
    - intros (nd' & Hx & Hy). destruct (Hback _ _ Hx) as [nd Hnd']. destruct (Hn1 _ _ Hnd') as (nd'' & Hx'' & _ & _ & Hp' & _).
      rewrite Hx in Hx''. injection Hx'' as <-. rewrite Hp' in Hy. case_decide as Hd.
      + apply elem_of_serase in Hy as [Hy Hne]. split; [by exists nd|]. naive_solver.
      + split; [by exists nd|]. intros [-> ->]. by apply Hd.
    - intros [(nd & Hx & Hy) Hne]. destruct (Hn1 _ _ Hx) as (nd' & Hx' & _ & _ & Hp' & _). exists nd'. split; [done|]. rewrite Hp'.
      case_decide; [|done]. apply elem_of_serase. split; [done|]. naive_solver. }
  split.
  - split.
    + intros x nd' Hx. destruct (Hback _ _ Hx) as [nd Hnd']. destruct (Hn1 _ _ Hnd') as (nd'' & Hx'' & _ & Hc' & _).
      rewrite Hx in Hx''. injection Hx'' as <-. rewrite Hc', Hl1. destruct (fo_children _ HF _ _ Hnd') as [Hs Hb].
      case_decide; [|done]. split; [by apply serase_sorted|]. apply Forall_forall. intros y [Hy _]%elem_of_serase. rewrite Forall_forall in Hb. by apply Hb.
    + intros x nd' Hx. destruct (Hback _ _ Hx) as [nd Hnd']. destruct (Hn1 _ _ Hnd') as (nd'' & Hx'' & _ & _ & Hp' & Hv').
      rewrite Hx in Hx''. injection Hx'' as <-. destruct (fo_parents _ HF _ _ Hnd') as [Hs Hperm]. rewrite Hp'.
      case_decide as Hd; [|by rewrite Hv'].
      split; [by apply serase_sorted|]. destruct (vec_erase_first_ok p (nd_pvec nd)) as (l & Hl & Hpl); [rewrite Hperm; tauto|].
      rewrite Hl in Hv'. injection Hv' as <-.
      assert (NoDup (p :: l)) as Hndl by (rewrite <-Hpl, Hperm; by apply lt_sorted_NoDup). apply NoDup_cons in Hndl as [Hpl' Hndl].
      apply NoDup_Permutation; [done|by apply lt_sorted_NoDup, serase_sorted|]. intros z. rewrite elem_of_serase, <-Hperm, Hpl, elem_of_cons.
      split; [|naive_solver]. intros Hz. split; [by right|]. by intros ->.
    + intros x y. rewrite Hch, Hpa, (fo_agree N HF). done.
    + eapply acyclic_sub; [|apply (fo_acyclic _ HF)]. intros x y Hxy. apply Hpa in Hxy. tauto.
  - split; [|unfold cached; congruence]. apply sizes_ext; [done|]. intros i nd Hi. destruct (Hn1 i nd Hi) as (nd' & ? & ? & _). by exists nd'.
Qed.
Lemma remove_parent_sizes N p c N1 : remove_parent_child N p c = Ok N1 -> domain_sizes N1 = domain_sizes N.
Proof.
  unfold remove_parent_child. destruct (find_node N p) as [ndp|] eqn:E; [|done]. cbn [mbind outcome_bind].
  destruct (find_node (set_nodes N (<[p:=node_remove_child c ndp]> (nt_nodes N))) c) as [ndc|] eqn:E2; [|done]. cbn [mbind outcome_bind].
  destruct (node_remove_parent p (nd_dom ndp) ndc) as [ndc'|] eqn:E3; [|done]. intros [= <-]. unfold domain_sizes. cbn [set_nodes nt_nodes].
  assert (nd_dom ndc' = nd_dom ndc) as Hd.
  { unfold node_remove_parent in E3. case_bool_decide; [|by injection E3 as <-]. destruct (vec_erase_first p (nd_pvec ndc)); [|done]. by injection E3 as <-. }
  unfold find_node in E, E2. destruct (nt_nodes N !! p) as [nd|] eqn:Hp; [|done]. injection E as ->. cbn [set_nodes nt_nodes] in E2.
  destruct (<[p:=node_remove_child c ndp]> (nt_nodes N) !! c) as [nd2|] eqn:Hc; [|done]. injection E2 as ->.
  rewrite list_fmap_insert, Hd, list_insert_id by (rewrite list_lookup_fmap, Hc; done). rewrite list_fmap_insert. cbn [node_remove_child nd_dom]. apply list_insert_id. by rewrite list_lookup_fmap, Hp.
Qed.
Lemma set_parent_cached N p c N1 : set_parent_child N p c = Ok N1 -> cached N1 = cached N.
Proof.
  unfold set_parent_child. destruct (find_node N p) as [ndp|]; [|done]. cbn [mbind outcome_bind].
  destruct (find_node (set_nodes N (<[p:=node_add_child c ndp]> (nt_nodes N))) c) as [ndc|]; [|done]. by intros [= <-].
Qed.
Lemma remove_parent_cached N p c N1 : remove_parent_child N p c = Ok N1 -> cached N1 = cached N.
Proof.
  unfold remove_parent_child. destruct (find_node N p) as [ndp|] eqn:E; [|done]. cbn [mbind outcome_bind].
  destruct (find_node (set_nodes N (<[p:=node_remove_child c ndp]> (nt_nodes N))) c) as [ndc|] eqn:E2; [|done]. cbn [mbind outcome_bind].
  destruct (node_remove_parent p (nd_dom ndp) ndc) as [ndc'|] eqn:E3; [|done]. by intros [= <-].
Qed.
Lemma add_directed_kept N p c N' b : family_ok N -> add_directed_edge N p c = Ok (N', b) -> kept N N'.
Proof.
  intros HF H. assert (domain_sizes N' = domain_sizes N /\ cached N' = cached N) as Hsz.
  { unfold add_directed_edge in H. destruct (find_node N p); [|done]. destruct (find_node N c); [|done]. cbn [mbind outcome_bind] in H.
    destruct (set_parent_child N p c) as [N1|] eqn:E1; [|done]. cbn [mbind outcome_bind] in H. pose proof (set_parent_cached _ _ _ _ E1) as Ec. apply set_parent_sizes in E1. rewrite <-E1, <-Ec.
    destruct (contain_circle N1) as [[]|]; [| |done]; cbn [mbind outcome_bind] in H.
    - destruct (remove_parent_child N1 p c) as [N2|] eqn:E2; [|done]. injection H as <- <-. pose proof (remove_parent_cached _ _ _ _ E2). by apply remove_parent_sizes in E2.
    - by injection H as <- <-. }
  split; [|done]. destruct (add_directed_nodes N (canon N) p c N' b H) as (N2 & H2 & Hn).
  assert (p < length (nt_nodes N) /\ c < length (nt_nodes N)) as [Hp Hc].
  { unfold add_directed_edge in H. destruct (find_node N p) eqn:E1; [|done]. destruct (find_node N c) eqn:E2; [|done]. apply find_node_lt in E1, E2. done. }
  destruct (add_directed_edge_spec (set_edges N (canon N)) p c (canon_inv N HF) Hp Hc) as (N3 & b' & H3 & HI & _).
  assert (N3 = N2) as -> by congruence. apply (family_same N2); [done|]. by apply netinv_family.
Qed.
Lemma delete_directed_kept N p c N' b : family_ok N -> delete_directed_edge N p c = Ok (N', b) -> kept N N'.
Proof.
  intros HF. unfold delete_directed_edge. destruct (find_node N p); [|done]. destruct (find_node N c); [|done]. cbn [mbind outcome_bind].
  destruct (get_directed_edge N p c); [|by intros [= <- <-]]. destruct (remove_parent_child N p c) as [N1|] eqn:E; [|done]. intros [= <- <-].
  destruct (remove_parent_same N p c N1 E HF) as [HK _]. by apply (kept_nodes N N1).
Qed.
Lemma add_undirected_kept N p c N' : family_ok N -> add_undirected_edge N p c = Ok N' -> kept N N'.
Proof.
  intros HF. unfold add_undirected_edge. destruct (find_node N p); [|done]. destruct (find_node N c); [|done]. intros [= <-]. by apply (kept_nodes N N).
Qed.
Lemma delete_undirected_kept N p c N' b : family_ok N -> delete_undirected_edge N p c = Ok (N', b) -> kept N N'.
Proof.
  intros HF. unfold delete_undirected_edge. destruct (find_node N (p `min` c)); [|done]. destruct (find_node N (p `max` c)); [|done]. cbn [mbind outcome_bind].
  destruct (get_undirected_edge N (p `min` c) (p `max` c)); intros [= <- <-]; [by apply (kept_nodes N N)|done].
Qed.
Tactic Notation "bind_in" hyp(H) ident(E) "as" simple_intropattern(v) := match type of H with (mbind _ ?m = _) => destruct m as [v|] eqn:E; [|discriminate H]; cbn [mbind outcome_bind] in H end.
Lemma delete_for_kept N b x N' d : family_ok N -> delete_for_collider N b x = Ok (N', d) -> kept N N'.
Proof.
  intros HF. unfold delete_for_collider. intros H. bind_in H E as [N1 d1]. pose proof (delete_directed_kept _ _ _ _ _ HF E) as K1.
  destruct d1; [by injection H as <- <-|]. bind_in H E2 as [N2 d2]. pose proof (delete_undirected_kept _ _ _ _ _ (proj1 K1) E2) as K2. injection H as <- <-. by eapply kept_trans.
Qed.
Lemma add_for_kept N b x d N' f : family_ok N -> add_for_collider N b x d = Ok (N', f) -> kept N N'.
Proof.
  intros HF. unfold add_for_collider. case_bool_decide; [by intros [= <- <-]|]. intros H0. bind_in H0 E as [N1 d1]. injection H0 as <- <-. by eapply add_directed_kept.
Qed.
Lemma restore_kept N b x d N' : family_ok N -> restore N b x d = Ok N' -> kept N N'.
Proof.
  intros HF. unfold restore. destruct d; intros H.
  - by injection H as <-.
  - bind_in H E as [N1 d1]. injection H as <-. by eapply add_directed_kept.
  - by eapply add_undirected_kept.
Qed.
Lemma orient_collider_kept N a b c N' : family_ok N -> orient_collider N a b c = Ok N' -> kept N N'.
Proof.
  intros HF. unfold orient_collider. intros H. bind_in H E1 as [N1 d1]. pose proof (delete_for_kept _ _ _ _ _ HF E1) as K1.
  bind_in H E2 as [N2 d2]. pose proof (delete_for_kept _ _ _ _ _ (proj1 K1) E2) as K2. bind_in H E3 as [N3 f1]. pose proof (add_for_kept _ _ _ _ _ _ (proj1 K2) E3) as K3.
  bind_in H E4 as [N4 f2]. pose proof (add_for_kept _ _ _ _ _ _ (proj1 K3) E4) as K4. assert (kept N N4) as K by (eapply kept_trans; [eapply kept_trans; [eapply kept_trans; [exact K1|exact K2]|exact K3]|exact K4]).
  destruct (f1 || f2); [|by injection H as <-]. bind_in H E5 as vE5. pose proof (restore_kept _ _ _ _ _ (proj1 K4) E5) as K5. pose proof (restore_kept _ _ _ _ _ (proj1 K5) H) as K6.
  eapply kept_trans; [exact K|]. by eapply kept_trans.
Qed.
Lemma v_loop_kept fuel adj sep b vec cg N N' : family_ok N -> v_loop fuel adj sep b vec cg N = Ok N' -> kept N N'.
Proof.
  revert cg N. induction fuel as [|fuel IH]; intros cg N HF H; [done|]. cbn [v_loop] in H. bind_in H E1 as [cg' ch]. case_bool_decide; [by injection H as <-|].
  bind_in H E2 as vE2. bind_in H E3 as vE3. bind_in H E4 as vE4. bind_in H E5 as vE5. bind_in H E6 as vE6. assert (kept N vE6) as K.
  { unfold v_triple in E6. bind_in E6 E7 as vE7. destruct vE7; [by injection E6 as <-|]. case_bool_decide; [by injection E6 as <-|]. by eapply orient_collider_kept. }
  eapply kept_trans; [exact K|]. apply (IH _ _ (proj1 K) H).
Qed.
Lemma mfor_kept {A} (l : list A) f N N' : (forall a M M', a ∈ l -> family_ok M -> f a M = Ok M' -> kept M M') -> family_ok N -> mfor l f N = Ok N' -> kept N N'.
Proof.
  revert N. induction l as [|a l IH]; intros N Hf HF H; [by injection H as <-|]. cbn [mfor] in H. bind_in H E as vE. pose proof (Hf a _ _ ltac:(left) HF E) as K.
  eapply kept_trans; [exact K|]. apply IH; [|apply K|done]. intros x M M' Hx. apply Hf. by right.
Qed.
Lemma orient_v_kept fuel adj sep N N' : family_ok N -> orient_v_structures fuel adj sep N = Ok N' -> kept N N'.
Proof.
  intros HF. unfold orient_v_structures. apply mfor_kept; [|done]. intros b M M' _ HM H. bind_in H E1 as vE1. case_bool_decide; [by injection H as <-|]. bind_in H E2 as vE2. by eapply v_loop_kept.
Qed.
Lemma direct_kept cap N a c N' b : family_ok N -> direct cap N a c = Ok (N', b) -> kept N N'.
Proof.
  intros HF. unfold direct. intros H. bind_in H E as [N1 d1]. pose proof (add_directed_kept _ _ _ _ _ HF E) as K1. destruct d1; [|by injection H as <- <-].
  case_bool_decide; [done|]. bind_in H E2 as [N2 d2]. pose proof (delete_undirected_kept _ _ _ _ _ (proj1 K1) E2) as K2. injection H as <- <-. by eapply kept_trans.
Qed.
Lemma until_kept {A} (f : A -> network -> outcome (network * bool)) l N r : (forall a M r, a ∈ l -> family_ok M -> f a M = Ok r -> kept M (fst r)) -> family_ok N -> until_true f l N = Ok r -> kept N (fst r).
Proof.
  revert N. induction l as [|a l IH]; intros N Hf HF H; [by injection H as <-|]. cbn [until_true] in H. bind_in H E as vE. pose proof (Hf a _ _ ltac:(left) HF E) as K.
  destruct (snd vE); [by injection H as <-|]. eapply kept_trans; [exact K|]. apply IH; [|apply K|done]. intros x M M' Hx. apply Hf. by right.
Qed.
Lemma direct_kept' cap N a c r : family_ok N -> direct cap N a c = Ok r -> kept N (fst r).
Proof. destruct r. apply direct_kept. Qed.
Lemma rule1_kept cap adj b c N r : family_ok N -> rule1 cap adj b c N = Ok r -> kept N (fst r).
Proof.
  intros HF. unfold rule1. intros H. bind_in H E as vE. revert HF H. apply until_kept. intros a M r' _ HF H. bind_in H E' as vE'. destruct vE'; [by injection H as <-|]. by eapply direct_kept'.
Qed.
Lemma rule2_kept cap adj b c N r : family_ok N -> rule2 cap adj b c N = Ok r -> kept N (fst r).
Proof.
  intros HF. unfold rule2. intros H. bind_in H E as vE. revert HF H. apply until_kept. intros a M r' _ HF H. bind_in H E' as vE'. destruct vE'; [|by injection H as <-].
  bind_in H E2 as vE2. destruct vE2; [|by injection H as <-]. by eapply direct_kept'.
Qed.
Lemma rule3_kept cap adj b c N r : family_ok N -> rule3 cap adj b c N = Ok r -> kept N (fst r).
Proof.
  intros HF. unfold rule3. intros H. bind_in H E as vE. case_bool_decide; [by injection H as <-|]. revert HF H. apply until_kept. intros i M r' _ HF H.
  revert HF H. apply until_kept. intros j M' r'' _ HF H. bind_in H E1 as vE1. bind_in H E2 as vE2. bind_in H E3 as vE3. destruct vE3; [by injection H as <-|].
  unfold r3_helper in H. bind_in H E4 as vE4. bind_in H E5 as vE5. bind_in H E6 as vE6. bind_in H E7 as vE7. destruct (vE4 && vE5 && vE6 && vE7); [|by injection H as <-]. by eapply direct_kept'.
Qed.
Lemma any_rule_kept cap adj x y N r : family_ok N -> any_rule cap adj x y N = Ok r -> kept N (fst r).
Proof.
  unfold any_rule. apply until_kept. intros f M r' Hf HF H. rewrite !elem_of_cons, elem_of_nil in Hf.
  destruct Hf as [->|[->|[->|[->|[->|[->|[]]]]]]]; first [by eapply rule1_kept | by eapply rule2_kept | by eapply rule3_kept].
Qed.
Lemma implied_pass_kept fuel cap adj k o N r : family_ok N -> implied_pass fuel cap adj k o N = Ok r -> kept N (fst r).
Proof.
  revert k o N. induction fuel as [|fuel IH]; intros k o N HF H; cbn [implied_pass] in H.
  - destruct (nt_edges N !! k); [done|by injection H as <-].
  - destruct (nt_edges N !! k) as [e|]; [|by injection H as <-]. bind_in H E as vE. destruct vE; [|by injection H as <-]. bind_in H E2 as vE2. pose proof (any_rule_kept _ _ _ _ _ _ HF E2) as K.
    destruct (snd vE2); (eapply kept_trans; [exact K|]; eapply IH; [apply K|exact H]).
Qed.
Lemma orient_implied_kept fuel cap adj N N' : family_ok N -> orient_implied fuel cap adj N = Ok N' -> kept N N'.
Proof.
  revert N. induction fuel as [|fuel IH]; intros N HF H; [done|]. cbn [orient_implied] in H. bind_in H E as vE. pose proof (implied_pass_kept _ _ _ _ _ _ _ HF E) as K.
  destruct (snd vE); [|by injection H as <-]. eapply kept_trans; [exact K|]. apply IH; [apply K|done].
Qed.
Lemma direct_left_kept fuel cap adj coin t k N N' : family_ok N -> direct_left_edges fuel cap adj coin t k N = Ok N' -> kept N N'.
Proof.
  revert t k N. induction fuel as [|fuel IH]; intros t k N HF H; cbn [direct_left_edges] in H.
  - destruct (nt_edges N !! k); [done|by injection H as <-].
  - destruct (nt_edges N !! k) as [e|]; [|by injection H as <-]. bind_in H E as vE. destruct vE; [|by injection H as <-].
    assert (exists x y, (let '(p, q) := if coin t then (e_n2 e, e_n1 e) else (e_n1 e, e_n2 e) in r ← direct cap N p q; r ← (if (snd r : bool) then Ok r else direct cap (fst r) q p); if (snd r : bool) then direct_left_edges fuel cap adj coin (S t) k (fst r) else Err Exit1) =
      (r ← direct cap N x y; r ← (if (snd r : bool) then Ok r else direct cap (fst r) y x); if (snd r : bool) then direct_left_edges fuel cap adj coin (S t) k (fst r) else Err Exit1)) as (x & y & HE) by (destruct (coin t); by do 2 eexists).
    rewrite HE in H. clear HE. bind_in H E2 as vE2. pose proof (direct_kept' _ _ _ _ _ HF E2) as K.
    assert (exists r, (if (snd vE2 : bool) then Ok vE2 else direct cap (fst vE2) y x) = Ok r /\ kept N (fst r)) as (r & Hr & K2).
    { destruct (snd vE2); [by exists vE2|]. bind_in H E3 as vE3. exists vE3. split; [done|]. eapply kept_trans; [exact K|]. eapply direct_kept'; [apply K|exact E3]. }
    rewrite Hr in H. cbn [mbind outcome_bind] in H. destruct (snd r); [|done]. eapply kept_trans; [exact K2|]. eapply IH; [apply K2|exact H].
Qed.
Lemma skeleton_family doms es : family_ok (skeleton_network doms es).
Proof. apply (family_same (new_network doms)); [done|]. apply netinv_family, new_network_inv. Qed.
(** Whatever was decided: the families of the result are acyclic, and the nodes are those of the data. *)
Lemma orient_kept' fuel doms dag coin es adj sep N : orient_skeleton fuel doms dag coin es adj sep = Ok N -> kept (skeleton_network doms es) N.
Proof.
  unfold orient_skeleton. intros H. bind_in H E1 as vE1. pose proof (orient_v_kept _ _ _ _ _ (skeleton_family doms es) E1) as K1.
  bind_in H E2 as vE2. pose proof (orient_implied_kept _ _ _ _ _ (proj1 K1) E2) as K2.
  eapply kept_trans; [exact K1|]. destruct dag; [|by injection H as <-]. eapply kept_trans; [exact K2|]. eapply direct_left_kept; [apply K2|exact H].
Qed.
Theorem orient_kept fuel doms dag coin es adj sep N : orient_skeleton fuel doms dag coin es adj sep = Ok N -> family_ok N /\ domain_sizes N = doms.
Proof.
  intros H. destruct (orient_kept' _ _ _ _ _ _ _ _ H) as (K & K' & _).
  split; [done|]. rewrite K'. unfold domain_sizes, skeleton_network. cbn [nt_nodes]. rewrite <-list_fmap_compose. apply list_fmap_id.
Qed.
