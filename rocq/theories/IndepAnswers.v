(** The answers of the junction tree: Markov blankets and table entries. *)
From Coq Require Import Field QArith.
From Verif Require Import IndepSpec IndepGraph IndepProofs IndepTheorems BuildProofs QueryProofs Sums LearnProofs LearnTheorems JTTheorems EquivTheorems RecoverProofs RecoverTheorems TableProofs2 TableProofs.
Local Open Scope nat_scope.

Theorem blanket_answers N : netinv N -> doms_positive N -> 0 < net_size N -> forall ts, distributions N ts -> forall o, valid_order o -> forall T, jt_build o N ts = Ok T ->
  forall q X E, q < net_size N -> (forall v, v ∈ fst <$> X ++ E -> v < net_size N) -> evidence_in_range N (X ++ E) -> q ∉ fst <$> X ++ E -> (forall v, v ∈ fst <$> X -> v ∉ fst <$> E) ->
  (forall p, p ∈ parents_of N q -> p ∈ fst <$> E) -> (forall c, c < net_size N -> q ∈ parents_of N c -> c ∈ fst <$> E /\ forall p, p ∈ parents_of N c -> p = q \/ p ∈ fst <$> E) -> evidence_weight N ts (X ++ E) <> 0%Qc ->
  forall sch sch', valid_scheduler sch -> valid_scheduler sch' ->
  (exists l, query_label sch T q E (jt_backup T) = Ok (jt_backup T, l) /\ query_label sch' T q (X ++ E) (jt_backup T) = Ok (jt_backup T, l)) /\
  query_probs sch T E (jt_backup T) = Ok (jt_backup T, answer_all N ts E) /\ query_probs sch' T (X ++ E) (jt_backup T) = Ok (jt_backup T, answer_all N ts (X ++ E)) /\ answer_block N ts (X ++ E) q = answer_block N ts E q.
Proof.
  intros HN Hd Hn ts Hts o Ho T HT q X E Hq Hin HE HqE Hdis Hp Hc Hw sch sch' S S'.
  apply (separated_answers N HN Hd Hn ts Hts o Ho T HT q X E); try done. intros y Hy. apply blanket_separates; try done; [|by apply Hdis]. intros ->. apply HqE. rewrite fmap_app. apply elem_of_app. by left.
Qed.
Theorem entry_answers N : netinv N -> doms_positive N -> 0 < net_size N -> forall ts, distributions N ts -> forall o, valid_order o -> forall T, jt_build o N ts = Ok T ->
  forall q t E, ts !! q = Some t -> (forall v, v ∈ fst <$> E -> v < net_size N) -> evidence_in_range N E -> q ∉ fst <$> E -> (forall p, p ∈ parents_of N q -> p ∈ fst <$> E) -> (forall d, d ∈ fst <$> E -> ~ descendant (arcs_of N) q d) ->
  evidence_weight N ts E <> 0%Qc -> forall sch, valid_scheduler sch ->
  exists st p, propagate sch T E (jt_backup T) = Ok st /\ calculate_marginal T st q = Ok p /\ length (pt_pots p) = net_dom N q /\
  forall a, valid (net_dom N) a -> (forall v x, (v, x) ∈ E -> a v = x) -> pt_pots p !! a q = Some (tval t a) /\ posterior N ts E q (a q) = tval t a.
Proof.
  intros HN Hd Hn ts Hts o Ho T HT q t E Ht Hin HE HqE Hp Hnd Hw sch S. assert (q < net_size N) as Hq. { destruct Hts as [H _]. rewrite <-H. by eapply lookup_lt_Some. }
  destruct (learned_family N ts HN Hd Hts) as [F G]. assert (net_ok N) as OK by (by apply netinv_ok). destruct (exact_marginal N OK Hn o Ho ts F G T HT sch E q S HE Hw Hq HqE) as (st & p & H1 & H2 & H3).
  exists st, p. split_and!; try done; [rewrite H3, fmap_length, seq_length; done|]. intros a Ha HaE.
  assert (posterior N ts E q (a q) = tval t a) as HP.
  { rewrite (entry_posterior N HN Hd ts Hts q t E Ht Hq Hin HE HqE Hp Hnd Hw (a q) (Ha q)). apply tval_dep. intros v Hv. destruct Hts as [_ Hts]. destruct (Hts q t Ht) as (_ & Hvars & _). rewrite Hvars in Hv.
    apply elem_of_cons in Hv as [->|Hv]; [rewrite set_evidence_other by done; by rewrite upd_same|]. apply Hp in Hv. clear -Hv HaE. induction E as [|[w x] E IH]; [by apply elem_of_nil in Hv|]. cbn. unfold upd at 1. case_bool_decide as Hw; [subst; symmetry; apply HaE; left|].
    apply IH; [intros u y Hu; apply HaE; by right|]. rewrite fmap_cons in Hv. apply elem_of_cons in Hv as [Hv|Hv]; [done|done]. }
  split; [|done]. rewrite H3, list_lookup_fmap, lookup_seq_lt by apply Ha. cbn. by f_equal.
Qed.
Theorem separated_independent N : netinv N -> doms_positive N -> forall ts, distributions N ts -> forall x ys s, x < net_size N -> (forall v, v ∈ ys ++ s -> v < net_size N) -> x ∉ ys -> x ∉ s -> (forall v, v ∈ ys -> v ∉ s) ->
  (forall y, y ∈ ys -> ~ d_connected (arcs_of N) x y s) -> independent N ts x ys s.
Proof. intros HN Hd ts Hts x ys s H1 H2 H3 H4 H5 H6 a Ha. by apply (markov N HN Hd ts Hts). Qed.
