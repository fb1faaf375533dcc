(** The four half-levels of message passing in exact and in rounded arithmetic. *)
From Coq Require Import Field QArith.
From Verif Require Import RoundModel RoundSpec ParProofs PassProofs EvidenceProofs RoundProofs RoundTables RoundState TableSpec TableProofs.
Local Open Scope Qc_scope.

Lemma orel_mcollect_seq {A A'} (R : nat -> A -> A' -> Prop) n f f' : (forall j, (j < n)%nat -> orel (R j) (f j) (f' j)) ->
  orel (fun x x' => length x = n /\ length x' = n /\ forall k a a', x !! k = Some a -> x' !! k = Some a' -> R k a a') (mcollect (seq 0 n) f) (mcollect (seq 0 n) f').
Proof.
  intros H. eapply orel_mono; [|apply (orel_mcollect_at R (seq 0 n) (seq 0 n) f f'); [done|]].
  - cbn. intros x x'. by rewrite seq_length.
  - intros k i i' [-> Hi]%lookup_seq [-> _]%lookup_seq. cbn in *. by apply H.
Qed.

Section levels.
Context (dom : nat -> nat) (c : Qc) (rnd : Qc -> Qc) (Hr : rounds c rnd).
Notation tnear := (tnear dom c).
Notation alike := (alike dom).
Notation srel := (srel dom c).
Notation row := (row dom c).

Lemma read_row M k st st' vec (mk : nat -> tnode) (kk : nat -> nat) (get get' : nat -> outcome ptable) : srel M k st st' ->
  (forall s, s ∈ vec -> orel (fun t t' => exists x, tabof st x = Some t /\ tabof st' x = Some t' /\ (k x <= kk s)%nat) (get s) (get' s)) ->
  orel (fun l l' => length l = length vec /\ row (fun j => kk (vec !!! j)) l l' /\ forall j t, l !! j = Some t -> (pt_size t <= M)%nat) (mcollect vec get) (mcollect vec get').
Proof using Hr.
  intros Hst Hg. eapply orel_mono; [|apply (orel_mcollect_at (fun j t t' => tnear (kk (vec !!! j)) t t' /\ (pt_size t <= M)%nat) vec vec); [done|]].
  - cbn. intros l l' (L1 & L2 & H). split_and!; [done|split; [congruence|]|].
    + intros j t t' Ht Ht'. by apply (H j).
    + intros j t Ht. destruct (partner l l' j t) as [t' Ht']; [congruence|done|]. by apply (H j t t').
  - intros j s s' Hs Hs'. assert (s' = s) as -> by congruence. rewrite (list_lookup_total_correct vec j s Hs). eapply orel_mono; [|apply Hg; by eapply elem_of_list_lookup_2].
    cbn. intros t t' (x & Ht & Ht' & Hle). destruct Hst as (_ & _ & Hst). destruct (Hst x t t' Ht Ht'). split; [by eapply (tnear_weaken dom c rnd Hr)|done].
Qed.
Lemma read_s M k st st' s : srel M k st st' -> orel (fun t t' => exists x, tabof st x = Some t /\ tabof st' x = Some t' /\ (k x <= k (TS s))%nat) (vget (t_s st) s) (vget (t_s st') s).
Proof using. intros (_ & H & _). eapply orel_mono; [|by apply orel_vget_at]. cbn. intros t t' [? ?]. by exists (TS s). Qed.
Lemma read_c M k st st' s n : srel M k st st' -> (k (TC s) <= n)%nat -> orel (fun t t' => exists x, tabof st x = Some t /\ tabof st' x = Some t' /\ (k x <= n)%nat) (vget (t_c st) s) (vget (t_c st') s).
Proof using. intros (H & _ & _) Hn. eapply orel_mono; [|by apply orel_vget_at]. cbn. intros t t' [? ?]. by exists (TC s). Qed.

(** Tables of zeros of the shapes of a row. *)
Definition zrow (seps tmp tmp' : list ptable) : Prop :=
  length tmp = length seps /\ length tmp' = length seps /\ forall j t t', tmp !! j = Some t -> tmp' !! j = Some t' -> alike t t' /\ zeros t /\ zeros t' /\ forall s, seps !! j = Some s -> pt_size t = pt_size s.
Lemma zero_row k seps seps' : row k seps seps' -> orel (zrow seps) (mcollect seps table_zero) (mcollect seps' table_zero).
Proof using.
  intros H. pose proof H as [Hl _]. eapply orel_mono; [|apply (orel_mcollect_at (fun j t t' => alike t t' /\ zeros t /\ zeros t' /\ forall s, seps !! j = Some s -> pt_size t = pt_size s) seps seps'); [done|]].
  - done.
  - intros j s s' Hs Hs'. eapply orel_mono; [|apply table_zero_alike; by eapply row_alike]. cbn. intros t t' (? & ? & ? & _ & _ & E). split_and!; try done. intros s0 Hs0. congruence.
Qed.

(** Marginals of cliques, division by the old separators, and storing the result. *)
Lemma sep_tail M k k' kk n vec st st' seps seps' clqs clqs' tmp tmp' tidx : srel M k st st' -> (forall x, k x <= k' x)%nat ->
  (forall s, s ∈ vec -> kk s + M + k (TS s) + 1 <= k' (TS s))%nat -> n = length vec -> length seps = n ->
  row (fun j => k (TS (vec !!! j))) seps seps' -> (forall j t, seps !! j = Some t -> (pt_size t <= M)%nat) ->
  row (fun j => kk (vec !!! j)) clqs clqs' -> (forall j t, clqs !! j = Some t -> (pt_size t <= M)%nat) -> zrow seps tmp tmp' ->
  orel (srel M k')
    (tmp2 ← mcollect (seq 0 n) (fun j => t ← vget tmp j; c ← vget clqs j; x ← vget tidx j; marginalization_post t c x); pots ← divide_level seps tmp2; set_tabs st (zip (TS <$> vec) (zip_with with_pots seps pots)))
    (tmp2 ← mcollect (seq 0 n) (fun j => t ← vget tmp' j; c ← vget clqs' j; x ← vget tidx j; marginalization_post_r rnd t c x); pots ← divide_level_r rnd seps' tmp2; set_tabs st' (zip (TS <$> vec) (zip_with with_pots seps' pots))).
Proof using Hr.
  intros Hst Hmono Hk Hn Ls Hs HsM Hc HcM (Z1 & Z2 & Z3). pose proof Hc as [Lc Hc'].
  eapply orel_bind; [apply (orel_mcollect_seq (fun j r r' => tnear (kk (vec !!! j) + M) r r' /\ forall s, seps !! j = Some s -> pt_size r = pt_size s))|].
  - intros j Hj. eapply orel_bind; [apply orel_vget_at; congruence|]. intros t t' [E E']. eapply orel_bind; [by apply orel_vget_at|]. intros q q' [F F']. apply orel_same. intros x _.
    destruct (Z3 j t t' E E') as (A & Z & Z' & Hsz). destruct (Hc' j q q' F F') as (s & Hs0 & Hsim). eapply orel_mono; [|by apply (marginalization_post_near dom c rnd Hr s (kk (vec !!! j)))].
    cbn. intros r r' (Hsr & _ & Hsr'). split; [|intros u Hu; rewrite Hsr'; by apply Hsz]. exists s. split; [done|]. eapply (similar_weaken dom c rnd Hr); [|exact Hsr]. specialize (HcM j q F). lia.
  - intros tmp2 tmp2' (L1 & L2 & H2). eapply orel_bind; [apply (divide_level_rel dom c rnd Hr (fun j => k (TS (vec !!! j))) (fun j => kk (vec !!! j) + M)%nat); [done| |]|].
    + split; [congruence|]. intros j r r' E E'. by apply (H2 j r r').
    + symmetry. apply sizes_eq; [congruence|]. intros j r s E E'. destruct (partner tmp2 tmp2' j r) as [r' E'']; [congruence|done|]. symmetry. by apply (H2 j r r').
    + intros p p' [Hrow Hsame]. pose proof Hrow as [Lz Hrow']. apply set_tabs_rel; [exact Lz|by eapply (srel_weaken dom c rnd Hr)|].
      intros j x r r' Hx E E'. rewrite list_lookup_fmap in Hx. destruct (vec !! j) as [s|] eqn:Hv; [|done]. injection Hx as <-. specialize (Hrow' j r r' E E'). cbn beta in Hrow'. rewrite (list_lookup_total_correct vec j s Hv) in Hrow'.
      split. { eapply (tnear_weaken dom c rnd Hr); [|exact Hrow']. specialize (Hk s (elem_of_list_lookup_2 _ _ _ Hv)). lia. }
      destruct (lookup_lt_is_Some_2 seps j) as [t Ht]; [rewrite Ls, Hn; by eapply lookup_lt_Some|]. destruct (Hsame j t r Ht E) as [-> _]. by eapply HsM.
Qed.
Lemma separator_collection_rel M k k' kk sch tag T i st st' vec : srel M k st st' -> (forall x, k x <= k' x)%nat -> jt_levels T !! i = Some vec ->
  (forall s d q, s ∈ vec -> dn_s (jt_marks T) !! s = Some d -> d !! 0%nat = Some q -> k (TC q) <= kk s)%nat -> (forall s, s ∈ vec -> kk s + M + k (TS s) + 1 <= k' (TS s))%nat ->
  orel (srel M k') (separator_level_collection sch tag T i st) (separator_level_collection_r rnd sch tag T i st').
Proof using Hr.
  intros Hst Hmono Hv Hkk Hk. unfold separator_level_collection, separator_level_collection_r. rewrite (vget_ok _ _ _ Hv). cbn [mbind outcome_bind].
  eapply orel_bind; [apply (read_row M k st st' vec TS (fun s => k (TS s))); [done|intros s _; by eapply read_s]|]. intros seps seps' (Ls & Hs & HsM). cbn beta.
  eapply orel_bind; [apply (read_row M k st st' vec TC kk); [done|]|].
  { intros s Hin. apply orel_same. intros d Hd%vget_inv. apply orel_same. intros q Hq%vget_inv. eapply read_c; [done|by eapply Hkk]. }
  intros clqs clqs' (Lc & Hc & HcM). cbn beta. eapply orel_bind; [by eapply zero_row|]. intros tmp tmp' Hz. cbn beta.
  rewrite (row_sizes _ _ _ _ _ Hc).
  rewrite (par2_fill_ext _ _ (fun j k => sep ← vget seps' j; imod k (pt_size sep)) (fun j k => sep ← vget seps j; imod k (pt_size sep))).
  2:{ intros j l. apply vget_bind_eq; [apply Hs|]. intros a a' Ha Ha'. pose proof (alike_fields dom a a' (row_alike _ _ _ _ _ _ _ _ Hs Ha Ha')) as (_ & _ & _ & _ & -> & _). done. }
  apply orel_same. intros tidx _. by eapply (sep_tail M k k' kk).
Qed.
Lemma separator_distribution_rel M k k' kk sch tag T i st st' vec : srel M k st st' -> (forall x, k x <= k' x)%nat -> jt_levels T !! i = Some vec ->
  (forall s q, s ∈ vec -> up_s (jt_marks T) !! s = Some (Some q) -> k (TC q) <= kk s)%nat -> (forall s, s ∈ vec -> kk s + M + k (TS s) + 1 <= k' (TS s))%nat ->
  orel (srel M k') (separator_level_distribution sch tag T i st) (separator_level_distribution_r rnd sch tag T i st').
Proof using Hr.
  intros Hst Hmono Hv Hkk Hk. unfold separator_level_distribution, separator_level_distribution_r. rewrite (vget_ok _ _ _ Hv). cbn [mbind outcome_bind].
  eapply orel_bind; [apply (read_row M k st st' vec TS (fun s => k (TS s))); [done|intros s _; by eapply read_s]|]. intros seps seps' (Ls & Hs & HsM). cbn beta.
  eapply orel_bind; [apply (read_row M k st st' vec TC kk); [done|]|].
  { intros s Hin. apply orel_same. intros [q|] Hq%vget_inv; [|done]. eapply read_c; [done|by eapply Hkk]. }
  intros clqs clqs' (Lc & Hc & HcM). cbn beta. eapply orel_bind; [by eapply zero_row|]. intros tmp tmp' Hz. cbn beta. pose proof Hz as (Z1 & Z2 & Z3).
  assert (forall a a' j, clqs !! j = Some a -> clqs' !! j = Some a' -> alike a a') as Ac by (intros a a' j; by apply (row_alike dom c _ _ _ _ _ _ Hc)).
  rewrite (row_sizes _ _ _ _ _ Hc).
  rewrite (orel_mcollect_eq (seq 0 (length vec)) (fun j => t ← vget tmp' j; q ← vget clqs' j; mcollect (seq 0 (pt_nv t)) (fun k => v ← vget (pt_vars t) k; get_variable_index q v))
    (fun j => t ← vget tmp j; q ← vget clqs j; mcollect (seq 0 (pt_nv t)) (fun k => v ← vget (pt_vars t) k; get_variable_index q v))).
  2:{ intros j _. apply vget_bind_eq; [congruence|]. intros a a' Ha Ha'. apply vget_bind_eq; [apply Hc|]. intros q q' Hq Hq'. destruct (Z3 j a a' Ha Ha') as (A & _).
      pose proof (alike_fields dom a a' A) as (H1 & _ & _ & H4 & _). rewrite H1, H4. apply orel_mcollect_eq. intros m _. destruct (vget (pt_vars a) m); [|done]. cbn. apply (variable_index_alike dom). by eapply Ac. }
  apply orel_same. intros locs _.
  rewrite (par2_fill_ext _ _ (fun j k => t ← vget tmp' j; q ← vget clqs' j; l ← vget locs j; marginalization_main t (pt_nv q) (pt_cum q) l k)
    (fun j k => t ← vget tmp j; q ← vget clqs j; l ← vget locs j; marginalization_main t (pt_nv q) (pt_cum q) l k)).
  2:{ intros j m. apply vget_bind_eq; [congruence|]. intros a a' Ha Ha'. apply vget_bind_eq; [apply Hc|]. intros q q' Hq Hq'. destruct (Z3 j a a' Ha Ha') as (A & _).
      pose proof (alike_fields dom q q' (Ac _ _ _ Hq Hq')) as (_ & _ & H3 & H4 & _). rewrite H3, H4. destruct (vget locs j); [|done]. cbn. by apply (marginalization_main_alike dom). }
  apply orel_same. intros tidx _. by eapply (sep_tail M k k' kk).
Qed.
(** Separators spread over cliques, and the product stored. *)
Lemma clique_tail M k k' kk n sch tag vec st st' seps seps' clqs clqs' tidx : valid_scheduler sch -> srel M k st st' -> (forall x, k x <= k' x)%nat ->
  (forall q, q ∈ vec -> k (TC q) + kk q + 2 <= k' (TC q))%nat -> n = length vec -> length clqs = n ->
  row (fun j => k (TC (vec !!! j))) clqs clqs' -> (forall j t, clqs !! j = Some t -> (pt_size t <= M)%nat) ->
  row (fun j => kk (vec !!! j)) seps seps' ->
  orel (srel M k')
    (tmp ← mcollect (seq 0 n) (fun j => s ← vget seps j; c ← vget clqs j; x ← vget tidx j; extension_post c s x); multiply_level sch tag st vec clqs tmp)
    (tmp ← mcollect (seq 0 n) (fun j => s ← vget seps' j; c ← vget clqs' j; x ← vget tidx j; extension_post c s x); multiply_level_r rnd sch tag st' vec clqs' tmp).
Proof using Hr.
  intros Hsch Hst Hmono Hk Hn Lc Hc HcM Hs. pose proof Hc as [Lc' _]. pose proof Hs as [Ls' Hs'].
  eapply orel_bind; [apply (orel_mcollect_seq (fun j r r' => tnear (kk (vec !!! j)) r r' /\ forall q, clqs !! j = Some q -> pt_size r = pt_size q))|].
  - intros j Hj. eapply orel_bind; [by apply orel_vget_at|]. intros t t' [E E']. eapply orel_bind; [by apply orel_vget_at|]. intros q q' [F F']. apply orel_same. intros x _.
    destruct (Hs' j t t' E E') as (s & Hs0 & Hsim). eapply orel_mono; [|apply (extension_post_near dom c rnd Hr s (kk (vec !!! j))); [exact (row_alike dom c _ _ _ _ _ _ Hc F F')|exact Hsim]].
    cbn. intros r r' (Hsr & _ & Hsr'). split; [by exists s|]. intros u Hu. congruence.
  - intros tmp tmp' (L1 & L2 & H2). eapply (multiply_level_rel dom c rnd Hr M (fun j => k (TC (vec !!! j))) (fun j => kk (vec !!! j))); [done|by eapply (srel_weaken dom c rnd Hr)|done| | |].
    + split; [congruence|]. intros j r r' E E'. by apply (H2 j r r').
    + symmetry. apply sizes_eq; [congruence|]. intros j r s E E'. destruct (partner tmp tmp' j r) as [r' E'']; [congruence|done|]. symmetry. by apply (H2 j r r').
    + intros j q t Hq Ht. rewrite (list_lookup_total_correct vec j q Hq). split; [apply Hk; by eapply elem_of_list_lookup_2|by eapply HcM].
Qed.
Lemma clique_distribution_rel M k k' kk sch tag T i st st' vec : valid_scheduler sch -> srel M k st st' -> (forall x, k x <= k' x)%nat -> jt_levels T !! i = Some vec ->
  (forall q s, q ∈ vec -> up_c (jt_marks T) !! q = Some (Some s) -> k (TS s) <= kk q)%nat -> (forall q, q ∈ vec -> k (TC q) + kk q + 2 <= k' (TC q))%nat ->
  orel (srel M k') (clique_level_distribution sch tag T i st) (clique_level_distribution_r rnd sch tag T i st').
Proof using Hr.
  intros Hsch Hst Hmono Hv Hkk Hk. unfold clique_level_distribution, clique_level_distribution_r. rewrite (vget_ok _ _ _ Hv). cbn [mbind outcome_bind].
  eapply orel_bind; [apply (read_row M k st st' vec TC (fun q => k (TC q))); [done|intros s _; by eapply read_c]|]. intros clqs clqs' (Lc & Hc & HcM). cbn beta.
  eapply orel_bind; [apply (read_row M k st st' vec TS kk); [done|]|].
  { intros q Hin. apply orel_same. intros [s|] Hs%vget_inv; [|done]. eapply orel_mono; [|by eapply read_s]. cbn. intros t t' (x & ? & ? & ?). exists x. split_and!; [done|done|]. etrans; [done|]. by eapply Hkk. }
  intros seps seps' (Ls & Hs & HsM). cbn beta. rewrite (row_sizes _ _ _ _ _ Hc).
  rewrite (par2_fill_ext _ _ (fun j k => sep ← vget seps' j; imod k (pt_size sep)) (fun j k => sep ← vget seps j; imod k (pt_size sep))).
  2:{ intros j l. apply vget_bind_eq; [apply Hs|]. intros a a' Ha Ha'. pose proof (alike_fields dom a a' (row_alike _ _ _ _ _ _ _ _ Hs Ha Ha')) as (_ & _ & _ & _ & -> & _). done. }
  apply orel_same. intros tidx _. by eapply (clique_tail M k k' kk).
Qed.
Lemma clique_collection_rel M k k' kk sch tag T i has m st st' vec : valid_scheduler sch -> srel M k st st' -> (forall x, k x <= k' x)%nat -> (level ← vget (jt_levels T) i; mcollect has (vget level)) = Ok vec ->
  (forall q d s, q ∈ vec -> dn_c (jt_marks T) !! q = Some d -> d !! m = Some s -> k (TS s) <= kk q)%nat -> (forall q, q ∈ vec -> k (TC q) + kk q + 2 <= k' (TC q))%nat ->
  orel (srel M k') (clique_level_collection sch tag T i has m st) (clique_level_collection_r rnd sch tag T i has m st').
Proof using Hr.
  intros Hsch Hst Hmono Hv Hkk Hk. unfold clique_level_collection, clique_level_collection_r. apply bind_ok in Hv as (level & -> & Hv). cbn [mbind outcome_bind]. rewrite Hv. cbn [mbind outcome_bind].
  eapply orel_bind; [apply (read_row M k st st' vec TC (fun q => k (TC q))); [done|intros s _; by eapply read_c]|]. intros clqs clqs' (Lc & Hc & HcM). cbn beta.
  eapply orel_bind; [apply (read_row M k st st' vec TS kk); [done|]|].
  { intros q Hin. apply orel_same. intros d Hd%vget_inv. apply orel_same. intros s Hs%vget_inv. eapply orel_mono; [|by eapply read_s]. cbn. intros t t' (x & ? & ? & ?). exists x. split_and!; [done|done|]. etrans; [done|]. by eapply Hkk. }
  intros seps seps' (Ls & Hs & HsM). cbn beta. rewrite (row_sizes _ _ _ _ _ Hc).
  assert (forall a a' j, clqs !! j = Some a -> clqs' !! j = Some a' -> alike a a') as Ac by (intros a a' j; by apply (row_alike dom c _ _ _ _ _ _ Hc)).
  assert (forall a a' j, seps !! j = Some a -> seps' !! j = Some a' -> alike a a') as As by (intros a a' j; by apply (row_alike dom c _ _ _ _ _ _ Hs)).
  rewrite (orel_mcollect_eq (seq 0 (length vec)) (fun j => t ← vget seps' j; q ← vget clqs' j; mcollect (seq 0 (pt_nv t)) (fun k => v ← vget (pt_vars t) k; get_variable_index q v))
    (fun j => t ← vget seps j; q ← vget clqs j; mcollect (seq 0 (pt_nv t)) (fun k => v ← vget (pt_vars t) k; get_variable_index q v))).
  2:{ intros j _. apply vget_bind_eq; [apply Hs|]. intros a a' Ha Ha'. apply vget_bind_eq; [apply Hc|]. intros q q' Hq Hq'.
      pose proof (alike_fields dom a a' (As _ _ _ Ha Ha')) as (H1 & _ & _ & H4 & _). rewrite H1, H4. apply orel_mcollect_eq. intros l _. destruct (vget (pt_vars a) l); [|done]. cbn. apply (variable_index_alike dom). by eapply Ac. }
  apply orel_same. intros locs _.
  rewrite (par2_fill_ext _ _ (fun j x => s ← vget seps' j; q ← vget clqs' j; l ← vget locs j; extension_main q (pt_nv s) (pt_cum s) l x)
    (fun j x => s ← vget seps j; q ← vget clqs j; l ← vget locs j; extension_main q (pt_nv s) (pt_cum s) l x)).
  2:{ intros j l. apply vget_bind_eq; [apply Hs|]. intros a a' Ha Ha'. apply vget_bind_eq; [apply Hc|]. intros q q' Hq Hq'.
      pose proof (alike_fields dom a a' (As _ _ _ Ha Ha')) as (_ & _ & H3 & H4 & _). rewrite H3, H4. destruct (vget locs j); [|done]. cbn. apply (extension_main_alike dom). by eapply Ac. }
  apply orel_same. intros tidx _. by eapply (clique_tail M k k' kk).
Qed.
End levels.
