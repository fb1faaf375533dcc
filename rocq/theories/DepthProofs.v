(** The root of the clique tree gives the fewest levels. *)
From Verif Require Import DepthSpec TreeProofs RootedProofs BeliefProofs PrimProofs StructProofs LevelProofs.
Local Open Scope nat_scope.

Lemma concat_index {A} (f : A -> nat) (Ls : list (list A)) i j B C x y :
  NoDup (f <$> concat Ls) -> Ls !! i = Some B -> Ls !! j = Some C -> x ∈ B -> y ∈ C -> f x = f y -> i = j.
Proof.
  revert i j; induction Ls as [|B0 Ls IH]; intros i j Hnd Hi Hj Hx Hy Heq; [done|]. cbn [concat] in Hnd. rewrite fmap_app in Hnd.
  apply NoDup_app in Hnd as (_ & Hdis & Hnd).
  assert (forall k D z, Ls !! k = Some D -> z ∈ D -> f z ∈ f <$> concat Ls) as Hin.
  { intros k D z Hk Hz. apply elem_of_list_fmap_1. apply elem_of_list_In, in_concat. exists D. split; apply elem_of_list_In; [by eapply elem_of_list_lookup_2|done]. }
  destruct i as [|i], j as [|j]; cbn in Hi, Hj.
  - done.
  - injection Hi as ->. exfalso. apply (Hdis (f x)); [by apply elem_of_list_fmap_1|]. rewrite Heq. by apply (Hin j C).
  - injection Hj as ->. exfalso. apply (Hdis (f y)); [by apply elem_of_list_fmap_1|]. rewrite <-Heq. by apply (Hin i B).
  - f_equal. by apply (IH i j).
Qed.

(** [x] is in the level of cliques number [i]. *)
Definition at_depth (vec : list nat) (Ls : list (list link)) (i x : nat) : Prop :=
  match i with
  | 0 => x ∈ vec
  | S j => exists B l, Ls !! j = Some B /\ l ∈ B /\ x = l_dn l
  end.
Lemma hangs_at vec Ls j B l : hangs vec Ls -> Ls !! j = Some B -> l ∈ B -> at_depth vec Ls j (l_up l).
Proof.
  revert vec j; induction Ls as [|B0 Ls IH]; intros vec j Hh Hj Hl; [done|]. cbn [hangs] in Hh. destruct Hh as (_ & H1 & H2).
  destruct j as [|j]; cbn in Hj; [injection Hj as ->; by apply H1|]. specialize (IH _ j H2 Hj Hl).
  destruct j as [|j]; cbn [at_depth] in IH |- *.
  - apply elem_of_list_fmap in IH as (l' & -> & Hl'). by exists B0, l'.
  - destruct IH as (B' & l' & Hb & Hl' & ->). by exists B', l'.
Qed.
Lemma hangs_nonempty vec Ls j B : hangs vec Ls -> Ls !! j = Some B -> B <> [].
Proof.
  revert vec j; induction Ls as [|B0 Ls IH]; intros vec j Hh Hj; [done|]. cbn [hangs] in Hh. destruct Hh as (H0 & _ & H2).
  destruct j as [|j]; cbn in Hj; [by injection Hj as ->|]. by eapply IH.
Qed.

Section depth.
Context (o : mem_order) (Ho : valid_order o) (nc : nat) (seps : list sepr).
Context (Htree : tree (ends <$> seps) (seq 0 nc)) (Hlt : forall s, s ∈ seps -> sp_a s < sp_b s).
Set Default Proof Using "All".

Lemma adj_step s c d : LevelProofs.adj seps s c d -> step (ends <$> seps) c d.
Proof.
  intros (x & Hx & H). apply elem_of_list_lookup_2, (elem_of_list_fmap_1 ends) in Hx. unfold ends at 1 in Hx.
  destruct H as [[<- <-]|[<- <-]]; [by left|by right].
Qed.
Lemma step_adj c d : step (ends <$> seps) c d -> exists s, LevelProofs.adj seps s c d.
Proof.
  intros [H|H]; apply elem_of_list_fmap in H as (x & Heq & Hx); injection Heq as -> ->; apply elem_of_list_lookup in Hx as [s Hs]; exists s, x; tauto.
Qed.

Lemma levels_radius r : r < nc -> exists h, get_max_level o nc seps r = Ok (2 * h + 1) /\ forall k, spans nc seps k r <-> h <= k.
Proof.
  intros Hr. destruct (mark_level_spec o Ho nc seps r Hr Htree Hlt) as (Ls & mk & Hml & Hh & Hlk & _ & Hseen & Hsep). cbv zeta in *.
  exists (length Ls). split.
  { unfold get_max_level. rewrite Hml. cbn [mbind outcome_bind fst length]. f_equal.
    assert (length (level_list Ls) = 2 * length Ls) as ->; [|lia]. clear. induction Ls as [|B Ls IH]; [done|]. cbn [level_list length]. lia. }
  assert (NoDup (seen r (concat Ls))) as Hnd by (rewrite Hseen; apply NoDup_seq).
  unfold seen in Hnd. apply NoDup_cons in Hnd as [Hroot Hnd].
  assert (forall j B l, Ls !! j = Some B -> l ∈ B -> l ∈ concat Ls) as Hin.
  { intros j B l Hj Hl. apply elem_of_list_In, in_concat. exists B. split; apply elem_of_list_In; [by eapply elem_of_list_lookup_2|done]. }
  assert (forall l, l ∈ concat Ls -> exists j B, Ls !! j = Some B /\ l ∈ B) as Hout.
  { intros l Hl. apply elem_of_list_In, in_concat in Hl as (B & HB & Hl). apply elem_of_list_In in HB, Hl. apply elem_of_list_lookup in HB as [j Hj]. eauto. }
  assert (forall i j x, at_depth [r] Ls i x -> at_depth [r] Ls j x -> i = j) as Huniq.
  { intros [|i] [|j] x; cbn [at_depth].
    - done.
    - intros ->%elem_of_list_singleton (B & l & Hj & Hl & ->). exfalso. apply Hroot. apply elem_of_list_fmap_1. by apply (Hin j B).
    - intros (B & l & Hj & Hl & ->) Heq%elem_of_list_singleton. exfalso. apply Hroot. rewrite <-Heq. apply elem_of_list_fmap_1. by apply (Hin i B).
    - intros (B & l & Hi & Hl & ->) (C & l' & Hj & Hl' & Heq). f_equal. by apply (concat_index l_dn Ls i j B C l l'). }
  assert (forall j x, at_depth [r] Ls j x -> nsteps (step (ends <$> seps)) j r x) as Hreach.
  { induction j as [|j IH]; intros x; cbn [at_depth].
    - intros ->%elem_of_list_singleton. constructor.
    - intros (B & l & Hj & Hl & ->). apply nsteps_r with (l_up l); [by apply IH, (hangs_at _ _ j B)|].
      apply (adj_step (l_sep l)). apply (lk_adj _ _ _ Hlk). by apply (Hin j B). }
  assert (forall j x, nsteps (step (ends <$> seps)) j r x -> exists i, i <= j /\ at_depth [r] Ls i x) as Hback.
  { induction j as [|j IH]; intros x Hx.
    - inversion Hx; subst. exists 0. split; [done|]. left.
    - apply nsteps_inv_r in Hx as (y & Hy & Hyx). destruct (IH y Hy) as (i & Hi & Hat). apply step_adj in Hyx as [s Hs].
      assert (s ∈ l_sep <$> concat Ls) as Hsl. { rewrite Hsep. apply elem_of_seq. apply adj_lt in Hs. lia. }
      apply elem_of_list_fmap in Hsl as (l & -> & Hl). pose proof (lk_adj _ _ _ Hlk l Hl) as Hadj.
      destruct (Hout l Hl) as (q & B & Hq & HlB). destruct (adj_other _ _ _ _ _ _ Hadj Hs) as [[-> ->]|[-> ->]].
      + pose proof (Huniq _ _ _ Hat (hangs_at _ _ _ _ _ Hh Hq HlB)) as ->. exists (S q). split; [lia|]. by exists B, l.
      + assert (at_depth [r] Ls (S q) (l_dn l)) as Hd by (by exists B, l). pose proof (Huniq _ _ _ Hat Hd) as ->.
        exists q. split; [lia|]. by apply (hangs_at _ _ _ B). }
  intros k. split.
  - intros Hsp. destruct (length Ls) as [|h] eqn:Eh; [lia|].
    destruct (lookup_lt_is_Some_2 Ls h) as [B HB]; [lia|]. pose proof (hangs_nonempty _ _ _ _ Hh HB) as Hne. destruct B as [|l B]; [done|].
    assert (at_depth [r] Ls (S h) (l_dn l)) as Hd by (exists (l :: B), l; split_and!; [done|left|done]).
    assert (l_dn l < nc) as Hlnc.
    { assert (l_dn l ∈ seen r (concat Ls)) as Hs by (right; apply elem_of_list_fmap_1; apply (Hin h _ _ HB); left). rewrite Hseen in Hs. apply elem_of_seq in Hs. lia. }
    destruct (Hsp _ Hlnc) as (j & Hj & Hst). destruct (Hback j _ Hst) as (i & Hi & Hat). pose proof (Huniq _ _ _ Hat Hd). lia.
  - intros Hk d Hd. assert (d ∈ seen r (concat Ls)) as Hs by (rewrite Hseen; apply elem_of_seq; lia).
    unfold seen in Hs. apply elem_of_cons in Hs as [->|Hs].
    + exists 0. split; [lia|constructor].
    + apply elem_of_list_fmap in Hs as (l & -> & Hl). destruct (Hout l Hl) as (q & B & Hq & HlB). exists (S q). split.
      * apply lookup_lt_Some in Hq. lia.
      * apply Hreach. by exists B, l.
Qed.

Lemma select_root_least : 0 < nc -> exists r h, select_root o nc seps = Ok r /\ r < nc /\ get_max_level o nc seps r = Ok (2 * h + 1) /\
  (forall k, spans nc seps k r <-> h <= k) /\
  (forall c, c < nc -> ~ spans nc seps (h - 1) c \/ h = 0) /\ forall c, c < r -> ~ spans nc seps h c.
Proof.
  intros Hnc. unfold select_root. destruct (levels_radius 0 Hnc) as (h0 & Hg0 & Hr0). rewrite Hg0. cbn [mbind outcome_bind].
  match goal with |- context [mfor ?l ?b ?s] =>
    destruct (mfor_inv (fun (dn : list nat) (st : nat * nat) => exists h, st.1 = 2 * h + 1 /\ get_max_level o nc seps st.2 = Ok st.1 /\ st.2 < nc /\ st.2 <= length dn /\
      (forall k, spans nc seps k st.2 <-> h <= k) /\
      (forall c, c <= length dn -> c < nc -> ~ spans nc seps (h - 1) c \/ h = 0) /\ (forall c, c < st.2 -> ~ spans nc seps h c)) l b s) as ([m r] & Hb & h & H1 & H2 & H3 & H4 & H5 & H6 & H7) end.
  - exists h0. cbn [fst snd length]. split_and!; try done; try lia. intros c Hc _. assert (c = 0) as -> by lia.
    destruct (decide (h0 = 0)); [by right|left]. rewrite Hr0. lia.
  - intros dn i rest [m r] Hs (h & H1 & H2 & H3 & H4 & H5 & H6 & H7). cbn [fst snd] in *.
    assert (i = S (length dn) /\ S (length dn) < nc) as [-> Hi].
    { assert (seq 1 (nc - 1) !! length dn = Some i) as H by (rewrite Hs, lookup_app_r, Nat.sub_diag by lia; done).
      apply lookup_seq in H. lia. }
    destruct (levels_radius (S (length dn)) Hi) as (hi & Hgi & Hri). rewrite Hgi. cbn [mbind outcome_bind]. rewrite app_length. cbn [length].
    case_bool_decide as Hm; (eexists; split; [done|]); cbn [fst snd].
    + exists hi. split_and!; try done; try lia.
      * intros c Hc Hcn. destruct (decide (hi = 0)); [by right|left]. destruct (decide (c = S (length dn))) as [->|]; [rewrite Hri; lia|].
        destruct (H6 c) as [H|H]; [lia|done| |lia]. intros Hsp. apply H. intros d Hd. destruct (Hsp d Hd) as (j & Hj & Hst). exists j. split; [lia|done].
      * intros c Hc Hsp. destruct (H6 c) as [H|H]; [lia|lia| |lia]. apply H. intros d Hd. destruct (Hsp d Hd) as (j & Hj & Hst). exists j. split; [lia|done].
    + exists h. split_and!; try done; try lia. intros c Hc Hcn. destruct (decide (c = S (length dn))) as [->|]; [|apply H6; lia].
      destruct (decide (h = 0)); [by right|left]. rewrite Hri. lia.
  - rewrite Hb. cbn [mbind outcome_bind fst snd] in *. exists r, h. split_and!; try done; [by rewrite <-H1| ].
    intros c Hc. apply H6; [|done]. rewrite seq_length. lia.
Qed.
End depth.

Theorem root_least N o pts T : net_ok N -> 0 < net_size N -> valid_order o -> Forall (table_of_family N) pts -> Forall (nonneg (net_dom N)) pts ->
  jt_build o N pts = Ok T ->
  exists cliques seps r h, jt_structure o N pts = Ok (cliques, seps) /\
    jt_levels T !! 0 = Some [r] /\ r < length cliques /\ length (jt_levels T) = 2 * h + 1 /\
    (forall k, spans (length cliques) seps k r <-> h <= k) /\
    (forall c k, c < length cliques -> spans (length cliques) seps k c -> spans (length cliques) seps k r) /\
    (forall c, c < r -> ~ spans (length cliques) seps h c).
Proof.
  intros HN Hn Ho Hf Hnn HT. unfold jt_build in HT.
  destruct (jt_structure_spec N HN o Ho pts Hn Hf) as [(cliques & seps & Hst & Hconn & Hso)|(Hst & Hnc)]; rewrite Hst in HT; [|done].
  cbn [mbind outcome_bind] in HT.
  destruct (so_jt _ _ _ _ Hso) as [Htree _]. assert (0 < length cliques) as Hnc by (pose proof (so_nonempty _ _ _ _ Hso); destruct cliques; [done|cbn; lia]).
  assert (forall s, s ∈ seps -> sp_a s < sp_b s) as Hlt by (intros s Hs; apply (so_sep _ _ _ _ Hso s Hs)).
  destruct (select_root_least o Ho (length cliques) seps Htree Hlt Hnc) as (r & h & Hsel & Hr & Hg & H1 & H2 & H3).
  rewrite Hsel in HT. cbn [mbind outcome_bind] in HT. unfold get_max_level in Hg.
  destruct (LevelProofs.mark_level_spec o Ho (length cliques) seps r Hr Htree Hlt) as (Ls & mk & Hml & _). cbv zeta in Hml. rewrite Hml in Hg, HT.
  cbn [mbind outcome_bind fst snd] in Hg, HT. injection Hg as Hg.
  match type of HT with (_ ← ?x; _) = _ => destruct x as [ctabs|e] end; cbn [mbind outcome_bind] in HT; [|done]. injection HT as <-.
  exists cliques, seps, r, h. cbn [jt_levels]. split_and!; try done.
  intros c k Hc Hsp. apply H1. destruct (decide (h <= k)) as [|Hk]; [done|exfalso]. destruct (H2 c Hc) as [H|H]; [|lia].
  apply H. intros d Hd. destruct (Hsp d Hd) as (j & Hj & Hs). exists j. split; [lia|done].
Qed.
