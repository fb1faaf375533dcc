(** FindCompelled labels every edge when, for each node, at most one parent is not a parent of
    its topologically last parent; structural Hamming distance. *)
From Verif Require Export OrderProofs.
Local Open Scope nat_scope.

Definition labelled (es : list edge) (p : nat * nat) : Prop := forall e, e ∈ es -> epair e = p -> e_label e <> None.

(** Some edge between this pair carries the label. *)
Definition has_lab (es : list edge) (p : nat * nat) (l : label) : Prop := exists e, e ∈ es /\ epair e = p /\ e_label e = Some l.
(** The pairs in [S] got the label [lab], all others keep theirs. *)
Definition relab (S : list (nat * nat)) (lab : label) (es es' : list edge) : Prop :=
  forall p l, has_lab es' p l <-> (p ∈ S /\ l = lab) \/ (p ∉ S /\ has_lab es p l).
Lemma upd_nil lab es : relab [] lab es es.
Proof. intros p l. split; [intros H; right; split; [apply not_elem_of_nil|done]|]. intros [[H _]|[_ H]]; [by apply elem_of_nil in H|done]. Qed.
Lemma upd_trans S1 S2 lab a b c : relab S1 lab a b -> relab S2 lab b c -> relab (S1 ++ S2) lab a c.
Proof. intros H1 H2 p l. rewrite (H2 p l), (H1 p l), elem_of_app. destruct (decide (p ∈ S1)), (decide (p ∈ S2)); tauto. Qed.
Lemma upd_ext S1 S2 lab a b : (forall p, p ∈ S1 <-> p ∈ S2) -> relab S1 lab a b -> relab S2 lab a b.
Proof. intros HS H p l. rewrite <-(HS p). apply H. Qed.
Lemma find_arc ord x y : Forall is_arc ord ->
  match find_edge ord (directed_edge x y) with
  | Some pos => exists a pre post, ord = pre ++ a :: post /\ length pre = pos /\ epair a = (x, y) /\ is_arc a
  | None => (x, y) ∉ epair <$> ord
  end.
Proof.
  intros Ha. destruct (find_edge _ _) as [pos|] eqn:Hf.
  - apply find_edge_some in Hf as (a & pre & post & -> & <- & Hs & _). apply edge_same_spec in Hs as (H1 & H2 & H3 & H4). cbn in *.
    exists a, pre, post. split_and!; try done. unfold epair. by rewrite H1, H2.
  - intros Hin. apply elem_of_list_fmap in Hin as (e & He & Hin). rewrite Forall_forall in Ha. destruct (Ha _ Hin) as [A1 A2].
    pose proof (proj1 (find_edge_none _ _) Hf e Hin) as Hn. unfold epair in He. injection He as -> ->.
    assert (edge_same e (directed_edge (e_n1 e) (e_n2 e)) = true); [|congruence]. apply edge_same_spec. done.
Qed.
Definition drop_pair (p : nat * nat) (ord : list edge) : list edge := filter (fun e => epair e ≠ p) ord.
Lemma filter_all {A} (P : A -> Prop) `{forall x, Decision (P x)} (l : list A) : (forall x, x ∈ l -> P x) -> filter P l = l.
Proof.
  induction l as [|a l IH]; intros Hl; [done|]. rewrite filter_cons, decide_True by (apply Hl; left). f_equal. apply IH. intros x Hx. apply Hl. by right.
Qed.
Lemma find_erase ord x y : Forall is_arc ord -> NoDup (epair <$> ord) ->
  match find_edge ord (directed_edge x y) with
  | Some pos => (x, y) ∈ epair <$> ord /\ erase_at ord pos = drop_pair (x, y) ord
  | None => (x, y) ∉ epair <$> ord /\ drop_pair (x, y) ord = ord
  end.
Proof.
  intros Ha Hnd. pose proof (find_arc ord x y Ha) as Hf. destruct (find_edge _ _) as [pos|].
  - destruct Hf as (a & pre & post & -> & <- & Hp & _). rewrite erase_at_middle. split.
    { apply elem_of_list_fmap. exists a. split; [done|]. apply elem_of_app. right. left. }
    unfold drop_pair. rewrite filter_app, filter_cons, decide_False by tauto.
    rewrite fmap_app, fmap_cons in Hnd. rewrite <-Permutation_middle in Hnd. apply NoDup_cons in Hnd as [Hni _]. rewrite Hp, elem_of_app in Hni.
    rewrite !filter_all; [done| |]; intros e He Heq; apply Hni; [right|left]; apply elem_of_list_fmap; by exists e.
  - split; [done|]. apply filter_all. intros e He Heq. apply Hf. apply elem_of_list_fmap. by exists e.
Qed.
Lemma filter_filter_and {A} (P Q R : A -> Prop) `{forall x, Decision (P x)} `{forall x, Decision (Q x)} `{forall x, Decision (R x)} (l : list A) :
  (forall x, R x <-> P x /\ Q x) -> filter P (filter Q l) = filter R l.
Proof.
  intros HR. induction l as [|a l IH]; [done|]. rewrite !filter_cons. destruct (decide (Q a)).
  - rewrite filter_cons, IH. destruct (decide (P a)), (decide (R a)); naive_solver.
  - rewrite IH. destruct (decide (R a)); naive_solver.
Qed.
Lemma filter_ext_in {A} (P Q : A -> Prop) `{forall x, Decision (P x)} `{forall x, Decision (Q x)} (l : list A) :
  (forall x, x ∈ l -> P x <-> Q x) -> filter P l = filter Q l.
Proof.
  induction l as [|a l IH]; intros Hl; [done|]. rewrite !filter_cons. rewrite IH by (intros x Hx; apply Hl; by right).
  destruct (decide (P a)), (decide (Q a)); try done; exfalso; pose proof (Hl a (elem_of_list_here _ _)); tauto.
Qed.
Lemma filter_arcs (P : edge -> Prop) `{forall x, Decision (P x)} ord : Forall is_arc ord -> Forall is_arc (filter P ord).
Proof. rewrite !Forall_forall. intros Ha e [_ He]%elem_of_list_filter. by apply Ha. Qed.
Lemma filter_pairs_nodup (P : edge -> Prop) `{forall x, Decision (P x)} ord : NoDup (epair <$> ord) -> NoDup (epair <$> filter P ord).
Proof.
  induction ord as [|a l IH]; intros Hnd; [done|]. rewrite fmap_cons in Hnd. apply NoDup_cons in Hnd as [Ha Hnd]. rewrite filter_cons.
  destruct (decide (P a)); [|by apply IH]. rewrite fmap_cons. apply NoDup_cons. split; [|by apply IH].
  intros Hin. apply Ha. apply elem_of_list_fmap in Hin as (e & -> & He). apply elem_of_list_filter in He as [_ He]. apply elem_of_list_fmap. by exists e.
Qed.

Definition into (ps : list nat) (y : nat) (e : edge) : Prop := e_n2 e = y /\ e_n1 e ∈ ps.
Global Instance into_dec ps y e : Decision (into ps y e).
Proof. unfold into. apply _. Defined.

Section compel.
Context (E : list edge) (HE : Forall is_arc E) (HEnd : NoDup (epair <$> E)).
Set Default Proof Using "All".
Definition lab_inv (es : list edge) : Prop := epair <$> es = epair <$> E /\ Forall is_arc es.
Definition grows (es es' : list edge) : Prop := lab_inv es' /\ forall p, labelled es p -> labelled es' p.
Lemma grows_refl es : lab_inv es -> grows es es.
Proof. split; auto. Qed.
Lemma grows_trans a b c : grows a b -> grows b c -> grows a c.
Proof. intros [_ H1] [H2 H3]. split; auto. Qed.

Lemma set_label_ok es x y lab : lab_inv es -> (x, y) ∈ epair <$> E ->
  exists es', set_label es x y lab = Ok es' /\ grows es es' /\ labelled es' (x, y) /\ relab [(x, y)] lab es es'.
Proof.
  intros [Hp Ha] Hin. unfold set_label. pose proof (find_arc es x y Ha) as Hf. rewrite Hp in Hf.
  destruct (find_edge _ _) as [pos|]; [|done]. destruct Hf as (a & pre & post & -> & <- & Hpa & Harc).
  unfold vat. rewrite list_lookup_middle by done. cbn [mbind outcome_bind].
  set (a' := mkEdge _ _ _ _ _ _). eexists. split; [done|].
  assert (<[length pre:=a']> (pre ++ a :: post) = pre ++ a' :: post) as ->.
  { replace (length pre) with (length pre + 0) by lia. by rewrite insert_app_r. }
  assert (epair a' = (x, y)) as Hpa' by done.
  assert (lab_inv (pre ++ a' :: post)) as Hinv.
  { split.
    - rewrite <-Hp. rewrite !fmap_app, !fmap_cons. by rewrite Hpa', Hpa.
    - apply Forall_app in Ha as [? Ha]. inversion Ha; subst. apply Forall_app. split; [done|]. by constructor. }
  assert (forall e, e ∈ pre \/ e ∈ post -> epair e <> (x, y)) as Hother.
  { intros e He Hep. rewrite <-Hp, fmap_app, fmap_cons, Hpa in HEnd. rewrite <-Permutation_middle in HEnd. apply NoDup_cons in HEnd as [Hn _]. apply Hn.
    rewrite <-fmap_app, <-Hep. apply elem_of_list_fmap. exists e. split; [done|]. by apply elem_of_app. }
  split; [split; [done|]|split].
  3: { intros p l. rewrite elem_of_list_singleton. unfold has_lab. setoid_rewrite elem_of_app. setoid_rewrite elem_of_cons. destruct (decide (p = (x, y))) as [->|Hne].
    - split.
      + intros (e & [He|[->|He]] & Hep & Hl); [destruct (Hother e); auto|left; split; [done|]; cbn in Hl; congruence|destruct (Hother e); auto].
      + intros [[_ ->]|[? _]]; [|done]. exists a'. split_and!; [by right; left|done|done].
    - split.
      + intros (e & [He|[->|He]] & Hep & Hl); [|congruence|]; right; (split; [done|]); exists e; auto.
      + intros [[? _]|[_ (e & [He|[->|He]] & Hep & Hl)]]; [done|exists e; auto|congruence|exists e; auto]. }
  - intros p Hl e He Hep. apply elem_of_app in He as [He|He]; [apply Hl; [apply elem_of_app; by left|done]|].
    apply elem_of_cons in He as [->|He]; [done|]. apply Hl; [apply elem_of_app; right; by right|done].
  - intros e He Hep. apply elem_of_app in He as [He|He].
    + exfalso. rewrite <-Hp, fmap_app, fmap_cons, Hpa in HEnd. apply NoDup_app in HEnd as (_ & Hd & _). apply (Hd (x, y)); [|left].
      apply elem_of_list_fmap. by exists e.
    + apply elem_of_cons in He as [->|He]; [done|]. exfalso. rewrite <-Hp, fmap_app, fmap_cons, Hpa in HEnd.
      apply NoDup_app in HEnd as (_ & _ & Hn). apply NoDup_cons in Hn as [Hn _]. apply Hn. apply elem_of_list_fmap. by exists e.
Qed.
Lemma get_label_ok es x y : lab_inv es -> (x, y) ∈ epair <$> E -> labelled es (x, y) -> exists l, get_label es x y = Ok l /\ forall l', has_lab es (x, y) l' <-> l' = l.
Proof.
  intros [Hp Ha] Hin Hl. unfold get_label. pose proof (find_arc es x y Ha) as Hf. rewrite Hp in Hf.
  destruct (find_edge _ _) as [pos|]; [|done]. destruct Hf as (a & pre & post & -> & <- & Hpa & _).
  unfold vat. rewrite list_lookup_middle by done. cbn [mbind outcome_bind].
  destruct (e_label a) as [l|] eqn:El.
  { exists l. split; [done|]. intros l'. split.
    - intros (e & He & Hep & Hl'). rewrite <-Hp, fmap_app, fmap_cons, Hpa in HEnd. rewrite <-Permutation_middle in HEnd. apply NoDup_cons in HEnd as [Hn _]. apply elem_of_app in He as [He|[->|He]%elem_of_cons]; [|congruence|]; destruct Hn; rewrite <-fmap_app, <-Hep; apply elem_of_list_fmap; exists e; (split; [done|]); apply elem_of_app; auto.
    - intros ->. exists a. split_and!; [apply elem_of_app; right; left|done|done]. } exfalso. apply (Hl a); [apply elem_of_app; right; left|done|done].
Qed.


Lemma label_into_ok all ps y lab es ord :
  lab_inv es -> Forall is_arc ord -> NoDup (epair <$> ord) -> (forall p, p ∈ ps -> (p, y) ∈ epair <$> E) ->
  exists es', label_into all ps y lab (es, ord) = Ok (es', filter (fun e => ~ into ps y e) ord) /\ grows es es' /\
    (forall p, p ∈ ps -> (p, y) ∈ epair <$> ord -> labelled es' (p, y)) /\
    exists S, relab S lab es es' /\ forall p, p ∈ S <-> snd p = y /\ fst p ∈ ps /\ (all = true \/ p ∈ epair <$> ord).
Proof.
  intros Hes Harc Hnd Hps. unfold label_into.
  match goal with |- context [mfor ps ?b ?s] =>
    destruct (mfor_inv (fun dn st => snd st = filter (fun e => ~ into dn y e) ord /\ grows es (fst st) /\
       (forall p, p ∈ dn -> (p, y) ∈ epair <$> ord -> labelled (fst st) (p, y)) /\
       exists S, relab S lab es (fst st) /\ forall p, p ∈ S <-> snd p = y /\ fst p ∈ dn /\ (all = true \/ p ∈ epair <$> ord)) ps b s) as ([es' ord'] & -> & Ho & Hg & Hl & HS) end.
  - cbn. split_and!; [|by apply grows_refl|by intros p ?%elem_of_nil|exists []; split; [apply upd_nil|]; intros p; split; [intros Hc; by apply elem_of_nil in Hc|intros (_ & Hc & _); by apply elem_of_nil in Hc]]. symmetry. apply filter_all. intros e _ [_ He]. by apply elem_of_nil in He.
  - intros dn p rest [es0 ord0] Hsplit (Ho & Hg & Hl & S & HS & HSin). cbn [fst snd] in *.
    assert (p ∈ ps) as Hp by (rewrite Hsplit; apply elem_of_app; right; left).
    destruct (set_label_ok es0 p y lab (proj1 Hg) (Hps _ Hp)) as (es1 & Hes1 & Hg1 & Hl1 & Hu1).
    pose proof (find_erase ord0 p y) as Hf. rewrite Ho in Hf at 1 2. feed specialize Hf; [by apply filter_arcs|by apply filter_pairs_nodup|].
    assert (drop_pair (p, y) ord0 = filter (fun e => ~ into (dn ++ [p]) y e) ord) as Hdrop.
    { rewrite Ho. unfold drop_pair. apply filter_filter_and. intros e. unfold into, epair. rewrite elem_of_app, elem_of_list_singleton. split.
      - intros H. split; [|tauto]. intros [= H1 H2]. apply H. tauto.
      - intros [H1 H2] [H3 [H4|H4]]; [tauto|]. apply H1. by rewrite H3, H4. }
    assert (forall q, q ∈ dn ++ [p] -> (q, y) ∈ epair <$> ord -> (q, y) ∈ epair <$> ord -> labelled es1 (q, y)) as Hnew.
    { intros q Hq Hin _. apply elem_of_app in Hq as [Hq|Hq%elem_of_list_singleton]; [|by subst]. apply Hg1. by apply Hl. }
    assert (forall q, q ∈ S ++ [(p, y)] <-> snd q = y /\ fst q ∈ dn ++ [p] /\ (all = true \/ q ∈ epair <$> ord) \/ q = (p, y)) as Hmem.
    { intros [q1 q2]. rewrite elem_of_app, HSin, elem_of_list_singleton, elem_of_app, elem_of_list_singleton. cbn [fst snd]. split; [tauto|]. intros [(-> & [?| ->] & ?)|?]; tauto. }
    destruct (find_edge ord0 (directed_edge p y)) as [pos|].
    + rewrite Hes1. cbn [mbind outcome_bind]. eexists. split; [done|]. cbn [fst snd]. rewrite (proj2 Hf). split_and!; [done|by eapply grows_trans| |].
      { intros q Hq Hin. by apply Hnew. }
      exists (S ++ [(p, y)]). split; [by eapply upd_trans|]. intros q. rewrite Hmem. split; [|tauto]. intros [?| ->]; [done|]. cbn. split; [done|]. split; [apply elem_of_app; right; left|]. right.
      destruct Hf as [Hf _]. rewrite Ho in Hf. apply elem_of_list_fmap in Hf as (e & He & Hf). apply elem_of_list_filter in Hf as [_ Hf]. apply elem_of_list_fmap. by exists e.
    + destruct Hf as [Hnin Hsame]. destruct all.
      * rewrite Hes1. cbn [mbind outcome_bind]. eexists. split; [done|]. cbn [fst snd]. split_and!; [by rewrite <-Hdrop|by eapply grows_trans| |].
        { intros q Hq Hin. by apply Hnew. }
        exists (S ++ [(p, y)]). split; [by eapply upd_trans|]. intros q. rewrite Hmem. split; [|tauto]. intros [?| ->]; [done|]. cbn. split; [done|]. split; [apply elem_of_app; right; left|]. by left.
      * eexists. split; [done|]. cbn [fst snd].
        assert ((p, y) ∈ epair <$> ord -> p ∈ dn) as Hdn.
        { intros Hin. destruct (decide (p ∈ dn)); [done|]. exfalso. apply Hnin. rewrite Ho. apply elem_of_list_fmap in Hin as (e & He & Hin).
        apply elem_of_list_fmap. exists e. split; [done|]. apply elem_of_list_filter. split; [|done]. unfold epair in He. injection He as -> ->.
          intros [_ ?]. done. }
        split_and!; [by rewrite <-Hdrop|done| |].
        { intros q Hq Hin. apply elem_of_app in Hq as [Hq|Hq%elem_of_list_singleton]; [by apply Hl|]. subst q. apply Hl; [by apply Hdn|done]. }
        exists S. split; [done|]. intros [q1 q2]. rewrite HSin, elem_of_app, elem_of_list_singleton. cbn [fst snd]. split; [tauto|]. intros (-> & [?| ->] & [?|Hq]); [tauto|tauto|done|]. pose proof (Hdn Hq). tauto.
  - cbn [fst snd] in *. exists es'. rewrite Ho. split; [done|]. split; [done|]. split; [done|]. done.
Qed.

Lemma compelled_w_ok parx pary x y es ord :
  lab_inv es -> Forall is_arc ord -> NoDup (epair <$> ord) ->
  (exists e rest, ord = e :: rest /\ epair e = (x, y)) -> x <> y ->
  (forall p, p ∈ pary -> (p, y) ∈ epair <$> E) -> (x, y) ∈ epair <$> E -> x ∈ pary ->
  (forall e, e ∈ ord -> e_n2 e = y -> e_n1 e ∈ pary) ->
  (forall w, w ∈ parx -> w ≠ x /\ (w, x) ∈ epair <$> E /\ labelled es (w, x)) ->
  exists es' ord' b, compelled_w parx pary x y (es, ord) = Ok (es', ord', b) /\ grows es es' /\
    (if b : bool then ord' = filter (fun e => e_n2 e ≠ y) ord /\ (forall p, (p, y) ∈ epair <$> ord -> labelled es' (p, y)) /\
       (exists w, w ∈ parx /\ has_lab es (w, x) Compelled /\ w ∉ pary) /\ exists S, relab S Compelled es es' /\ forall p, p ∈ S <-> snd p = y /\ fst p ∈ pary
     else exists W, W ⊆ parx /\ ord' = filter (fun e => ~ into W y e) ord /\ (forall w, w ∈ W -> (w, y) ∈ epair <$> ord -> labelled es' (w, y)) /\
       (forall w, w ∈ W <-> w ∈ parx /\ has_lab es (w, x) Compelled) /\ (forall w, w ∈ W -> w ∈ pary) /\
       exists S, relab S Compelled es es' /\ forall p, p ∈ S <-> snd p = y /\ fst p ∈ W /\ p ∈ epair <$> ord).
Proof.
  revert es ord. induction parx as [|w ws IH]; intros es ord Hes Harc Hnd Hfront Hneq Hpy Hxy Hxin Hord Hpx.
  { exists es, ord, false. split; [done|]. split; [by apply grows_refl|]. exists []. split_and!; [done| |by intros w ?%elem_of_nil| |by intros w ?%elem_of_nil|].
    - symmetry. apply filter_all. intros e _ [_ He]. by apply elem_of_nil in He.
    - intros w. rewrite elem_of_nil. tauto.
    - exists []. split; [apply upd_nil|]. intros p. rewrite !elem_of_nil. tauto. }
  cbn [compelled_w fst snd]. destruct (Hpx w) as (Hwx & HwE & Hwl); [left|].
  destruct (get_label_ok es w x Hes HwE Hwl) as (l & -> & Hlab). cbn [mbind outcome_bind].
  assert (forall es1 , grows es es1 -> forall w, w ∈ ws -> w ≠ x /\ (w, x) ∈ epair <$> E /\ labelled es1 (w, x)) as Hpx'.
  { intros es1 Hg v Hv. destruct (Hpx v) as (? & ? & ?); [by right|]. split_and!; try done. by apply Hg. }
  case_bool_decide as Hcom.
  - apply symmetry, Hlab in Hcom. case_bool_decide as Hwy.
    + assert (exists es1, (match find_edge ord (directed_edge w y) with
                | Some pos => es0 ← set_label es w y Compelled; Ok (es0, erase_at ord pos)
                | None => Ok (es, ord)
                end) = Ok (es1, drop_pair (w, y) ord) /\ grows es es1 /\ ((w, y) ∈ epair <$> ord -> labelled es1 (w, y)) /\ exists S, relab S Compelled es es1 /\ forall p, p ∈ S <-> p = (w, y) /\ p ∈ epair <$> ord) as (es1 & -> & Hg1 & Hl1 & S1 & Hu1 & HS1).
      { cbn [fst snd]. pose proof (find_erase ord w y Harc Hnd) as Hf. destruct (find_edge _ _) as [pos|].
        - destruct Hf as [Hin ->]. destruct (set_label_ok es w y Compelled Hes) as (es1 & -> & Hg & Hl & Hu); [by apply Hpy|]. exists es1. split_and!; [done|done|done|]. exists [(w, y)]. split; [done|]. intros p. rewrite elem_of_list_singleton. split; [by intros ->|tauto].
        - destruct Hf as [Hin ->]. exists es. split_and!; [done|by apply grows_refl|done|]. exists []. split; [apply upd_nil|]. intros p. rewrite elem_of_nil. split; [done|]. intros [-> ?]. done. }
      cbn [mbind outcome_bind].
      destruct (IH es1 (drop_pair (w, y) ord)) as (es' & ord' & b & -> & Hg & Hb).
      * apply Hg1.
      * by apply filter_arcs.
      * by apply filter_pairs_nodup.
      * destruct Hfront as (e & rest & -> & He). exists e, (drop_pair (w, y) rest). split; [|done]. unfold drop_pair.
        rewrite filter_cons, decide_True; [done|]. rewrite He. congruence.
      * done.
      * done.
      * done.
      * done.
      * intros e He. apply Hord. by apply elem_of_list_filter in He as [_ ?].
      * by apply Hpx'.
      * exists es', ord', b. split; [done|]. split; [by eapply grows_trans|].
        assert (forall p, (p, y) ∈ epair <$> ord -> p = w \/ (p, y) ∈ epair <$> drop_pair (w, y) ord) as Hcase.
        { intros p Hp. apply elem_of_list_fmap in Hp as (e & He & Hp). destruct (decide (p = w)); [by left|right]. apply elem_of_list_fmap. exists e.
          split; [done|]. apply elem_of_list_filter. split; [|done]. rewrite <-He. congruence. }
        assert (forall v l, has_lab es1 (v, x) l <-> has_lab es (v, x) l) as Hkeep. { intros v l'. rewrite (Hu1 (v, x) l'), HS1. split; [|intros ?; right; split; [|done]; intros [[= ? ?] _]; done]. intros [[[[= ? ?] _] _]|[_ ?]]; done. }
        destruct b.
        -- destruct Hb as (-> & Hb & (v & Hv & Hvl & Hvy) & S2 & Hu2 & HS2). split_and!.
           ++ unfold drop_pair. apply filter_filter_and. intros e. split; [|tauto]. intros He. split; [done|]. unfold epair. intros [= ? ?]. done.
           ++ intros p Hp. destruct (Hcase p Hp) as [->|]; [by apply Hg, Hl1|by apply Hb].
           ++ exists v. split_and!; [by right|by apply Hkeep|done].
           ++ exists (S1 ++ S2). split; [by eapply upd_trans|]. intros p. rewrite elem_of_app, HS1, HS2. split; [|tauto]. intros [[-> _]|?]; done.
        -- destruct Hb as (W & HW & -> & Hb & HWx & HWy & S2 & Hu2 & HS2). exists (w :: W). split_and!.
           ++ intros v. rewrite !elem_of_cons. intros [->|Hv]; [by left|right]. by apply HW.
           ++ unfold drop_pair. apply filter_filter_and. intros e. unfold into, epair. rewrite elem_of_cons. split.
              ** intros H'. split; [tauto|]. intros [= H1 H2]. apply H'. tauto.
              ** intros [H1 H2] [H3 [H4|H4]]; [|tauto]. apply H2. by rewrite H3, H4.
           ++ intros v Hv Hin. apply elem_of_cons in Hv as [->|Hv]; [by apply Hg, Hl1|]. destruct (Hcase v Hin) as [->|Hin']; [by apply Hg, Hl1|by apply Hb].
           ++ intros v. rewrite !elem_of_cons, HWx, Hkeep. split; [intros [->|?]; tauto|tauto].
           ++ intros v [->|Hv]%elem_of_cons; [done|by apply HWy].
           ++ exists (S1 ++ S2). split; [by eapply upd_trans|]. intros [p1 p2]. rewrite elem_of_app, HS1, HS2, elem_of_cons. cbn [fst snd]. split.
              ** intros [[[= -> ->] ?]|(-> & ? & Hin)]; [tauto|]. split; [done|]. split; [tauto|]. apply elem_of_list_fmap in Hin as (e & He & Hin). apply elem_of_list_filter in Hin as [_ Hin]. apply elem_of_list_fmap. by exists e.
              ** intros (-> & [->|Hp] & Hin); [tauto|]. destruct (Hcase p1 Hin) as [->|Hin']; tauto.
    + destruct (set_label_ok es x y Compelled Hes Hxy) as (es1 & -> & Hg1 & Hl1 & Hu1). cbn [mbind outcome_bind snd].
      destruct Hfront as (e & rest & -> & He). cbn [erase_front mbind outcome_bind].
      inversion Harc; subst. rewrite fmap_cons in Hnd. apply NoDup_cons in Hnd as [Hni Hnd].
      destruct (label_into_ok true pary y Compelled es1 rest) as (es2 & -> & Hg2 & Hl2 & S2 & Hu2 & HS2); [apply Hg1|done|done|done|]. cbn [mbind outcome_bind].
      exists es2, (filter (fun e => ~ into pary y e) rest), true. split; [done|]. split; [by eapply grows_trans|]. split_and!.
      * unfold epair in He. injection He as <- <-. rewrite filter_cons, decide_False by tauto. apply filter_ext_in. intros e' He'. unfold into. split; [|tauto].
        intros Hn Heq. apply Hn. split; [done|]. apply Hord; [by right|done].
      * intros p Hp. rewrite fmap_cons in Hp. apply elem_of_cons in Hp as [Hp|Hp].
        -- rewrite Hp, He. by apply Hg2.
        -- apply Hl2; [|done]. apply elem_of_list_fmap in Hp as (e' & He' & Hin). unfold epair in He'. injection He' as -> Hy'.
           apply Hord; [by right|done].
      * exists w. split_and!; [left|done|done].
      * exists ([(x, y)] ++ S2). split; [by eapply upd_trans|]. intros p. rewrite elem_of_app, HS2, elem_of_list_singleton. split; [|tauto]. intros [->|?]; [done|tauto].
  - destruct (IH es ord) as (es' & ord' & b & -> & Hg & Hb); try done; [by apply Hpx', grows_refl|].
    exists es', ord', b. split; [done|]. split; [done|]. destruct b.
    { destruct Hb as (? & ? & (v & ? & ?) & ?). split_and!; [done|done| |done]. exists v. split; [by right|done]. }
    destruct Hb as (W & HW & ? & ? & HWx & ? & ?). exists W. split_and!; try done.
    + intros v Hv. right. by apply HW.
    + intros v. rewrite elem_of_cons, HWx. split; [tauto|]. intros [[->|?] Hl]; [|done]. apply Hlab in Hl. congruence.
Qed.

Lemma compelled_z_ok parx pary x y es ord :
  lab_inv es -> Forall is_arc ord -> NoDup (epair <$> ord) ->
  (exists e rest, ord = e :: rest /\ epair e = (x, y)) ->
  (forall p, p ∈ pary -> (p, y) ∈ epair <$> E) -> (x, y) ∈ epair <$> E ->
  (forall e, e ∈ ord -> e_n2 e = y -> e_n1 e ∈ pary) ->
  (forall z1 z2, z1 ∈ pary -> z2 ∈ pary -> z1 ≠ x -> z2 ≠ x -> z1 ∉ parx -> z2 ∉ parx -> z1 = z2) -> NoDup pary ->
  exists es' ord' b, compelled_z parx pary x y (es, ord) = Ok (es', ord', b) /\ grows es es' /\
    (if b : bool then ord' = filter (fun e => e_n2 e ≠ y) ord /\ (forall p, (p, y) ∈ epair <$> ord -> labelled es' (p, y)) /\
       (exists z, z ∈ pary /\ z ≠ x /\ z ∉ parx) /\ exists S, relab S Compelled es es' /\ forall p, p ∈ S <-> snd p = y /\ p ∈ epair <$> ord
     else ord' = ord /\ es' = es /\ forall z, z ∈ pary -> z ≠ x -> z ∈ parx).
Proof.
  intros Hes Harc Hnd Hfront Hpy Hxy Hord Honce Hndp. unfold compelled_z.
  match goal with |- context [mfor pary ?b ?s] =>
    destruct (mfor_inv (fun dn st => grows es (fst (fst st)) /\
      (if snd st : bool then (exists z, z ∈ dn /\ z ≠ x /\ z ∉ parx) /\ snd (fst st) = filter (fun e => e_n2 e ≠ y) ord /\ (forall p, (p, y) ∈ epair <$> ord -> labelled (fst (fst st)) (p, y)) /\
         exists S, relab S Compelled es (fst (fst st)) /\ forall p, p ∈ S <-> snd p = y /\ p ∈ epair <$> ord
       else fst st = (es, ord) /\ forall z, z ∈ dn -> z ≠ x -> z ∈ parx)) pary b s) as ([[es' ord'] b'] & -> & Hg & Hb) end.
  - cbn. split; [by apply grows_refl|]. split; [done|]. intros z Hz. by apply elem_of_nil in Hz.
  - intros dn z rest [[es0 ord0] b] Hsplit [Hg Hb]. cbn [fst snd] in *.
    assert (z ∈ pary) as Hz by (rewrite Hsplit; apply elem_of_app; right; left).
    destruct (bool_decide (z ≠ x) && bool_decide (z ∉ parx)) eqn:Hc.
    + apply andb_true_iff in Hc as [Hc1%bool_decide_eq_true Hc2%bool_decide_eq_true].
      destruct b.
      { exfalso. destruct Hb as ((z' & Hz' & H1 & H2) & _). assert (z' = z) as ->.
        { apply Honce; try done. rewrite Hsplit. apply elem_of_app. by left. }
        rewrite Hsplit in Hndp. apply NoDup_app in Hndp as (_ & Hd & _). apply (Hd z Hz'). left. }
      destruct Hb as [[= -> ->] _].
      destruct (set_label_ok es x y Compelled Hes Hxy) as (es1 & -> & Hg1 & Hl1 & Hu1). cbn [mbind outcome_bind snd].
      destruct Hfront as (e & rest' & -> & He). cbn [erase_front mbind outcome_bind].
      inversion Harc; subst. rewrite fmap_cons in Hnd. apply NoDup_cons in Hnd as [Hni Hnd].
      destruct (label_into_ok false (dn ++ z :: rest) y Compelled es1 rest') as (es2 & -> & Hg2 & Hl2 & S2 & Hu2 & HS2); [apply Hg1|done|done|done|]. cbn [mbind outcome_bind].
      eexists. split; [done|]. cbn [fst snd]. split; [by eapply grows_trans|]. split_and!.
      * exists z. split; [|done]. apply elem_of_app. right. left.
      * unfold epair in He. injection He as <- <-. rewrite filter_cons, decide_False by tauto. apply filter_ext_in. intros e' He'. unfold into. split; [|tauto].
        intros Hn Heq. apply Hn. split; [done|]. apply Hord; [by right|done].
      * intros p Hp. rewrite fmap_cons in Hp. apply elem_of_cons in Hp as [Hp|Hp].
        -- rewrite Hp, He. by apply Hg2.
        -- apply Hl2; [|done]. apply elem_of_list_fmap in Hp as (e' & He' & Hin). unfold epair in He'. injection He' as -> Hy'.
           apply Hord; [by right|done].
      * exists ([(x, y)] ++ S2). split; [by eapply upd_trans|]. intros [p1 p2]. rewrite elem_of_app, HS2, elem_of_list_singleton, fmap_cons, elem_of_cons, He. cbn [fst snd]. split.
        -- intros [[= -> ->]|(-> & _ & [?|Hin])]; [tauto|done|tauto].
        -- intros (-> & [[= ->]|Hin]); [by left|right]. split; [done|]. split; [|by right]. apply elem_of_list_fmap in Hin as (e' & He' & Hin). unfold epair in He'. injection He' as -> Hy'. apply Hord; [by right|done].
    + eexists. split; [done|]. cbn [fst snd]. split; [done|]. destruct b.
      { destruct Hb as ((z' & ? & ?) & ?). split; [|done]. exists z'. split; [|done]. apply elem_of_app. by left. }
      destruct Hb as [? Hb]. split; [done|]. intros z' [Hz'| ->%elem_of_list_singleton]%elem_of_app Hne; [by apply Hb|]. apply andb_false_iff in Hc as [Hc%bool_decide_eq_false|Hc%bool_decide_eq_false]; [tauto|]. destruct (decide (z ∈ parx)); tauto.
  - cbn [fst snd] in *. exists es', ord', b'. split; [done|]. split; [done|]. destruct b'.
    + destruct Hb as ((z' & ? & ? & ?) & ? & ? & ?). split_and!; [done|done|by exists z'|done].
    + destruct Hb as [[= -> ->] Hb]. done.
Qed.
End compel.
