(** Proofs about contingency tables. *)
From Verif Require Import CellModel CellSpec ParProofs TableProofs.
Local Open Scope nat_scope.

(** ** Sums of natural numbers and counting *)
Lemma nsum_app {A} (l1 l2 : list A) f : nsum (l1 ++ l2) f = nsum l1 f + nsum l2 f.
Proof. induction l1 as [|x l1 IH]; cbn; [done|]. unfold nsum in *. cbn. lia. Qed.
Lemma nsum_ext {A} (l : list A) f g : (forall x, x ∈ l -> f x = g x) -> nsum l f = nsum l g.
Proof. induction l as [|x l IH]; intros H; [done|]. cbn. f_equal; [apply H; left|]. apply IH. intros; apply H; by right. Qed.
Lemma nsum_add {A} (l : list A) f g : nsum l (fun x => f x + g x) = nsum l f + nsum l g.
Proof. induction l as [|x l IH]; [done|]. cbn. unfold nsum in *. lia. Qed.
Lemma nsum_zero {A} (l : list A) f : (forall x, x ∈ l -> f x = 0) -> nsum l f = 0.
Proof. induction l as [|x l IH]; intros H; [done|]. cbn. rewrite H by left. apply IH. intros; apply H; by right. Qed.
Lemma nsum_one {A} `{EqDecision A} (l : list A) (y : A) : NoDup l -> nsum l (fun x => if decide (y = x) then 1 else 0) = if decide (y ∈ l) then 1 else 0.
Proof.
  induction 1 as [|x l Hx Hl IH]; [done|]. change (nsum (x :: l) ?f) with (f x + nsum l f). cbn beta. rewrite IH.
  destruct (decide (y = x)) as [->|Hne].
  - rewrite (decide_False (P := x ∈ l)), (decide_True (P := x ∈ x :: l)); [done|left|done].
  - destruct (decide (y ∈ l)); [rewrite decide_True by (by right); done|]. rewrite decide_False; [done|]. by intros [->|?]%elem_of_cons.
Qed.
Notation count P l := (length (filter P l)).
Lemma count_cons {A} (P : A -> Prop) `{forall x, Decision (P x)} x l : count P (x :: l) = (if decide (P x) then 1 else 0) + count P l.
Proof. rewrite filter_cons. by case_decide. Qed.
Lemma count_ext {A} (P Q : A -> Prop) `{forall x, Decision (P x)} `{forall x, Decision (Q x)} l : (forall x, x ∈ l -> P x <-> Q x) -> count P l = count Q l.
Proof.
  induction l as [|x l IH]; intros H1; [done|]. rewrite !count_cons, IH by (intros; apply H1; by right). f_equal.
  specialize (H1 x (elem_of_list_here _ _)). destruct (decide (P x)), (decide (Q x)); tauto.
Qed.
(** Double counting. *)
Lemma sum_counts {R E} `{EqDecision E} (rows : list R) (c : R -> E) (es : list E) (Q : E -> Prop) `{forall e, Decision (Q e)} :
  NoDup es -> (forall r, r ∈ rows -> c r ∈ es) -> nsum (filter Q es) (fun e => count (fun r => c r = e) rows) = count (fun r => Q (c r)) rows.
Proof.
  intros Hes. induction rows as [|r rows IH]; intros Hr; [by apply nsum_zero|]. rewrite count_cons.
  rewrite (nsum_ext _ _ (fun e => (if decide (c r = e) then 1 else 0) + count (fun r => c r = e) rows)) by (intros e _; by rewrite count_cons).
  rewrite nsum_add, IH by (intros; apply Hr; by right). f_equal. rewrite nsum_one by by apply NoDup_filter.
  specialize (Hr r (elem_of_list_here _ _)). destruct (decide (Q (c r))) as [HQ|HQ].
  - rewrite decide_True; [done|]. by apply elem_of_list_filter.
  - rewrite decide_False; [done|]. by intros [? _]%elem_of_list_filter.
Qed.

(** ** Histograms *)
Definition hist {R} (rows : list R) (p : R -> nat) (L : nat) : list nat := (fun i => count (fun r => p r = i) rows) <$> seq 0 L.
Lemma hist_length {R} (rows : list R) p L : length (hist rows p L) = L.
Proof. unfold hist. by rewrite fmap_length, seq_length. Qed.
Lemma hist_lookup {R} (rows : list R) p L i : i < L -> hist rows p L !! i = Some (count (fun r => p r = i) rows).
Proof. intros H. unfold hist. by rewrite list_lookup_fmap, lookup_seq_lt by done. Qed.
Lemma hist_nil {R} (p : R -> nat) L : hist [] p L = replicate L 0.
Proof.
  apply list_eq. intros i. destruct (decide (i < L)); [rewrite hist_lookup, lookup_replicate_2 by done; done|].
  rewrite !lookup_ge_None_2; [done|rewrite replicate_length; lia|rewrite hist_length; lia].
Qed.
Lemma count_app {A} (P : A -> Prop) `{forall x, Decision (P x)} l1 l2 : count P (l1 ++ l2) = count P l1 + count P l2.
Proof. by rewrite filter_app, app_length. Qed.
Lemma hist_snoc {R} (rows : list R) (r : R) p L : p r < L -> hist (rows ++ [r]) p L = <[p r := S (count (fun x => p x = p r) rows)]> (hist rows p L).
Proof.
  intros H. apply list_eq. intros i. destruct (decide (i < L)) as [Hi|Hi].
  - rewrite hist_lookup by done. rewrite count_app, count_cons. cbn [filter length]. destruct (decide (i = p r)) as [->|Hne].
    + rewrite list_lookup_insert by (by rewrite hist_length). rewrite decide_True by done. f_equal. unfold filter. cbn. lia.
    + rewrite list_lookup_insert_ne by congruence. rewrite hist_lookup by done. rewrite decide_False by congruence. f_equal. cbn. lia.
  - rewrite !lookup_ge_None_2; [done|rewrite insert_length, hist_length; lia|rewrite hist_length; lia].
Qed.
Lemma bump_hist {R} (rows : list R) r p L : p r < L -> bump (hist rows p L) (p r) = Ok (hist (rows ++ [r]) p L).
Proof. intros H. unfold bump. rewrite (vget_ok _ _ _ (hist_lookup rows p L _ H)). cbn. rewrite vset_ok by (by rewrite hist_length). by rewrite hist_snoc by done. Qed.
Lemma hist_loop {R} (rows : list R) (body : R -> list nat -> outcome (list nat)) (p : R -> nat) L :
  (forall r n, r ∈ rows -> body r n = bump n (p r)) -> (forall r, r ∈ rows -> p r < L) -> mfor rows body (replicate L 0) = Ok (hist rows p L).
Proof.
  intros Hb Hp. destruct (mfor_inv (fun dn n => n = hist dn p L) rows body (replicate L 0)) as (n & -> & ->); [by rewrite hist_nil| |done].
  intros dn r rest n -> ->. exists (hist (dn ++ [r]) p L). split; [|done]. rewrite Hb by (apply elem_of_app; right; left). apply bump_hist. apply Hp. apply elem_of_app; right; left.
Qed.
(** Accumulating given amounts. *)
Lemma add_at_ok l i v x : l !! i = Some x -> add_at l i v = Ok (<[i := x + v]> l).
Proof. intros H. unfold add_at. rewrite (vget_ok _ _ _ H). cbn. apply vset_ok. by eapply lookup_lt_Some. Qed.
(** Counts over the rows as amounts: adding the count of every cell at its image gives the histogram of the images. *)
Definition partial_hist {R E} `{EqDecision E} (rows : list R) (c : R -> E) (q : E -> nat) (es : list E) (L : nat) : list nat :=
  (fun i => nsum (filter (fun e => q e = i) es) (fun e => count (fun r => c r = e) rows)) <$> seq 0 L.
Section accumulate.
Context {R E} `{EqDecision E} (rows : list R) (c : R -> E).
Lemma partial_hist_nil (q : E -> nat) L : partial_hist rows c q [] L = replicate L 0.
Proof.
  apply list_eq. intros i. unfold partial_hist. rewrite list_lookup_fmap. destruct (decide (i < L)); [rewrite lookup_seq_lt, lookup_replicate_2 by done; done|].
  rewrite lookup_seq_ge, lookup_ge_None_2 by (rewrite ?replicate_length; lia). done.
Qed.
Lemma partial_hist_length (q : E -> nat) es L : length (partial_hist rows c q es L) = L.
Proof. unfold partial_hist. by rewrite fmap_length, seq_length. Qed.
Lemma partial_hist_snoc (q : E -> nat) es e L : q e < L -> add_at (partial_hist rows c q es L) (q e) (count (fun r => c r = e) rows) = Ok (partial_hist rows c q (es ++ [e]) L).
Proof.
  intros H. erewrite add_at_ok by (unfold partial_hist; rewrite list_lookup_fmap, lookup_seq_lt by done; reflexivity). f_equal. apply list_eq. intros i.
  destruct (decide (i < L)) as [Hi|Hi]; [|rewrite !lookup_ge_None_2; [done|rewrite partial_hist_length; lia|rewrite insert_length, partial_hist_length; lia]].
  unfold partial_hist at 2. rewrite list_lookup_fmap, lookup_seq_lt by done. cbn [fmap option_fmap option_map]. rewrite filter_app, nsum_app, filter_cons. destruct (decide (i = q e)) as [->|Hne].
  - rewrite list_lookup_insert by (by rewrite partial_hist_length). rewrite (decide_True (P := q e = q e)) by done. cbn. f_equal. lia.
  - rewrite list_lookup_insert_ne by congruence. rewrite (decide_False (P := q e = i)) by (by intros <-). unfold partial_hist. rewrite list_lookup_fmap, lookup_seq_lt by done. cbn. f_equal. lia.
Qed.
Lemma partial_hist_all (q : E -> nat) es L : NoDup es -> (forall r, r ∈ rows -> c r ∈ es) -> partial_hist rows c q es L = hist rows (fun r => q (c r)) L.
Proof. intros Hn Hc. unfold partial_hist, hist. apply list_fmap_ext. intros i k _. by rewrite (sum_counts rows c es (fun e => q e = k)) by done. Qed.
End accumulate.

(** ** Tuples *)
Lemma elem_of_pairs a b i j : (i, j) ∈ pairs a b <-> i < a /\ j < b.
Proof.
  unfold pairs. rewrite elem_of_list_bind. split.
  - intros (x & Hx & Hs). apply elem_of_list_fmap in Hx as (y & [= -> ->] & Hy). apply elem_of_seq in Hs, Hy. lia.
  - intros [Hi Hj]. exists i. split; [apply elem_of_list_fmap; exists j; split; [done|apply elem_of_seq; lia]|apply elem_of_seq; lia].
Qed.
Lemma elem_of_triples a b c i j k : (i, j, k) ∈ triples a b c <-> i < a /\ j < b /\ k < c.
Proof.
  unfold triples. rewrite elem_of_list_bind. split.
  - intros (p & Hp & Hs). apply elem_of_list_fmap in Hp as (y & [= <- ->] & Hy). apply elem_of_pairs in Hs. apply elem_of_seq in Hy. lia.
  - intros (Hi & Hj & Hk). exists (i, j). split; [apply elem_of_list_fmap; exists k; split; [done|apply elem_of_seq; lia]|by apply elem_of_pairs].
Qed.
Lemma NoDup_pair_bind {A} (l : list A) b : NoDup l -> NoDup (x ← l; (fun j => (x, j)) <$> seq 0 b).
Proof.
  induction 1 as [|x l Hx Hl IH]; cbn; [constructor|]. apply NoDup_app. split_and!; [|intros [y j] Hy Hin|done].
  - apply NoDup_fmap_2; [|apply NoDup_seq]. by intros ? ? [= ->].
  - apply elem_of_list_fmap in Hy as (? & [= -> _] & _). apply elem_of_list_bind in Hin as (z & Hz & Hzl). apply elem_of_list_fmap in Hz as (? & [= -> _] & _). done.
Qed.
Lemma NoDup_pairs a b : NoDup (pairs a b).
Proof. apply NoDup_pair_bind, NoDup_seq. Qed.
Lemma NoDup_triples a b c : NoDup (triples a b c).
Proof. apply NoDup_pair_bind, NoDup_pairs. Qed.
Lemma pos3_inj dx dy k i j k' i' j' : i < dx -> i' < dx -> j < dy -> j' < dy -> k * dx * dy + i * dy + j = k' * dx * dy + i' * dy + j' -> k = k' /\ i = i' /\ j = j'.
Proof.
  intros Hi Hi' Hj Hj' H. assert (k * dx + i = k' * dx + i') as H1.
  { apply (Nat.div_unique_exact _ dy) in H as H0 || idtac. assert (((k * dx + i) * dy + j) / dy = ((k' * dx + i') * dy + j') / dy) as E by (f_equal; nia).
    rewrite !Nat.div_add_l in E by lia. rewrite !Nat.div_small in E by lia. lia. }
  assert (j = j') by nia. assert (((k * dx + i) / dx = (k' * dx + i') / dx)) as E by (by f_equal). rewrite !Nat.div_add_l in E by lia. rewrite !Nat.div_small in E by lia. split_and!; [lia|nia|done].
Qed.
Lemma pos3_lt dz dx dy k i j : k < dz -> i < dx -> j < dy -> k * dx * dy + i * dy + j < dz * dx * dy.
Proof. intros. assert ((k * dx + i) < dz * dx) by nia. nia. Qed.

Definition framed (pre l post : list nat) : list nat := pre ++ l ++ post.
Lemma framed_add_at pre l post i v l' : add_at l i v = Ok l' -> add_at (framed pre l post) (i + length pre) v = Ok (framed pre l' post).
Proof.
  unfold add_at, framed. intros H. apply bind_ok in H as (x & Hx' & H). apply vget_inv in Hx'. apply vset_inv in H as [Hl ->].
  rewrite (vget_ok _ _ x) by (rewrite lookup_app_r by lia; rewrite lookup_app_l by lia; by replace (i + length pre - length pre) with i by lia). cbn.
  rewrite vset_ok by (rewrite !app_length; lia). f_equal. rewrite insert_app_r_alt by lia. replace (i + length pre - length pre) with i by lia. by rewrite insert_app_l.
Qed.
Lemma framed_lookup pre l post i x : l !! i = Some x -> framed pre l post !! (i + length pre) = Some x.
Proof. intros H. unfold framed. rewrite lookup_app_r by lia. replace (i + length pre - length pre) with i by lia. rewrite lookup_app_l; [done|]. by eapply lookup_lt_Some. Qed.

(** ** Counting and marginals for one table, in terms of the position of the conditioning values *)
Section single.
Context (rows : list nat) (fz fx fy : nat -> nat) (dz dx dy : nat).
Hypothesis Hz : forall r, r ∈ rows -> fz r < dz.
Hypothesis Hx : forall r, r ∈ rows -> fx r < dx.
Hypothesis Hy : forall r, r ∈ rows -> fy r < dy.
Notation pxy := (fun r => fz r * dx * dy + fx r * dy + fy r).
Notation px := (fun r => fz r * dx + fx r).
Notation py := (fun r => fz r * dy + fy r).
Notation cxyz := (fun r => (fz r, fx r, fy r)).
Set Default Proof Using "All".
Lemma cell_count k i j : k < dz -> i < dx -> j < dy -> hist rows pxy (dz * dx * dy) !! (k * dx * dy + i * dy + j) = Some (count (fun r => cxyz r = (k, i, j)) rows).
Proof.
  intros Hk Hi Hj. rewrite hist_lookup by (by apply pos3_lt). f_equal. apply count_ext. intros r Hr. split.
  - intros E. apply pos3_inj in E as (-> & -> & ->); [done|by apply Hx|done|by apply Hy|done].
  - by intros [= -> -> ->].
Qed.
(** The marginals, inside larger arrays that are zero here. *)
Lemma margins_ok preN postN prei posti prej postj prek postk :
  margins dz dx dy (length preN) (length prei) (length prej) (length prek) (framed preN (hist rows pxy (dz * dx * dy)) postN)
    (framed prei (replicate (dz * dx) 0) posti, framed prej (replicate (dz * dy) 0) postj, framed prek (replicate dz 0) postk) =
  Ok (framed prei (hist rows px (dz * dx)) posti, framed prej (hist rows py (dz * dy)) postj, framed prek (hist rows fz dz) postk).
Proof.
  unfold margins.
  destruct (mfor_inv (fun dn st => st = (framed prei (partial_hist rows cxyz (fun e => let '(k, i, _) := e in k * dx + i) dn (dz * dx)) posti,
    framed prej (partial_hist rows cxyz (fun e => let '(k, _, j) := e in k * dy + j) dn (dz * dy)) postj, framed prek (partial_hist rows cxyz (fun e => let '(k, _, _) := e in k) dn dz) postk))
    (triples dz dx dy) (fun e st => let '(k, i, j) := e in let '(ni, nj, nk) := st in
    v ← vget (framed preN (hist rows pxy (dz * dx * dy)) postN) (k * dx * dy + i * dy + j + length preN);
    ni ← add_at ni (k * dx + i + length prei) v; nj ← add_at nj (k * dy + j + length prej) v; nk ← add_at nk (k + length prek) v; Ok (ni, nj, nk))
    (framed prei (replicate (dz * dx) 0) posti, framed prej (replicate (dz * dy) 0) postj, framed prek (replicate dz 0) postk)) as (st & -> & ->).
  - by rewrite !partial_hist_nil.
  - intros dn [[k i] j] rest st Hl ->. assert ((k, i, j) ∈ triples dz dx dy) as Hin by (rewrite Hl; apply elem_of_app; right; left). apply elem_of_triples in Hin as (Hk & Hi & Hj).
    eexists. split; [|reflexivity]. rewrite (vget_ok _ _ (count (fun r => cxyz r = (k, i, j)) rows)) by (apply framed_lookup; by apply cell_count). cbn [mbind outcome_bind].
    rewrite (framed_add_at prei _ posti _ _ _ (partial_hist_snoc rows cxyz (fun e => let '(k, i, _) := e in k * dx + i) dn (k, i, j) (dz * dx) ltac:(cbn; nia))). cbn [mbind outcome_bind].
    rewrite (framed_add_at prej _ postj _ _ _ (partial_hist_snoc rows cxyz (fun e => let '(k, _, j) := e in k * dy + j) dn (k, i, j) (dz * dy) ltac:(cbn; nia))). cbn [mbind outcome_bind].
    rewrite (framed_add_at prek _ postk _ _ _ (partial_hist_snoc rows cxyz (fun e => let '(k, _, _) := e in k) dn (k, i, j) dz ltac:(cbn; nia))). done.
  - assert (forall r, r ∈ rows -> cxyz r ∈ triples dz dx dy) as Hin by (intros r Hr; apply elem_of_triples; split_and!; auto). pose proof (NoDup_triples dz dx dy) as Hnd.
    by rewrite !partial_hist_all by done.
Qed.
End single.
