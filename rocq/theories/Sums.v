(** Finite sums over exact rationals, assignments, and sums over all assignments
    of a list of variables.  Pure mathematics; models no code. *)
From Verif Require Export Base.
Local Open Scope Qc_scope.

Lemma Qc_le_add_nonneg (x y : Qc) : 0 <= x -> 0 <= y -> 0 <= x + y.
Proof.
  intros Hx Hy. replace 0 with (0 + 0) by ring. by apply Qcplus_le_compat.
Qed.
Lemma Qc_le_mul_nonneg (x y : Qc) : 0 <= x -> 0 <= y -> 0 <= x * y.
Proof.
  intros Hx Hy. replace 0 with (0 * y) by ring. by apply Qcmult_le_compat_r.
Qed.

(** ** Sum over a list *)
Definition qsum {A} (l : list A) (f : A -> Qc) : Qc :=
  foldr (fun x acc => f x + acc) 0 l.

Section qsum.
Context {A : Type}.
Implicit Types (l : list A) (f g : A -> Qc).

Lemma qsum_nil f : qsum [] f = 0.
Proof. done. Qed.
Lemma qsum_cons x l f : qsum (x :: l) f = f x + qsum l f.
Proof. done. Qed.
Lemma qsum_app l1 l2 f : qsum (l1 ++ l2) f = qsum l1 f + qsum l2 f.
Proof.
  induction l1 as [|x l1 IH]; cbn [app]; rewrite ?qsum_nil, ?qsum_cons.
  - ring.
  - rewrite IH. ring.
Qed.
Lemma qsum_ext l f g : (forall x, x ∈ l -> f x = g x) -> qsum l f = qsum l g.
Proof.
  induction l as [|x l IH]; intros H; [done|]. rewrite !qsum_cons, H by left.
  f_equal. apply IH. intros y Hy. apply H. by right.
Qed.
Lemma qsum_zero l f : (forall x, x ∈ l -> f x = 0) -> qsum l f = 0.
Proof.
  intros H. rewrite (qsum_ext l f (fun _ => 0) H).
  clear H. induction l as [|x l IH]; [done|]. rewrite qsum_cons, IH. ring.
Qed.
Lemma qsum_add l f g : qsum l (fun x => f x + g x) = qsum l f + qsum l g.
Proof. induction l as [|x l IH]; rewrite ?qsum_nil, ?qsum_cons; [ring|]. rewrite IH. ring. Qed.
Lemma qsum_scal c l f : qsum l (fun x => c * f x) = c * qsum l f.
Proof. induction l as [|x l IH]; rewrite ?qsum_nil, ?qsum_cons; [ring|]. rewrite IH. ring. Qed.
Lemma qsum_scal_r c l f : qsum l (fun x => f x * c) = qsum l f * c.
Proof. induction l as [|x l IH]; rewrite ?qsum_nil, ?qsum_cons; [ring|]. rewrite IH. ring. Qed.
Lemma qsum_perm l1 l2 f : l1 ≡ₚ l2 -> qsum l1 f = qsum l2 f.
Proof.
  induction 1 as [|x l1 l2 _ IH|x y l|l1 l2 l3 _ IH1 _ IH2].
  - done.
  - by rewrite !qsum_cons, IH.
  - rewrite !qsum_cons. ring.
  - by rewrite IH1.
Qed.
Lemma qsum_nonneg l f : (forall x, x ∈ l -> 0 <= f x) -> 0 <= qsum l f.
Proof.
  induction l as [|x l IH]; intros H; [apply Qcle_refl|]. rewrite qsum_cons.
  apply Qc_le_add_nonneg; [apply H; by left|]. apply IH. intros y Hy. apply H. by right.
Qed.
Lemma qsum_nonneg_zero l f :
  (forall x, x ∈ l -> 0 <= f x) -> qsum l f = 0 -> forall x, x ∈ l -> f x = 0.
Proof.
  induction l as [|y l IH]; intros H Hz x Hx; [by apply elem_of_nil in Hx|].
  rewrite qsum_cons in Hz.
  assert (0 <= f y) as Hy by (apply H; by left).
  assert (forall x, x ∈ l -> 0 <= f x) as Hl by (intros z Hz'; apply H; by right).
  assert (0 <= qsum l f) as Hs by by apply qsum_nonneg.
  assert (f y = 0) as Hfy.
  { apply Qcle_antisym; [|done]. replace (f y) with (- qsum l f); [|rewrite <-(Qcplus_0_r (- qsum l f)), <-Hz; ring].
    replace 0 with (- 0) by ring. by apply Qcopp_le_compat. }
  apply elem_of_cons in Hx as [->|Hx]; [done|].
  apply IH; [done| |done]. rewrite <-Hz, Hfy. ring.
Qed.
End qsum.

Lemma qsum_map {A B} (h : A -> B) (l : list A) (f : B -> Qc) :
  qsum (h <$> l) f = qsum l (fun x => f (h x)).
Proof. induction l as [|x l IH]; [done|]. cbn [fmap list_fmap]. by rewrite !qsum_cons, <-IH. Qed.

Lemma qsum_bind {A B} (h : A -> list B) (l : list A) (f : B -> Qc) :
  qsum (l ≫= h) f = qsum l (fun x => qsum (h x) f).
Proof.
  induction l as [|x l IH]; [done|]. cbn [mbind list_bind].
  by rewrite qsum_app, qsum_cons, <-IH.
Qed.

Lemma qsum_swap {A B} (l1 : list A) (l2 : list B) (f : A -> B -> Qc) :
  qsum l1 (fun x => qsum l2 (f x)) = qsum l2 (fun y => qsum l1 (fun x => f x y)).
Proof.
  induction l1 as [|x l1 IH].
  - rewrite qsum_nil. symmetry. by apply qsum_zero.
  - rewrite qsum_cons, IH, <-qsum_add. done.
Qed.

(** Selecting one element of a duplicate-free list. *)
Lemma qsum_select {A} `{EqDecision A} (l : list A) (y : A) (f : A -> Qc) :
  NoDup l -> y ∈ l ->
  qsum l (fun x => if bool_decide (x = y) then f x else 0) = f y.
Proof.
  induction l as [|x l IH]; intros Hnd Hy; [by apply elem_of_nil in Hy|].
  apply NoDup_cons in Hnd as [Hx Hnd]. rewrite qsum_cons.
  apply elem_of_cons in Hy as [->|Hy].
  - rewrite bool_decide_true by done. rewrite qsum_zero; [ring|].
    intros z Hz. rewrite bool_decide_false; [done|]. by intros ->.
  - rewrite bool_decide_false by (by intros ->). rewrite IH by done. ring.
Qed.

Lemma qsum_filter {A} (P : A -> Prop) `{forall x, Decision (P x)} (l : list A) (f : A -> Qc) :
  qsum (filter P l) f = qsum l (fun x => if decide (P x) then f x else 0).
Proof.
  induction l as [|x l IH]; [done|]. rewrite filter_cons, qsum_cons, <-IH.
  destruct (decide (P x)); [by rewrite qsum_cons|ring].
Qed.

(** ** Configurations in lexicographic order (first variable most significant) *)
Fixpoint configs (dims : list nat) : list (list nat) :=
  match dims with
  | [] => [[]]
  | d :: ds => x ← seq 0 d; cons x <$> configs ds
  end.

(** A configuration is in range. *)
Definition in_range (dims cfg : list nat) : Prop := Forall2 lt cfg dims.

Definition prod_list (l : list nat) : nat := foldr Nat.mul 1%nat l.

Lemma elem_of_configs dims cfg : cfg ∈ configs dims <-> in_range dims cfg.
Proof.
  revert cfg; induction dims as [|d ds IH]; intros cfg; cbn [configs].
  - rewrite elem_of_list_singleton. unfold in_range. split; [intros ->; constructor|].
    by inversion 1.
  - rewrite elem_of_list_bind. unfold in_range. split.
    + intros (x & Hx & Hx2). apply elem_of_list_fmap in Hx as (c & -> & Hc).
      apply elem_of_seq in Hx2. constructor; [lia|]. by apply IH.
    + inversion 1 as [|x d' c ds' Hx Hc]; subst.
      exists x. split; [|apply elem_of_seq; lia].
      apply elem_of_list_fmap. exists c. split; [done|]. by apply IH.
Qed.

Lemma configs_length dims : length (configs dims) = prod_list dims.
Proof.
  induction dims as [|d ds IH]; [done|]. cbn [configs].
  change (prod_list (d :: ds)) with (d * prod_list ds)%nat. rewrite <-IH.
  generalize (configs ds); intros l. generalize 0%nat. induction d as [|d IHd]; intros s; [done|].
  cbn [seq mbind list_bind]. rewrite app_length, fmap_length.
  rewrite IHd. done.
Qed.

Lemma NoDup_configs dims : NoDup (configs dims).
Proof.
  induction dims as [|d ds IH]; cbn [configs]; [apply NoDup_singleton|].
  generalize 0%nat. induction d as [|d IHd]; intros s; cbn [seq mbind list_bind]; [constructor|].
  apply NoDup_app. split_and!.
  - apply NoDup_fmap_2; [|done]. intros x y. by intros [= ->].
  - intros c Hc Hc2. apply elem_of_list_fmap in Hc as (c0 & -> & _).
    apply elem_of_list_bind in Hc2 as (x & Hx & Hx2).
    apply elem_of_list_fmap in Hx as (c1 & [= -> _] & _).
    apply elem_of_seq in Hx2. lia.
  - apply IHd.
Qed.

(** ** Assignments: total maps from variables to values *)
Definition asg := nat -> nat.
Definition upd (a : asg) (v x : nat) : asg := fun w => if bool_decide (w = v) then x else a w.
Fixpoint upds (a : asg) (vs xs : list nat) : asg :=
  match vs, xs with
  | v :: vs', x :: xs' => upds (upd a v x) vs' xs'
  | _, _ => a
  end.

Lemma upd_same a v x : upd a v x v = x.
Proof. unfold upd. by rewrite bool_decide_true. Qed.
Lemma upd_other a v x w : w ≠ v -> upd a v x w = a w.
Proof. intros H. unfold upd. by rewrite bool_decide_false. Qed.

Lemma upds_notin a vs xs w : w ∉ vs -> upds a vs xs w = a w.
Proof.
  revert a xs; induction vs as [|v vs IH]; intros a xs Hw; [done|].
  apply not_elem_of_cons in Hw as [Hwv Hw].
  destruct xs as [|x xs]; [done|]. cbn. rewrite IH by done. by apply upd_other.
Qed.

Lemma upds_map a vs xs :
  NoDup vs -> length xs = length vs -> upds a vs xs <$> vs = xs.
Proof.
  revert a xs; induction vs as [|v vs IH]; intros a xs Hnd Hlen.
  - destruct xs; [done|discriminate].
  - destruct xs as [|x xs]; [discriminate|]. apply NoDup_cons in Hnd as [Hv Hnd].
    cbn. f_equal.
    + rewrite upds_notin by done. apply upd_same.
    + apply IH; [done|]. cbn in Hlen. lia.
Qed.

(** [F] only looks at the variables in [vs]. *)
Definition dep_on (vs : list nat) (F : asg -> Qc) : Prop :=
  forall a b : asg, (forall v, v ∈ vs -> a v = b v) -> F a = F b.

(** [F] treats pointwise equal assignments alike. *)
Definition proper (F : asg -> Qc) : Prop :=
  forall a b : asg, (forall v, a v = b v) -> F a = F b.

Lemma dep_on_proper vs F : dep_on vs F -> proper F.
Proof. intros H a b Hab. apply H. auto. Qed.
Lemma dep_on_mono vs ws F : vs ⊆ ws -> dep_on vs F -> dep_on ws F.
Proof. intros Hsub H a b Hab. apply H. auto. Qed.
Lemma proper_mul F G : proper F -> proper G -> proper (fun a => F a * G a).
Proof. intros HF HG a b Hab. by rewrite (HF a b), (HG a b). Qed.
Lemma dep_on_mul vs F G : dep_on vs F -> dep_on vs G -> dep_on vs (fun a => F a * G a).
Proof. intros HF HG a b Hab. by rewrite (HF a b), (HG a b). Qed.

(** ** Summing a function of assignments over all values of some variables *)
Section sumv.
Context (dom : nat -> nat).

Fixpoint sumv (vs : list nat) (F : asg -> Qc) (a : asg) : Qc :=
  match vs with
  | [] => F a
  | v :: vs' => qsum (seq 0 (dom v)) (fun x => sumv vs' F (upd a v x))
  end.

(** An assignment with every value in its domain. *)
Definition valid (a : asg) : Prop := forall v, (a v < dom v)%nat.

Lemma valid_upd a v x : valid a -> (x < dom v)%nat -> valid (upd a v x).
Proof.
  intros Ha Hx w. unfold upd. case_bool_decide; [by subst|apply Ha].
Qed.
Lemma valid_upds a vs xs : valid a -> in_range (dom <$> vs) xs -> valid (upds a vs xs).
Proof.
  revert a xs; induction vs as [|v vs IH]; intros a xs Ha Hx; [done|].
  inversion Hx as [|x d xs' ds Hlt Hxs]; subst. cbn. apply IH; [by apply valid_upd|done].
Qed.

(** The sum ranges over exactly the configurations of [vs]. *)
Lemma sumv_configs vs F a :
  sumv vs F a = qsum (configs (dom <$> vs)) (fun cfg => F (upds a vs cfg)).
Proof.
  revert a; induction vs as [|v vs IH]; intros a; cbn [sumv fmap list_fmap configs].
  - rewrite qsum_cons, qsum_nil. cbn. ring.
  - rewrite qsum_bind. apply qsum_ext. intros x _. rewrite IH, qsum_map. done.
Qed.

Lemma sumv_proper vs F : proper F -> proper (sumv vs F).
Proof.
  intros HF. induction vs as [|v vs IH]; [done|]. intros a b Hab. cbn.
  apply qsum_ext. intros x _. apply IH. intros w. unfold upd. by rewrite Hab.
Qed.

Lemma sumv_ext vs F G a :
  valid a -> (forall b, valid b -> (forall v, v ∉ vs -> b v = a v) -> F b = G b) ->
  sumv vs F a = sumv vs G a.
Proof.
  revert a; induction vs as [|v vs IH]; intros a Ha H; cbn.
  - by apply H.
  - apply qsum_ext. intros x Hx. apply elem_of_seq in Hx. apply IH.
    + apply valid_upd; [done|lia].
    + intros b Hb Hbv. apply H; [done|]. intros w Hw.
      apply not_elem_of_cons in Hw as [Hwv Hw]. rewrite Hbv by done. by apply upd_other.
Qed.

Lemma sumv_app vs ws F a : sumv (vs ++ ws) F a = sumv vs (sumv ws F) a.
Proof.
  revert a; induction vs as [|v vs IH]; intros a; cbn; [done|].
  apply qsum_ext. intros x _. apply IH.
Qed.

Lemma sumv_dep vs ws F : dep_on ws F -> dep_on (filter (fun w => w ∉ vs) ws) (sumv vs F).
Proof.
  revert ws; induction vs as [|v vs IH]; intros ws HF; cbn [sumv].
  - eapply dep_on_mono; [|exact HF]. intros w Hw. apply elem_of_list_filter. split; [|done]. apply not_elem_of_nil.
  - intros a b Hab. apply qsum_ext. intros x _. apply (IH ws HF). intros w Hw.
    apply elem_of_list_filter in Hw as [Hwvs Hw]. unfold upd. case_bool_decide; [done|].
    apply Hab. apply elem_of_list_filter. split; [|done]. by apply not_elem_of_cons.
Qed.

Lemma sumv_scal vs c F a : sumv vs (fun b => c * F b) a = c * sumv vs F a.
Proof.
  revert a; induction vs as [|v vs IH]; intros a; cbn; [done|].
  rewrite <-qsum_scal. apply qsum_ext. intros x _. apply IH.
Qed.

(** A factor not mentioning the summed variables can be pulled out. *)
Lemma sumv_mul_l vs F G a :
  (forall b b', (forall v, v ∉ vs -> b v = b' v) -> G b = G b') ->
  sumv vs (fun b => G b * F b) a = G a * sumv vs F a.
Proof.
  intros HG.
  assert (forall vs', (forall v, v ∈ vs' -> v ∈ vs) -> forall b,
    (forall v, v ∉ vs -> b v = a v) ->
    sumv vs' (fun b => G b * F b) b = G a * sumv vs' F b) as Hgen.
  { induction vs' as [|v vs' IH]; intros Hsub b Hb; cbn.
    - f_equal. by apply HG.
    - rewrite <-qsum_scal. apply qsum_ext. intros x _. apply IH.
      + intros w Hw. apply Hsub. by right.
      + intros w Hw. rewrite upd_other; [by apply Hb|]. intros ->. apply Hw, Hsub. by left. }
  by apply Hgen.
Qed.

Lemma sumv_add vs F G a : sumv vs (fun b => F b + G b) a = sumv vs F a + sumv vs G a.
Proof.
  revert a; induction vs as [|v vs IH]; intros a; cbn; [done|].
  rewrite <-qsum_add. apply qsum_ext. intros x _. apply IH.
Qed.

Lemma sumv_nonneg vs F a :
  valid a -> (forall b, valid b -> 0 <= F b) -> 0 <= sumv vs F a.
Proof.
  revert a; induction vs as [|v vs IH]; intros a Ha H; cbn; [by apply H|].
  apply qsum_nonneg. intros x Hx. apply elem_of_seq in Hx.
  apply IH; [|done]. apply valid_upd; [done|lia].
Qed.

Lemma sumv_nonneg_zero vs F a :
  valid a -> (forall b, valid b -> 0 <= F b) -> sumv vs F a = 0 ->
  proper F -> NoDup vs ->
  forall b, valid b -> (forall v, v ∉ vs -> b v = a v) -> F b = 0.
Proof.
  intros Ha Hnn Hz Hp Hnd b Hb Hba.
  revert a Ha Hz Hba Hnd; induction vs as [|v vs IH]; intros a Ha Hz Hba Hnd; cbn in Hz.
  - rewrite <-Hz. apply Hp. intros w. apply Hba. apply not_elem_of_nil.
  - apply NoDup_cons in Hnd as [Hv Hnd].
    assert (sumv vs F (upd a v (b v)) = 0) as Hz'.
    { eapply (qsum_nonneg_zero (seq 0 (dom v)) (fun x => sumv vs F (upd a v x))); [|done|].
      - intros x Hx. apply elem_of_seq in Hx. apply sumv_nonneg; [|done].
        apply valid_upd; [done|lia].
      - apply elem_of_seq. specialize (Hb v). lia. }
    eapply (IH (upd a v (b v))); [|done| |done].
    + by apply valid_upd.
    + intros w Hw. unfold upd. case_bool_decide; [by subst|]. apply Hba.
      by apply not_elem_of_cons.
Qed.

Lemma sumv_swap v w vs F a :
  proper F -> v ≠ w -> sumv (v :: w :: vs) F a = sumv (w :: v :: vs) F a.
Proof.
  intros HF Hvw. cbn. rewrite qsum_swap. apply qsum_ext. intros y _. apply qsum_ext. intros x _.
  apply sumv_proper; [done|]. intros u. unfold upd.
  repeat case_bool_decide; congruence.
Qed.

Lemma sumv_perm vs ws F a :
  proper F -> NoDup vs -> vs ≡ₚ ws -> sumv vs F a = sumv ws F a.
Proof.
  intros HF Hnd Hp. revert a Hnd.
  induction Hp as [|x l1 l2 _ IH|x y l|l1 l2 l3 Hp1 IH1 _ IH2]; intros a Hnd.
  - done.
  - cbn. apply NoDup_cons in Hnd as [_ Hnd]. apply qsum_ext. intros z _. by apply IH.
  - apply sumv_swap; [done|]. apply NoDup_cons in Hnd as [Hx _].
    intros ->. apply Hx. by left.
  - rewrite IH1 by done. apply IH2. by rewrite <-Hp1.
Qed.

(** Summing against an indicator of a fixed assignment to [vs] evaluates there. *)
Lemma sumv_select vs F a (c : asg) :
  proper F -> NoDup vs -> valid c ->
  sumv vs (fun b => if bool_decide (b <$> vs = c <$> vs) then F b else 0) a
  = F (upds a vs (c <$> vs)).
Proof.
  intros HF Hnd Hc. revert a F HF; induction vs as [|v vs IH]; intros a F HF; cbn [sumv].
  - cbn. done.
  - apply NoDup_cons in Hnd as [Hv Hnd].
    transitivity (qsum (seq 0 (dom v)) (fun x => if bool_decide (x = c v) then
        sumv vs (fun b => if bool_decide (b <$> vs = c <$> vs) then F b else 0) (upd a v x) else 0)).
    + apply qsum_ext. intros x Hx.
      assert (forall vs', v ∉ vs' -> forall b, b v = x ->
        sumv vs' (fun b => if bool_decide (b <$> (v :: vs) = c <$> (v :: vs)) then F b else 0) b
        = if bool_decide (x = c v) then
            sumv vs' (fun b => if bool_decide (b <$> vs = c <$> vs) then F b else 0) b else 0) as Hgen.
      { induction vs' as [|w vs' IHw]; intros Hv' b Hb; cbn [sumv].
        - cbn [fmap list_fmap].
          destruct (decide (x = c v)) as [Heq|Hne].
          + rewrite (bool_decide_true (x = c v)) by done.
            destruct (decide (b <$> vs = c <$> vs)) as [Hbc|Hbc].
            * rewrite !bool_decide_true; [done|done|]. rewrite Hb, Heq. by f_equal.
            * rewrite !bool_decide_false; [done|done|]. by intros [= _ ?].
          + rewrite !bool_decide_false; [done|done|]. rewrite Hb. by intros [= ? _].
        - apply not_elem_of_cons in Hv' as [Hvw Hv'].
          case_bool_decide as Hxc.
          + apply qsum_ext. intros y _. rewrite IHw; [|done|by rewrite upd_other].
            done.
          + apply qsum_zero. intros y _. rewrite IHw; [|done|by rewrite upd_other].
            done. }
      rewrite Hgen; [done|done|apply upd_same].
    + rewrite qsum_select.
      * rewrite IH by done. done.
      * apply NoDup_seq.
      * apply elem_of_seq. specialize (Hc v). lia.
Qed.

Lemma sumv_one_var v F a : sumv [v] F a = qsum (seq 0 (dom v)) (fun x => F (upd a v x)).
Proof. done. Qed.
End sumv.
