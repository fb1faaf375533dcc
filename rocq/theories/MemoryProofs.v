(** Ownership of objects: which of them are live, with the objects nobody will delete set apart. *)
From Verif Require Import MemoryModel MemorySpec.

(** ** Permutations of lists made of known parts *)
Lemma pl_cons {A} (x : A) l r r' : r ≡ₚ x :: r' -> l ≡ₚ r' -> x :: l ≡ₚ r.
Proof. intros -> ->; done. Qed.
Lemma pl_app {A} (a l r r' : list A) : r ≡ₚ a ++ r' -> l ≡ₚ r' -> a ++ l ≡ₚ r.
Proof. intros -> ->; done. Qed.
Lemma pc_next {A} (x y : A) r r' : r ≡ₚ x :: r' -> y :: r ≡ₚ x :: y :: r'.
Proof. intros ->; apply Permutation_swap. Qed.
Lemma pc_app {A} (x : A) b r r' : r ≡ₚ x :: r' -> b ++ r ≡ₚ x :: b ++ r'.
Proof. intros ->; symmetry; apply Permutation_middle. Qed.
Lemma pa_next {A} (a : list A) y r r' : r ≡ₚ a ++ r' -> y :: r ≡ₚ a ++ y :: r'.
Proof. intros ->; apply Permutation_middle. Qed.
Lemma pa_app {A} (a b r r' : list A) : r ≡ₚ a ++ r' -> b ++ r ≡ₚ a ++ b ++ r'.
Proof. intros ->. by rewrite !(assoc_L (++)), (Permutation_app_comm b). Qed.
Lemma pa_end {A} (a : list A) : a ≡ₚ a ++ [].
Proof. by rewrite app_nil_r. Qed.
Ltac flat_l := repeat first [rewrite <-!app_comm_cons | rewrite <-!app_assoc | rewrite !app_nil_l | rewrite !app_nil_r].
Ltac pick_cons := lazymatch goal with
  | |- ?y :: ?r ≡ₚ ?x :: _ => first [constr_eq x y; reflexivity | eapply pc_next; pick_cons]
  | |- ?b ++ ?r ≡ₚ ?x :: _ => eapply pc_app; pick_cons
  end.
Ltac pick_app := lazymatch goal with
  | |- ?y :: ?r ≡ₚ ?a ++ _ => eapply pa_next; pick_app
  | |- ?b ++ ?r ≡ₚ ?a ++ _ => first [constr_eq a b; reflexivity | eapply pa_app; pick_app]
  | |- ?b ≡ₚ ?a ++ _ => constr_eq a b; apply pa_end
  end.
Ltac perm_loop := lazymatch goal with
  | |- ?x :: ?l ≡ₚ ?r => eapply pl_cons; [pick_cons|]; flat_l; perm_loop
  | |- ?a ++ ?l ≡ₚ ?r => eapply pl_app; [pick_app|]; flat_l; perm_loop
  | |- _ => first [reflexivity | assumption]
  end.
Ltac perm := flat_l; perm_loop.
Ltac inm := lazymatch goal with
  | |- ?x ∈ ?y :: ?l => first [apply elem_of_list_here | apply elem_of_list_further; inm]
  | |- ?x ∈ ?a ++ ?b => first [apply elem_of_app; left; inm | apply elem_of_app; right; inm]
  | |- _ => solve [eauto]
  end.

(** ** The heap *)
Definition sound (h : heap) : Prop := NoDup (h_live h).*1 /\ Forall (fun l => l < h_next h) (h_live h).*1.
Definition own (m : list (nat * object)) (k : list kind) (h : heap) : Prop :=
  exists x, h_live h ≡ₚ x ++ m /\ sound h /\ kinds x ≡ₚ k ++ lost_tables h.
Definition wp {A} (p : prog A) (Q : A -> heap -> Prop) (h : heap) : Prop :=
  match p h with Done a h' => Q a h' | Fault f => f = Unfinished end.

Lemma own_perm m' m k h : own m k h -> m ≡ₚ m' -> own m' k h.
Proof. intros (x & H1 & H2 & H3) E. exists x. split; [by rewrite H1, E|done]. Qed.
Lemma own_kinds k' m k h : own m k h -> k ≡ₚ k' -> own m k' h.
Proof. intros (x & H1 & H2 & H3) E. exists x. split_and!; [done..|by rewrite H3, E]. Qed.
Lemma own_forget l o m k h : own ((l, o) :: m) k h -> own m (kind_of o :: k) h.
Proof.
  intros (x & H1 & H2 & H3). exists ((l, o) :: x). split_and!; [|done|].
  - rewrite H1. by rewrite <-app_comm_cons, Permutation_middle.
  - unfold kinds in *. cbn. by rewrite H3.
Qed.
Lemma own_sound m k h : own m k h -> NoDup m.*1.
Proof.
  intros (x & H1 & [H2 _] & _). rewrite H1, fmap_app in H2. by apply NoDup_app in H2 as (_ & _ & H2).
Qed.
Lemma own_start : own [] [] nothing.
Proof. exists []. split_and!; [done| |done]. split; constructor. Qed.

Lemma wp_ret {A} (a : A) (Q : A -> heap -> Prop) h : Q a h -> wp (ret a) Q h.
Proof. done. Qed.
Lemma wp_bind {A B} (p : prog A) (f : A -> prog B) (R : A -> heap -> Prop) (Q : B -> heap -> Prop) h :
  wp p R h -> (forall a h', R a h' -> wp (f a) Q h') -> wp (bind p f) Q h.
Proof. unfold wp, bind. destruct (p h) as [a h'|]; [|done]. intros H1 H2. apply H2, H1. Qed.
Lemma wp_mono {A} (p : prog A) (R Q : A -> heap -> Prop) h : wp p R h -> (forall a h', R a h' -> Q a h') -> wp p Q h.
Proof. unfold wp. destruct (p h); naive_solver. Qed.

Lemma wp_at {A} (l : list A) i x (P : heap -> Prop) h : P h -> l !! i = Some x -> wp (at_index l i) (fun y h' => y = x /\ P h') h.
Proof. intros H E. unfold at_index. by rewrite E. Qed.

Lemma find_in l o m : NoDup m.*1 -> (l, o) ∈ m -> find_object l m = Some o.
Proof.
  induction m as [|[l' o'] m IH]; intros Hn Hi; [by apply elem_of_nil in Hi|].
  cbn in *. apply NoDup_cons in Hn as [Hx Hn]. apply elem_of_cons in Hi as [Hi|Hi].
  - injection Hi as <- <-. by rewrite bool_decide_true.
  - rewrite bool_decide_false; [by apply IH|]. intros ->. apply Hx. by apply (elem_of_list_fmap_1 fst m (l', o)).
Qed.
Lemma drop_in l o m : NoDup m.*1 -> (l, o) ∈ m -> m ≡ₚ (l, o) :: drop_object l m.
Proof.
  induction m as [|[l' o'] m IH]; intros Hn Hi; [by apply elem_of_nil in Hi|].
  cbn in *. apply NoDup_cons in Hn as [Hx Hn]. apply elem_of_cons in Hi as [Hi|Hi].
  - injection Hi as <- <-. by rewrite bool_decide_true.
  - rewrite bool_decide_false.
    + rewrite (IH Hn Hi) at 1. apply Permutation_swap.
    + intros ->. apply Hx. by apply (elem_of_list_fmap_1 fst m (l', o)).
Qed.
Lemma put_in l o o' m : NoDup m.*1 -> (l, o) ∈ m -> put_object l o' m ≡ₚ (l, o') :: drop_object l m.
Proof.
  induction m as [|[l1 o1] m IH]; intros Hn Hi; [by apply elem_of_nil in Hi|].
  cbn in *. apply NoDup_cons in Hn as [Hx Hn]. apply elem_of_cons in Hi as [Hi|Hi].
  - injection Hi as <- <-. by rewrite !bool_decide_true.
  - rewrite !bool_decide_false.
    + rewrite (IH Hn Hi). apply Permutation_swap.
    + intros ->. apply Hx. by apply (elem_of_list_fmap_1 fst m (l1, o)).
Qed.
Lemma put_keys l o m : (put_object l o m).*1 = m.*1.
Proof. induction m as [|[l1 o1] m IH]; cbn; [done|]. case_bool_decide; cbn; [by subst|]. by rewrite IH. Qed.

Lemma wp_new o m k h : own m k h -> wp (new o) (fun p h' => exists l, p = PTo l /\ own ((l, o) :: m) k h') h.
Proof.
  intros (x & H1 & [H2 H3] & H4). cbn. exists (h_next h). split; [done|]. exists x. cbn. split_and!; [| |done].
  - rewrite H1. by rewrite Permutation_middle.
  - split; cbn.
    + apply NoDup_cons. split; [|done]. intros Hi. rewrite Forall_forall in H3. apply H3 in Hi. lia.
    + constructor; [lia|]. eapply Forall_impl; [exact H3|]. cbn. intros; lia.
Qed.
Lemma own_find l o m k h : own m k h -> (l, o) ∈ m -> find_object l (h_live h) = Some o.
Proof. intros (x & H1 & [H2 H3] & H4) Hi. apply find_in; [done|]. rewrite H1. apply elem_of_app. by right. Qed.
Lemma wp_deref l o m k h : own m k h -> (l, o) ∈ m -> wp (deref (PTo l)) (fun o' h' => o' = o /\ own m k h') h.
Proof. intros H Hi. unfold wp. cbn. by rewrite (own_find l o m k h H Hi). Qed.
Lemma wp_touch l o m k h : own m k h -> (l, o) ∈ m -> wp (touch (PTo l)) (fun _ => own m k) h.
Proof. intros H Hi. eapply wp_bind; [by eapply wp_deref|]. by intros o' h' [-> H']. Qed.
Lemma wp_victim l o m k h : own m k h -> (l, o) ∈ m -> wp (victim (PTo l)) (fun o' h' => o' = Some o /\ own m k h') h.
Proof. intros H Hi. unfold wp. cbn. by rewrite (own_find l o m k h H Hi). Qed.
Lemma wp_assign o' l o m m' k h : own m' k h -> m' ≡ₚ (l, o) :: m -> wp (assign (PTo l) o') (fun _ => own ((l, o') :: m) k) h.
Proof.
  intros H E. eapply own_perm in H; [|exact E]. unfold assign. eapply wp_bind; [eapply wp_deref; [exact H|inm]|].
  intros ? h' [-> (x & H1 & [H2 H3] & H4)]. cbn. exists x. cbn. split_and!; [| |done].
  - assert (Hi : (l, o) ∈ h_live h') by (rewrite H1; apply elem_of_app; right; inm).
    rewrite (put_in l o o'); [|done..].
    assert (D : (l, o) :: drop_object l (h_live h') ≡ₚ (l, o) :: x ++ m).
    { rewrite <-(drop_in l o); [|done..]. rewrite H1. by rewrite Permutation_middle. }
    apply (inj (cons (l, o))) in D. rewrite D. by rewrite Permutation_middle.
  - split; cbn; by rewrite put_keys.
Qed.
Lemma wp_release l o m m' k h : own m' k h -> m' ≡ₚ (l, o) :: m -> wp (release (PTo l)) (fun _ => own m k) h.
Proof.
  intros H E. eapply own_perm in H; [|exact E]. pose proof H as (x & H1 & [H2 H3] & H4).
  unfold wp, release. rewrite (own_find l o _ k h H); [|inm].
  assert (Hi : (l, o) ∈ h_live h) by (rewrite H1; apply elem_of_app; right; inm).
  assert (D : (l, o) :: drop_object l (h_live h) ≡ₚ (l, o) :: x ++ m).
  { rewrite <-(drop_in l o); [|done..]. rewrite H1. by rewrite Permutation_middle. }
  apply (inj (cons (l, o))) in D. exists x. cbn. split_and!; [done| |done].
  pose proof (drop_in l o _ H2 Hi) as P. split; cbn.
  - rewrite P in H2. by apply NoDup_cons in H2 as [_ H2].
  - rewrite P in H3. by apply Forall_cons in H3 as [_ H3].
Qed.
Lemma wp_delete_array l o m m' k h : own m' k h -> m' ≡ₚ (l, o) :: m -> is_array o = true -> wp (delete_array (PTo l)) (fun _ => own m k) h.
Proof.
  intros H E A. unfold delete_array. eapply wp_bind; [eapply wp_victim; [exact H|rewrite E; inm]|].
  intros ? h' [-> H']. cbn. rewrite A. by eapply wp_release.
Qed.
Lemma wp_delete_plain f l o m m' k h :
  own m' k h -> m' ≡ₚ (l, o) :: m -> is_array o = false -> f o = true -> wp (delete_plain f (PTo l)) (fun _ => own m k) h.
Proof.
  intros H E A F. unfold delete_plain. eapply wp_bind; [eapply wp_victim; [exact H|rewrite E; inm]|].
  intros ? h' [-> H']. cbn. rewrite A, F. by eapply wp_release.
Qed.
Lemma wp_note t f y m m' k h : own m' k h -> m' ≡ₚ y ++ m -> kinds y ≡ₚ lost (t, f) -> wp (note_test t f) (fun _ => own m k) h.
Proof.
  intros (x & H1 & H2 & H3) E K. cbn. exists (y ++ x). cbn. split_and!; [|done|].
  - rewrite H1, E. by rewrite !(assoc_L (++)), (Permutation_app_comm x).
  - unfold kinds in *. rewrite fmap_app, H3, K. unfold lost_tables. cbn. by rewrite !(assoc_L (++)), (Permutation_app_comm k).
Qed.

(** ** Loops *)
Lemma wp_each {A} (f : A -> prog unit) (I : list A -> heap -> Prop) (l : list A) h :
  I l h -> (forall a l' h, a ∈ l -> I (a :: l') h -> wp (f a) (fun _ => I l') h) -> wp (each l f) (fun _ => I []) h.
Proof.
  intros H Hs. revert h H. induction l as [|a l IH]; intros h H; [done|].
  cbn [each]. eapply wp_bind; [apply Hs; [inm|exact H]|]. intros ? h' H'. apply IH; [|done].
  intros a' l' h1 Hi. apply Hs. inm.
Qed.
Lemma wp_each_same {A} (f : A -> prog unit) (I : heap -> Prop) (l : list A) h :
  I h -> (forall a h, a ∈ l -> I h -> wp (f a) (fun _ => I) h) -> wp (each l f) (fun _ => I) h.
Proof. intros H Hs. apply (wp_each f (fun _ => I)); [done|]. intros a _ h' Ha. by apply Hs. Qed.
Lemma wp_each_seq (f : nat -> prog unit) (I : nat -> heap -> Prop) k n h :
  I k h -> (forall i h, k <= i < k + n -> I i h -> wp (f i) (fun _ => I (S i)) h) -> wp (each (seq k n) f) (fun _ => I (k + n)) h.
Proof.
  revert k h. induction n as [|n IH]; intros k h H Hs; [by rewrite Nat.add_0_r|].
  cbn [each seq]. eapply wp_bind; [apply Hs; [lia|exact H]|]. intros ? h' H'.
  replace (k + S n) with (S k + n) by lia. apply IH; [done|]. intros i h1 Hi. apply Hs. lia.
Qed.
Lemma wp_collect {A B} (f : A -> prog B) (I : list B -> heap -> Prop) (l : list A) bs0 h :
  I bs0 h -> (forall a bs h, a ∈ l -> I bs h -> wp (f a) (fun b => I (bs ++ [b])) h) -> wp (collect l f) (fun bs h' => I (bs0 ++ bs) h' /\ length bs = length l) h.
Proof.
  revert bs0 h. induction l as [|a l IH]; intros bs0 h H Hs; [cbn; by rewrite app_nil_r|].
  cbn [collect]. eapply wp_bind; [apply Hs; [inm|exact H]|]. intros b h' H'.
  eapply wp_bind; [apply IH; [exact H'|]|].
  { intros a' bs h1 Hi. apply Hs. inm. }
  intros bs h1 [H1 L]. cbn. rewrite <-(assoc_L (++)) in H1. split; [done|]. by rewrite L.
Qed.
Lemma wp_repeat n p (I : heap -> Prop) h : I h -> (forall h, I h -> wp p (fun _ => I) h) -> wp (repeat_prog n p) (fun _ => I) h.
Proof. intros H Hs. revert h H. induction n as [|n IH]; intros h H; [done|]. cbn [repeat_prog]. eapply wp_bind; [by apply Hs|]. intros ? h' H'. by apply IH. Qed.

(** Procedures that leave everything as it was. *)
Definition calm (p : prog unit) : Prop := forall m k h, own m k h -> wp p (fun _ => own m k) h.
Tactic Notation "step" uconstr(lem) "as" simple_intropattern(p) :=
  eapply wp_bind; [eapply lem|let x := fresh "r" in let g := fresh "h" in intros x g p].

(** ** Arrays *)
Definition block (ls : list nat) : list (nat * object) := (fun l => (l, OInts)) <$> ls.
Lemma block_app a b : block (a ++ b) = block a ++ block b.
Proof. apply fmap_app. Qed.
Lemma block_in l ls : l ∈ ls -> (l, OInts) ∈ block ls.
Proof. intros H. by apply (elem_of_list_fmap_1 (fun l => (l, OInts))). Qed.
Lemma wp_new_ints m k h : own m k h -> wp new_ints (fun p h' => exists l, p = PTo l /\ own ((l, OInts) :: m) k h') h.
Proof. apply wp_new. Qed.
Lemma wp_collect_ints {A} (l : list A) m k h :
  own m k h -> wp (collect l (fun _ => new_ints)) (fun ps h' => exists ls, ps = PTo <$> ls /\ length ls = length l /\ own (block ls ++ m) k h') h.
Proof.
  intros H. eapply wp_mono.
  - apply (wp_collect _ (fun ps h => exists ls, ps = PTo <$> ls /\ own (block ls ++ m) k h) l [] h); [by exists []|].
    intros a bs h1 _ (ls & -> & H1). eapply wp_mono; [by eapply wp_new_ints|].
    intros p h2 (l0 & -> & H2). exists (ls ++ [l0]). rewrite fmap_app. split; [done|].
    eapply own_perm; [exact H2|]. rewrite block_app. cbn. perm.
  - cbn. intros bs h1 [(ls & -> & H1) L]. exists ls. rewrite fmap_length in L. done.
Qed.
Lemma wp_touch_all ls m k h (f : nat -> object) :
  own m k h -> (forall l, l ∈ ls -> (l, f l) ∈ m) -> wp (each (PTo <$> ls) touch) (fun _ => own m k) h.
Proof.
  intros H Hi. apply wp_each_same; [done|]. intros a h1 (l & -> & Hl)%elem_of_list_fmap H1. eapply wp_touch; [done|by apply Hi].
Qed.
Lemma wp_touch_block ls m m' k h : own m' k h -> m' ≡ₚ block ls ++ m -> wp (each (PTo <$> ls) touch) (fun _ => own m' k) h.
Proof.
  intros H E. apply (wp_touch_all _ _ _ _ (fun _ => OInts)); [done|]. intros l Hl. rewrite E. apply elem_of_app. left. by apply block_in.
Qed.
Lemma wp_delete_block ls m m' k h : own m' k h -> m' ≡ₚ block ls ++ m -> wp (each (PTo <$> ls) delete_array) (fun _ => own m k) h.
Proof.
  intros H E. eapply own_perm in H; [|exact E]. clear E m'. revert h H. induction ls as [|l ls IH]; intros h H; [done|].
  change (block (l :: ls) ++ m) with ((l, OInts) :: block ls ++ m) in H.
  cbn [fmap list_fmap each]. eapply wp_bind; [eapply wp_delete_array; [exact H|reflexivity|done]|]. intros ? h1 H1. by apply IH.
Qed.
Lemma calm_scratch n : calm (scratch n).
Proof.
  intros m k h H. unfold scratch. step wp_collect_ints as (ls & -> & L & H1); [exact H|].
  eapply wp_bind; [eapply wp_touch_block; [exact H1|reflexivity]|]. intros ? h2 H2.
  eapply wp_delete_block; [exact H2|reflexivity].
Qed.

Definition matrix (a : nat) (ls : list nat) : list (nat * object) := (a, OPointers (PTo <$> ls)) :: block ls.
Lemma wp_rows_of a l m k h : own m k h -> (a, OPointers l) ∈ m -> wp (rows_of (PTo a)) (fun l' h' => l' = l /\ own m k h') h.
Proof. intros H Hi. unfold rows_of. step wp_deref as [-> H1]; [exact H|exact Hi|]. done. Qed.
Lemma wp_new_rows n m k h : own m k h -> wp (new_rows n) (fun p h' => exists a ls, p = PTo a /\ length ls = n /\ own (matrix a ls ++ m) k h') h.
Proof.
  intros H. unfold new_rows. step wp_new as (a & -> & H1); [exact H|].
  eapply wp_bind.
  - apply (wp_each_seq _ (fun i h => exists ls, length ls = i /\ own ((a, OPointers ((PTo <$> ls) ++ replicate (n - i) PWild)) :: block ls ++ m) k h)).
    + exists []. split; [done|]. cbn. by rewrite Nat.sub_0_r.
    + intros i h2 Hi (ls & L & H2). step wp_new_ints as (r1 & -> & H3); [exact H2|].
      step wp_deref as [-> H4]; [exact H3|inm|]. cbn beta iota.
      eapply wp_mono; [eapply wp_assign; [exact H4|apply Permutation_swap]|].
      cbn. intros ? h5 H5. exists (ls ++ [r1]). rewrite app_length. cbn. split; [lia|].
      rewrite insert_app_r_alt in H5; [|rewrite fmap_length; lia].
      rewrite fmap_length, L, Nat.sub_diag in H5.
      replace (n - i) with (S (n - S i)) in H5 by lia. cbn [replicate] in H5.
      change (<[0:=PTo r1]> (PWild :: replicate (n - S i) PWild)) with ([PTo r1] ++ replicate (n - S i) PWild) in H5.
      rewrite (assoc_L (++)) in H5. change [PTo r1] with (PTo <$> [r1]) in H5. rewrite <-fmap_app in H5.
      eapply own_perm; [exact H5|]. rewrite block_app. cbn [block fmap list_fmap]. perm.
  - cbn. intros ? h2 (ls & L & H2). rewrite Nat.sub_diag in H2. cbn [replicate] in H2. rewrite app_nil_r in H2.
    exists a, ls. split_and!; [done|done|]. done.
Qed.
Lemma wp_delete_rows a ls n m m' k h :
  own m' k h -> m' ≡ₚ matrix a ls ++ m -> length ls = n -> wp (delete_rows (PTo a) n) (fun _ => own ((a, OPointers (replicate n PNull)) :: m) k) h.
Proof.
  intros H E L. eapply own_perm in H; [|exact E]. clear E m'. unfold delete_rows.
  eapply wp_mono.
  - apply (wp_each_seq _ (fun i h => own ((a, OPointers (replicate i PNull ++ (PTo <$> drop i ls))) :: block (drop i ls) ++ m) k h)).
    + cbn [replicate]. rewrite drop_0. exact H.
    + intros i h1 Hi H1. step wp_rows_of as [-> H2]; [exact H1|inm|].
      destruct (lookup_lt_is_Some_2 ls i) as [r Hr]; [lia|].
      rewrite (drop_S ls r i Hr) in *. cbn [fmap list_fmap block] in *.
      eapply wp_bind; [eapply wp_at; [exact H2|]|].
      { rewrite lookup_app_r, replicate_length, Nat.sub_diag by (rewrite replicate_length; lia). reflexivity. }
      intros ? h3 [-> H3]. eapply wp_bind.
      * eapply wp_delete_array; [exact H3|apply Permutation_swap|done].
      * intros ? h4 H4. eapply wp_mono; [eapply wp_assign; [exact H4|reflexivity]|]. cbn. intros ? h5 H5.
        rewrite insert_app_r_alt in H5; [|rewrite replicate_length; lia]. rewrite replicate_length, Nat.sub_diag in H5. cbn in H5.
        change (PNull :: replicate i PNull ++ (PTo <$> drop (S i) ls)) with ((PNull :: replicate i PNull) ++ (PTo <$> drop (S i) ls)).
        rewrite replicate_cons_app, <-(assoc_L (++)). exact H5.
  - cbn. intros ? h1 H1. rewrite drop_ge in H1 by lia. cbn in H1. by rewrite app_nil_r in H1.
Qed.
Lemma wp_touch_rows a ls m k h :
  own m k h -> (a, OPointers (PTo <$> ls)) ∈ m -> (forall l, l ∈ ls -> (l, OInts) ∈ m) -> wp (touch_rows (PTo a)) (fun _ => own m k) h.
Proof.
  intros H Hi Hl. unfold touch_rows. step wp_rows_of as [-> H1]; [exact H|exact Hi|]. by apply (wp_touch_all _ _ _ _ (fun _ => OInts)).
Qed.
Lemma matrix_rows a ls l : l ∈ ls -> (l, OInts) ∈ matrix a ls.
Proof. intros H. unfold matrix. apply elem_of_list_further. by apply block_in. Qed.
Lemma calm_matrix n : calm (matrix_and_degrees n).
Proof.
  intros m k h H. unfold matrix_and_degrees.
  step wp_new_rows as (a & ls & -> & L & H1); [exact H|].
  step wp_new_ints as (d & -> & H2); [exact H1|].
  eapply wp_bind; [eapply wp_touch_rows; [exact H2|unfold matrix; inm|]|].
  { intros l Hl. apply elem_of_list_further, elem_of_app. left. by apply matrix_rows. }
  intros ? h3 H3. eapply wp_bind; [eapply wp_touch; [exact H3|inm]|]. intros ? h4 H4.
  eapply wp_bind; [eapply (wp_delete_rows a ls n ((d, OInts) :: m)); [exact H4|unfold matrix; perm|done]|]. intros ? h5 H5.
  eapply wp_bind; [eapply wp_delete_array; [exact H5|reflexivity|done]|]. intros ? h6 H6.
  eapply wp_delete_array; [exact H6|reflexivity|done].
Qed.
