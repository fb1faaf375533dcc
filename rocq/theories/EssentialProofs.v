(** A graph directed by the v-structures and closed under the three rules shows exactly the directions that all equivalent
    graphs share: an edge left undirected occurs with either direction. *)
From Verif Require Import OrientModel OrientSpec DSepSpec KahnProofs DSepProofs.
Local Open Scope nat_scope.

(** ** Acyclic relations have a topological order *)
Lemma acyclic_order (h : digraph) : let R := fun u v => h u v = true in acyclic R -> forall l, NoDup l ->
  exists ord, ord ≡ₚ l /\ forall i j x y, ord !! i = Some x -> ord !! j = Some y -> R x y -> i < j.
Proof.
  intros R Hac l. assert (forall x y, Decision (R x y)) as Hdec by (intros x y; unfold R; apply _). remember (length l) as m eqn:Hm. revert l Hm. induction m as [|m IH]; intros l Hm Hnd.
  - destruct l; [|done]. exists []. split; [done|]. intros i j x y Hi. done.
  - destruct (decide (Exists (fun x => Forall (fun y => ~ R y x) l) l)) as [He|He].
    + apply Exists_exists in He as (x & Hx & Hsrc). apply elem_of_Permutation in Hx as [l' Hl']. rewrite Hl' in Hnd. apply NoDup_cons in Hnd as [Hxl Hnd].
      destruct (IH l') as (ord & Hp & Ho); [apply Permutation_length in Hl'; cbn in Hl'; lia|done|]. exists (x :: ord). split; [by rewrite Hl', Hp|].
      intros [|i] [|j] u v Hi Hj HR; cbn in Hi, Hj; simplify_eq.
      * destruct (Hac u). by apply tc_once.
      * lia.
      * exfalso. rewrite Forall_forall in Hsrc. apply (Hsrc u); [|done]. rewrite Hl'. right. rewrite <-Hp. by eapply elem_of_list_lookup_2.
      * apply -> Nat.succ_lt_mono. by eapply Ho.
    + exfalso. destruct l as [|x0 l0]; [done|]. destruct (no_source_cycle R (x0 :: l0) x0) as (x & Hx); [left| |by apply (Hac x)].
      intros x Hx. destruct (decide (Exists (fun y => R y x) (x0 :: l0))) as [Hy|Hy]; [by apply Exists_exists in Hy|]. exfalso. apply He, Exists_exists. exists x. split; [done|].
      apply Forall_forall. intros y Hin HR. apply Hy, Exists_exists. by exists y.
Qed.

(** ** Orders in which the earlier neighbours of every node are adjacent *)
Section perfect.
Context (H : nat -> nat -> Prop) `{Hdec : forall x y, Decision (H x y)}.
Hypothesis Hsym : forall x y, H x y -> H y x.
Definition clique_list (K : list nat) : Prop := forall a b, a ∈ K -> b ∈ K -> a <> b -> H a b.
Definition perfect (l : list nat) : Prop := forall l1 z l2, l = l1 ++ z :: l2 -> forall a b, a ∈ l1 -> b ∈ l1 -> a <> b -> H a z -> H b z -> H a b.
Lemma perfect_snoc l v : perfect (l ++ [v]) <-> perfect l /\ forall a b, a ∈ l -> b ∈ l -> a <> b -> H a v -> H b v -> H a b.
Proof using.
  split.
  - intros Hp. split; [|by apply (Hp l v [])]. intros l1 z l2 -> . apply (Hp l1 z (l2 ++ [v])). by rewrite <-(assoc_L (++)).
  - intros [Hp Hv] l1 z l2 Heq. destruct l2 as [|w l2 _] using rev_ind.
    + apply app_inj_tail in Heq as [-> ->]. done.
    + change (l1 ++ z :: l2 ++ [w]) with (l1 ++ (z :: l2) ++ [w]) in Heq. rewrite (assoc_L (++)) in Heq. apply app_inj_tail in Heq as [-> ->]. by eapply Hp.
Qed.
Lemma perfect_start : forall W K, NoDup W -> perfect W -> NoDup K -> clique_list K -> (forall x, x ∈ K -> x ∈ W) -> exists R, K ++ R ≡ₚ W /\ perfect (K ++ R).
Proof using Hdec Hsym.
  induction W as [|v W IH] using rev_ind; intros K HW Hp HK Hc Hsub.
  - destruct K as [|k K]; [by exists []|]. pose proof (Hsub k ltac:(left)) as Hk. by apply elem_of_nil in Hk.
  - apply perfect_snoc in Hp as [Hp Hv]. apply NoDup_app in HW as (HW & Hvw & _). assert (v ∉ W) as Hn. { intros Hin. apply (Hvw v Hin). left. } clear Hvw.
    destruct (decide (v ∈ K)) as [HvK|HvK].
    + set (K' := filter (fun x => H x v) W). assert (NoDup K') as HK' by (by apply NoDup_filter).
      assert (forall x, x ∈ K' <-> H x v /\ x ∈ W) as HinK'. { intros x. unfold K'. by rewrite elem_of_list_filter. }
      destruct (IH K' HW Hp HK') as (R & HR & HpR). { intros a b [Ha ?]%HinK' [Hb ?]%HinK' Hab. by apply Hv. } { intros x Hx. by apply HinK' in Hx as [_ ?]. }
      assert (NoDup (K' ++ R)) as HndR by (by rewrite HR). apply NoDup_app in HndR as (_ & HdR & HndR).
      assert (forall x, x ∈ K -> x = v \/ x ∈ K') as HKK'. { intros x Hx. destruct (decide (x = v)) as [->|Hne]; [by left|right]. apply HinK'. split; [by apply Hc|]. apply Hsub, elem_of_app in Hx as [?|?%elem_of_list_singleton]; done. }
      assert (forall x, x ∈ K ++ filter (fun x => x ∉ K) K' <-> x = v \/ x ∈ K') as Hall. { intros x. rewrite elem_of_app, elem_of_list_filter. split; [intros [?|[_ ?]]; [by apply HKK'|by right]|]. intros [->|Hx]; [by left|]. destruct (decide (x ∈ K)); [by left|by right]. }
      assert (NoDup (K ++ filter (fun x => x ∉ K) K')) as Hnd1. { apply NoDup_app. split_and!; [done|intros x Hx [Hq _]%elem_of_list_filter; done|by apply NoDup_filter]. }
      assert (K ++ filter (fun x => x ∉ K) K' ≡ₚ K' ++ [v]) as Hperm. { apply NoDup_Permutation; [done| |].
        - apply NoDup_app. split_and!; [done| |apply NoDup_singleton]. intros x Hx ->%elem_of_list_singleton. apply HinK' in Hx as [_ ?]. done.
        - intros x. rewrite Hall, elem_of_app, elem_of_list_singleton. tauto. }
      assert (clique_list (K ++ filter (fun x => x ∉ K) K')) as Hcl. { intros a b Ha%Hall Hb%Hall Hab. destruct Ha as [->|Ha], Hb as [->|Hb]; [done| | |].
        - apply Hsym. by apply HinK' in Hb as [? _].
        - by apply HinK' in Ha as [? _].
        - apply HinK' in Ha as [? ?], Hb as [? ?]. by apply Hv. }
      exists (filter (fun x => x ∉ K) K' ++ R). rewrite (assoc_L (++)). split.
      * rewrite Hperm, <-(assoc_L (++)), (comm (++) [v] R), (assoc_L (++)), HR. done.
      * clear Hperm IH Hp. assert (forall R1, (exists R2, R = R1 ++ R2) -> perfect ((K ++ filter (fun x => x ∉ K) K') ++ R1)) as Hgen; [|apply Hgen; by exists []; rewrite app_nil_r].
        induction R1 as [|z R1 IHR] using rev_ind; intros [R2 HR2].
        -- rewrite app_nil_r. intros l1 z l2 Heq a b Ha Hb Hab _ _. apply Hcl; [rewrite Heq; apply elem_of_app; by left|rewrite Heq; apply elem_of_app; by left|done].
        -- rewrite (assoc_L (++)). apply perfect_snoc. split; [apply IHR; exists (z :: R2); by rewrite HR2, <-(assoc_L (++))|].
           assert (z ∈ R) as HzR. { rewrite HR2. apply elem_of_app. left. apply elem_of_app. right. left. }
           assert (~ H v z) as Hnvz. { intros Hvz. apply (HdR z); [|done]. apply HinK'. split; [by apply Hsym|]. rewrite <-HR. apply elem_of_app. by right. }
           assert (forall x, x ∈ (K ++ filter (fun x => x ∉ K) K') ++ R1 -> H x z -> x ∈ K' ++ R1) as Hin. { intros x Hx Hxz. apply elem_of_app in Hx as [Hx|Hx]; apply elem_of_app; [|by right]. apply Hall in Hx as [->|Hx]; [done|by left]. }
           intros a b Ha Hb Hab Haz Hbz. apply (HpR (K' ++ R1) z R2); try done; [|by apply Hin|by apply Hin]. rewrite HR2. by rewrite <-!(assoc_L (++)).
    + destruct (IH K HW Hp HK Hc) as (R & HR & HpR). { intros x Hx. pose proof (Hsub x Hx) as Hx'. apply elem_of_app in Hx' as [?|Hx']; [done|]. apply elem_of_list_singleton in Hx' as ->. done. }
      exists (R ++ [v]). rewrite (assoc_L (++)). split; [by rewrite HR|]. apply perfect_snoc. split; [done|]. intros a b. rewrite HR. apply Hv.
Qed.
End perfect.

(** ** The closed graph *)
Section closed.
Context (n : nat) (g : digraph) (A : adjs) (D L : pairs) (rank : nat -> nat).
Hypothesis Hb : forall x y, g x y = true -> x < n /\ y < n.
Hypothesis Hr : forall x y, g x y = true -> rank x < rank y.
Hypothesis HA : forall x y, linked A x y <-> adjacent g x y.
Hypothesis HD : forall x y, (x, y) ∈ D <-> exists z, v_structure g x y z.
Hypothesis Hdir : directing (implied A) A D L.
Hypothesis Hg : forall x y, (x, y) ∈ D ++ L -> g x y = true.
Hypothesis Hcl : forall x y, open_edge A (D ++ L) x y -> ~ implied A (D ++ L) x y.
Notation P := (D ++ L).
Notation opn x y := (open_edge A (D ++ L) x y).

Lemma opn_sym x y : opn x y -> opn y x.
Proof using HA. intros (H1 & H2 & H3). split_and!; [|done|done]. apply HA. apply HA in H1. unfold adjacent in *. tauto. Qed.
Lemma lk_sym x y : linked A x y -> linked A y x.
Proof using HA. rewrite !HA. unfold adjacent. tauto. Qed.
Lemma P_lk x y : (x, y) ∈ P -> linked A x y.
Proof using HA Hg. intros H. apply HA. left. by apply Hg. Qed.
Lemma P_rank x y : (x, y) ∈ P -> rank x < rank y.
Proof using Hr Hg. intros H. by apply Hr, Hg. Qed.
Lemma lk_dec x y : linked A x y \/ ~ linked A x y.
Proof using HA. rewrite HA. unfold adjacent. destruct (g x y), (g y x); intuition congruence. Qed.
Lemma no1 a x y : (a, x) ∈ P -> opn x y -> linked A y a.
Proof using Hcl HA. intros Hax Hxy. destruct (lk_dec y a) as [|Hn]; [done|]. exfalso. apply (Hcl x y Hxy). left. by exists a. Qed.
Lemma no2 x b y : (x, b) ∈ P -> (b, y) ∈ P -> ~ opn x y.
Proof using Hcl. intros H1 H2 Hxy. apply (Hcl x y Hxy). right. left. by exists b. Qed.
Lemma lk_cases x y : linked A x y -> opn x y \/ (x, y) ∈ P \/ (y, x) ∈ P.
Proof using. intros Hl. destruct (decide ((x, y) ∈ P)); [by right; left|]. destruct (decide ((y, x) ∈ P)); [by right; right|]. by left. Qed.

(** a -> b -- c gives a -> c. *)
Lemma into_all_at : forall L1 L2, L = L1 ++ L2 -> forall a b c, (a, b) ∈ D ++ L1 -> opn b c -> (a, c) ∈ P.
Proof using All.
  assert (forall a b c, (a, b) ∈ P -> opn b c -> (opn a c -> False) -> (a, c) ∈ P) as Hred.
  { intros a b c Hab Hbc Hno. destruct (lk_cases a c) as [?|[?|Hca]]; [|done|done|]; [apply lk_sym; by eapply no1|]. exfalso. apply (no2 c a b Hca Hab). by apply opn_sym. }
  induction L1 as [|[u v] L1 IH] using rev_ind; intros L2 HL a b c Hab Hbc.
  - rewrite app_nil_r in Hab. apply (Hred a b c); [apply elem_of_app; by left|done|]. intros Hac. apply HD in Hab as (d & Hv). assert ((a, b) ∈ P /\ (d, b) ∈ P) as [Hab Hdb]. { split; apply elem_of_app; left; apply HD; [by exists d|exists a]. destruct Hv as ([? ?] & ? & Hna). split_and!; [done|congruence|]. intros [?|?]; apply Hna; [by right|by left]. }
    destruct Hv as (_ & Hne & Hna). rewrite <-HA in Hna. destruct (lk_cases c d) as [Hcd|[Hcd|Hdc]]; [by eapply no1| | |].
    + apply (Hcl c b); [by apply opn_sym|]. right. right. exists a, d. split_and!; try done. by apply opn_sym.
    + apply (no2 c d b Hcd Hdb). by apply opn_sym.
    + apply Hna. apply (no1 d c a Hdc). by apply opn_sym.
  - assert ((u, v) :: L2 = [(u, v)] ++ L2) as Hc1 by done. rewrite <-(assoc_L (++)), <-Hc1 in HL. specialize (IH _ HL). rewrite (assoc_L (++)) in Hab. apply elem_of_app in Hab as [Hab|[= -> ->]%elem_of_list_singleton]; [by eapply IH|].
    assert (forall x, x ∈ D ++ L1 -> x ∈ P) as Hsub. { intros x Hx. rewrite HL, (assoc_L (++)). apply elem_of_app. by left. }
    assert ((u, v) ∈ P) as Huv. { rewrite HL, (assoc_L (++)). apply elem_of_app. right. left. }
    assert (open_edge A (D ++ L1) u v /\ implied A (D ++ L1) u v) as [Hopn Himp].
    { clear -Hdir HL. rewrite HL in Hdir. clear HL. revert Hdir. generalize D as D0. induction L1 as [|[x y] L1 IH]; intros D0 Hd; cbn in Hd.
      - rewrite app_nil_r. tauto.
      - destruct Hd as (_ & _ & _ & Hd). apply IH in Hd. by rewrite <-(assoc_L (++)) in Hd. }
    apply (Hred u v c Huv Hbc). intros Huc. destruct Himp as [(d & Hdu & Hnd)|[(d & Hud & Hdv)|(d & e & Hde & Hnde & Hod & Hoe & Hdv & Hev)]].
    + pose proof (IH d u c Hdu Huc) as Hdc. apply Hnd. apply (no1 d c v Hdc). by apply opn_sym.
    + pose proof (IH d v c Hdv Hbc) as Hdc. apply (no2 u d c); [by apply Hsub|done|done].
    + pose proof (IH d v c Hdv Hbc) as Hdc. pose proof (IH e v c Hev Hbc) as Hec.
      assert (linked A u d) as Hud by apply Hod. assert (linked A u e) as Hue by apply Hoe.
      assert (forall w, (w, c) ∈ P -> (u, w) ∉ P) as Hno. { intros w Hwc Huw. by apply (no2 u w c Huw Hwc). }
      destruct (lk_cases u d Hud) as [Hud'|[Hud'|Hdu]]; [|by apply (Hno d)|].
      * destruct (lk_cases u e Hue) as [Hue'|[Hue'|Heu]]; [|by apply (Hno e)|].
        -- apply (Hcl u c Huc). right. right. by exists d, e.
        -- apply Hnde. apply (no1 e u d Heu Hud').
      * destruct (lk_cases u e Hue) as [Hue'|[Hue'|Heu]]; [|by apply (Hno e)|].
        -- apply Hnde. apply lk_sym. apply (no1 d u e Hdu Hue').
        -- destruct Hod as (_ & _ & Hod). apply Hod. apply elem_of_app. left. apply HD. exists e. split_and!; [by split; apply Hg|done|]. by rewrite <-HA.
Qed.
Lemma into_all a b c : (a, b) ∈ P -> opn b c -> (a, c) ∈ P.
Proof using All. apply (into_all_at L []). by rewrite app_nil_r. Qed.
Lemma into_conn a b c : (a, b) ∈ P -> rtc (fun x y => opn x y) b c -> (a, c) ∈ P.
Proof using All. intros Hab Hc. revert a Hab. induction Hc as [b|b c d Hbc _ IH]; intros a Hab; [done|]. apply IH. by eapply into_all. Qed.

(** Directing the open edges along an order in which earlier open neighbours are adjacent. *)
Section extend.
Context (W : list nat).
Hypothesis HW : W ≡ₚ seq 0 n.
Hypothesis Hperf : perfect (fun x y => opn x y) W.
Definition place (x : nat) : nat := match list_find (eq x) W with Some (i, _) => i | None => 0 end.
Lemma place_at i x : W !! i = Some x -> place x = i.
Proof using HW.
  intros Hi. unfold place. destruct (list_find (eq x) W) as [[j y]|] eqn:Hf.
  - apply list_find_Some in Hf as (Hj & <- & _). eapply NoDup_lookup; [|exact Hj|exact Hi]. rewrite HW. apply NoDup_seq.
  - rewrite list_find_None, Forall_forall in Hf. destruct (Hf x); [by eapply elem_of_list_lookup_2|done].
Qed.
Lemma place_ex x : x < n -> W !! place x = Some x.
Proof using HW. clear -HW. intros Hx. assert (x ∈ W) as [i Hi]%elem_of_list_lookup by (rewrite HW; apply elem_of_seq; lia). by rewrite (place_at i x Hi). Qed.
Definition extension : digraph := fun x y => bool_decide ((x, y) ∈ P) || (g x y || g y x) && negb (bool_decide ((y, x) ∈ P)) && bool_decide (place x < place y).
Lemma extension_spec x y : extension x y = true <-> (x, y) ∈ P \/ opn x y /\ place x < place y.
Proof using HA.
  unfold extension, open_edge. rewrite HA. unfold adjacent. rewrite orb_true_iff, !andb_true_iff, negb_true_iff, orb_true_iff, bool_decide_eq_false, !bool_decide_eq_true. destruct (decide ((x, y) ∈ P)); tauto.
Qed.
Lemma opn_bound x y : opn x y -> x < n /\ y < n.
Proof using HA Hb. intros (H & _). apply HA in H as [H|H]; apply Hb in H; tauto. Qed.
Lemma ext_path x y : tc (fun u v => extension u v = true) x y -> (place x < place y /\ rtc (fun x y => opn x y) x y) \/ exists w, rtc (fun x y => opn x y) x w /\ tc (fun u v => (u, v) ∈ P) w y.
Proof using All.
  induction 1 as [x y [Hxy|[Hxy Hlt]]%extension_spec|x y z [Hxy|[Hxy Hlt]]%extension_spec _ IH].
  - right. exists x. split; [done|by apply tc_once].
  - left. split; [done|by apply rtc_once].
  - right. exists x. split; [done|]. destruct IH as [[_ Hc]|(w & Hc & Hw)].
    + apply tc_once. by eapply into_conn.
    + eapply tc_l; [|exact Hw]. by eapply into_conn.
  - destruct IH as [[Hlt' Hc]|(w & Hc & Hw)].
    + left. split; [lia|]. by eapply rtc_l.
    + right. exists w. split; [by eapply rtc_l|done].
Qed.
Lemma ext_acyclic : acyclic (fun u v => extension u v = true).
Proof using All.
  intros x Hx. apply ext_path in Hx as [[? _]|(w & Hc & Hw)]; [lia|].
  assert (forall u v, tc (fun u v => (u, v) ∈ P) u v -> rank u < rank v) as Hrk. { induction 1 as [u v Huv|u v t Huv _ IH]; [by apply P_rank|]. apply P_rank in Huv. lia. }
  assert (tc (fun u v => (u, v) ∈ P) w w) as Hww; [|apply Hrk in Hww; lia].
  clear Hrk. revert Hw. intros Hw. assert (forall u v, tc (fun u v => (u, v) ∈ P) u v -> forall t, rtc (fun x y => opn x y) v t -> tc (fun u v => (u, v) ∈ P) u t) as Hgo; [|by eapply Hgo].
  induction 1 as [u v Huv|u v t Huv _ IH]; intros s Hs; [apply tc_once; by eapply into_conn|]. eapply tc_l; [exact Huv|]. by apply IH.
Qed.
Lemma ext_dag : dag n extension.
Proof using All.
  split.
  - intros x y [H|[H _]]%extension_spec; [by apply Hb, Hg|by apply opn_bound].
  - destruct (acyclic_order extension ext_acyclic (seq 0 n) ltac:(apply NoDup_seq)) as (ord & Hp & Ho). exists ord. by split.
Qed.
Lemma ext_adjacent x y : adjacent extension x y <-> adjacent g x y.
Proof using All.
  unfold adjacent at 1. rewrite !extension_spec, <-HA. split.
  - intros [[H|[[H _] _]]|[H|[[H _] _]]]; [by apply P_lk|done|apply lk_sym; by apply P_lk|by apply lk_sym].
  - intros Hl. destruct (lk_cases x y Hl) as [Ho|[H|H]]; [|tauto|tauto]. destruct (opn_bound x y Ho) as [Hx Hy]. assert (place x <> place y) as Hne. { intros He. pose proof (place_ex x Hx) as Q. rewrite He, (place_ex y Hy) in Q. injection Q as ->. destruct Ho as (Ho & _). apply HA in Ho as [Ho|Ho]; apply Hr in Ho; lia. }
    pose proof (opn_sym x y Ho). destruct (decide (place x < place y)); [left|right]; right; (split; [done|lia]).
Qed.
Lemma ext_equivalent : markov_equivalent g extension.
Proof using All.
  split; [intros x y; by rewrite ext_adjacent|]. intros x y z. split.
  - intros Hv. pose proof Hv as ([H1 H2] & Hne & Hna). split_and!; [|done|by rewrite ext_adjacent]. split; apply extension_spec; left; apply elem_of_app; left; apply HD; [by exists z|exists x]. split_and!; [done|congruence|]. intros [?|?]; apply Hna; [by right|by left].
  - intros ([H1 H2] & Hne & Hna). rewrite ext_adjacent in Hna. split_and!; [|done|done]. apply extension_spec in H1, H2. rewrite <-HA in Hna.
    destruct H1 as [H1|[H1 P1]], H2 as [H2|[H2 P2]].
    + split; by apply Hg.
    + exfalso. apply Hna. apply P_lk. eapply into_all; [exact H1|by apply opn_sym].
    + exfalso. apply Hna, lk_sym. apply P_lk. eapply into_all; [exact H2|by apply opn_sym].
    + exfalso. apply Hna. destruct (opn_bound _ _ H1) as [Hx Hy], (opn_bound _ _ H2) as [Hz _]. pose proof (place_ex x Hx) as Ex. pose proof (place_ex y Hy) as Ey. pose proof (place_ex z Hz) as Ez.
      pose proof (take_drop_middle W (place y) y Ey) as Hsp. symmetry in Hsp. apply (Hperf _ _ _ Hsp x z); try done.
      * apply elem_of_list_lookup. exists (place x). by rewrite lookup_take.
      * apply elem_of_list_lookup. exists (place z). by rewrite lookup_take.
Qed.
End extend.
Lemma rank_perfect : exists W, W ≡ₚ seq 0 n /\ perfect (fun x y => opn x y) W.
Proof using All.
  destruct (acyclic_order g) with (l := seq 0 n) as (W & HW & Ho).
  - intros x Hx. assert (forall u v, tc (fun u v => g u v = true) u v -> rank u < rank v) as Hrk; [|apply Hrk in Hx; lia]. induction 1 as [u v Huv|u v t Huv _ IH]; apply Hr in Huv; lia.
  - apply NoDup_seq.
  - exists W. split; [done|]. intros l1 z l2 -> a b Ha%elem_of_list_lookup Hb'%elem_of_list_lookup Hab Haz Hbz. destruct Ha as [i Hi], Hb' as [j Hj].
    assert (forall i a, l1 !! i = Some a -> opn a z -> g a z = true) as Hinto. { intros k c Hk (Hl & _). apply HA in Hl as [Hl|Hl]; [done|]. exfalso. apply lookup_lt_Some in Hk as Hlt. assert (length l1 < k); [|lia]. apply (Ho (length l1) k z c); [by rewrite lookup_app_r, Nat.sub_diag by lia|by rewrite lookup_app_l|done]. }
    pose proof (Hinto i a Hi Haz) as Ga. pose proof (Hinto j b Hj Hbz) as Gb. destruct (lk_dec a b) as [Hl|Hl].
    + destruct (lk_cases a b Hl) as [?|[H|H]]; [done| |]; exfalso.
      * assert ((a, a) ∈ P) as Haa%P_rank; [|lia]. eapply into_all; [eapply into_all; [exact H|exact Hbz]|by apply opn_sym].
      * assert ((b, b) ∈ P) as Hbb%P_rank; [|lia]. eapply into_all; [eapply into_all; [exact H|exact Haz]|by apply opn_sym].
    + exfalso. destruct Haz as (_ & Haz & _). apply Haz. apply elem_of_app. left. apply HD. exists b. split_and!; [done|done|]. by rewrite <-HA.
Qed.
Theorem open_either x y : opn x y -> exists h, dag n h /\ markov_equivalent g h /\ h x y = true.
Proof using All.
  intros Hxy. destruct rank_perfect as (W0 & HW0 & Hp0). destruct (opn_bound x y Hxy) as [Hx Hy]. assert (x <> y) as Hne. { intros ->. destruct Hxy as (Hl & _). apply HA in Hl as [Hl|Hl]; apply Hr in Hl; lia. }
  assert (forall u v, Decision (opn u v)) as Hdec. { intros u v. destruct (g u v || g v u) eqn:Ha.
    - destruct (decide ((u, v) ∉ P /\ (v, u) ∉ P)) as [Hn|Hn]; [left|right]; unfold open_edge; rewrite HA; unfold adjacent; apply orb_true_iff in Ha; tauto.
    - right. intros (Hl & _). apply HA in Hl. apply orb_false_iff in Ha as [? ?]. unfold adjacent in Hl. intuition congruence. }
  destruct (perfect_start (fun u v => opn u v) opn_sym W0 [x; y]) as (R & HR & HpR); [by rewrite HW0; apply NoDup_seq|done|by repeat (constructor; [set_solver|]); constructor| | |].
  - intros a b Ha Hb' Hab. pose proof (opn_sym _ _ Hxy). set_solver.
  - intros a Ha. rewrite HW0. apply elem_of_seq. set_solver by lia.
  - assert ([x; y] ++ R ≡ₚ seq 0 n) as HW by (by rewrite HR). exists (extension ([x; y] ++ R)). split; [by apply ext_dag|]. split; [by apply ext_equivalent|]. apply extension_spec. right. split; [done|]. rewrite (place_at _ HW 0 x), (place_at _ HW 1 y) by done. lia.
Qed.
End closed.
