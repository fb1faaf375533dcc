(** The labelling rule of FindCompelled: the compelled edges into a node y, given those into its last parent x. *)
From Verif Require Import OrientModel OrientSpec DSepSpec DSepProofs EssentialProofs.
Local Open Scope nat_scope.

Section label.
Context (n : nat) (g : digraph) (A : adjs) (D L : pairs) (rank : nat -> nat).
Hypothesis Hb : forall x y, g x y = true -> x < n /\ y < n.
Hypothesis Hr : forall x y, g x y = true -> rank x < rank y.
Hypothesis HA : forall x y, linked A x y <-> adjacent g x y.
Hypothesis HD : forall x y, (x, y) ∈ D <-> exists z, v_structure g x y z.
Hypothesis Hdir : directing (implied A) A D L.
Hypothesis Hg : forall x y, (x, y) ∈ D ++ L -> g x y = true.
Hypothesis Hcl : forall x y, open_edge A (D ++ L) x y -> ~ implied A (D ++ L) x y.
Notation P := (D ++ L).
Notation opn x y := (open_edge A (D ++ L) x y).
Set Default Proof Using "All".

Lemma kinds x y : g x y = true -> opn x y \/ (x, y) ∈ P.
Proof. intros H. destruct (lk_cases A D L x y) as [?|[?|Hyx]]; [apply HA; by left|by left|by right|]. exfalso. apply Hg, Hr in Hyx. apply Hr in H. lia. Qed.
Lemma vs a y b : v_structure g a y b -> (a, y) ∈ P.
Proof. intros H. apply elem_of_app. left. apply HD. by exists b. Qed.
Lemma R1 a b y : (a, b) ∈ P -> g b y = true -> ~ linked A a y -> (b, y) ∈ P.
Proof. intros Hab Hby Hn. destruct (kinds b y Hby) as [Ho|?]; [|done]. exfalso. apply Hn. apply (lk_sym g A HA). exact (no1 g A D L HA Hcl a b y Hab Ho). Qed.
Lemma R2 a b y : (a, b) ∈ P -> (b, y) ∈ P -> g a y = true -> (a, y) ∈ P.
Proof. intros Hab Hby Hay. destruct (kinds a y Hay) as [Ho|?]; [|done]. destruct (no2 A D L Hcl a b y Hab Hby Ho). Qed.
Lemma R3 a b c y : opn a b -> opn a c -> b <> c -> ~ linked A b c -> (b, y) ∈ P -> (c, y) ∈ P -> g a y = true -> (a, y) ∈ P.
Proof. intros Hab Hac Hbc Hn Hby Hcy Hay. destruct (kinds a y Hay) as [Ho|?]; [|done]. exfalso. apply (Hcl a y Ho). right. right. by exists b, c. Qed.
Lemma RI a b c : (a, b) ∈ P -> opn b c -> (a, c) ∈ P.
Proof. by apply (into_all n g A D L rank). Qed.
Lemma osym x y : opn x y -> opn y x.
Proof. by apply (opn_sym g A D L HA). Qed.
Lemma lsym x y : linked A x y -> linked A y x.
Proof. by apply (lk_sym g A HA). Qed.
Lemma ldec x y : linked A x y \/ ~ linked A x y.
Proof. by apply (lk_dec g A HA). Qed.
Lemma glk x y : g x y = true -> linked A x y.
Proof. intros H. apply HA. by left. Qed.
Lemma vstruct a y b : g a y = true -> g b y = true -> a <> b -> ~ linked A a b -> (a, y) ∈ P.
Proof. intros H1 H2 H3 H4. apply (vs a y b). split_and!; [done|done|]. by rewrite <-HA. Qed.

(** [x] is the last parent of [y]. *)
Context (x y : nat).
Hypothesis Hxy : g x y = true.
Hypothesis Hlast : forall z, g z y = true -> z <> x -> rank z < rank x.
Lemma linked_x z : g z y = true -> z <> x -> linked A z x -> g z x = true.
Proof. intros Hz Hne Hl. apply HA in Hl as [?|Hxz]; [done|]. apply Hr in Hxz. specialize (Hlast z Hz Hne). lia. Qed.
Lemma forced1 w b : (w, x) ∈ P -> g w y = false -> g b y = true -> (b, y) ∈ P.
Proof.
  intros Hwx Hwy Hby. assert (~ linked A w y) as Hn. { intros Hl. apply HA in Hl as [?|Hyw]; [congruence|]. apply Hr in Hyw. apply Hg, Hr in Hwx. apply Hr in Hxy. lia. }
  assert ((x, y) ∈ P) as Hxc by (by apply (R1 w x y)). destruct (decide (b = x)) as [->|Hne]; [done|]. destruct (ldec b x) as [Hl|Hl]; [|by apply (vstruct b y x)].
  pose proof (linked_x b Hby Hne Hl) as Hbx. destruct (kinds b x Hbx) as [Ho|Hc]; [|by apply (R2 b x y)]. apply (R1 w b y); [|done|done]. by apply (RI w x b); [|apply osym].
Qed.
Lemma forced2 z b : g z y = true -> z <> x -> g z x = false -> g b y = true -> (b, y) ∈ P.
Proof.
  intros Hzy Hzx Hn Hby. assert (~ linked A z x) as Hnl. { intros Hl. pose proof (linked_x z Hzy Hzx Hl). congruence. }
  assert ((x, y) ∈ P) as Hxc. { apply (vstruct x y z); try done. intros Hl. by apply Hnl, lsym. }
  assert ((z, y) ∈ P) as Hzc by (by apply (vstruct z y x)).
  destruct (decide (b = x)) as [->|Hbx]; [done|]. destruct (decide (b = z)) as [->|Hbz]; [done|]. destruct (ldec b x) as [Hl|Hl]; [|by apply (vstruct b y x)].
  pose proof (linked_x b Hby Hbx Hl) as Gbx. destruct (kinds b x Gbx) as [Ho|Hc]; [|by apply (R2 b x y)].
  destruct (ldec b z) as [Hlz|Hlz]; [|by apply (vstruct b y z)]. destruct (lk_cases A D L b z Hlz) as [Hoz|[Hbzc|Hzb]].
  - apply (R3 b x z y); try done. intros Hl2. by apply Hnl, lsym.
  - by apply (R2 b z y).
  - apply (R2 b x y); [|done|done]. by apply (R1 z b x).
Qed.
Lemma forced3 b : (b, x) ∈ P -> g b y = true -> (b, y) ∈ P.
Proof. intros Hbx Hby. destruct (kinds x y Hxy) as [Ho|Hc]; [by apply (RI b x y)|by apply (R2 b x y)]. Qed.
Section free.
Hypothesis Hno1 : forall w, (w, x) ∈ P -> g w y = true.
Hypothesis Hno2 : forall z, g z y = true -> z <> x -> g z x = true.
Lemma free_at : forall L1 L2, L = L1 ++ L2 -> forall b, (b, y) ∈ D ++ L1 -> (b, x) ∈ P.
Proof.
  induction L1 as [|[u v] L1 IH] using rev_ind; intros L2 HL b Hby.
  - rewrite app_nil_r in Hby. apply HD in Hby as (c & [Gb Gc] & Hne & Hna). rewrite <-HA in Hna. destruct (decide (b = x)) as [->|Hbx].
    + exfalso. apply Hna. apply lsym, glk. by apply Hno2.
    + destruct (decide (c = x)) as [->|Hcx]; [exfalso; by apply Hna, glk, Hno2|]. apply (vstruct b x c); [by apply Hno2|by apply Hno2|done|done].
  - assert ((u, v) :: L2 = [(u, v)] ++ L2) as Hc1 by done. rewrite <-(assoc_L (++)), <-Hc1 in HL. specialize (IH _ HL). rewrite (assoc_L (++)) in Hby. apply elem_of_app in Hby as [Hby|[= -> ->]%elem_of_list_singleton]; [by eapply IH|].
    assert (forall p, p ∈ D ++ L1 -> p ∈ P) as Hsub. { intros p Hp. rewrite HL, (assoc_L (++)). apply elem_of_app. by left. }
    assert ((u, v) ∈ P) as Huv. { rewrite HL, (assoc_L (++)). apply elem_of_app. right. left. }
    assert (open_edge A (D ++ L1) u v /\ implied A (D ++ L1) u v) as [_ Himp].
    { clear -Hdir HL. rewrite HL in Hdir. clear HL. revert Hdir. generalize D as D0. induction L1 as [|[a c] L1 IH]; intros D0 Hd; cbn in Hd.
      - rewrite app_nil_r. tauto.
      - destruct Hd as (_ & _ & _ & Hd). apply IH in Hd. by rewrite <-(assoc_L (++)) in Hd. }
    pose proof (Hg u v Huv) as Gu.
    destruct (decide (u = x)) as [->|Hux].
    + exfalso. destruct Himp as [(a & Hau & Hna)|[(d & Hud & Hdv)|(d & e & Hde & Hnde & Hod & Hoe & Hdv & Hev)]].
      * apply Hna, lsym, glk, Hno1. by apply Hsub.
      * apply IH in Hdv. apply Hsub, Hg, Hr in Hud. apply Hg, Hr in Hdv. lia.
      * apply IH in Hdv, Hev. destruct Hod as (_ & _ & Hod). apply Hod. apply elem_of_app. left. apply HD. exists e. split_and!; [by split; apply Hg|done|]. by rewrite <-HA.
    + pose proof (Hno2 u Gu Hux) as Gux. destruct (kinds u x Gux) as [Ho|?]; [|done]. destruct Himp as [(a & Hau & Hna)|[(d & Hud & Hdv)|(d & e & Hde & Hnde & Hod & Hoe & Hdv & Hev)]].
      * exfalso. apply Hna, lsym, glk, Hno1. apply (RI a u x); [by apply Hsub|done].
      * apply IH in Hdv. apply (R2 u d x); [by apply Hsub|done|done].
      * apply IH in Hdv, Hev. assert (linked A u d) as Hlud by apply Hod. assert (linked A u e) as Hlue by apply Hoe.
        destruct (lk_cases A D L u d Hlud) as [Hd|[Hd|Hd]].
        -- destruct (lk_cases A D L u e Hlue) as [He|[He|He]]; [by apply (R3 u d e x)|by apply (R2 u e x)|].
           exfalso. apply Hnde. exact (no1 g A D L HA Hcl e u d He Hd).
        -- by apply (R2 u d x).
        -- destruct (lk_cases A D L u e Hlue) as [He|[He|He]]; [|by apply (R2 u e x)|].
           ++ exfalso. apply Hnde, lsym. exact (no1 g A D L HA Hcl d u e Hd He).
           ++ exfalso. destruct Hod as (_ & _ & Hod). apply Hod. apply elem_of_app. left. apply HD. exists e. split_and!; [by split; apply Hg|done|]. by rewrite <-HA.
Qed.
End free.
Theorem compelled_rule b : g b y = true ->
  (b, y) ∈ P <-> (exists w, (w, x) ∈ P /\ g w y = false) \/ (exists z, g z y = true /\ z <> x /\ g z x = false) \/ (b, x) ∈ P.
Proof.
  intros Hby. split.
  - intros Hc. destruct (decide (Exists (fun p => snd p = x /\ g (fst p) y = false) P)) as [He|He].
    { left. apply Exists_exists in He as ([w x'] & Hin & Hx' & Hw). cbn in Hx', Hw. subst x'. by exists w. }
    destruct (decide (Exists (fun z => g z y = true /\ z <> x /\ g z x = false) (seq 0 n))) as [Hz|Hz].
    { right. left. apply Exists_exists in Hz as (z & _ & Hz). by exists z. }
    right. right. apply (free_at) with (L1 := L) (L2 := []); [| |by rewrite app_nil_r|done].
    + intros w Hw. destruct (g w y) eqn:E; [done|]. exfalso. apply He, Exists_exists. by exists (w, x).
    + intros z Hzy Hzx. destruct (g z x) eqn:E; [done|]. exfalso. apply Hz, Exists_exists. exists z. split; [|done]. apply elem_of_seq. apply Hb in Hzy. lia.
  - intros [(w & Hw & Hwy)|[(z & Hz & Hzx & Hn)|Hbx]]; [by apply (forced1 w)|by apply (forced2 z)|by apply forced3].
Qed.
End label.
