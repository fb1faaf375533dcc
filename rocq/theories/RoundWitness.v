(** Concrete cases for Properties_Round.v. *)
From Coq Require Import Field QArith Qround Qpower Lqa.
From Verif Require Import RoundModel RoundSpec RoundProofs JTSpec JTWitness ParProofs RoundTheorems.

(** ** [round_bits] rounds *)
Section bits.
Local Open Scope Q_scope.
Lemma two_pos k : 0 < Qpower 2 k.
Proof. apply Qpower_0_lt. reflexivity. Qed.
Lemma inject_pow2 k : (0 <= k)%Z -> inject_Z (2 ^ k) == Qpower 2 k.
Proof. intros Hk. apply Zpower_Qpower. done. Qed.
Lemma scaled_big n d p : (0 < n)%Z -> (1 <= p)%nat ->
  inject_Z (2 ^ (Z.of_nat p - 1)) <= (n # d) * Qpower 2 (Z.of_nat p - (Z.log2 n - Z.log2 (Z.pos d))).
Proof.
  intros Hn Hp. pose proof (Z.log2_spec n Hn) as [L1 _]. pose proof (Z.log2_spec (Z.pos d) eq_refl) as [_ L2].
  pose proof (Z.log2_nonneg n) as P1. pose proof (Z.log2_nonneg (Z.pos d)) as P2.
  set (a := Z.log2 n) in *. set (b := Z.log2 (Z.pos d)) in *.
  rewrite inject_pow2 by lia.
  assert (Qpower 2 a <= inject_Z n) as H1. { rewrite <-inject_pow2 by done. by rewrite <-Zle_Qle. }
  assert (inject_Z (Z.pos d) <= Qpower 2 (Z.succ b)) as H2. { rewrite <-inject_pow2 by lia. rewrite <-Zle_Qle. lia. }
  assert ((n # d) * inject_Z (Z.pos d) == inject_Z n) as E. { unfold Qeq, inject_Z. cbn. lia. }
  assert (0 < inject_Z (Z.pos d)) as Hd by reflexivity.
  set (k := (Z.of_nat p - (a - b))%Z) in *. pose proof (two_pos k) as Hk. pose proof (two_pos (Z.of_nat p - 1)) as Hq.
  apply (Qmult_le_r _ _ _ Hd). setoid_replace ((n # d) * 2 ^ k * inject_Z (Z.pos d)) with (inject_Z n * 2 ^ k) by (rewrite <-E; ring).
  apply (Qle_trans _ (2 ^ (Z.of_nat p - 1) * 2 ^ Z.succ b)).
  - rewrite Qmult_comm, (Qmult_comm (2 ^ (Z.of_nat p - 1))). apply Qmult_le_compat_r; [done|by apply Qlt_le_weak].
  - rewrite <-Qpower_plus by done. replace (Z.of_nat p - 1 + Z.succ b)%Z with (a + k)%Z by (unfold k; lia). rewrite Qpower_plus by done. apply Qmult_le_compat_r; [done|by apply Qlt_le_weak].
Qed.
Lemma nearest_close h y : (1 <= h)%Z -> inject_Z h <= y ->
  let r := inject_Z (Qfloor (y + (1 # 2))) in r * (2 * inject_Z h) <= (2 * inject_Z h + 1) * y /\ y * (2 * inject_Z h) <= (2 * inject_Z h + 1) * r /\ 0 < r.
Proof.
  intros Hh Hy. cbv zeta. pose proof (Qfloor_le (y + (1 # 2))) as H1. pose proof (Qlt_floor (y + (1 # 2))) as H2. set (r := Qfloor _) in *. rewrite inject_Z_plus in H2.
  assert (h <= r)%Z as Hr. { apply Zlt_succ_le. rewrite Zlt_Qlt. unfold Z.succ. rewrite inject_Z_plus. change (inject_Z 1) with 1 in *. Lqa.lra. }
  rewrite Zle_Qle in Hr, Hh. change (inject_Z 1) with 1 in *. set (R := inject_Z r) in *. set (H := inject_Z h) in *. split_and!; [Lqa.nra|Lqa.nra|Lqa.lra].
Qed.
Lemma round_bits_rounds p : (1 <= p)%nat -> rounds (1 + frac 1 (2 ^ Pos.of_nat p))%Qc (round_bits p).
Proof.
  intros Hp. set (c := (1 + frac 1 (2 ^ Pos.of_nat p))%Qc). assert (c == 1 + (1 # 2 ^ Pos.of_nat p)) as Ec. { unfold c, Qcplus, frac. cbn [this Q2Qc]. rewrite !Qred_correct. reflexivity. }
  assert (1 <= c)%Qc as Hc. { unfold Qcle. rewrite Ec. change (this 1%Qc) with 1. assert (0 < 1 # 2 ^ Pos.of_nat p) by reflexivity. Lqa.lra. }
  split; [done|]. intros x Hx. unfold round_bits. destruct (Z.leb_spec (Qnum x) 0) as [Hn|Hn].
  { assert (x = 0%Qc) as ->. { apply Qcle_antisym; [|done]. unfold Qcle, Qle. change (Qnum (this 0%Qc)) with 0%Z. rewrite Z.mul_0_l. change (Zpos (Qden (this 0%Qc))) with 1%Z. lia. } replace (c * 0)%Qc with 0%Qc by ring. split; apply Qcle_refl. }
  set (k := (Z.of_nat p - _)%Z). change (2 # 1) with 2. pose proof (two_pos k) as Hs. set (s := 2 ^ k) in *. set (h := (2 ^ (Z.of_nat p - 1))%Z).
  assert (1 <= h)%Z as Hh. { unfold h. apply (Z.pow_le_mono_r 2 0); lia. }
  assert (inject_Z h <= x * s) as Hb. { pose proof (scaled_big (Qnum x) (Qden x) p Hn Hp) as H. fold k in H. fold s in H. destruct x as [[n d] C]. exact H. }
  destruct (nearest_close h (x * s) Hh Hb) as (H1 & H2 & H3). set (r := inject_Z (Qfloor (x * s + (1 # 2)))) in *.
  assert ((1 # 2 ^ Pos.of_nat p) * (2 * inject_Z h) == 1) as E2.
  { unfold h. assert (2 ^ Z.of_nat p = 2 * 2 ^ (Z.of_nat p - 1))%Z as E. { rewrite <-Z.pow_succ_r by lia. f_equal. lia. }
    assert (2 * inject_Z (2 ^ (Z.of_nat p - 1)) == inject_Z (2 ^ Z.of_nat p)) as -> by (rewrite E, inject_Z_mult; reflexivity). unfold Qeq, inject_Z, Qmult. cbn [Qnum Qden]. rewrite Pos.mul_1_r, Pos2Z.inj_pow. rewrite !Z.mul_1_l, Z.mul_1_r. f_equal. destruct p as [|p]; [lia|]. rewrite <-(positive_nat_Z (Pos.of_nat (S p))), Nat2Pos.id by lia. done. }
  set (e := 1 # 2 ^ Pos.of_nat p) in *. set (H := inject_Z h) in *. assert (1 <= H) as HH by (unfold H; change 1 with (inject_Z 1); by rewrite <-Zle_Qle).
  assert (0 < 2 * H) as HH' by Lqa.lra. unfold Qcle, Qcmult. cbn [this Q2Qc]. rewrite !Qred_correct, Ec.
  split.
  - apply Qle_shift_div_r; [done|]. apply (Qmult_le_r _ _ _ HH'). setoid_replace ((1 + e) * x * s * (2 * H)) with ((2 * H + e * (2 * H)) * (x * s)) by ring. rewrite E2. exact H1.
  - setoid_replace ((1 + e) * (r / s)) with ((1 + e) * r / s) by (field; intros E; rewrite E in Hs; by apply Qlt_irrefl in Hs).
    apply Qle_shift_div_l; [done|]. apply (Qmult_le_r _ _ _ HH'). setoid_replace ((1 + e) * r * (2 * H)) with ((2 * H + e * (2 * H)) * r) by ring. rewrite E2. exact H2.
Qed.
End bits.

(** ** 53 binary digits on the network of JTWitness.v *)
Local Open Scope nat_scope.
Definition eps : Qc := frac 1 (2 ^ 53).
Lemma bits53 : rounds (1 + eps)%Qc (round_bits 53).
Proof. apply (round_bits_rounds 53). lia. Qed.
Definition rounded_pts : list ptable := round_table (round_bits 53) <$> jt_pts.
Lemma round_table_within c rnd t : rounds c rnd -> Forall (fun x => (0 <= x)%Qc) (pt_pots t) -> table_within (c ^ 1)%Qc t (round_table rnd t).
Proof.
  intros Hr HF. split_and!; try done. cbn [round_table pt_pots]. replace (c ^ 1)%Qc with c by (cbn; ring). induction HF as [|x l Hx _ IH]; [constructor|]. constructor; [by apply within_rnd|done].
Qed.
Lemma rounded_pts_within : Forall2 (table_within ((1 + eps) ^ 1)%Qc) jt_pts rounded_pts.
Proof.
  unfold rounded_pts. apply Forall2_fmap_r, Forall_Forall2_diag, Forall_forall. intros t Ht. apply round_table_within; [exact bits53|].
  repeat (apply elem_of_cons in Ht as [->|Ht]; [apply (bool_decide_unpack _); vm_compute; exact I|]). by apply elem_of_nil in Ht.
Qed.
Definition rounded_tree : jtree := Eval vm_compute in get (mkTree [] [] (mkMarks [] [] [] []) (mkTabs [] [])) (jt_build_r (round_bits 53) rev_order jt_net rounded_pts).
Lemma rounded_tree_built : jt_build_r (round_bits 53) rev_order jt_net rounded_pts = Ok rounded_tree.
Proof. vm_compute. reflexivity. Qed.
Lemma round_hyps : rounds (1 + eps)%Qc (round_bits 53) /\ Forall2 (table_within ((1 + eps) ^ 1)%Qc) jt_pts rounded_pts /\ jt_build_r (round_bits 53) rev_order jt_net rounded_pts = Ok rounded_tree.
Proof. exact (conj bits53 (conj rounded_pts_within rounded_tree_built)). Qed.
(** The first posterior, 445/1759, is not met exactly. *)
Lemma rounded_answer : exists ps, query_probs_r (round_bits 53) wild_sched rounded_tree jt_evidence (jt_backup rounded_tree) = Ok (jt_backup rounded_tree, ps) /\
  length ps = 9 /\ ps !! 0 <> Some (frac 445 1759) /\ ps !! 7 = Some minus_one.
Proof. eexists. split; [vm_compute; reflexivity|]. split_and!; [reflexivity|vm_compute; discriminate|apply (bool_decide_unpack _); vm_compute; exact I]. Qed.

(** ** Underflow *)
Definition tiny : Qc := frac 1 (2 ^ 600).
Definition tiny_pts : list ptable := [mk_table [0] [2] [tiny; 1 - tiny]%Qc; mk_table [1] [2] [tiny; 1 - tiny]%Qc;
  mk_table [2;0;1] [2;2;2] [frac 1 4; frac 1 3; frac 1 2; frac 1 5; frac 3 4; frac 2 3; frac 1 2; frac 4 5];
  mk_table [3;2] [3;2] [frac 1 2; frac 1 3; frac 1 4; frac 1 3; frac 1 4; frac 1 3]].
Lemma tiny_tables : Forall (table_of_family jt_net) tiny_pts.
Proof.
  repeat constructor.
  all: try (apply (bool_decide_unpack _); vm_compute; exact I); try done.
  - exists 0. split; [vm_compute; lia|]. intros v ->%elem_of_list_singleton. by left.
  - exists 1. split; [vm_compute; lia|]. intros v ->%elem_of_list_singleton. by left.
  - exists 2. split; [vm_compute; lia|]. intros v Hv. repeat (apply elem_of_cons in Hv as [->|Hv]); [by left|right; apply jt_edge; set_solver|right; apply jt_edge; set_solver|by apply elem_of_nil in Hv].
  - exists 3. split; [vm_compute; lia|]. intros v Hv. repeat (apply elem_of_cons in Hv as [->|Hv]); [by left|right; apply jt_edge; set_solver|by apply elem_of_nil in Hv].
Qed.
Definition flush53 : Qc -> Qc := flushing (frac 1 (2 ^ 1022)) (round_bits 53).
Lemma flush53_rounds x : (frac 1 (2 ^ 1022) <= x)%Qc -> (flush53 x <= (1 + eps) * x)%Qc /\ (x <= (1 + eps) * flush53 x)%Qc.
Proof.
  intros Hx. unfold flush53, flushing. rewrite bool_decide_false by (intros H; by apply (Qclt_not_le _ _ H)). apply bits53. eapply Qcle_trans; [|exact Hx]. vm_compute. discriminate.
Qed.
Definition tiny_tree : jtree := Eval vm_compute in get (mkTree [] [] (mkMarks [] [] [] []) (mkTabs [] [])) (jt_build_r flush53 addr_order jt_net tiny_pts).
Lemma underflow_witness :
  (forall x, (frac 1 (2 ^ 1022) <= x)%Qc -> (flush53 x <= (1 + frac 1 (2 ^ 53)) * x)%Qc /\ (x <= (1 + frac 1 (2 ^ 53)) * flush53 x)%Qc) /\
  net_ok jt_net /\ Forall (table_of_family jt_net) tiny_pts /\ Forall (nonneg (net_dom jt_net)) tiny_pts /\ evidence_in_range jt_net [(0, 0); (1, 0)] /\
  posterior jt_net tiny_pts [(0, 0); (1, 0)] 2 0 = frac 1 4 /\
  jt_build_r flush53 addr_order jt_net tiny_pts = Ok tiny_tree /\ query_probs_r flush53 wild_sched tiny_tree [(0, 0); (1, 0)] (jt_backup tiny_tree) = Err DivZero.
Proof.
  split_and!.
  - exact flush53_rounds.
  - exact jt_net_ok.
  - exact tiny_tables.
  - apply Forall_forall. intros t Ht. apply nonneg_pots. repeat (apply elem_of_cons in Ht as [->|Ht]; [apply (bool_decide_unpack _); vm_compute; exact I|]). by apply elem_of_nil in Ht.
  - intros v x Hin _. repeat (apply elem_of_cons in Hin as [[= -> ->]|Hin]; [vm_compute; lia|]). by apply elem_of_nil in Hin.
  - apply (bool_decide_unpack _). vm_compute. exact I.
  - vm_compute. reflexivity.
  - vm_compute. reflexivity.
Qed.
