(** Grouped contingency tables are the single tables one after the other. *)
From Verif Require Import CellModel CellSpec ParProofs CellProofs CellProofs2 TableProofs.
Local Open Scope nat_scope.

(** ** Concatenations *)
Lemma concat_uniform {A} (ls : list (list A)) c i l : Forall (fun l => length l = c) ls -> ls !! i = Some l -> drop (i * c) (concat ls) = l ++ concat (drop (S i) ls).
Proof.
  intros H. revert i. induction H as [|l0 ls Hl0 _ IH]; intros [|i]; cbn [concat]; try done.
  - intros [= ->]. done.
  - intros Hi. cbn in Hi. rewrite drop_app_ge by (cbn; lia). replace (S i * c - length l0) with (i * c) by (cbn; lia). by apply IH.
Qed.
Lemma concat_uniform_lookup {A} (ls : list (list A)) c i l j : Forall (fun l => length l = c) ls -> ls !! i = Some l -> j < c -> concat ls !! (i * c + j) = l !! j.
Proof.
  intros H Hi Hj. rewrite <-lookup_drop. rewrite (concat_uniform ls c i l H Hi). rewrite lookup_app_l; [done|]. rewrite Forall_lookup in H. by rewrite (H _ _ Hi).
Qed.
Lemma concat_uniform_length {A} (ls : list (list A)) c : Forall (fun l => length l = c) ls -> length (concat ls) = c * length ls.
Proof. induction 1 as [|l ls Hl _ IH]; cbn; [lia|]. rewrite app_length, IH, Hl. lia. Qed.
Lemma framed_concat {A} (f : A -> list nat) (l : list A) m x : l !! m = Some x ->
  concat (f <$> l) = framed (concat (f <$> take m l)) (f x) (concat (f <$> drop (S m) l)).
Proof. intros H. unfold framed. rewrite <-(take_drop_middle l m x H) at 1. rewrite fmap_app, fmap_cons, concat_app. done. Qed.
Lemma concat_length_sum {A} (f : A -> list nat) (l : list A) : length (concat (f <$> l)) = nsum l (fun x => length (f x)).
Proof. induction l as [|x l IH]; [done|]. cbn. by rewrite app_length, IH. Qed.
Lemma row_start_take dz m : m <= length dz -> row_start dz m = nsum (take m dz) id.
Proof.
  revert m. induction dz as [|d dz IH]; intros m Hm; [by replace m with 0 by (cbn in Hm; lia)|]. destruct m as [|m]; [done|]. cbn [take]. cbn in Hm. cbn. unfold nsum in IH. rewrite <-IH by lia. done.
Qed.
Lemma nsum_scale {A} (l : list A) f k : nsum l (fun x => f x * k) = nsum l f * k.
Proof. induction l as [|x l IH]; [done|]. change (nsum (x :: l) ?h) with (h x + nsum l h). cbn beta. rewrite IH. lia. Qed.
Lemma nsum_fmap {A B} (h : A -> B) (l : list A) f : nsum (h <$> l) f = nsum l (fun x => f (h x)).
Proof. induction l as [|x l IH]; [done|]. cbn. unfold nsum in *. by rewrite IH. Qed.
Lemma cum_dims_ok dz g : 0 < g -> length dz = g -> cum_dims dz g = Ok (row_start dz <$> seq 0 g).
Proof.
  intros Hg Hl. unfold cum_dims.
  destruct (mfor_inv (fun dn cum => cum = row_start dz <$> seq 0 (S (length dn))) (seq 1 (g - 1)) (fun m cum => x ← vget cum (m - 1); d ← vget dz (m - 1); Ok (cum ++ [x + d])) [0]) as (cum & -> & ->).
  - cbn. by destruct dz.
  - intros dn m rest cum Hs ->. assert (m = S (length dn) /\ m < g) as [-> Hm].
    { assert (seq 1 (g - 1) !! length dn = Some m) as H by (rewrite Hs, lookup_app_r by lia; by rewrite Nat.sub_diag). apply lookup_seq in H. lia. }
    destruct (lookup_lt_is_Some_2 dz (length dn)) as [d Hd]; [lia|]. replace (S (length dn) - 1) with (length dn) by lia.
    rewrite (vget_ok (row_start dz <$> seq 0 (S (length dn))) (length dn) (row_start dz (length dn))) by (rewrite list_lookup_fmap, lookup_seq_lt by lia; done). cbn [mbind outcome_bind]. rewrite (vget_ok _ _ _ Hd). cbn [mbind outcome_bind].
    eexists. split; [done|]. rewrite app_length, Nat.add_1_r, (seq_S (S (length dn))), fmap_app. cbn [fmap list_fmap Nat.add]. by rewrite (row_start_next _ _ _ Hd).
  - rewrite seq_length. by replace (S (g - 1)) with g by lia.
Qed.
Lemma framed_bump pre l post i l' : bump l i = Ok l' -> bump (framed pre l post) (i + length pre) = Ok (framed pre l' post).
Proof.
  intros H. assert (forall l i, bump l i = add_at l i 1) as E. { intros l0 i0. unfold bump, add_at. destruct (vget l0 i0); [|done]. cbn. by rewrite Nat.add_1_r. }
  rewrite E in *. by apply framed_add_at.
Qed.

Section group.
Context (D : columns) (ds : list nat) (HD : tabulated D ds) (x y : nat) (Hx : x < length ds) (Hy : y < length ds).
Context (zss : list (list nat)) (c : nat) (Hc : 0 < c) (Hu : Forall (fun zs => length zs = c) zss) (Hg : zss <> []).
Context (Hk : Forall (Forall (fun v => v < length ds)) zss).
Notation rows := (seq 0 (co_rows D)).
Notation siz := (sizes_of ds).
Notation dx := (default 0 (ds !! x)).
Notation dy := (default 0 (ds !! y)).
Notation g := (length zss).
Notation dims_of zs := (prod_list (siz zs)).
Notation dz := ((fun zs => dims_of zs) <$> zss).
Set Default Proof Using "All".
Lemma g_pos : 0 < g.
Proof. destruct zss; [done|cbn; lia]. Qed.
Lemma siz_concat : siz (concat zss) = concat (siz <$> zss).
Proof. clear -HD. induction zss as [|zs l IH]; [done|]. cbn [concat fmap list_fmap]. rewrite (siz_app D ds HD). f_equal. exact IH. Qed.
Lemma siz_uniform : Forall (fun l => length l = c) (siz <$> zss).
Proof. apply Forall_fmap. eapply Forall_impl; [exact Hu|]. intros zs Hz. unfold compose, sizes_of. by rewrite fmap_length. Qed.
Lemma in_group i zs : zss !! i = Some zs -> length zs = c /\ Forall (fun v => v < length ds) zs.
Proof. intros H. rewrite Forall_lookup in Hu, Hk. split; [by eapply Hu|by eapply Hk]. Qed.
Lemma shape_group_ok : exists cums, shape_group (siz (concat zss)) c g = Ok (cums, dz) /\
  forall i zs k, zss !! i = Some zs -> k < co_rows D -> zindex_group D (concat zss) cums c i k = Ok (lexv D ds zs k).
Proof.
  unfold shape_group, zindex_group. case_bool_decide as H1.
  - exists []. split.
    + f_equal. f_equal. clear -Hu H1. subst c. revert Hu. generalize zss. intros l H. induction H as [|zs l Hz _ IH]; [done|]. destruct zs as [|v [|]]; try done. cbn [concat app]. rewrite fmap_cons. change (siz (v :: concat l)) with (default 0 (ds !! v) :: siz (concat l)). rewrite IH. f_equal. cbn. lia.
    + intros i zs k Hi Hkr. destruct (in_group i zs Hi) as [Hl Hzs]. rewrite H1 in Hl. destruct zs as [|v [|]]; try done.
      pose proof (concat_uniform_lookup zss c i [v] 0 Hu Hi Hc) as E. rewrite H1, Nat.mul_1_r, Nat.add_0_r in E. rewrite (vget_ok _ _ _ E). cbn [mbind outcome_bind].
      inversion_clear Hzs as [|? ? Hv _]. destruct (cell_val D ds HD v k Hv Hkr) as (-> & _). unfold lexv. cbn. f_equal. lia.
  - assert (forall i zs, zss !! i = Some zs -> levels_group (siz (concat zss)) c i = Ok ((fun t => prod_list (drop (S t) (siz zs))) <$> seq 0 c)) as Hlev.
    { intros i zs Hi. destruct (in_group i zs Hi) as [Hl Hzs]. unfold levels_group. rewrite bool_decide_false by lia.
      assert (i < g) as Hig by (by eapply lookup_lt_Some).
      assert (length (siz (concat zss)) = c * g) as Hlc by (rewrite siz_concat, (concat_uniform_length _ c siz_uniform); by rewrite fmap_length).
      rewrite levels_loop by nia. replace (S (c - 1)) with c by lia. f_equal. apply list_fmap_ext. intros t' t Ht. apply lookup_seq in Ht as [-> Ht]. cbn [Nat.add] in *. rewrite Nat.mul_1_l. f_equal.
      rewrite <-Nat.add_assoc, <-drop_drop, siz_concat. rewrite (concat_uniform (siz <$> zss) c i (siz zs) siz_uniform) by (by rewrite list_lookup_fmap, Hi).
      assert (length (siz zs) = c) as Hls by (unfold sizes_of; by rewrite fmap_length). rewrite drop_app_le by lia. replace (t' + 1) with (S t') by lia. rewrite take_app_alt; [done|]. rewrite drop_length. lia. }
    set (cums := (fun i => (fun t => prod_list (drop (S t) (siz (default [] (zss !! i))))) <$> seq 0 c) <$> seq 0 g).
    exists cums. rewrite (mcollect_ok _ _ (fun i => (fun t => prod_list (drop (S t) (siz (default [] (zss !! i))))) <$> seq 0 c)).
    2:{ intros i Hi. apply elem_of_seq in Hi. destruct (lookup_lt_is_Some_2 zss i) as [zs Hzs]; [lia|]. rewrite Hzs. cbn. by apply Hlev. }
    fold cums. cbn [mbind outcome_bind].
    assert (forall i zs, zss !! i = Some zs -> cums !! i = Some ((fun t => prod_list (drop (S t) (siz zs))) <$> seq 0 c)) as Hcums.
    { intros i zs Hi. unfold cums. rewrite list_lookup_fmap, lookup_seq_lt by (by eapply lookup_lt_Some). cbn. by rewrite Hi. }
    split.
    + rewrite (mcollect_ok _ _ (fun i => dims_of (default [] (zss !! i)))).
      * cbn [mbind outcome_bind]. f_equal. f_equal. apply list_eq. intros i. rewrite !list_lookup_fmap. destruct (decide (i < g)) as [Hi|Hi].
        -- rewrite lookup_seq_lt by done. destruct (lookup_lt_is_Some_2 zss i Hi) as [zs Hzs]. cbn. rewrite Hzs. done.
        -- rewrite lookup_seq_ge by lia. rewrite (lookup_ge_None_2 zss) by lia. done.
      * intros i Hi. apply elem_of_seq in Hi. destruct (lookup_lt_is_Some_2 zss i) as [zs Hzs]; [lia|]. rewrite (vget_ok _ _ _ (Hcums i zs Hzs)). cbn [mbind outcome_bind].
        rewrite (vget_ok _ 0 (prod_list (drop 1 (siz zs)))) by (rewrite list_lookup_fmap, lookup_seq_lt by done; done). cbn [mbind outcome_bind]. destruct (in_group i zs Hzs) as [Hl _].
        assert (length (siz zs) = c) as Hls by (unfold sizes_of; by rewrite fmap_length). destruct (siz zs) as [|d0 l] eqn:E; [cbn in Hls; lia|].
        pose proof (concat_uniform_lookup (siz <$> zss) c i (siz zs) 0 siz_uniform ltac:(by rewrite list_lookup_fmap, Hzs) Hc) as E0. rewrite Nat.add_0_r, <-siz_concat, E in E0. rewrite (vget_ok _ _ _ E0). cbn [mbind outcome_bind].
        rewrite Hzs. cbn [default from_option id]. rewrite E. cbn [drop]. f_equal. change (prod_list (d0 :: l)) with (d0 * prod_list l). apply Nat.mul_comm.
    + intros i zs k Hi Hkr. destruct (in_group i zs Hi) as [Hl Hzs]. rewrite (sum_loop _ _ (fun j => default 0 (((fun v => val D v k) <$> zs) !! j) * prod_list (drop (S j) (siz zs)))).
      * unfold lexv. rewrite lex_index_sum by (unfold sizes_of; by rewrite !fmap_length). rewrite fmap_length, Hl. done.
      * intros j z Hj. apply elem_of_seq in Hj. destruct (lookup_lt_is_Some_2 zs j) as [w Hw]; [lia|].
        rewrite (vget_ok _ _ w) by (rewrite (concat_uniform_lookup zss c i zs j Hu Hi); [done|lia]). cbn [mbind outcome_bind]. rewrite Forall_lookup in Hzs.
        destruct (cell_val D ds HD w k (Hzs _ _ Hw) Hkr) as (-> & _ & _). cbn [mbind outcome_bind]. rewrite (vget_ok _ _ _ (Hcums i zs Hi)). cbn [mbind outcome_bind].
        rewrite (vget_ok _ j (prod_list (drop (S j) (siz zs)))) by (rewrite list_lookup_fmap, lookup_seq_lt by lia; done). cbn [mbind outcome_bind]. by rewrite list_lookup_fmap, Hw.
Qed.
Notation posn zs := (fun r => lexv D ds zs r * dx * dy + val D x r * dy + val D y r).
Notation posx zs := (fun r => lexv D ds zs r * dx + val D x r).
Notation posy zs := (fun r => lexv D ds zs r * dy + val D y r).
Lemma dz_length : length dz = g.
Proof. apply fmap_length. Qed.
Lemma offset m (L : nat -> nat) (f : list nat -> list nat) k : m <= g -> (forall zs, length (f zs) = dims_of zs * k) -> length (concat (f <$> take m zss)) = row_start dz m * k.
Proof.
  intros Hm Hf. rewrite concat_length_sum. rewrite row_start_take by (by rewrite dz_length). rewrite <-fmap_take, nsum_fmap, <-nsum_scale. apply nsum_ext. intros zs _. by rewrite Hf.
Qed.
Lemma pos_lt zs r : zs ∈ zss -> r ∈ rows -> lexv D ds zs r < dims_of zs.
Proof. intros Hz Hr. apply lexv_lt; [done| |by apply (elem_rows D ds HD x y Hx Hy)]. rewrite Forall_forall in Hk. by apply Hk. Qed.
Lemma zeros k : replicate (row_start dz g * k) 0 = concat ((fun zs => replicate (dims_of zs * k) 0) <$> zss).
Proof.
  rewrite row_start_take by (by rewrite dz_length). rewrite firstn_all2 by (rewrite dz_length; lia). rewrite nsum_fmap. clear. induction zss as [|zs l IH]; [done|]. rewrite fmap_cons. cbn [concat]. rewrite <-IH, <-replicate_add. f_equal. change (nsum (zs :: l) ?f) with (f zs + nsum l f). unfold id. lia.
Qed.
Lemma count_group cums cd0 : cd0 = row_start dz <$> seq 0 g ->
  (forall i zs k, zss !! i = Some zs -> k < co_rows D -> zindex_group D (concat zss) cums c i k = Ok (lexv D ds zs k)) ->
  mfor rows (fun k n => x0 ← cell D x k; y0 ← cell D y k;
    mfor (seq 0 g) (fun i n => z ← zindex_group D (concat zss) cums c i k; o ← vget cd0 i; bump n (z * dx * dy + x0 * dy + y0 + o * dx * dy)) n) (replicate (row_start dz g * dx * dy) 0)
  = Ok (concat ((fun zs => hist rows (posn zs) (dims_of zs * dx * dy)) <$> zss)).
Proof.
  intros Hcd0 Hzi.
  destruct (mfor_inv (fun dn n => n = concat ((fun zs => hist dn (posn zs) (dims_of zs * dx * dy)) <$> zss)) rows (fun k n => x0 ← cell D x k; y0 ← cell D y k;
    mfor (seq 0 g) (fun i n => z ← zindex_group D (concat zss) cums c i k; o ← vget cd0 i; bump n (z * dx * dy + x0 * dy + y0 + o * dx * dy)) n) (replicate (row_start dz g * dx * dy) 0)) as (n & -> & ->); [| |done].
  - rewrite <-Nat.mul_assoc, zeros. f_equal. apply list_fmap_ext. intros i zs _. by rewrite hist_nil, Nat.mul_assoc.
  - intros dn k rest n Hrows ->. assert (k ∈ rows) as Hkr by (rewrite Hrows; apply elem_of_app; right; left). assert (k < co_rows D) as Hkl by (by apply (elem_rows D ds HD x y Hx Hy)).
    destruct (cell_val D ds HD x k Hx Hkl) as (-> & _ & Hxl), (cell_val D ds HD y k Hy Hkl) as (-> & _ & Hyl). cbn [mbind outcome_bind].
    set (h := fun zs => hist dn (posn zs) (dims_of zs * dx * dy)). set (h' := fun zs => hist (dn ++ [k]) (posn zs) (dims_of zs * dx * dy)).
    assert (forall zs, length (h zs) = dims_of zs * (dx * dy)) as Hlh by (intros; unfold h; by rewrite hist_length, Nat.mul_assoc).
    assert (forall zs, length (h' zs) = dims_of zs * (dx * dy)) as Hlh' by (intros; unfold h'; by rewrite hist_length, Nat.mul_assoc).
    destruct (mfor_inv (fun dm n => n = concat ((h' <$> take (length dm) zss) ++ (h <$> drop (length dm) zss))) (seq 0 g)
      (fun i n => z ← zindex_group D (concat zss) cums c i k; o ← vget cd0 i; bump n (z * dx * dy + val D x k * dy + val D y k + o * dx * dy)) (concat (h <$> zss))) as (n & -> & ->); [done| |].
    + intros dm i rest' n Hs ->. assert (i = length dm /\ i < g) as [-> Hi].
      { assert (seq 0 g !! length dm = Some i) as H by (rewrite Hs, lookup_app_r by lia; by rewrite Nat.sub_diag). apply lookup_seq in H. lia. }
      destruct (lookup_lt_is_Some_2 zss (length dm) Hi) as [zs Hzs]. rewrite (Hzi _ zs k Hzs Hkl). cbn [mbind outcome_bind].
      rewrite (vget_ok cd0 (length dm) (row_start dz (length dm))) by (rewrite Hcd0, list_lookup_fmap, lookup_seq_lt by done; done). cbn [mbind outcome_bind].
      eexists. split; [|reflexivity]. rewrite (drop_S _ _ _ Hzs), fmap_cons, concat_app. cbn [concat]. rewrite app_length. cbn [length]. rewrite Nat.add_1_r, (take_S_r _ _ _ Hzs), fmap_app, !concat_app. cbn [fmap list_fmap concat]. rewrite app_nil_r, <-app_assoc.
      assert (length (concat (h' <$> take (length dm) zss)) = row_start dz (length dm) * dx * dy) as Ho by (rewrite (offset (length dm) id h' (dx * dy)); [lia|lia|done]).
      fold (framed (concat (h' <$> take (length dm) zss)) (h zs) (concat (h <$> drop (S (length dm)) zss))). fold (framed (concat (h' <$> take (length dm) zss)) (h' zs) (concat (h <$> drop (S (length dm)) zss))).
      rewrite <-Ho. apply framed_bump. unfold h, h'. apply (bump_hist dn k (posn zs)). apply pos3_lt; [apply pos_lt; [by eapply elem_of_list_lookup_2|done]|done|done].
    + eexists. split; [reflexivity|]. rewrite seq_length, firstn_all, drop_all. by rewrite app_nil_r.
Qed.
Lemma replicate_split k a b d : replicate (a + (b + d)) k = framed (replicate a k) (replicate b k) (replicate d k) :> list nat.
Proof. clear. unfold framed. by rewrite !replicate_add. Qed.
Lemma margins_group n cd0 : cd0 = row_start dz <$> seq 0 g -> n = concat ((fun zs => hist rows (posn zs) (dims_of zs * dx * dy)) <$> zss) ->
  mfor (seq 0 g) (fun m st => o ← vget cd0 m; d ← vget dz m; margins d dx dy (o * dx * dy) (o * dx) (o * dy) o n st)
    (replicate (row_start dz g * dx) 0, replicate (row_start dz g * dy) 0, replicate (row_start dz g) 0) =
  Ok (concat ((fun zs => hist rows (posx zs) (dims_of zs * dx)) <$> zss), concat ((fun zs => hist rows (posy zs) (dims_of zs * dy)) <$> zss), concat ((fun zs => hist rows (lexv D ds zs) (dims_of zs)) <$> zss)).
Proof.
  intros Hcd0 Hn.
  set (hx := fun zs => hist rows (posx zs) (dims_of zs * dx)). set (hy := fun zs => hist rows (posy zs) (dims_of zs * dy)). set (hz := fun zs => hist rows (lexv D ds zs) (dims_of zs)).
  set (zr := fun k zs => replicate (dims_of zs * k) 0).
  assert (forall k, replicate (row_start dz g * k) 0 = concat (zr k <$> zss)) as Hzr.
  { apply zeros. }
  destruct (mfor_inv (fun dm st => st = (concat ((hx <$> take (length dm) zss) ++ (zr dx <$> drop (length dm) zss)), concat ((hy <$> take (length dm) zss) ++ (zr dy <$> drop (length dm) zss)), concat ((hz <$> take (length dm) zss) ++ (zr 1 <$> drop (length dm) zss)))) (seq 0 g)
    (fun m st => o ← vget cd0 m; d ← vget dz m; margins d dx dy (o * dx * dy) (o * dx) (o * dy) o n st) (replicate (row_start dz g * dx) 0, replicate (row_start dz g * dy) 0, replicate (row_start dz g) 0)) as (st & -> & ->).
  - cbn [length take drop app fmap list_fmap]. rewrite <-(Nat.mul_1_r (row_start dz g)) at 3. by rewrite !Hzr.
  - intros dm i rest' st Hs ->. assert (i = length dm /\ i < g) as [-> Hi].
    { assert (seq 0 g !! length dm = Some i) as H by (rewrite Hs, lookup_app_r by lia; by rewrite Nat.sub_diag). apply lookup_seq in H. lia. }
    destruct (lookup_lt_is_Some_2 zss (length dm) Hi) as [zs Hzs]. assert (zs ∈ zss) as Hin by (by eapply elem_of_list_lookup_2).
    rewrite (vget_ok cd0 (length dm) (row_start dz (length dm))) by (rewrite Hcd0, list_lookup_fmap, lookup_seq_lt by done; done). cbn [mbind outcome_bind].
    rewrite (vget_ok dz _ (dims_of zs)) by (by rewrite list_lookup_fmap, Hzs). cbn [mbind outcome_bind].
    eexists. split; [|reflexivity]. rewrite !(drop_S _ _ _ Hzs), !fmap_cons, !concat_app. cbn [concat]. rewrite app_length. cbn [length]. rewrite Nat.add_1_r, !(take_S_r _ _ _ Hzs), !fmap_app, !concat_app. cbn [fmap list_fmap concat]. rewrite !app_nil_r, <-!app_assoc.
    set (hn := fun zs => hist rows (posn zs) (dims_of zs * dx * dy)) in *.
    assert (n = framed (concat (hn <$> take (length dm) zss)) (hn zs) (concat (hn <$> drop (S (length dm)) zss))) as -> by (rewrite Hn; by apply framed_concat).
    assert (length (concat (hn <$> take (length dm) zss)) = row_start dz (length dm) * dx * dy) as On by (rewrite (offset (length dm) id hn (dx * dy)); [lia|lia|intros; unfold hn; by rewrite hist_length, Nat.mul_assoc]).
    assert (length (concat (hx <$> take (length dm) zss)) = row_start dz (length dm) * dx) as Ox by (rewrite (offset (length dm) id hx dx); [lia|lia|intros; unfold hx; by rewrite hist_length]).
    assert (length (concat (hy <$> take (length dm) zss)) = row_start dz (length dm) * dy) as Oy by (rewrite (offset (length dm) id hy dy); [lia|lia|intros; unfold hy; by rewrite hist_length]).
    assert (length (concat (hz <$> take (length dm) zss)) = row_start dz (length dm)) as Oz by (rewrite (offset (length dm) id hz 1); [lia|lia|intros; unfold hz; rewrite hist_length; lia]).
    pose proof (margins_ok rows (lexv D ds zs) (val D x) (val D y) (dims_of zs) dx dy) as H. specialize (H ltac:(intros; by apply pos_lt)).
    specialize (H ltac:(intros; apply (cell_val D ds HD); [done|by apply (elem_rows D ds HD x y Hx Hy)]) ltac:(intros; apply (cell_val D ds HD); [done|by apply (elem_rows D ds HD x y Hx Hy)])).
    specialize (H (concat (hn <$> take (length dm) zss)) (concat (hn <$> drop (S (length dm)) zss)) (concat (hx <$> take (length dm) zss)) (concat (zr dx <$> drop (S (length dm)) zss))
      (concat (hy <$> take (length dm) zss)) (concat (zr dy <$> drop (S (length dm)) zss)) (concat (hz <$> take (length dm) zss)) (concat (zr 1 <$> drop (S (length dm)) zss))).
    rewrite On, Ox, Oy, Oz in H. unfold framed in H |- *. unfold zr at 1 3 5. rewrite Nat.mul_1_r. exact H.
  - rewrite seq_length, firstn_all, drop_all. by rewrite !app_nil_r.
Qed.
Lemma counts3d_group_ok : counts3d_group D dx dy x y (siz (concat zss)) (concat zss) g =
  Ok (mkC3G dz (row_start dz <$> seq 0 g) (concat ((fun zs => tally D ds (zs ++ [x; y])) <$> zss)) (concat ((fun zs => tally D ds (zs ++ [x])) <$> zss))
        (concat ((fun zs => tally D ds (zs ++ [y])) <$> zss)) (concat (tally D ds <$> zss))).
Proof.
  pose proof g_pos as Hgp. unfold counts3d_group, idiv. rewrite bool_decide_false by lia. cbn [mbind outcome_bind].
  assert (length (siz (concat zss)) / g = c) as ->. { rewrite siz_concat, (concat_uniform_length _ c siz_uniform), fmap_length. apply Nat.div_mul. lia. }
  destruct shape_group_ok as (cums & -> & Hzi). cbn [mbind outcome_bind]. rewrite cum_dims_ok by (done || apply dz_length). cbn [mbind outcome_bind].
  rewrite (vget_ok (row_start dz <$> seq 0 g) (g - 1) (row_start dz (g - 1))) by (rewrite list_lookup_fmap, lookup_seq_lt by lia; done). cbn [mbind outcome_bind].
  destruct (lookup_lt_is_Some_2 dz (g - 1)) as [d Hd]; [rewrite dz_length; lia|]. rewrite (vget_ok _ _ _ Hd). cbn [mbind outcome_bind]. rewrite <-(row_start_next _ _ _ Hd). replace (S (g - 1)) with g by lia.
  rewrite count_group by done. cbn [mbind outcome_bind]. rewrite (margins_group _ _ eq_refl eq_refl). cbn [mbind outcome_bind]. do 2 f_equal.
  all: f_equal; apply list_fmap_ext; intros i zs Hzs; destruct (in_group i zs Hzs) as [_ Hz].
  - by apply tally_xy.
  - by apply (tally_one D ds HD x y Hx Hy).
  - by apply (tally_one D ds HD x y Hx Hy).
  - by apply (tally_none D ds HD x y Hx Hy).
Qed.
End group.
