(** Contingency tables hold the counts of the rows. *)
From Verif Require Import CellModel CellSpec ParProofs CellProofs TableProofs.
Local Open Scope nat_scope.

(** ** Positions *)
Lemma prod_list_app l1 l2 : prod_list (l1 ++ l2) = prod_list l1 * prod_list l2.
Proof. induction l1 as [|x l IH]; [change (prod_list []) with 1; cbn [app]; lia|]. cbn [app]. change (prod_list (x :: ?k)) with (x * prod_list k). rewrite IH. lia. Qed.
Lemma prod_list_one d : prod_list [d] = d.
Proof. cbn. lia. Qed.
Lemma lex_index_snoc dims cfg d c : length dims = length cfg -> lex_index (dims ++ [d]) (cfg ++ [c]) = lex_index dims cfg * d + c.
Proof.
  revert cfg. induction dims as [|e dims IH]; intros [|x cfg] H; cbn in H; [cbn; lia|done|done|]. cbn [app lex_index]. rewrite IH by lia.
  rewrite prod_list_app, prod_list_one. lia.
Qed.
Lemma lex_index_sum dims cfg : length dims = length cfg -> lex_index dims cfg = nsum (seq 0 (length cfg)) (fun j => default 0 (cfg !! j) * prod_list (drop (S j) dims)).
Proof.
  revert cfg. induction dims as [|e dims IH]; intros [|x cfg] H; cbn in H; try done. cbn [lex_index length seq]. rewrite IH by lia.
  rewrite <-fmap_S_seq. cbn [nsum foldr]. f_equal. unfold nsum. rewrite foldr_fmap. done.
Qed.
Lemma sum_loop {I} (l : list I) (body : I -> nat -> outcome nat) f z : (forall j z, j ∈ l -> body j z = Ok (z + f j)) -> mfor l body z = Ok (z + nsum l f).
Proof.
  revert z. induction l as [|j l IH]; intros z H; cbn; [f_equal; lia|]. rewrite H by left. cbn [mbind outcome_bind]. rewrite IH by (intros; apply H; by right). f_equal. unfold nsum. lia.
Qed.
Lemma rev_seq_S s n : rev (seq s (S n)) = rev (seq (S s) n) ++ [s].
Proof. done. Qed.
Lemma levels_loop cd n c0 : forall s, s + n < length cd ->
  mfor (rev (seq s n)) (fun i cum => c ← vget cum 0; d ← vget cd (i + 1); Ok (c * d :: cum)) [c0] =
  Ok ((fun t => c0 * prod_list (take (n - t) (drop (s + t + 1) cd))) <$> seq 0 (S n)).
Proof.
  induction n as [|n IH]; intros s Hs.
  - cbn [seq rev mfor fmap list_fmap]. change (0 - 0) with 0. cbn [take]. change (prod_list []) with 1. by rewrite Nat.mul_1_r.
  - rewrite rev_seq_S, mfor_app, IH by lia. cbn [mbind outcome_bind mfor]. rewrite (vget_ok _ 0 (c0 * prod_list (take (n - 0) (drop (S s + 0 + 1) cd)))) by done. cbn [mbind outcome_bind].
    destruct (lookup_lt_is_Some_2 cd (s + 1)) as [d Hd]; [lia|]. rewrite (vget_ok _ _ _ Hd). cbn [mbind outcome_bind]. f_equal.
    change (seq 0 (S (S n))) with (0 :: seq 1 (S n)). rewrite <-fmap_S_seq. rewrite fmap_cons, <-list_fmap_compose. f_equal.
    + rewrite !Nat.sub_0_r. replace (s + 0 + 1) with (s + 1) by lia. rewrite (drop_S _ _ _ Hd). cbn [take]. change (prod_list (d :: ?l)) with (d * prod_list l). replace (S s + 0 + 1) with (S (s + 1)) by lia. lia.
    + apply list_fmap_ext. intros i t _. unfold compose. replace (S s + t + 1) with (s + S t + 1) by lia. done.
Qed.

(** ** The data *)
Section data.
Context (D : columns) (ds : list nat) (HD : tabulated D ds).
Notation rows := (seq 0 (co_rows D)).
Notation siz := (sizes_of ds).
Definition val (v k : nat) : nat := default 0 (entry (co_cols D) k v).
Set Default Proof Using "All".
Lemma cell_val v k : v < length ds -> k < co_rows D -> cell D v k = Ok (val v k) /\ entry (co_cols D) k v = Some (val v k) /\ val v k < default 0 (ds !! v).
Proof.
  intros Hv Hk. destruct HD as [Hl Hc]. destruct (lookup_lt_is_Some_2 (co_cols D) v) as [col Hcol]; [lia|]. destruct (lookup_lt_is_Some_2 ds v) as [d Hd]; [done|].
  destruct (Hc v col d Hcol Hd) as [Hlen Hall]. destruct (lookup_lt_is_Some_2 col k) as [x Hx]; [lia|].
  unfold val, entry, cell. rewrite (vget_ok _ _ _ Hcol), Hcol, Hd. cbn. rewrite Hx, (vget_ok _ _ _ Hx). cbn. split_and!; [done|done|]. rewrite Forall_lookup in Hall. by eapply Hall.
Qed.
Notation known vs := (Forall (fun v => v < length ds) vs).
Lemma row_values_val vs k : known vs -> k < co_rows D -> row_values (co_cols D) vs k = Some ((fun v => val v k) <$> vs).
Proof.
  intros Hvs Hk. unfold row_values. apply mapM_Some. induction Hvs as [|v vs Hv _ IH]; [constructor|]. constructor; [|done]. by apply cell_val.
Qed.
Lemma vals_range vs k : known vs -> k < co_rows D -> in_range (siz vs) ((fun v => val v k) <$> vs).
Proof. intros Hvs Hk. unfold in_range, sizes_of. induction Hvs as [|v vs Hv _ IH]; [constructor|]. constructor; [|done]. by apply cell_val. Qed.
Definition lexv (vs : list nat) (k : nat) : nat := lex_index (siz vs) ((fun v => val v k) <$> vs).
Lemma lexv_snoc vs v k : lexv (vs ++ [v]) k = lexv vs k * default 0 (ds !! v) + val v k.
Proof. unfold lexv, sizes_of. rewrite !fmap_app. cbn. apply lex_index_snoc. by rewrite !fmap_length. Qed.
Lemma siz_app vs ws : siz (vs ++ ws) = siz vs ++ siz ws.
Proof. apply fmap_app. Qed.
Lemma lexv_lt vs k : known vs -> k < co_rows D -> lexv vs k < prod_list (siz vs).
Proof. intros. apply lex_index_lt. by apply vals_range. Qed.
Lemma tally_hist vs (p : nat -> nat) L : known vs -> (forall k, k < co_rows D -> p k = lexv vs k) -> L = prod_list (siz vs) -> hist rows p L = tally D ds vs.
Proof.
  intros Hvs Hp ->. unfold tally. apply list_eq. intros i. destruct (decide (i < prod_list (siz vs))) as [Hi|Hi].
  - rewrite hist_lookup, list_lookup_fmap by done. destruct (lookup_lt_is_Some_2 (configs (siz vs)) i) as [cfg Hcfg]; [by rewrite configs_length|]. rewrite Hcfg. cbn. f_equal. unfold matching. apply count_ext.
    intros k Hk. apply elem_of_seq in Hk. rewrite Hp by lia. rewrite row_values_val by (done || lia). apply configs_lookup in Hcfg as [Hr <-]. split.
    + intros E. f_equal. eapply lex_index_inj; [apply vals_range; [done|lia]|done|done].
    + intros [= <-]. done.
  - rewrite lookup_ge_None_2 by (rewrite hist_length; lia). rewrite lookup_ge_None_2; [done|]. rewrite fmap_length, configs_length. lia.
Qed.
Lemma collect_sizes zs : known zs -> mcollect zs (vget ds) = Ok (siz zs).
Proof. intros Hz. apply mcollect_ok. intros v Hv. rewrite Forall_forall in Hz. destruct (lookup_lt_is_Some_2 ds v) as [d Hd]; [by apply Hz|]. rewrite (vget_ok _ _ _ Hd), Hd. done. Qed.

(** ** One conditioning set *)
Lemma shape_single_ok zs : known zs -> zs <> [] ->
  exists cum, shape_single (siz zs) = Ok (cum, prod_list (siz zs)) /\ forall k, k < co_rows D -> zindex_single D zs cum k = Ok (lexv zs k).
Proof.
  intros Hz Hne. unfold shape_single, zindex_single. assert (length (siz zs) = length zs) as Hlen by apply fmap_length. destruct (decide (length zs = 1)) as [H1|H1].
  - destruct zs as [|v [|]]; try done. rewrite bool_decide_false by (cbn; lia). cbn. exists []. split; [f_equal; f_equal; lia|]. intros k Hk. inversion_clear Hz as [|? ? Hv _]. destruct (cell_val v k Hv Hk) as (-> & _). unfold lexv. cbn. f_equal. lia.
  - assert (1 < length zs) as H2 by (destruct zs as [|? [|]]; cbn in *; [done|lia|lia]). rewrite bool_decide_true by lia. unfold levels_single. rewrite Hlen.
    destruct (lookup_lt_is_Some_2 (siz zs) (length zs - 1)) as [dl Hdl]; [lia|]. rewrite (vget_ok _ _ _ Hdl). cbn [mbind outcome_bind]. rewrite levels_loop by lia. cbn [mbind outcome_bind].
    set (cum := _ <$> seq 0 (S (length zs - 2))).
    assert (forall t, t < length zs - 1 -> cum !! t = Some (prod_list (drop (S t) (siz zs)))) as Hcum.
    { intros t Ht. unfold cum. rewrite list_lookup_fmap, lookup_seq_lt by lia. cbn [fmap option_fmap option_map]. f_equal. rewrite !Nat.add_0_l. replace (t + 1) with (S t) by lia.
      assert (drop (S t) (siz zs) = take (length zs - 2 - t) (drop (S t) (siz zs)) ++ [dl]) as E.
      { rewrite <-(take_drop (length zs - 2 - t) (drop (S t) (siz zs))) at 1. f_equal. rewrite drop_drop. replace (S t + (length zs - 2 - t)) with (length zs - 1) by lia. rewrite (drop_S _ _ _ Hdl). f_equal. apply drop_ge. lia. }
      rewrite E at 2. rewrite prod_list_app, prod_list_one. lia. }
    exists cum. split.
    + rewrite (vget_ok _ _ _ (Hcum 0 ltac:(lia))). cbn [mbind outcome_bind]. destruct (lookup_lt_is_Some_2 (siz zs) 0) as [d0 Hd0]; [lia|]. rewrite (vget_ok _ _ _ Hd0). cbn [mbind outcome_bind]. f_equal. f_equal. transitivity (prod_list (drop 0 (siz zs))); [|done]. rewrite (drop_S _ _ _ Hd0). change (prod_list (d0 :: ?l)) with (d0 * prod_list l). lia.
    + intros k Hk. rewrite bool_decide_false by done. destruct (lookup_lt_is_Some_2 zs (length zs - 1)) as [v Hv]; [lia|]. rewrite (vget_ok _ _ _ Hv). cbn [mbind outcome_bind].
      rewrite Forall_lookup in Hz. destruct (cell_val v k (Hz _ _ Hv) Hk) as (-> & _ & _). cbn [mbind outcome_bind].
      rewrite (sum_loop _ _ (fun j => default 0 (((fun v => val v k) <$> zs) !! j) * prod_list (drop (S j) (siz zs)))).
      * f_equal. unfold lexv. rewrite lex_index_sum by (by rewrite fmap_length). rewrite fmap_length. set (f := fun j => default 0 (((fun v => val v k) <$> zs) !! j) * prod_list (drop (S j) (siz zs))).
        assert (nsum (seq 0 (length zs)) f = nsum (seq 0 (length zs - 1)) f + f (length zs - 1)) as ->.
        { replace (length zs) with (S (length zs - 1)) at 1 by lia. rewrite seq_S, nsum_app. cbn [Nat.add nsum foldr]. lia. }
        assert (f (length zs - 1) = val v k) as ->; [|lia]. unfold f. rewrite list_lookup_fmap, Hv. cbn [fmap option_fmap option_map default from_option id]. rewrite drop_ge by lia. change (prod_list []) with 1. unfold id. lia.
      * intros j z Hj. apply elem_of_seq in Hj. destruct (lookup_lt_is_Some_2 zs j) as [w Hw]; [lia|]. rewrite (vget_ok _ _ _ Hw). cbn [mbind outcome_bind].
        destruct (cell_val w k (Hz _ _ Hw) Hk) as (-> & _ & _). cbn [mbind outcome_bind]. rewrite (vget_ok _ _ _ (Hcum j ltac:(lia))). cbn [mbind outcome_bind]. by rewrite list_lookup_fmap, Hw.
Qed.
Context (x y : nat) (Hx : x < length ds) (Hy : y < length ds).
Notation dx := (default 0 (ds !! x)).
Notation dy := (default 0 (ds !! y)).
Lemma elem_rows k : k ∈ rows -> k < co_rows D.
Proof. intros H. apply elem_of_seq in H. lia. Qed.
Lemma tally_xy zs : known zs -> hist rows (fun r => lexv zs r * dx * dy + val x r * dy + val y r) (prod_list (siz zs) * dx * dy) = tally D ds (zs ++ [x; y]).
Proof.
  intros Hz. assert (zs ++ [x; y] = (zs ++ [x]) ++ [y]) as -> by (by rewrite <-app_assoc). apply tally_hist.
  - rewrite !Forall_app. split_and!; [done|by constructor|by constructor].
  - intros k Hk. rewrite !lexv_snoc. lia.
  - rewrite !siz_app, !prod_list_app. cbn. lia.
Qed.
Lemma tally_one zs v : known zs -> v < length ds -> hist rows (fun r => lexv zs r * default 0 (ds !! v) + val v r) (prod_list (siz zs) * default 0 (ds !! v)) = tally D ds (zs ++ [v]).
Proof.
  intros Hz Hv. apply tally_hist.
  - rewrite !Forall_app. split_and!; [done|by constructor].
  - intros k Hk. by rewrite !lexv_snoc.
  - rewrite siz_app, prod_list_app. cbn. lia.
Qed.
Lemma tally_none zs : known zs -> hist rows (lexv zs) (prod_list (siz zs)) = tally D ds zs.
Proof. intros Hz. by apply tally_hist. Qed.
Lemma counts3d_ok zs : known zs -> zs <> [] -> counts3d D dx dy x y (siz zs) zs =
  Ok (mkC3 (prod_list (siz zs)) (tally D ds (zs ++ [x; y])) (tally D ds (zs ++ [x])) (tally D ds (zs ++ [y])) (tally D ds zs)).
Proof.
  intros Hz Hne. unfold counts3d. destruct (shape_single_ok zs Hz Hne) as (cum & -> & Hzi). cbn [mbind outcome_bind].
  rewrite (hist_loop rows _ (fun r => lexv zs r * dx * dy + val x r * dy + val y r)).
  - cbn [mbind outcome_bind]. pose proof (margins_ok rows (lexv zs) (val x) (val y) (prod_list (siz zs)) dx dy) as H. specialize (H ltac:(intros; apply lexv_lt; [done|by apply elem_rows])).
    specialize (H ltac:(intros; apply cell_val; [done|by apply elem_rows]) ltac:(intros; apply cell_val; [done|by apply elem_rows]) [] [] [] [] [] [] [] []).
    cbn [length] in H. unfold framed in H. cbn [app] in H. rewrite !app_nil_r in H. rewrite H. cbn [mbind outcome_bind]. by rewrite tally_xy, !tally_one, tally_none.
  - intros r n Hr. apply elem_rows in Hr. destruct (cell_val x r Hx Hr) as (-> & _ & _), (cell_val y r Hy Hr) as (-> & _ & _). cbn [mbind outcome_bind]. rewrite Hzi by done. done.
  - intros r Hr. apply elem_rows in Hr. apply pos3_lt; [by apply lexv_lt|by apply cell_val|by apply cell_val].
Qed.
Lemma counts2d_ok : counts2d D dx dy x y = Ok (tally D ds [x; y], tally D ds [x], tally D ds [y]).
Proof.
  unfold counts2d. rewrite (hist_loop rows _ (fun r => lexv [] r * dx * dy + val x r * dy + val y r)).
  - cbn [mbind outcome_bind]. pose proof (tally_xy [] ltac:(constructor)) as H0. cbn [app sizes_of fmap list_fmap prod_list foldr] in H0. rewrite Nat.mul_1_l in H0. rewrite H0.
    destruct (mfor_inv (fun dn st => st = (partial_hist rows (fun r => (val x r, val y r)) fst dn dx, partial_hist rows (fun r => (val x r, val y r)) snd dn dy)) (pairs dx dy)
      (fun e st => let '(i, j) := e in let '(ni, nj) := st in v ← vget (tally D ds [x; y]) (i * dy + j); ni ← add_at ni i v; nj ← add_at nj j v; Ok (ni, nj)) (replicate dx 0, replicate dy 0)) as (st & -> & ->).
    + by rewrite !partial_hist_nil.
    + intros dn [i j] rest st Hl ->. assert ((i, j) ∈ pairs dx dy) as Hin by (rewrite Hl; apply elem_of_app; right; left). apply elem_of_pairs in Hin as [Hi Hj]. eexists. split; [|reflexivity].
      rewrite (vget_ok _ _ (count (fun r => (val x r, val y r) = (i, j)) rows)).
      * cbn [mbind outcome_bind]. rewrite (partial_hist_snoc rows (fun r => (val x r, val y r)) fst dn (i, j) dx Hi). cbn [mbind outcome_bind]. by rewrite (partial_hist_snoc rows (fun r => (val x r, val y r)) snd dn (i, j) dy Hj).
      * rewrite <-H0. pose proof (cell_count rows (lexv []) (val x) (val y) 1 dx dy) as Hc. specialize (Hc ltac:(intros; apply (lexv_lt []); [constructor|by apply elem_rows])).
        specialize (Hc ltac:(intros; apply cell_val; [done|by apply elem_rows]) ltac:(intros; apply cell_val; [done|by apply elem_rows]) 0 i j ltac:(lia) Hi Hj). rewrite Nat.mul_1_l in Hc. cbn [Nat.mul Nat.add] in Hc. rewrite Hc. f_equal.
        apply count_ext. intros r _. unfold lexv. cbn. split; [by intros [= -> ->]|by intros [= -> ->]].
    + cbn [mbind outcome_bind]. assert (forall r, r ∈ rows -> (val x r, val y r) ∈ pairs dx dy) as Hin by (intros r Hr; apply elem_of_pairs; split; apply cell_val; try done; by apply elem_rows). pose proof (NoDup_pairs dx dy) as Hnd.
      rewrite !partial_hist_all by done. cbn [fst snd]. f_equal. f_equal; [f_equal|]; (apply tally_hist; [by constructor|intros k Hk; unfold lexv; cbn; lia|cbn; lia]).
  - intros r n Hr. apply elem_rows in Hr. destruct (cell_val x r Hx Hr) as (-> & _ & _), (cell_val y r Hy Hr) as (-> & _ & _). cbn [mbind outcome_bind]. unfold lexv. done.
  - intros r Hr. apply elem_rows in Hr. pose proof (pos3_lt 1 dx dy (lexv [] r) (val x r) (val y r)) as H. rewrite Nat.mul_1_l in H. apply H; [unfold lexv; cbn; lia|by apply cell_val|by apply cell_val].
Qed.
End data.
