(** Witnesses for C38 and C51. *)
From Coq Require Import Ascii String.
From Coq Require Import Field QArith.
From Verif Require Import BIFModel BIFSpec BIFProofs2 BIFMain JTSpec LearnSpec JTWitness.
From Verif Require Import NetProofs.
Local Open Scope nat_scope.

(** "0.dddd" with at most four decimals, or "1.0". *)
Definition digit_of (c : Z) : option Z := if bool_decide (48 <= c <= 57)%Z then Some (c - 48)%Z else None.
Fixpoint decimals (n : nat) (s : str) (acc : Z) : option Z :=
  match s, n with
  | [], 0 => Some acc
  | [], S n => decimals n [] (acc * 10)%Z
  | c :: s', S n => d ← digit_of c; decimals n s' (acc * 10 + d)%Z
  | _ :: _, 0 => None
  end.
Definition decimal (s : str) : option Z :=
  match s with
  | c :: p :: s' => if bool_decide (p = 46%Z) then d ← digit_of c; f ← decimals 4 s' 0%Z; Some (d * 10000 + f)%Z else None
  | _ => None
  end.
Definition stod4 (s : str) : outcome Qc := match decimal s with Some z => Ok (qz z / qz 10000)%Qc | None => Err Thrown end.
Definition num4 (s : str) : Qc := (qz (default 0%Z (decimal s)) / qz 10000)%Qc.

(** Rain; sprinkler given rain; grass given sprinkler and rain. *)
Definition garden : bnet := mkBN
  [mkBV (lit "Rain") [lit "yes"; lit "no"]; mkBV (lit "Sprinkler") [lit "on"; lit "off"]; mkBV (lit "Grass") [lit "dry"; lit "damp"; lit "wet"]]
  [mkBD 0 [] [([], [lit "0.2"; lit "0.8"])];
   mkBD 1 [0] [([0], [lit "0.01"; lit "0.99"]); ([1], [lit "0.4"; lit "0.6"])];
   mkBD 2 [1; 0] [([0; 0], [lit "0.0"; lit "0.1"; lit "0.9"]); ([1; 0], [lit "0.05"; lit "0.45"; lit "0.5"]);
                  ([0; 1], [lit "0.1"; lit "0.3"; lit "0.6"]); ([1; 1], [lit "0.98"; lit "0.015"; lit "0.005"])]].
Definition garden_lines : list str := lit "network garden {" :: lit "}" :: ((fun l => lit "  " ++ l) <$> bif_lines garden).
Definition garden_text : str := text_of garden_lines.
Lemma garden_is_bif : is_bif garden garden_text.
Proof.
  exists (lit "network garden {"), (lit "}"), ((fun l => lit "  " ++ l) <$> bif_lines garden). split; [apply (bool_decide_unpack _); vm_compute; exact I|]. split; [apply (bool_decide_unpack _); vm_compute; exact I|]. split; [|done].
  apply Forall2_fmap_r, Forall_Forall2_diag, Forall_forall. intros l _. exists (lit "  "). split; [|done]. repeat constructor; done.
Qed.
Lemma below_acyclic (arcs : list (nat * nat)) : Forall (fun a => a.1 < a.2) arcs -> acyclic (fun x y => (x, y) ∈ arcs).
Proof.
  intros H x Hx. enough (forall a b, tc (fun x y => (x, y) ∈ arcs) a b -> a < b) as Hlt by (specialize (Hlt x x Hx); lia).
  rewrite Forall_forall in H. induction 1 as [a b Hab|a b c Hab _ IH]; [by apply (H (a, b))|]. specialize (H (a, b) Hab). cbn in H. lia.
Qed.
Lemma garden_ok : bnet_ok garden.
Proof.
  constructor.
  - split; [apply (bool_decide_unpack _); vm_compute; exact I|]. unfold name_ok, word. apply (bool_decide_unpack _); vm_compute; exact I.
  - unfold value_ok, word. apply (bool_decide_unpack _); vm_compute; exact I.
  - split; [done|]. apply (bool_decide_unpack _); vm_compute; exact I.
  - apply (bool_decide_unpack _); vm_compute; exact I.
  - unfold row_ok, word. apply (bool_decide_unpack _); vm_compute; exact I.
  - apply below_acyclic. apply (bool_decide_unpack _); vm_compute; exact I.
Qed.
Lemma garden_numbers : reads_numbers stod4 num4 garden.
Proof.
  intros D r s HD Hr Hs. assert (Forall (fun D => Forall (fun r : list nat * list str => Forall (fun s => stod4 s = Ok (num4 s) /\ (0 <= num4 s)%Qc /\ (num4 s <= 1)%Qc) r.2) (bd_rows D)) (bn_dists garden)) as H.
  { repeat constructor; try reflexivity; apply (bool_decide_unpack _); vm_compute; exact I. }
  rewrite Forall_forall in H. specialize (H D HD). rewrite Forall_forall in H. specialize (H r Hr). rewrite Forall_forall in H. by apply H.
Qed.
Definition pots (ts : list ptable) : list (list Qc) := pt_pots <$> ts.
Definition tables_of (L : loaded) : outcome (list (list Qc)) := ts ← node_tables (ld_net L) (ld_counters L); Ok (pots ts).
Definition garden_probs : list xml_prob :=
  [mkXP (lit "Rain") [] (lit " 0.2 0.8 "); mkXP (lit "Sprinkler") [lit "Rain"] (lit "0.01 0.4 0.99 0.6");
   mkXP (lit "Grass") [lit "Sprinkler"; lit "Rain"] (lit "0.0 0.05 0.1 0.98 0.1 0.45 0.3 0.015 0.9 0.5 0.6 0.005")].
Definition standard_probs : list xml_prob :=
  [mkXP (lit "Rain") [] (lit " 0.2 0.8 "); mkXP (lit "Sprinkler") [lit "Rain"] (lit "0.01 0.99 0.4 0.6");
   mkXP (lit "Grass") [lit "Sprinkler"; lit "Rain"] (lit "0.0 0.1 0.9 0.1 0.3 0.6 0.05 0.45 0.5 0.98 0.015 0.005")].
Definition bad_text : str := text_of [lit "network x {"; lit "}"; lit "variable A {"; lit "type discrete [ 2 ] { yes, no };"; lit "}"; lit "variable B {"; lit "type discrete [ 2 ] { yes, no };"; lit "}";
  lit "probability ( A ) {"; lit "table 0.2, 0.8;"; lit "}"; lit "probability ( B | A ) {"; lit "(yes) 0.3, 0.7;"; lit "(No) 0.6, 0.4;"; lit "}"].
Definition blank_text : str := text_of [lit "network x {"; lit "}"; lit "variable A {"; lit "type discrete [ 2 ] { yes, no };"; lit "}"; 
  lit "probability ( A ) {"; lit "table 0.2, 0.8;"; lit "}"; []].
Lemma garden_rows : Forall (fun D => Forall (sums_to_one num4) (bd_rows D) /\ Forall (four_decimals num4) (bd_rows D)) (bn_dists garden).
Proof.
  assert (forall s, exists z, num4 s = (qz z / qz 10000)%Qc) as H by (intros s; by eexists).
  repeat (apply Forall_cons; split); try apply Forall_nil; try exact I; split; try (apply Forall_forall; intros r _; apply Forall_forall; intros s _; apply H);
    repeat (apply Forall_cons; split); try apply Forall_nil; try exact I; unfold sums_to_one; apply (bool_decide_unpack _); vm_compute; exact I.
Qed.
Lemma garden_complete : length (bn_dists garden) = bn_size garden /\ Forall (complete_rows garden) (bn_dists garden).
Proof.
  split; [done|]. repeat (apply Forall_cons; split); try apply Forall_nil; try exact I; (split; [apply (bool_decide_unpack _); vm_compute; exact I|]); intros vs Hvs; cbn in Hvs.
  - apply Forall2_nil_inv_l in Hvs as ->. left.
  - apply Forall2_cons_inv_l in Hvs as (x & vs' & Hx & Hvs & ->). apply Forall2_nil_inv_l in Hvs as ->. vm_compute in Hx. destruct x as [|[|x]]; [| |lia]; cbn; set_solver.
  - apply Forall2_cons_inv_l in Hvs as (x & vs' & Hx & Hvs & ->). apply Forall2_cons_inv_l in Hvs as (y & ws & Hy & Hvs & ->). apply Forall2_nil_inv_l in Hvs as ->. vm_compute in Hx, Hy.
    destruct x as [|[|x]]; [| |lia]; (destruct y as [|[|y]]; [| |lia]); cbn; set_solver.
Qed.
Definition entries_ok (B : bnet) (D : bdist) (pos : list nat -> nat -> nat) (es : list str) : bool :=
  bool_decide (length es = foldr Nat.mul 1 ((bn_dom B <$> bd_parents D) ++ [bn_dom B (bd_node D)])) &&
  forallb (fun r : list nat * list str => forallb (fun ys => bool_decide (es !! pos r.1 ys.1 = Some ys.2)) (imap (fun y s => (y, s)) r.2)) (bd_rows D).
Lemma entries_ok_spec B D pos es : entries_ok B D pos es = true ->
  length es = foldr Nat.mul 1 ((bn_dom B <$> bd_parents D) ++ [bn_dom B (bd_node D)]) /\ forall r y s, r ∈ bd_rows D -> r.2 !! y = Some s -> es !! pos r.1 y = Some s.
Proof.
  unfold entries_ok. intros [H1 H2]%andb_true_iff. apply bool_decide_eq_true in H1. split; [done|]. intros r y s Hr Hs. rewrite forallb_forall in H2. apply elem_of_list_In in Hr. specialize (H2 r Hr). rewrite forallb_forall in H2.
  specialize (H2 (y, s)). apply bool_decide_eq_true in H2; [done|]. apply elem_of_list_In, elem_of_lookup_imap. eauto.
Qed.
Lemma word_text b1 b2 es : Forall (fun c => (c < 33)%Z) b1 -> Forall (fun c => (c < 33)%Z) b2 -> Forall (fun e : str => e <> [] /\ Forall (fun c => (33 <= c)%Z) e) es -> table_text es (b1 ++ words es ++ b2).
Proof. intros H1 H2 H. split; [done|]. eauto. Qed.
Definition grass_entries := lit <$> ["0.0"; "0.05"; "0.1"; "0.98"; "0.1"; "0.45"; "0.3"; "0.015"; "0.9"; "0.5"; "0.6"; "0.005"]%string.
Definition grass_standard := lit <$> ["0.0"; "0.1"; "0.9"; "0.1"; "0.3"; "0.6"; "0.05"; "0.45"; "0.5"; "0.98"; "0.015"; "0.005"]%string.
Lemma garden_is_xml : is_xml garden (xml_var_of <$> bn_vars garden) garden_probs.
Proof.
  split; [done|]. apply Forall2_cons. split; [|apply Forall2_cons; split; [|apply Forall2_cons; split; [|apply Forall2_nil; exact I]]].
  - split; [done|]. split; [done|]. exists (lit <$> ["0.2"; "0.8"]%string). split; [apply (entries_ok_spec _ _ (fun vs y => little_endian _ (vs ++ [y]))); vm_compute; reflexivity|].
    apply (word_text (lit " ") (lit " ")); apply (bool_decide_unpack _); vm_compute; exact I.
  - split; [done|]. split; [done|]. exists (lit <$> ["0.01"; "0.4"; "0.99"; "0.6"]%string). split; [apply (entries_ok_spec _ _ (fun vs y => little_endian _ (vs ++ [y]))); vm_compute; reflexivity|].
    apply (word_text [] []); apply (bool_decide_unpack _); vm_compute; exact I.
  - split; [done|]. split; [done|]. exists grass_entries. split; [apply (entries_ok_spec _ _ (fun vs y => little_endian _ (vs ++ [y]))); vm_compute; reflexivity|].
    apply (word_text [] []); apply (bool_decide_unpack _); vm_compute; exact I.
Qed.
Lemma standard_is_standard : Forall2 (is_standard_prob garden) (bn_dists garden) standard_probs.
Proof.
  apply Forall2_cons. split; [|apply Forall2_cons; split; [|apply Forall2_cons; split; [|apply Forall2_nil; exact I]]].
  - split; [done|]. split; [done|]. exists (lit <$> ["0.2"; "0.8"]%string). split; [apply (entries_ok_spec _ _ (fun vs y => little_endian _ (y :: reverse vs))); vm_compute; reflexivity|].
    apply (word_text (lit " ") (lit " ")); apply (bool_decide_unpack _); vm_compute; exact I.
  - split; [done|]. split; [done|]. exists (lit <$> ["0.01"; "0.99"; "0.4"; "0.6"]%string). split; [apply (entries_ok_spec _ _ (fun vs y => little_endian _ (y :: reverse vs))); vm_compute; reflexivity|].
    apply (word_text [] []); apply (bool_decide_unpack _); vm_compute; exact I.
  - split; [done|]. split; [done|]. exists grass_standard. split; [apply (entries_ok_spec _ _ (fun vs y => little_endian _ (y :: reverse vs))); vm_compute; reflexivity|].
    apply (word_text [] []); apply (bool_decide_unpack _); vm_compute; exact I.
Qed.
Definition garden_pots : list (list Qc) := [[frac 2001 10002; frac 8001 10002]; [frac 101 10002; frac 4001 10002; frac 9901 10002; frac 6001 10002];
  [frac 1 10003; frac 501 10003; frac 1001 10003; frac 9801 10003; frac 1001 10003; frac 4501 10003; frac 3001 10003; frac 151 10003; frac 9001 10003; frac 5001 10003; frac 6001 10003; frac 51 10003]].
Lemma garden_loaded : (L ← load_bif stod4 garden_text; tables_of L) = Ok garden_pots.
Proof. vm_compute. reflexivity. Qed.
Lemma garden_xml_loaded : (L ← load_xmlbif stod4 (xml_var_of <$> bn_vars garden) garden_probs; tables_of L) = Ok garden_pots.
Proof. vm_compute. reflexivity. Qed.
Lemma bif_not_equal : exists B stod num text D r y s, bnet_ok B /\ reads_numbers stod num B /\ is_bif B text /\ D ∈ bn_dists B /\ r ∈ bd_rows D /\ NoDup (bd_rows D).*1 /\ sums_to_one num r /\ four_decimals num r /\ r.2 !! y = Some s /\
  exists L ts t, load_bif stod text = Ok L /\ node_tables (ld_net L) (ld_counters L) = Ok ts /\ ts !! bd_node D = Some t /\
    forall a, valid (net_dom (ld_net L)) a -> row_agrees D r a -> a (bd_node D) = y -> tval t a <> num s.
Proof.
  exists garden, stod4, num4, garden_text, (mkBD 0 [] [([], [lit "0.2"; lit "0.8"])]), ([], [lit "0.2"; lit "0.8"]), 0, (lit "0.2").
  pose proof (load_bif_main garden garden_ok stod4 num4 garden_numbers garden_text garden_is_bif) as (L & ts & HL & _ & Hts & _ & _ & HD & _).
  pose proof (proj1 (Forall_forall _ _) garden_rows) as Hrows.
  assert (mkBD 0 [] [([], [lit "0.2"; lit "0.8"])] ∈ bn_dists garden) as Hin by left. destruct (Hrows _ Hin) as [Hs H4]. apply Forall_cons in Hs as [Hs _]. apply Forall_cons in H4 as [H4 _].
  assert (NoDup (bd_rows (mkBD 0 [] [([], [lit "0.2"; lit "0.8"])])).*1) as Hnd by (apply (bool_decide_unpack _); vm_compute; exact I).
  split_and!; [exact garden_ok|exact garden_numbers|exact garden_is_bif|done|left|done|done|done|done|].
  destruct (HD _ Hin Hnd) as (t & Ht & _ & Hrow & _). exists L, ts, t. split_and!; [done..|]. intros a Ha Hag Hy E. rewrite (Hrow _ a (elem_of_list_here _ _) Ha Hag), Hy in E.
  destruct (row_entry_exact garden garden_ok num4 _ ([], [lit "0.2"; lit "0.8"]) 0 (lit "0.2") Hin (elem_of_list_here _ _) Hs H4 eq_refl) as [_ H]. cbn [bd_node fst snd] in *. apply H in E. vm_compute in E. done.
Qed.
Lemma unknown_value : (L ← load_bif stod4 bad_text; tables_of L) = Ok [[frac 2001 10002; frac 8001 10002]; [frac 9001 20002; frac 1 2; frac 11001 20002; frac 1 2]].
Proof. vm_compute. reflexivity. Qed.
Lemma blank_line_throws : load_bif stod4 blank_text = Err Thrown.
Proof. vm_compute. reflexivity. Qed.
Lemma standard_order_differs : exists B stod num text vars probs, bnet_ok B /\ reads_numbers stod num B /\ length (bn_dists B) = bn_size B /\ Forall (complete_rows B) (bn_dists B) /\ is_bif B text /\
  vars = xml_var_of <$> bn_vars B /\ Forall2 (is_standard_prob B) (bn_dists B) probs /\
  exists L L' ts ts', load_bif stod text = Ok L /\ load_xmlbif stod vars probs = Ok L' /\ node_tables (ld_net L) (ld_counters L) = Ok ts /\ node_tables (ld_net L') (ld_counters L') = Ok ts' /\ (pt_pots <$> ts) <> (pt_pots <$> ts').
Proof.
  exists garden, stod4, num4, garden_text, (xml_var_of <$> bn_vars garden), standard_probs. destruct garden_complete as [H1 H2].
  split_and!; [exact garden_ok|exact garden_numbers|done|done|exact garden_is_bif|done|exact standard_is_standard|].
  pose proof garden_loaded as G. destruct (load_bif stod4 garden_text) as [L|]; [|done]. cbn [mbind outcome_bind] in G. unfold tables_of in G. destruct (node_tables (ld_net L) (ld_counters L)) as [ts|] eqn:Ets; [|done]. cbn [mbind outcome_bind] in G.
  assert (exists l, (L ← load_xmlbif stod4 (xml_var_of <$> bn_vars garden) standard_probs; tables_of L) = Ok l /\ l !! 1 = Some [frac 101 4102; frac 9901 15902; frac 4001 4102; frac 6001 15902]) as (l & Hl & Hl1).
  { eexists. split; [vm_compute; reflexivity|]. vm_compute; reflexivity. }
  destruct (load_xmlbif stod4 (xml_var_of <$> bn_vars garden) standard_probs) as [L'|]; [|done]. cbn [mbind outcome_bind] in Hl. unfold tables_of in Hl. destruct (node_tables (ld_net L') (ld_counters L')) as [ts'|] eqn:Ets'; [|done]. cbn [mbind outcome_bind] in Hl.
  exists L, L', ts, ts'. split_and!; try done. intros E. assert (garden_pots = l) as E2 by (unfold pots in *; congruence). rewrite <-E2 in Hl1. vm_compute in Hl1. done.
Qed.
