(** The structure file, whatever the tests answer. *)
From Coq Require Import Ascii String.
From Coq Require Import Field QArith.
From Verif Require Import SaveModel SaveSpec PCSpec OrientSpec OrientSafe NetProofs PCAny OrientPairs LearnedProofs SaveProofs ClassProofs RootProofs.
Local Open Scope nat_scope.

Theorem structure_any train header rows : csv_table train header rows -> NoDup header ->
  forall accept depth fuel size ssch coin flips show,
  exists d D, load_csv_training train = Ok d /\ columns_of d = Ok D /\
  forall N, learn_structure accept depth fuel size ssch false coin d D = Ok N ->
    (nt_edges N = [] -> forall sp, learn_network accept depth fuel size ssch coin flips show true sp train = Err OutOfBounds) /\
    (nt_edges N <> [] -> forall sp, exists E ls p, joined_pairs N E /\
      learn_network accept depth fuel size ssch coin flips show true sp train = Ok (Some (text_of (structure_head (length header) (length E) :: imap (shown_edge header) ls)), p) /\
      learn_network accept depth fuel size ssch coin flips show false sp train = Ok (None, p) /\
      (forall x y, Arc x y ∈ ls -> has_directed N x y) /\ (forall x y, Link x y ∈ ls -> undirected_edge x y ∈ nt_edges N)).
Proof.
  intros HC HN accept depth fuel size ssch coin flips show. destruct (training_columns train header rows HC HN) as (d & D & Hd & HD & HT). exists d, D. split; [done|]. split; [done|]. intros N HS.
  pose proof (learned_structure train header rows d D HC HT _ _ _ _ _ _ _ _ HS) as HL. pose proof (lf_size _ _ _ _ HL) as Hsize. destruct (tables_text train header rows d D N show flips HC HN Hd HT HL) as (ts & Hts & Hp).
  pose proof (names_header train header rows d HC HN Hd) as Hnames. pose proof HS as HS0. unfold learn_structure in HS0. bind_in HS0 Es as [[es A] S]. rewrite (tr_vars _ _ _ _ HT) in Es.
  pose proof (learned_skeleton _ _ _ _ _ _ _ _ _ Es) as HSk. pose proof (learned_held _ _ _ _ _ _ _ _ _ Es _ _ _ _ _ HS0) as (HF & _ & HE). pose proof (learned_adjacencies _ _ _ _ _ _ _ _ _ Es _ _ _ _ _ HS0) as Hadj. destruct (learned_saved _ _ _ _ _ _ _ _ _ Es _ _ _ _ _ HS0) as [_ Hs2].
  split.
  - intros He sp. rewrite (learn_network_unfold _ _ _ _ _ _ _ _ _ _ _ d D N Hd HD HS). unfold structure_text. rewrite (save_no_edges N He). done.
  - intros He sp. assert (es <> []) as Hes. { intros ->. destruct (nt_edges N) as [|e l] eqn:Hel; [done|]. assert (pair_of e ∈ pe_pair <$> ([] : list pedge)) as Hx by (apply HE; unfold pairs_of; rewrite Hel; left). by apply elem_of_nil in Hx. }
    destruct (Hs2 Hes) as (ls & Hls & Harc & Hlink & _). destruct HSk as (Hnd & Hb & _ & _ & Hlk).
    assert (forall e, e ∈ nt_edges N -> e_n1 e < length header /\ e_n2 e < length header) as Hbd.
    { intros e Hin. assert (pair_of e ∈ pe_pair <$> es) as Hpe by (apply HE; unfold pairs_of; by apply elem_of_list_fmap_1). unfold pair_of, bare in Hpe. apply Hb in Hpe. cbn [fst snd] in Hpe. lia. }
    assert (structure_text header N = Ok (text_of (structure_head (length header) (length es) :: imap (shown_edge header) ls))) as Htxt.
    { rewrite (structure_text_any header N ls); [|lia|done|].
      - rewrite Hsize. destruct (orient_kept' _ _ _ _ _ _ _ _ HS0) as (_ & _ & Hc). unfold cached, skeleton_network in Hc. cbn in Hc. injection Hc as -> _. done.
      - rewrite Hsize. intros l Hin. destruct l as [x y|x y].
        + destruct (Harc x y Hin) as (e & Hine & <- & <- & _). by apply Hbd.
        + apply Hlink, Hbd in Hin. unfold undirected_edge in Hin. case_bool_decide; cbn in Hin; lia. }
    exists (pe_pair <$> es), ls. rewrite !(learn_network_unfold _ _ _ _ _ _ _ _ _ _ _ d D N Hd HD HS), Hnames, Htxt, Hts, fmap_length. cbn [mbind outcome_bind].
    assert (joined_pairs N (pe_pair <$> es)) as HJ.
    { split; [done|]. intros x y. rewrite Hadj, Hlk. split; [intros Hin; split; [apply Hb in Hin; lia|by left]|]. intros [Hlt [Hin|Hin]]; [done|]. apply Hb in Hin. lia. }
    rewrite Hnames in Hp. destruct sp; [rewrite Hp|]; eexists; (split; [exact HJ|]); (split; [reflexivity|]); (split; [reflexivity|]); (split; [exact Harc|exact Hlink]).
Qed.
