(** Concrete samplers. *)
From Verif Require Import SampleSpec SampleProofs JTWitness LearnWitness GraphWitness NetProofs2 NetProofs3.
Local Open Scope nat_scope.

(** The network of JTWitness.v with its tables. *)
Ltac small a v H := let E := fresh in destruct (a v) as [|[|[|?]]] eqn:E; try (exfalso; lia).
Lemma jt_distributions : distributions jt_net jt_pts.
Proof.
  split; [done|]. intros x t Hx. pose proof (elem_of_list_lookup_2 _ _ _ Hx) as Hin. split_and!.
  - pose proof jt_tables as H. rewrite Forall_forall in H. by apply H.
  - destruct x as [|[|[|[|x]]]]; [..|done]; injection Hx as <-; by vm_compute.
  - pose proof jt_nonneg as H. rewrite Forall_forall in H. by apply H.
  - intros a Ha. pose proof (Ha 0) as H0. pose proof (Ha 1) as H1. pose proof (Ha 2) as H2.
    assert (a 0 < 2 /\ a 1 < 2 /\ a 2 < 2) as (A0 & A1 & A2) by done. clear H0 H1 H2 Ha Hin.
    destruct x as [|[|[|[|x]]]]; [..|done]; injection Hx as <-; unfold tval; cbn [net_dom]; apply (bool_decide_unpack _).
    + by vm_compute.
    + by vm_compute.
    + cbn -[frac]. unfold upd. cbn -[frac]. destruct (a 0) as [|[|?]]; [| |lia]; (destruct (a 1) as [|[|?]]; [| |lia]); by vm_compute.
    + cbn -[frac]. unfold upd. cbn -[frac]. destruct (a 2) as [|[|?]]; [| |lia]; by vm_compute.
Qed.
Definition some_draws : nat -> Qc := fun k => match k with 0 => frac 1 2 | 1 => frac 1 3 | 2 => frac 5 6 | _ => frac 9 10 end.
Lemma some_draws_uniform : uniform some_draws.
Proof. intros [|[|[|[|k]]]]; split; by vm_compute. Qed.
Lemma jt_sample : snd <$> get_topo_ord jt_net = Ok [0; 1; 2; 3] /\ sample_once jt_pts [0; 1; 2; 3] 4 some_draws = Ok [1; 0; 1; 2].
Proof. split; by vm_compute. Qed.
Definition jt_histories : list history := [[]; []; [((1, [(0, 1); (1, 0)]), 4%Z)]; []].
Lemma jt_histories_ok : length jt_histories = net_size jt_net /\
  forall x h, jt_histories !! x = Some h -> Forall (fun e => e.1.1 < net_dom jt_net x /\ (0 <= e.2)%Z) h.
Proof.
  split; [done|]. intros x h Hx. destruct x as [|[|[|[|x]]]]; [..|done]; injection Hx as <-; [constructor|constructor| |constructor].
  constructor; [|constructor]. split; [vm_compute; lia|]. by vm_compute.
Qed.

(** A stale topological order. *)
Definition stale_first : network := Eval vm_compute in match get_topo_ord (new_network [2;2]) with Ok (N, _) => N | Err _ => new_network [] end.
Definition stale_net : network := Eval vm_compute in match add_directed_edge stale_first 1 0 with Ok (N, _) => N | Err _ => new_network [] end.
Definition stale_pts : list ptable := [mk_table [0;1] [2;2] [frac 1 1; frac 0 1; frac 0 1; frac 1 1]; mk_table [1] [2] [frac 0 1; frac 1 1]].
Lemma stale_first_inv : netinv stale_first.
Proof. destruct (new_network_inv [2;2]) as [[H1 H2 H3 H4 H5] _]. by split. Qed.
Lemma stale_inv : netinv stale_net.
Proof.
  destruct (add_directed_edge_spec stale_first 1 0 stale_first_inv) as (N' & b & E & HI & _); [by vm_compute; lia|by vm_compute; lia|].
  assert (Ok (N', b) = Ok (stale_net, true)) as [= -> _]; [|done]. rewrite <-E. by vm_compute.
Qed.
Lemma stale_distributions : distributions stale_net stale_pts.
Proof.
  split; [done|]. intros x t Hx. split_and!.
  - destruct x as [|[|x]]; [..|done]; injection Hx as <-; constructor; try (apply (bool_decide_unpack _); vm_compute; exact I); done.
  - destruct x as [|[|x]]; [..|done]; injection Hx as <-; by vm_compute.
  - destruct x as [|[|x]]; [..|done]; injection Hx as <-; apply nonneg_pots; apply (bool_decide_unpack _); vm_compute; exact I.
  - intros a Ha. assert (a 1 < 2) as A1 by apply (Ha 1). destruct x as [|[|x]]; [..|done]; injection Hx as <-; unfold tval; cbn [net_dom]; apply (bool_decide_unpack _).
    + cbn -[frac]. unfold upd. cbn -[frac]. destruct (a 1) as [|[|?]]; [| |lia]; by vm_compute.
    + by vm_compute.
Qed.
Lemma stale_refutes : exists N1 N ts topo u s, get_topo_ord (new_network [2;2]) = Ok (N1, [0;1]) /\ add_directed_edge N1 1 0 = Ok (N, true) /\
  netinv N /\ doms_positive N /\ distributions N ts /\ get_topo_ord N = Ok (N, topo) /\ uniform u /\ sample_once ts topo (net_size N) u = Ok s /\ joint ts (values s) = 0%Qc.
Proof.
  exists stale_first, stale_net, stale_pts, [0;1], some_draws, [0;1]. split; [by vm_compute|]. split; [by vm_compute|]. split; [exact stale_inv|].
  split; [apply (bool_decide_unpack _); by vm_compute|]. split; [exact stale_distributions|]. split; [by vm_compute|]. split; [exact some_draws_uniform|].
  split; by vm_compute.
Qed.
(** The number 0. *)
Definition zero_draws : nat -> Qc := fun _ => 0%Qc.
Definition point_pts : list ptable := [mk_table [0] [2] [frac 0 1; frac 1 1]].
Lemma point_distributions : distributions (new_network [2]) point_pts.
Proof.
  split; [done|]. intros x t Hx. destruct x as [|x]; [|done]; injection Hx as <-. split_and!.
  - constructor; try (apply (bool_decide_unpack _); vm_compute; exact I); done.
  - by vm_compute.
  - apply nonneg_pots. apply (bool_decide_unpack _); vm_compute; exact I.
  - intros a Ha. unfold tval. cbn [net_dom]. apply (bool_decide_unpack _). by vm_compute.
Qed.
Lemma zero_draw : exists N ts s, distributions N ts /\ sample_once ts [0] (net_size N) (fun _ => 0%Qc) = Ok s /\ joint ts (values s) = 0%Qc.
Proof. exists (new_network [2]), point_pts, [0]. split; [exact point_distributions|]. split; by vm_compute. Qed.
