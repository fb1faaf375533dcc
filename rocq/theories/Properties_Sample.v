(** Forward sampling. [distributions N ts]: table [v] of [ts] holds the conditional distributions of node [v] given its
    parents; [full_sample N s]: [s] gives every node a value of its domain; [uniform u]: the numbers [u k], one per
    position of the topological order, lie in (0, 1]; [in_box u box]: every [u k] lies in the [k]-th interval of the box,
    open below and closed above; [volume]: the product of the lengths (SampleSpec.v). *)
From Verif Require Import SampleModel SampleSpec SampleProofs SampleWitness JTWitness LearnWitness.
Local Open Scope nat_scope.

(** ** C37 *)
(** For all draws a full sample of positive probability results; the draws that give a certain sample form a box whose
    side for a node is as long as the probability of its value given the values of its parents, so that the volume is
    the joint probability. Missing: a network that was changed after its order was cached, see below. *)
Theorem C37_forward_sampling_partial : forall N ts, netinv N -> nt_topo N = [] -> doms_positive N -> distributions N ts ->
  exists N' topo, get_topo_ord N = Ok (N', topo) /\ topological (has_directed N) (net_size N) topo /\
    (forall u, uniform u -> exists s, sample_once ts topo (net_size N) u = Ok s /\ full_sample N s /\ forall v t, ts !! v = Some t -> (0 < tval t (values s))%Qc) /\
    forall s, full_sample N s -> exists box, length box = net_size N /\ volume box = joint ts (values s) /\
      (forall k v lo hi, topo !! k = Some v -> box !! k = Some (lo, hi) -> exists t, ts !! v = Some t /\ (hi - lo = tval t (values s))%Qc) /\
      forall u, uniform u -> sample_once ts topo (net_size N) u = Ok s <-> in_box u box.
Proof. exact forward_sample. Qed.
Print Assumptions C37_forward_sampling_partial.
Example C37_forward_sampling_partial_witness : netinv jt_net /\ nt_topo jt_net = [] /\ doms_positive jt_net /\ distributions jt_net jt_pts /\ uniform some_draws /\
  snd <$> get_topo_ord jt_net = Ok [0; 1; 2; 3] /\ sample_once jt_pts [0; 1; 2; 3] 4 some_draws = Ok [1; 0; 1; 2].
Proof. exact (conj jt_inv (conj eq_refl (conj (proj1 (proj2 rows5_hyps)) (conj jt_distributions (conj some_draws_uniform jt_sample))))). Qed.
(** The volumes of the boxes of all samples sum to one: the joint probabilities are a distribution. *)
Theorem C37_total : forall N ts, netinv N -> nt_topo N = [] -> doms_positive N -> distributions N ts ->
  qsum (configs (domain_sizes N)) (fun s => joint ts (values s)) = 1%Qc.
Proof. exact forward_total. Qed.
Print Assumptions C37_total.
Theorem C37_all_samples : forall N s, full_sample N s <-> s ∈ configs (domain_sizes N).
Proof. exact full_samples. Qed.
Print Assumptions C37_all_samples.
(** The generator: any number of samples from the tables of a network whose counters hold any history of counts. *)
Theorem C37_generator_partial : forall N hs us, netinv N -> nt_topo N = [] -> doms_positive N -> length hs = net_size N ->
  (forall x h, hs !! x = Some h -> Forall (fun e => e.1.1 < net_dom N x /\ (0 <= e.2)%Z) h) -> 0 < net_size N ->
  exists ts N' topo samples,
    node_tables N (imap (fun x h => add_counts (default (new_node 0) (nt_nodes N !! x)) h new_counters) hs) = Ok ts /\ distributions N ts /\
    get_topo_ord N = Ok (N', topo) /\
    ((forall u, u ∈ us -> uniform u) ->
     generate_samples N (imap (fun x h => add_counts (default (new_node 0) (nt_nodes N !! x)) h new_counters) hs) us = Ok (if bool_decide (us = []) then N else N', samples) /\
     length samples = length us /\ forall j u s, us !! j = Some u -> samples !! j = Some s -> full_sample N s /\ sample_once ts topo (net_size N) u = Ok s).
Proof. exact generated_samples. Qed.
Print Assumptions C37_generator_partial.
Example C37_generator_partial_witness : length jt_histories = net_size jt_net /\
  forall x h, jt_histories !! x = Some h -> Forall (fun e => e.1.1 < net_dom jt_net x /\ (0 <= e.2)%Z) h.
Proof. exact jt_histories_ok. Qed.
(** Refuted: after the order was cached, an edge is added; a child is sampled before its parent, and a sample of
    probability zero results. *)
Theorem C37_stale_order_refuted : exists N1 N ts topo u s, get_topo_ord (new_network [2;2]) = Ok (N1, [0;1]) /\ add_directed_edge N1 1 0 = Ok (N, true) /\
  netinv N /\ doms_positive N /\ distributions N ts /\ get_topo_ord N = Ok (N, topo) /\ uniform u /\ sample_once ts topo (net_size N) u = Ok s /\ joint ts (values s) = 0%Qc.
Proof. exact stale_refutes. Qed.
Print Assumptions C37_stale_order_refuted.
(** Refuted for the number 0, which the library may draw: the first value is taken even if its probability is zero. *)
Theorem C37_zero_draw_refuted : exists N ts s, distributions N ts /\ sample_once ts [0] (net_size N) (fun _ => 0%Qc) = Ok s /\ joint ts (values s) = 0%Qc.
Proof. exact zero_draw. Qed.
Print Assumptions C37_zero_draw_refuted.
