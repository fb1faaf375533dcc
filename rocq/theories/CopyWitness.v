(** A copied network. *)
From Coq Require Import Field QArith.
From Verif Require Import CopyModel GraphSpec GraphSpec2 JTSpec JTWitness LearnWitness NetProofs2 NetProofs3 CopyTheorems TableProofs.
Local Open Scope nat_scope.

Definition jt_copy : network := Eval vm_compute in match copy_network jt_net with Ok (_, (C, _)) => C | Err _ => new_network [] end.
Lemma jt_copied : netinv jt_net /\ nt_topo jt_net = [] /\ exists N1, copy_network jt_net = Ok (N1, (jt_copy, [])) /\ nt_topo jt_copy = [0; 1; 2; 3] /\ check_edges jt_copy = (3, 3).
Proof. split; [exact jt_inv|]. split; [reflexivity|]. eexists. split; [vm_compute; reflexivity|]. split; vm_compute; reflexivity. Qed.
Lemma jt_nodup : no_dup_directed jt_net.
Proof. apply (bool_decide_unpack _). vm_compute. exact I. Qed.
(** The edges are lost; comparing the copy with the original throws ([vec_edges.at(0)]). *)
Lemma edges_lost : exists N N1 C ts, netinv N /\ no_dup_directed N /\ nt_topo N = [] /\ copy_network N = Ok (N1, (C, ts)) /\ has_directed N 0 2 /\ (forall x y, ~ has_directed C x y) /\ nt_num_edges C = 0 /\ ~ consistent C /\
  get_shd N1 N1 = Ok 0 /\ get_shd N1 C = Err Thrown.
Proof.
  eexists jt_net, _, jt_copy, []. split; [exact jt_inv|]. split; [exact jt_nodup|]. split; [reflexivity|]. split; [vm_compute; reflexivity|].
  assert (has_directed jt_net 0 2) as H02 by (apply directed_pairs_spec; vm_compute; by left).
  assert (forall x y, ~ has_directed jt_copy x y) as Hno by (intros x y (e & He & _); by apply elem_of_nil in He).
  split; [done|]. split; [done|]. split; [reflexivity|]. split; [|split; vm_compute; reflexivity].
  intros Hc. apply (Hno 0 2). apply Hc. eexists. split; [reflexivity|]. vm_compute. by left.
Qed.
(** The tables are lost: the copy answers 1/2 where the original answers 1/4. *)
Lemma tables_lost : exists N ts N1 C ts' T T' ps ps', netinv N /\ nt_topo N = [] /\ copy_network N = Ok (N1, (C, ts')) /\ jt_build addr_order N ts = Ok T /\ jt_build addr_order C ts' = Ok T' /\
  query_probs seq_sched T [] (jt_backup T) = Ok (jt_backup T, ps) /\ query_probs seq_sched T' [] (jt_backup T') = Ok (jt_backup T', ps') /\ ps !! 0 = Some (frac 1 4) /\ ps' !! 0 = Some (frac 1 2).
Proof.
  eexists jt_net, jt_pts, _, jt_copy, [], _, _, _, _. split; [exact jt_inv|]. split; [reflexivity|]. split; [vm_compute; reflexivity|]. split; [vm_compute; reflexivity|]. split; [vm_compute; reflexivity|]. split; [vm_compute; reflexivity|]. split; [vm_compute; reflexivity|]. split; apply (bool_decide_unpack _); vm_compute; exact I.
Qed.
