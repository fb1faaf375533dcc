(** Model of SampleSetGenerator.cpp: forward sampling. *)
From Verif Require Export LearnModel.
Local Open Scope nat_scope.

(** [std::discrete_distribution<int>] as implemented by libstdc++: fewer than two weights always give 0; otherwise
    the weights are divided by their sum (0/0 is NaN), the last partial sum is set to 1, and the result is the first
    index whose partial sum is at least the uniform number [u] ([lower_bound]). *)
Fixpoint pick_from (ws : list Qc) (k : nat) (acc u : Qc) : nat :=
  match ws with
  | [] | [_] => k
  | w :: ws => if decide (u <= acc + w)%Qc then k else pick_from ws (S k) (acc + w)%Qc u
  end.
Definition pick (ws : list Qc) (u : Qc) : outcome nat :=
  if bool_decide (length ws < 2) then Ok 0 else
  let total := foldr Qcplus 0%Qc ws in
  if bool_decide (total = 0%Qc) then Err DivZero else Ok (pick_from ((fun w => (w / total)%Qc) <$> ws) 0 0%Qc u).

(** SampleSetGenerator.cpp L38-43: one sample of [n] values, which are 0 at first (L11-14). [u k] is the uniform number
    drawn for the node at position [k] of the topological order; a node with one value draws no number. *)
Definition sample_once (cpts : list ptable) (topo : list nat) (n : nat) (u : nat -> Qc) : outcome (list nat) :=
  mfor (seq 0 (length topo)) (fun k s =>
    v ← vget topo k; t ← vget cpts v; d0 ← vget (pt_dims t) 0;
    w ← get_reduced_potentials t d0 s; x ← pick w (u k); vset s v x) (replicate n 0).
(** L20-45 [GenerateSamplesBasedOnCPTs]: [cs] holds the counters of the nodes, [us] the numbers drawn for each sample. *)
Definition generate_samples (N : network) (cs : list counters) (us : list (nat -> Qc)) : outcome (network * list (list nat)) :=
  ts ← node_tables N cs;
  mfor us (fun u st =>
    nt ← get_topo_ord (fst st);
    s ← sample_once ts (snd nt) (length (nt_nodes N)) u;
    Ok (fst nt, snd st ++ [s])) (N, []).
