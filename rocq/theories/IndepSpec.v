(** Independence in the distribution of a network. *)
From Verif Require Export RecoverSpec DSepSpec EssentialSpec.
Local Open Scope nat_scope.

(** [x] is independent of the variables [ys] given [s]: P(x,ys,s) P(s) = P(x,s) P(ys,s) for all values. *)
Definition independent (N : network) (ts : list ptable) (x : nat) (ys s : list nat) : Prop := forall a, valid (net_dom N) a ->
  (chance N ts (x :: ys ++ s) a * chance N ts s a)%Qc = (chance N ts (x :: s) a * chance N ts (ys ++ s) a)%Qc.
(** The distribution has no independences besides the d-separations of the graph. *)
Definition faithful (N : network) (ts : list ptable) : Prop := forall x y s, x < net_size N -> y < net_size N -> Forall (fun v => v < net_size N) s -> NoDup (x :: y :: s) ->
  d_connected (arcs_of N) x y s -> ~ independent N ts x [y] s.
(** The evidence that the variables [s] have the values [a] gives them. *)
Definition observed (s : list nat) (a : asg) : list (nat * nat) := (fun v => (v, a v)) <$> s.
