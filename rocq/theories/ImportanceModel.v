(** The second and third number arrays of a factor (src/fastpgm/PotentialTableBase.cpp): the
    importance function [potentialsICPT] and the scores [pt_scores].

    TableModel.v leaves the two arrays out.  Here a factor is a [ptable] together with them.
    The constructors (L6-63, L76-96, L102-151) never mention the arrays, so they are empty in
    every factor the library builds. *)
From Verif Require Export LearnModel.
Local Open Scope Qc_scope.

(** include/fastpgm/PotentialTableBase.h L25-40: all the fields. *)
Record ftable := mkFT {
  ft_base : ptable;
  ft_icpt : list Qc;    (* potentialsICPT *)
  ft_scores : list Qc;  (* pt_scores *)
}.
(** A factor as a constructor leaves it. *)
Definition constructed (t : ptable) : ftable := mkFT t [] [].

(** L1123-1128 [UniformDistribution].  1.0 / 0 is not reached with a positive dimension. *)
Definition uniform_distribution (f : ftable) : outcome ftable :=
  d0 ← vget (pt_dims (ft_base f)) 0;
  if bool_decide (d0 = 0%nat) then Err DivZero else
  icpt ← mfor (seq 0 (pt_size (ft_base f))) (fun i icpt => vset icpt i (1 / qn d0)) (ft_icpt f);
  Ok (mkFT (ft_base f) icpt (ft_scores f)).

(** The body shared by L1077-1095 [NormalizeICPT] and L1097-1115 [NormalizePtScore]. *)
Definition normalize_columns (t : ptable) (l : list Qc) : outcome (list Qc) :=
  p_dim ← vget (pt_cum t) 0;
  n_dim ← vget (pt_dims t) 0;
  mfor (seq 0 p_dim) (fun i l =>
    denom ← mfor (seq 0 n_dim) (fun j acc => x ← vget l (i + j * p_dim)%nat; Ok (acc + x)) 0;
    if bool_decide (0 < denom) then
      mfor (seq 0 n_dim) (fun j l =>
        x ← vget l (i + j * p_dim)%nat; vset l (i + j * p_dim)%nat (x / denom)) l
    else Ok l) l.
(** L1077-1095 [NormalizeICPT]. *)
Definition normalize_icpt (f : ftable) : outcome ftable :=
  l ← normalize_columns (ft_base f) (ft_icpt f);
  Ok (mkFT (ft_base f) l (ft_scores f)).
(** L1097-1115 [NormalizePtScore]. *)
Definition normalize_scores (f : ftable) : outcome ftable :=
  l ← normalize_columns (ft_base f) (ft_scores f);
  Ok (mkFT (ft_base f) (ft_icpt f) l).

(** L426-471 [GetReducedICPTPotentials]; [rlen] is the length of the caller's result vector. *)
Definition get_reduced_icpt_potentials (f : ftable) (rlen : nat) (evidence : list nat) : outcome (list Qc) :=
  let t := ft_base f in
  if bool_decide (pt_nv t = 1%nat) then Ok (ft_icpt f) else
  dp ← vget (pt_cum t) 0;
  par ← mcollect (seq 1 (length (pt_vars t) - 1)) (fun i =>
          v ← vget (pt_vars t) i; vget evidence v);
  lp ← get_relative_index t par;
  d0 ← vget (pt_dims t) 0;
  r ← mfor (0%nat :: seq 1 (d0 - 1)) (fun i result =>
        x ← vget (ft_icpt f) (lp + i * dp)%nat; vset result i x) (replicate rlen 0);
  Ok r.

(** L495-513 [GetReducedIndexAndPotential]: the entry and its position. *)
Definition get_reduced_index_and_potential (t : ptable) (evidence : list nat) : outcome (nat * Qc) :=
  if bool_decide (pt_nv t = 1%nat) then
    v ← vget (pt_vars t) 0; e ← vget evidence v; x ← vget (pt_pots t) e; Ok (e, x)
  else
    cfg ← mcollect (seq 0 (pt_nv t)) (fun i => v ← vget (pt_vars t) i; vget evidence v);
    k ← get_index t cfg;
    x ← vget (pt_pots t) k; Ok (k, x).

(** L753-763 [GetMarginalizedProbabilities]: adds to what the caller's vector holds, except for a
    factor with one variable, where the vector is replaced. *)
Definition get_marginalized_probabilities (f : ftable) (result : list Qc) : outcome (list Qc) :=
  let t := ft_base f in
  if bool_decide (pt_nv t = 1%nat) then Ok (ft_icpt f) else
  mfor (seq 0 (pt_size t)) (fun i result =>
    dp ← vget (pt_cum t) 0;
    id ← idiv i dp; x ← vget (ft_icpt f) i; y ← vget result id; vset result id (y + x)) result.
