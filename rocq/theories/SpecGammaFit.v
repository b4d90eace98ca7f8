(** Specification vocabulary for the fit of the k-inflated Gamma-Poisson model to a histogram
    of frequencies: what a fit costs, where its parameters may lie, and what is asked of the
    external minimiser. *)
From Verif Require Import Prelude ModelReachPoint ModelCurves SpecSurface ModelGamma SpecGamma.
Open Scope Z_scope.
Local Open Scope Q_scope.

Definition square (v : Q) : Q := v * v.

(** [h] is a histogram: entry i counts the people reached exactly i+1 times, the last entry
    those reached that often or more. What [N] users whose number of impressions has mass
    function [l] would give, when each impression is shown with chance [p]: *)
Definition expected_count (h : list Q) (N : Q) (l : list Q) (p : Q) (i : nat) : Q :=
  if (S i <? length h)%nat then N * (shown_at_least l (S i) p - shown_at_least l (S (S i)) p)
  else N * shown_at_least l (S i) p.

Definition squares (h : list Q) : Q := total (length h) (fun i => square (nth i h 0)).

(** How badly [N] users with mass function [l] explain the histogram [h] of [I] impressions:
    the chi-squared distance if they hold more than [I] impressions, and otherwise as if they
    explained none of it. *)
Definition misfit (h : list Q) (I N : Q) (l : list Q) : Q :=
  if Qleb (N * mean l) I then squares h
  else total (length h) (fun i =>
         let e := expected_count h N l (I / (N * mean l)) i in
         square (e - nth i h 0) / (e + (1#1000000))).

(** The impressions missing to the wanted inventory [Imin]. *)
Definition shortfall (Imin N : Q) (l : list Q) : Q := Qmax 0 (Imin - N * mean l).

(** What a fit costs. *)
Definition cost (h : list Q) (I Imin N : Q) (l : list Q) : Q :=
  misfit h I N l + square (shortfall Imin N l).

(** What parameters cost that are not allowed. *)
Definition not_allowed (h : list Q) (Imin : Q) : Q := squares h + square Imin.

(** The allowed parameters. *)
Definition allowed (h : list Q) (alpha beta N : Q) (a : list Q) : Prop :=
  (1#10000) <= alpha /\ alpha <= 1000 /\ (1#10000) <= beta /\ beta <= 10000 /\
  Qsum h <= N /\ N <= 100 * Qsum h /\ (forall v, In v a -> 0 <= v /\ v <= 1) /\ Qsum a <= 1.

(** The minimiser returns as many parameters as it was given, and never a worse point than
    the one it started from. *)
Definition never_worse (x : gamma_externals) : Prop :=
  forall obj start r, gx_minimize x obj start = Ok r ->
    length r = length start /\
    forall v w, obj start = Ok v -> obj r = Ok w -> w <= v.

(** Scipy's mass function is one at all positive parameters. *)
Definition nbinom_sane_everywhere (x : gamma_externals) : Prop :=
  forall alpha beta, 0 < alpha -> 0 < beta -> nbinom_sane x alpha beta.

(** Two mass functions are the same. *)
Definition same_mass (l l' : list Q) : Prop :=
  length l = length l' /\ forall n, nth n l 0 == nth n l' 0.

(** The histogram of k+ reaches: the differences, and the last k+ reach. *)
Fixpoint bucket_counts (kp : list Q) : list Q :=
  match kp with
  | [] => []
  | [k] => [k]
  | k :: ((k' :: _) as r) => (k - k') :: bucket_counts r
  end.
