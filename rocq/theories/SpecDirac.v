(** Specification vocabulary for the Dirac mixture model: users have Poisson numbers of
    impressions, with one of several means, which scale with the impressions of the campaign. *)
From Verif Require Import Prelude ModelReachPoint ModelCurves SpecSurface ModelDirac.
Open Scope Z_scope.
Local Open Scope Q_scope.

(** scipy's Poisson distribution for a mean that is not negative: the masses are not negative,
    [sf k] is the chance of more than [k], it grows with the mean, and with mean zero nothing is
    seen. *)
Definition poisson_sane (x : dirac_externals) : Prop :=
  forall mean, 0 <= mean ->
    (forall k, (0 <= k)%Z -> 0 <= dx_pmf x k mean) /\
    (forall k, dx_sf x (Z.of_nat k - 1) mean == 1 - total k (fun f => dx_pmf x (Z.of_nat f) mean)) /\
    (forall k, 0 <= dx_sf x k mean) /\
    (forall k mean', mean <= mean' -> dx_sf x k mean <= dx_sf x k mean') /\
    (forall k, (0 <= k)%Z -> mean == 0 -> dx_sf x k mean == 0) /\
    (forall k mean', mean == mean' -> dx_pmf x k mean == dx_pmf x k mean').

(** Equal numbers have equal logarithms. *)
Definition log_sane (x : dirac_externals) : Prop := forall a b, a == b -> dx_log x a == dx_log x b.

(** Conversion to 32 bit integers. *)
Definition int32_sane (x : dirac_externals) : Prop :=
  forall z, (- 2 ^ 31 <= z < 2 ^ 31)%Z -> dx_int32 x z = z.

(** Weights of [n] components. *)
Definition weights (n : nat) (ws : list Q) : Prop :=
  length ws = n /\ Forall (fun w => 0 <= w) ws /\ total n (fun j => nth j ws 0) == 1.

(** A solver that is right: if it finds a solution, this is one, and the best one (for
    objectives that give equal values for equal numbers). *)
Definition solver_right (s : nat -> (list Q -> Q) -> solve_outcome) : Prop :=
  forall n f ws, (forall v v', length v = n -> Forall2 Qeq v v' -> f v == f v') ->
    s n f = Solved (Some ws) -> weights n ws /\ forall ws', weights n ws' -> f ws <= f ws'.

(** The chance that a user of the mixture sees at least [k] impressions, respectively exactly
    [k], when the campaign is scaled by [s]. *)
Definition mixture_at_least (x : dirac_externals) (cs ws : list Q) (s : Q) (k : nat) : Q :=
  total (length cs) (fun j => nth j ws 0 * (1 - total k (fun f => dx_pmf x (Z.of_nat f) (nth j cs 0 * s)))).
Definition mixture_exactly (x : dirac_externals) (cs ws : list Q) (s : Q) (k : nat) : Q :=
  total (length cs) (fun j => nth j ws 0 * dx_pmf x (Z.of_nat k) (nth j cs 0 * s)).

(** The code adds this number before taking logarithms. *)
Definition log_shift : Q := 1 # (10 ^ 200).

(** Minus the log-likelihood of the observed distribution under the mixture (both capped at
    the frequency [top]), with the small shift of the code. *)
Definition minus_log_likelihood (x : dirac_externals) (observed : list Q) (cs ws : list Q) : Q :=
  let top := (length observed - 1)%nat in
  - total (length observed) (fun f =>
      nth f observed 0 *
      dx_log x ((if Nat.eqb f top then total (length cs) (fun j => nth j ws 0 * dx_sf x (Z.of_nat top - 1) (nth j cs 0))
                 else total (length cs) (fun j => nth j ws 0 * dx_pmf x (Z.of_nat f) (nth j cs 0))) + log_shift)).

(** [z] is a nearest integer of [q], the even one if there are two. *)
Definition nearest (q : Q) (z : Z) : Prop :=
  inject_Z z - (1#2) <= q <= inject_Z z + (1#2) /\
  (q == inject_Z z - (1#2) \/ q == inject_Z z + (1#2) -> Z.even z = true).

(** The numbers of components that are tried: n, n/2, n/4, ... *)
Definition halved (n : Z) (i : nat) : Z := (n / 2 ^ Z.of_nat i)%Z.

(** [n] numbers spread evenly over the interval from [i] on below [i + 1]. *)
Definition spread (i n : nat) : list Q :=
  map (fun j => inject_Z (Z.of_nat i) + inject_Z (Z.of_nat j) / inject_Z (Z.of_nat n)) (seq 0 n).
(** How many components are drawn from interval [i], if [c] are asked for and the shares of
    the frequencies are [ns]: the share, as long as less than [c] have been drawn, and what is
    missing from the interval after the last one. *)
Definition drawn (c : Z) (ns : list Z) (i : nat) : nat :=
  Z.to_nat (if (Zsum (firstn i ns) <? c)%Z
            then if (i <? length ns)%nat then nth i ns 0%Z else (c - Zsum ns)%Z
            else 0%Z).

(** [cs] are the components of a grid of size [c] for the frequency distribution [pmf]: each
    frequency [i] has a share of [c * pmf i], rounded, in the interval from [i] to [i + 1]. *)
Definition grid_of (c : Z) (pmf : list Q) (cs : list Q) : Prop :=
  exists ns, Forall2 (fun p n => nearest (inject_Z c * p) n) pmf ns /\
    Forall2 Qeq cs (flat_map (fun i => spread i (drawn c ns i)) (seq 0 (S (length pmf)))).

(** The share of the users of a universe [U] that saw exactly [f] impressions (at least [f] for
    the highest frequency), if the k+ reaches are [rs]. *)
Definition training_share (U : Z) (rs : list Q) (f : nat) : Q :=
  (nth f (inject_Z U :: rs) 0 - nth (S f) (inject_Z U :: rs) 0) / inject_Z U.
Definition shares_of (U : Z) (rs : list Q) (shares : list Q) : Prop :=
  length shares = S (length rs) /\ forall f, (f <= length rs)%nat -> nth f shares 0 == training_share U rs f.

(** The universe is not empty and the k+ reaches fall from there to zero. *)
Definition plausible (U : Z) (rs : list Q) : Prop :=
  (0 < U)%Z /\ forall f, (f <= length rs)%nat -> nth (S f) (inject_Z U :: rs) 0 <= nth f (inject_Z U :: rs) 0.

(** The solvers, asked for weights of the components [cs] with the smallest minus log-likelihood,
    give [r]; respectively give nothing: ECOS is asked first, SCS if that gives a SolverError. *)
Definition asked (x : dirac_externals) (shares cs : list Q) (f : list Q -> Q) : Prop :=
  forall ws, length ws = length cs -> f ws == minus_log_likelihood x shares cs ws.
Definition solved (x : dirac_externals) (shares cs : list Q) (r : option (list Q)) : Prop :=
  exists f, asked x shares cs f /\
    (dx_ecos x (length cs) f = Solved r \/
     dx_ecos x (length cs) f = SolverError /\ dx_scs x (length cs) f = Solved r).
Definition unsolved (x : dirac_externals) (shares cs : list Q) : Prop :=
  exists f, asked x shares cs f /\
    ((exists e, dx_ecos x (length cs) f = Raised e) \/
     dx_ecos x (length cs) f = SolverError /\ forall r, dx_scs x (length cs) f <> Solved r).
Definition fit_fails (x : dirac_externals) (shares : list Q) (c : Z) : Prop :=
  exists cs, grid_of c shares cs /\ unsolved x shares cs.
