(** Specification vocabulary for the Gamma-Poisson model. A user has n >= 1 impressions with
    the probability that the negative binomial distribution gives to n - 1; each impression is
    shown with the same chance, independently. [at_least] is in SpecGamma.v. *)
From Verif Require Import Prelude ModelReachPoint ModelCurves SpecSurface ModelGamma SpecGamma
  ModelGammaPoisson.
Open Scope Z_scope.
Local Open Scope Q_scope.

(** Scipy's negative binomial mass function at positive parameters: zero below zero, not
    negative, and no finite part of it exceeds one. *)
Definition gp_sane (x : gp_externals) (alpha beta : Q) : Prop :=
  gp_nbinom x (-1) alpha (1 / (1 + beta)) == 0 /\
  (forall k, 0 <= gp_nbinom x (Z.of_nat k) alpha (1 / (1 + beta))) /\
  (forall m, total m (fun k => gp_nbinom x (Z.of_nat k) alpha (1 / (1 + beta))) <= 1).

(** Scipy's minimiser: whatever it returns lies within the bounds, and the value it reports is
    that of the objective there. *)
Definition gp_minimizes (x : gp_externals) : Prop :=
  forall f start bounds v s, gp_minimize x f start bounds = Ok (v, s) ->
    Forall2 (fun a b => fst b <= a <= snd b) v bounds /\ s = f v.

(** The chance that a user has [n] impressions, n = 1, 2, ... *)
Definition has_impressions (x : gp_externals) (alpha beta : Q) (n : nat) : Q :=
  gp_nbinom x (Z.of_nat n - 1) alpha (1 / (1 + beta)).

(** The chance that a user has at most 1000 impressions (the size of the table), and is shown
    at least [k] of them; respectively exactly [k]. *)
Definition seen_at_least (x : gp_externals) (alpha beta : Q) (k : nat) (p : Q) : Q :=
  total (gp_frequencies x) (fun i => has_impressions x alpha beta (S i) * at_least (S i) k p).
Definition seen_exactly (x : gp_externals) (alpha beta : Q) (k : nat) (p : Q) : Q :=
  seen_at_least x alpha beta k p - seen_at_least x alpha beta (S k) p.

(** The chance that a user has more impressions than the table has room for. *)
Definition beyond_table (x : gp_externals) (alpha beta : Q) : Q :=
  1 - total (gp_frequencies x) (fun i => has_impressions x alpha beta (S i)).

(** The mean number of impressions of a user is 1 + alpha * beta. *)
Definition inventory (N alpha beta : Q) : Q := N * (1 + alpha * beta).

(** The histogram that the fit compares with: users seen exactly 1, ..., m - 1 times and, in
    the last place, all users that are not seen 0, ..., m - 1 times. *)
Definition predicted (x : gp_externals) (N alpha beta p : Q) (m : nat) (k : nat) : Q :=
  if Nat.ltb k m then N * seen_exactly x alpha beta k p
  else N * (seen_at_least x alpha beta m p + beyond_table x alpha beta).

(** The documented distance: the chi-squared statistic, the squared error of the 1+ reach and
    the penalty for an inventory below [ev]. [h] lists the users seen 1, ..., m times. *)
Definition documented_distance (x : gp_externals) (ev : Q) (h : list Q) (I N alpha beta w : Q) : Q :=
  let m := length h in
  let Imax := inventory N alpha beta in
  let hbar := predicted x N alpha beta (I / Imax) m in
  total m (fun i => let d := hbar (S i) - nth i h 0 in d * d / (hbar (S i) + (1#1000000)))
  + w * (let e := total m (fun i => nth i h 0) - total m (fun i => hbar (S i)) in e * e)
  + (if Qltb Imax ev then (ev - Imax) * (ev - Imax) else 0).

(** The attempts of the fit: for each of the audience sizes 11 r / 1, ..., 11 r / 10 the
    minimiser answers [(alpha, beta, N), score]. *)
Definition attempt (x : gp_externals) (fuel : nat) (ev : Q) (p : qpoint) (I r : Q) (h : list Q) (i : nat)
    (ans : Q * Q * Q) (score : Q) : Prop :=
  exists size alpha0 beta0 Imax0 alpha beta N, ans = (alpha, beta, N) /\
    size == 11 * r / inject_Z (Z.of_nat i) /\
    fit_fixed_N x fuel ev p size 1 = Ok (Imax0, alpha0, beta0) /\
    gp_minimize x (fun params => match params with
                                 | [a; b; n] => gp_distance x ev h I n a b 1
                                 | _ => 0 end)
      [alpha0; beta0; size] [(1#1000000, 100); (1#1000000, 100); (r, 100 * r)] = Ok ([alpha; beta; N], score).
