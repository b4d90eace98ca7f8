(** Specification vocabulary for the Gamma-Poisson models: binomial sampling, probability
    distributions, the exponential-Poisson series. *)
From Verif Require Import Prelude ModelReachPoint ModelCurves SpecSurface ModelGamma.
Open Scope Z_scope.

(** The probability that at least [k] of [n] impressions are shown when each is shown
    with probability [p], independently: look at the first impression. *)
Fixpoint at_least (n k : nat) (p : Q) : Q :=
  match n, k with
  | _, O => 1%Q
  | O, S _ => 0%Q
  | S n', S k' => (p * at_least n' k' p + (1 - p) * at_least n' k p)%Q
  end.

(** A list of probabilities. *)
Definition is_distribution (l : list Q) : Prop :=
  (forall v, In v l -> (0 <= v)%Q) /\ (Qsum l == 1)%Q.

(** The probability that a user whose number of impressions has mass function [l] (the n-th
    entry is the probability of n impressions) is shown at least [k] of them. *)
Definition shown_at_least (l : list Q) (k : nat) (p : Q) : Q :=
  total (length l) (fun n => nth n l 0 * at_least n k p)%Q.

(** The mean of a mass function. *)
Definition mean (l : list Q) : Q :=
  total (length l) (fun n => inject_Z (Z.of_nat n) * nth n l 0)%Q.

(** Scipy's negative binomial mass function at the parameters that the code uses: not
    negative, and no finite part of it exceeds one. *)
Definition nbinom_sane (x : gamma_externals) (alpha beta : Q) : Prop :=
  (forall k, (0 <= gx_nbinom x (Z.of_nat k) alpha (1 / (1 + beta)))%Q) /\
  (forall m, (total m (fun k => gx_nbinom x (Z.of_nat k) alpha (1 / (1 + beta))) <= 1)%Q).

(** With first parameter 1 it is the geometric distribution. *)
Definition nbinom_geometric (x : gamma_externals) : Prop :=
  forall (k : nat) p, (0 <= p)%Q -> (p <= 1)%Q ->
    (gx_nbinom x (Z.of_nat k) 1 p == p * qpow (1 - p) k)%Q.

(** The exponential-Poisson model: a user has n >= 1 impressions with probability
    1/(beta+1) * (beta/(beta+1))^(n-1). [unreached beta q m]: the probability that the user
    has at most [m] impressions and none of them is shown, when each is shown with
    probability [q]. *)
Definition inventory_mass (beta : Q) (n : nat) : Q :=
  (1 / (beta + 1) * qpow (beta / (beta + 1)) (n - 1))%Q.
Definition unreached (beta q : Q) (m : nat) : Q :=
  total m (fun i => qpow (1 - q) (S i) * inventory_mass beta (S i))%Q.

(** The number of impressions the model is fitted to: the training impressions, or the number
    asked for if that is larger. *)
Definition fitted_at (I Imin : Q) : Q := if Qltb I Imin then Imin else I.

(** The chance that one impression of the inventory is shown when [imp] impressions are
    bought: N users hold [N * mean l] impressions in all. *)
Definition shown_chance (N : Q) (l : list Q) (imp : Q) : Q := Qmin (imp / (N * mean l)) 1.

(** The queries made to a model, one after the other; the model after them. *)
Fixpoint after_queries (x : gamma_externals) (fuel : nat) (m : kmodel)
    (qs : list (list Q * nat)) : kmodel :=
  match qs with
  | [] => m
  | (imps, f) :: r => after_queries x fuel (snd (km_by_impressions x fuel m imps f)) r
  end.
