(** Vocabulary for the keyword arguments of the single publisher models that a descriptor
    names. *)
From Coq Require Import String.
From Verif Require Import Prelude ModelReachPoint ModelData SpecData SpecHalo SpecExact ModelDriver.
Open Scope Z_scope.

(** The value passed for a keyword. *)
Definition passed (kw : kwargs) (name : string) (v : value) : Prop :=
  exists before after, kw = before ++ (name, v) :: after /\ ~ In name (map fst before).
Definition not_passed (kw : kwargs) (name : string) : Prop := ~ In name (map fst kw).

(** kmax: how many values of the distribution may be inflated, 10 if not passed. *)
Definition kmax_of (kw : kwargs) (k : nat) : Prop :=
  (not_passed kw "kmax" /\ k = 10%nat) \/ exists z, passed kw "kmax" (VNum (PInt z)) /\ k = Z.to_nat z.

(** extrapolation_multiplier: how many times the training impressions the fitted inventory
    should have, 1 if not passed. *)
Definition multiplier_of (kw : kwargs) (q : Q) : Prop :=
  (not_passed kw "extrapolation_multiplier" /\ q = 1%Q) \/
  exists n, passed kw "extrapolation_multiplier" (VNum n) /\ q = number_Q n.

(** max_reach: a fixed size of the audience, estimated if not passed. *)
Definition max_reach_of (kw : kwargs) (r : option Q) : Prop :=
  (not_passed kw "max_reach" /\ r = None) \/
  exists n, passed kw "max_reach" (VNum n) /\ r = Some (number_Q n).

(** The point as the constructor of ReachPoint makes it for one publisher. *)
Definition training_point (p : reach_point Q Q) (I : Q) (rs : list Q) (s : Q) : Prop :=
  exists u, mk_reach_point Qops [I] rs (Some [s]) u = Ok p.

(** What is reported for the campaign with this spend: how many users saw at least 1, 2, ...,
    [depth] impressions, unless no user saw more than one. Then it is one user less than the
    impressions, but at least one, and nobody who saw two. *)
Definition reported_counts (log : list row) (spend : Q) (depth : Z) (counts : list Z) : Prop :=
  Z.of_nat (length counts) = depth /\
  exists n, card_is (fun u => 1 <= seen_at_spend u log spend) n /\
    (n < bought_at_spend log spend -> forall k, 1 <= k <= depth ->
       exists c, card_is (fun u => k <= seen_at_spend u log spend) c /\ nth_error counts (Z.to_nat (k - 1)) = Some c) /\
    (bought_at_spend log spend <= n ->
       nth_error counts 0 = Some (Z.max (bought_at_spend log spend - 1) 1) /\
       forall k, 2 <= k <= depth -> nth_error counts (Z.to_nat (k - 1)) = Some 0).
