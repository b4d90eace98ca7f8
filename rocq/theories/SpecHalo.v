(** Hypotheses about code outside /repo and vocabulary for simulator properties. *)
From Coq Require Import Lqa.
From Verif Require Import Prelude ModelReachPoint ModelData SpecData ModelPrivacy SpecPrivacy ModelHalo.
Open Scope Z_scope.

(** The estimator reports noise parameters that add up to the ones it was given. *)
Definition honest_estimator (X : externals) : Prop :=
  forall cfg,
    let l := output_privacy_parameters X cfg in
    (Qsum (map fst l) == ec_reach_epsilon cfg + ec_frequency_epsilon cfg /\
     Qsum (map snd l) == ec_reach_delta cfg + ec_frequency_delta cfg)%Q /\
    ((0 <= ec_reach_epsilon cfg /\ 0 <= ec_frequency_epsilon cfg /\
      0 <= ec_reach_delta cfg /\ 0 <= ec_frequency_delta cfg)%Q ->
     forall ed, In ed l -> (0 <= fst ed /\ 0 <= snd ed)%Q).

(** The estimator returns as many k+ reaches as it was asked for. *)
Definition estimates_all_frequencies (X : externals) : Prop :=
  forall cfg sk l, estimate X cfg sk = Ok l -> Z.of_nat (length l) = ec_max_freq cfg.

(** A tracker obtained by appending sensible events to a new one. *)
Definition sensible_tracker (t : tracker) : Prop :=
  exists es, Forall valid_event es /\ t = tracker_of es.

Definition sensible_budget (b : budget) : Prop := (0 <= epsilon b /\ 0 <= delta b)%Q.

(** [m] run in any world never charges more than [e], [d], whether it returns or raises, and
    charges exactly that when it returns. Events recorded before are kept. *)
Definition charges {X A} (m : M X A) (e d : Q) : Prop :=
  forall w es0, Forall valid_event es0 -> w_tracker w = tracker_of es0 ->
  exists es, Forall valid_event es /\ w_tracker (snd (m w)) = tracker_of (es0 ++ es) /\
    (epsilon (privacy_consumption (w_tracker (snd (m w)))) <=
       epsilon (privacy_consumption (w_tracker w)) + e)%Q /\
    (delta (privacy_consumption (w_tracker (snd (m w)))) <=
       delta (privacy_consumption (w_tracker w)) + d)%Q /\
    (forall a, fst (m w) = Ok a ->
     (epsilon (privacy_consumption (w_tracker (snd (m w)))) ==
        epsilon (privacy_consumption (w_tracker w)) + e)%Q /\
     (delta (privacy_consumption (w_tracker (snd (m w)))) ==
        delta (privacy_consumption (w_tracker w)) + d)%Q).

(** k+ reaches that a set of users can have: non-negative and non-increasing. *)
Fixpoint descending (l : list Z) : Prop :=
  match l with
  | x :: ((y :: _) as r) => y <= x /\ descending r
  | _ => True
  end.

(** [m] run in any world never raises consumption by more than [e], [d]: neither in the end
    (returning or raising) nor after any of the noising events it records on the way. *)
Definition stays_within {X A} (m : M X A) (e d : Q) : Prop :=
  forall w es0, Forall valid_event es0 -> w_tracker w = tracker_of es0 ->
  exists es, Forall valid_event es /\ w_tracker (snd (m w)) = tracker_of (es0 ++ es) /\
    forall k,
    (epsilon (privacy_consumption (tracker_of (es0 ++ firstn k es))) <=
       epsilon (privacy_consumption (w_tracker w)) + e)%Q /\
    (delta (privacy_consumption (tracker_of (es0 ++ firstn k es))) <=
       delta (privacy_consumption (w_tracker w)) + d)%Q.

(** The number of impressions each publisher shows at a spend. *)
Definition bought (logs : list (list row)) (spends : list Q) : list Z :=
  map (fun ls => bought_at_spend (fst ls) (snd ls)) (combine logs spends).
