(** Double precision numbers and what rounding to them means, without the model's helpers. *)
From Coq Require Import QArith Qabs Lia List.
From Verif Require Import ModelPrivacy ModelHalo.
Open Scope Q_scope.

(** Doubles: integers of at most 53 bits times a power of two that is at least 2^-1074. *)
Definition written (x : Q) (m e : Z) : Prop :=
  (Z.abs m < 2 ^ 53 /\ -1074 <= e)%Z /\ x == inject_Z m * 2 ^ e.
Definition is_double (x : Q) : Prop := exists m e, written x m e.

(** The last of the 53 bits is 0. *)
Definition even_double (x : Q) : Prop :=
  exists m e, written x m e /\ Z.even m = true /\ (2 ^ 52 <= Z.abs m \/ e = -1074)%Z.

(** [d] is the double nearest to [x], the even one if there are two. *)
Definition rounded (x d : Q) : Prop :=
  is_double d /\
  forall y, is_double y ->
    Qabs (d - x) <= Qabs (y - x) /\
    (Qabs (y - x) == Qabs (d - x) -> y == d \/ even_double d).

(** The unit of rounding errors. *)
Definition unit_error : Q := 1 # (2 ^ 53).

(** [r] is [x] up to [n] rounding errors. *)
Definition up_to (n : nat) (x r : Q) : Prop :=
  x * (1 - unit_error) ^ Z.of_nat n <= r <= x * (1 + unit_error) ^ Z.of_nat n.

(** The smallest numbers with all 53 bits. *)
Definition normal (x : Q) : Prop := 2 ^ (-1022) <= x.

(** ** Privacy *)

(** The amounts are doubles and not negative. *)
Definition double_event (e : noising_event) : Prop :=
  is_double (epsilon (ev_budget e)) /\ 0 <= epsilon (ev_budget e) /\
  is_double (delta (ev_budget e)) /\ 0 <= delta (ev_budget e).

(** The end of the range of buckets is computed without error; true of the default range. *)
Definition exact_range (e : noising_event) : Prop :=
  is_double (smallest_index (ev_buckets e) + sampling_rate (ev_buckets e)) /\
  is_double (smallest_index (ev_buckets e) + sampling_rate (ev_buckets e) - 1).

(** The estimator reports the two amounts that it was given. *)
Definition reports_two_amounts (X : externals) : Prop :=
  forall cfg, output_privacy_parameters X cfg =
    ((ec_reach_epsilon cfg, ec_reach_delta cfg) ::
     (ec_frequency_epsilon cfg, ec_frequency_delta cfg) :: nil).

(** An amount that can be halved without error: 0 or not tiny. *)
Definition can_halve (x : Q) : Prop := x == 0 \/ 2 ^ (-1021) <= x.

(** An amount that can be shared among [n] requests, and each share halved, without
    underflow: 0 or not tiny. *)
Definition can_share (x : Q) (n : Z) : Prop := x == 0 \/ 2 ^ (-1021) * inject_Z n <= x.
