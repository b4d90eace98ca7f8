(** Specification vocabulary for privacy accounting, independent of the tracker's code. *)
From Verif Require Import Prelude ModelPrivacy.
Open Scope Z_scope.

(** A point [x] of the circle [0,1) lies in the range [start, start + rate) taken mod 1. *)
Definition in_range (b : sampling_buckets) (x : Q) : Prop :=
  exists n : Z, (smallest_index b <= x + inject_Z n /\
                 x + inject_Z n < smallest_index b + sampling_rate b)%Q.

(** [v] is the total of the [sel] part (epsilon or delta) of the budgets of the events whose
    range contains [x]. *)
Inductive total_at (sel : budget -> Q) (x : Q) : list noising_event -> Q -> Prop :=
| total_nil : total_at sel x [] 0
| total_in e es v : in_range (ev_buckets e) x -> total_at sel x es v ->
    total_at sel x (e :: es) (sel (ev_budget e) + v)
| total_out e es v : ~ in_range (ev_buckets e) x -> total_at sel x es v ->
    total_at sel x (e :: es) v.

(** A sensible event: non-negative budget, start in [0,1), rate in [0,1]. *)
Definition valid_event (e : noising_event) : Prop :=
  (0 <= epsilon (ev_budget e) /\ 0 <= delta (ev_budget e) /\
   0 <= smallest_index (ev_buckets e) /\ smallest_index (ev_buckets e) < 1 /\
   0 <= sampling_rate (ev_buckets e) /\ sampling_rate (ev_buckets e) <= 1)%Q.

(** The tracker after appending [es] in order to a new one. *)
Definition tracker_of (es : list noising_event) : tracker := fold_left append es new_tracker.

Definition full_range (e : noising_event) : Prop :=
  (smallest_index (ev_buckets e) == 0 /\ sampling_rate (ev_buckets e) == 1)%Q.
