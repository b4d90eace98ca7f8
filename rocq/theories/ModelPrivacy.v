(** Model of src/simulator/privacy_tracker.py. *)
From Coq Require Import String.
From Verif Require Import Prelude.
Open Scope Z_scope.

(** privacy_tracker.py 26-42: PrivacyBudget *)
Record budget : Type := { epsilon : Q; delta : Q }.

(** privacy_tracker.py 45-63: SamplingBucketIndices *)
Record sampling_buckets : Type := { smallest_index : Q; sampling_rate : Q }.

(** privacy_tracker.py 58-63: contains *)
Definition contains (b : sampling_buckets) (x : Q) : bool :=
  if Qleb (smallest_index b) x then Qltb x (smallest_index b + sampling_rate b)
  else Qltb x (smallest_index b + sampling_rate b - 1).

(** privacy_tracker.py 66-81: NoisingEvent; the field [params] (a dictionary that is only
    stored) is left out. *)
Record noising_event : Type := {
  ev_budget : budget; ev_mechanism : string; ev_buckets : sampling_buckets }.

(** privacy_tracker.py 81: default sampling buckets. *)
Definition full_buckets : sampling_buckets := {| smallest_index := 0; sampling_rate := 1 |}.

(** privacy_tracker.py 101-106: the tracker and its constructor. The set of starting points
    is a list without repetitions (up to ==). *)
Record tracker : Type := { tr_events : list noising_event; tr_starts : list Q }.
Definition new_tracker : tracker := {| tr_events := []; tr_starts := [0%Q] |}.

(** Python's set.add on numbers. *)
Definition set_addQ (x : Q) (l : list Q) : list Q :=
  if existsb (fun y => Qeqb x y) l then l else l ++ [x].

(** privacy_tracker.py 148-153: append *)
Definition append (t : tracker) (e : noising_event) : tracker :=
  {| tr_events := tr_events t ++ [e];
     tr_starts := set_addQ (smallest_index (ev_buckets e)) (tr_starts t) |}.

(** privacy_tracker.py 128-141: privacy_consumption_for_sampling_bucket *)
Definition consumption_at (t : tracker) (x : Q) : budget :=
  fold_left (fun acc e =>
    if contains (ev_buckets e) x
    then {| epsilon := epsilon acc + epsilon (ev_budget e);
            delta := delta acc + delta (ev_budget e) |}
    else acc) (tr_events t) {| epsilon := 0; delta := 0 |}.

(** Python's max(a, b): [b] only if strictly larger. *)
Definition py_max2 (a b : Q) : Q := if Qltb a b then b else a.

(** privacy_tracker.py 108-126: privacy_consumption *)
Definition privacy_consumption (t : tracker) : budget :=
  fold_left (fun acc x =>
    let c := consumption_at t x in
    {| epsilon := py_max2 (epsilon acc) (epsilon c);
       delta := py_max2 (delta acc) (delta c) |})
    (tr_starts t) {| epsilon := 0; delta := 0 |}.

(** privacy_tracker.py 143-146 *)
Definition mechanisms (t : tracker) : list string := map ev_mechanism (tr_events t).
