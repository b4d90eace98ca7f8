(** Specification vocabulary for single-publisher reach curves. *)
From Verif Require Import Prelude ModelReachPoint ModelCurves.
Open Scope Z_scope.

(** [f x] is defined for every integer x >= 1. *)
Definition defined_from_1 (f : Z -> result Q) : Prop := forall x, 1 <= x -> exists r, f x = Ok r.

(** More impressions never give less reach. *)
Definition monotone_curve (f : Z -> result Q) : Prop :=
  forall x y a b, 1 <= x <= y -> f x = Ok a -> f y = Ok b -> (a <= b)%Q.

(** [f x] is a value at most [t] / a value above [t]. *)
Definition at_most (f : Z -> result Q) (t : Q) (x : Z) : Prop := exists r, f x = Ok r /\ (r <= t)%Q.
Definition exceeds (f : Z -> result Q) (t : Q) (x : Z) : Prop := exists r, f x = Ok r /\ (t < r)%Q.

(** Whatever number (at least [k]) of frequencies is asked for, the curve [query] asked at
    [x] answers with a point whose [k]+ reach is [r]. *)
Definition answers (query : list Q -> Z -> result qpoint) (x : Q) (k : Z) (r : Q) : Prop :=
  1 <= k /\ forall m, k <= m -> exists p r', query [x] m = Ok p /\ reach p k = Ok r' /\ (r' == r)%Q.

(** [p] came out of the ReachPoint constructor. *)
Definition constructed (p : qpoint) : Prop :=
  exists imps kp sp u, mk_reach_point Qops imps kp sp u = Ok p.

(** The training data a Goerg model can be fitted to. *)
Definition goerg_fittable (data : list qpoint) : Prop :=
  exists p imp r, data = [p] /\ rp_impressions p = [imp] /\ reach p 1 = Ok r /\
    ((1#1000) <= imp)%Q /\ (r < imp)%Q.

(** [g] was fitted to a point of [imp] impressions, reach [r] and spends [sp]. *)
Definition goerg_trained_at (g : goerg) (imp r : Q) (sp : option (list Q)) : Prop :=
  exists p kp u, mk_reach_point Qops [imp] kp sp u = Ok p /\ reach p 1 = Ok r /\ mk_goerg [p] = Ok g.
