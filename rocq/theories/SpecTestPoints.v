(** Independent vocabulary for the test points: spend boxes, grids, Latin hypercubes. *)
From Coq Require Import Permutation.
From Verif Require Import Prelude ModelReachPoint ModelData ModelTestPoints.
Open Scope Z_scope.

(** Coordinate [j] of point number [i]. *)
Definition coord (points : list (list Q)) (i j : nat) : Q := nth j (nth i points []) 0%Q.

(** Two points that differ in some coordinate. *)
Definition differ (a b : list Q) : Prop := exists j, ~ (nth j a 0 == nth j b 0)%Q.

(** The maximum spend of publisher number [j] of the data set. *)
Definition max_spend_of (d : data_set) (j : nat) : Q := nth j (map pd_max_spend (ds_data d)) 0%Q.

(** numpy and pyDOE: uniform draws lie in [0, 1), permutations permute 0..n-1. *)
Definition random_ok {St Gl} (R : point_rng St Gl) : Prop :=
  forall n st, 0 <= n ->
    length (fst (draw_random R n st)) = Z.to_nat n /\
    Forall (fun u => (0 <= u /\ u < 1)%Q) (fst (draw_random R n st)).
Definition permutation_ok {St Gl} (R : point_rng St Gl) : Prop :=
  forall n st, Permutation (py_range 0 n) (fst (draw_permutation R n st)).

(** Value [v] lies in slice [k] of the [n] equal slices of the interval from 0 to [m]. *)
Definition in_slice (m : Q) (n k : nat) (v : Q) : Prop :=
  (m * inject_Z (Z.of_nat k) / inject_Z (Z.of_nat n) <= v)%Q /\
  (v < m * inject_Z (Z.of_nat (k + 1)) / inject_Z (Z.of_nat n))%Q.

(** A Latin hypercube in the box given by [box]: [n] points with, for each coordinate, one
    and only one point in each of the [n] equal slices of that side of the box. *)
Definition latin_hypercube (box : nat -> Q) (dims n : nat) (points : list (list Q)) : Prop :=
  length points = n /\
  Forall (fun p => length p = dims) points /\
  forall j k, (j < dims)%nat -> (k < n)%nat ->
    exists! i, (i < n)%nat /\ in_slice (box j) n k (coord points i j).

Definition lhs_ok {St Gl} (R : point_rng St Gl) : Prop :=
  forall n samples gl, 0 <= n -> 0 < samples ->
    latin_hypercube (fun _ => 1%Q) (Z.to_nat n) (Z.to_nat samples)
                    (fst (draw_lhs R n samples gl)) /\
    Forall (Forall (fun u => (0 <= u /\ u < 1)%Q)) (fst (draw_lhs R n samples gl)).
