(** Vocabulary for the random starts of the restricted pairwise surface. *)
From Coq Require Import Sorting.Permutation.
From Verif Require Import Prelude ModelReachPoint ModelSurface SpecSurface ModelRestricted.
Open Scope Z_scope.

(** The generator does what numpy documents: [rand(n)] gives n numbers between 0 and 1, and
    [permutation(n)] a rearrangement of 0, ..., n-1. *)
Definition numpy_draws {G} (R : np_random G) : Prop :=
  (forall n g, length (fst (np_rand R n g)) = n /\ Forall (fun x => 0 <= x <= 1)%Q (fst (np_rand R n g))) /\
  (forall n g, Permutation (seq 0 n) (fst (np_permutation R n g))).

(** No coordinate is negative, and none times the sum of the others exceeds one by more than
    a millionth. *)
Definition accepted (lbd : list Q) : Prop :=
  forall k, (k < length lbd)%nat ->
    (0 <= nth k lbd 0)%Q /\
    (nth k lbd 0 * (total (length lbd) (fun j => nth j lbd 0) - nth k lbd 0) <= 1 + (1#1000000))%Q.

(** The state of the generator after [n] draws of [p] numbers. *)
Fixpoint after_draws {G} (R : np_random G) (p n : nat) (g : G) : G :=
  match n with O => g | S m => after_draws R p m (snd (np_rand R p g)) end.
Definition draw_number {G} (R : np_random G) (p n : nat) (g : G) : list Q :=
  fst (np_rand R p (after_draws R p n g)).

(** [sqrt] is never too small. *)
Definition sqrt_from_above (sqrt : Q -> Q) : Prop :=
  forall x, (0 <= x)%Q -> (0 <= sqrt x)%Q /\ (x <= sqrt x * sqrt x)%Q.
