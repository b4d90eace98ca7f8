(** Specification vocabulary for reach surfaces. *)
From Coq Require Import Sorting.Sorted Sorting.Permutation.
From Verif Require Import Prelude ModelReachPoint ModelCurves ModelSurface.
Open Scope Z_scope.

(** Shown [imps] impressions, the publishers with these reach curves reach [rs] people each,
    and no curve answers outside 0..max_reach. *)
Inductive single_reaches : list reach_curve -> list Q -> list Q -> Prop :=
| single_nil : single_reaches [] [] []
| single_cons c cs x xs r rs :
    c_reach c x = Ok r -> (0 <= r <= c_max_reach c)%Q ->
    single_reaches cs xs rs -> single_reaches (c :: cs) (x :: xs) (r :: rs).

(** Some publisher can reach somebody, for every publisher. *)
Definition non_trivial_curves (curves : list reach_curve) : Prop :=
  Forall (fun c => 0 < c_max_reach c)%Q curves.

(** The first entry of row [i], column [j] of a matrix with [c] columns stored row by row. *)
Definition entry (c : nat) (a : list Q) (i j : nat) : Q := nth (i * c + j) a 0%Q.

(** The total of [f 0, ..., f (n-1)]. *)
Fixpoint total (n : nat) (f : nat -> Q) : Q :=
  match n with O => 0%Q | S n' => (total n' f + f n')%Q end.

(** The constraints on the overlap coefficients that the docstrings state. *)
Definition overlap_coefficients (p : nat) (a : list Q) : Prop :=
  length a = (p * p)%nat /\
  (forall i j, (i < p)%nat -> (j < p)%nat -> 0 <= entry p a i j)%Q /\
  (forall i, (i < p)%nat -> entry p a i i == 0)%Q /\
  (forall i j, (i < p)%nat -> (j < p)%nat -> entry p a i j == entry p a j i)%Q /\
  (forall i, (i < p)%nat -> total p (fun j => entry p a i j) <= 1)%Q /\
  (forall j, (j < p)%nat -> total p (fun i => entry p a i j) <= 1)%Q.

(** Weights of [c] components for each of [p] publishers. *)
Definition mixture_weights (p c : nat) (a : list Q) : Prop :=
  length a = (p * c)%nat /\
  (forall i j, (i < p)%nat -> (j < c)%nat -> 0 <= entry c a i j)%Q /\
  (forall i, (i < p)%nat -> total c (fun j => entry c a i j) == 1)%Q.

(** Scalar product. *)
Fixpoint dot (u v : list Q) : Q :=
  match u, v with x :: u', y :: v' => (x * y + dot u' v')%Q | _, _ => 0%Q end.

(** [x] satisfies the constraints of a quadratic program in [n] variables. *)
Definition qp_feasible (Q0 : qp) (x : list Q) : Prop :=
  (forall row b, In (row, b) (qp_ineq Q0) -> (dot row x <= b)%Q) /\
  (forall row b, In (row, b) (qp_eq Q0) -> (dot row x == b)%Q).

(** The objective (1/2) x'Px + q'x. *)
Definition qp_objective (Q0 : qp) (n : nat) (x : list Q) : Q :=
  ((1#2) * total n (fun u => total n (fun v => nth u x 0 * qp_P Q0 u v * nth v x 0)) +
   total n (fun u => qp_q Q0 u * nth u x 0))%Q.

(** A solver that returns a feasible vector of [n] numbers whenever it returns. *)
Definition returns_feasible (solver : qp -> result (list Q)) (n : nat) : Prop :=
  forall Q0 x, solver Q0 = Ok x -> length x = n /\ qp_feasible Q0 x.

(** A solver that returns a feasible vector with the smallest objective. *)
Definition returns_optimum (solver : qp -> result (list Q)) (n : nat) : Prop :=
  forall Q0 x, solver Q0 = Ok x -> length x = n /\ qp_feasible Q0 x /\
    forall y, length y = n -> qp_feasible Q0 y -> (qp_objective Q0 n x <= qp_objective Q0 n y)%Q.

(** Entry by entry order of vectors. *)
Definition vec_le (u v : list Q) : Prop := Forall2 Qle u v.

(** The squared error of a surface on its training points, when it answers at all of them. *)
Fixpoint training_error (predict : list Q -> result qpoint) (points : list qpoint) : option Q :=
  match points with
  | [] => Some 0%Q
  | pt :: rest =>
      match predict (rp_impressions pt), reach pt 1, training_error predict rest with
      | Ok q, Ok y, Some e =>
          match reach q 1 with Ok u => Some ((y - u) * (y - u) + e)%Q | Err _ => None end
      | _, _, _ => None
      end
  end.

(** The region of the coordinates lambda: non-negative, and each one times the sum of the
    others at most one. The code cuts the region off at a million. *)
Definition lambda_feasible (lbd : list Q) : Prop :=
  forall k, (k < length lbd)%nat ->
    let l := nth k lbd 0%Q in
    let others := (total (length lbd) (fun j => nth j lbd 0) - l)%Q in
    (0 <= l)%Q /\ (l * others <= 1)%Q /\ (l <= 1000000)%Q /\ (others <= 1000000)%Q.

(** Replace coordinate [i]. *)
Definition replaced (lbd : list Q) (i : nat) (x : Q) : list Q :=
  firstn i lbd ++ x :: skipn (S i) lbd.

(** Overlap explained by lambda at a training point: the sum over i < j of
    lambda_i lambda_j D_ij. *)
Definition explained (lbd : list Q) (D : nat -> nat -> Q) : Q :=
  total (length lbd) (fun j => total j (fun i => nth i lbd 0 * nth j lbd 0 * D i j))%Q.
Definition symmetric_data (n : nat) (data : list (Q * (nat -> nat -> Q))) : Prop :=
  Forall (fun yD => forall i j, (i < n)%nat -> (j < n)%nat -> snd yD i j == snd yD j i)%Q data.
Fixpoint squared_loss (data : list (Q * (nat -> nat -> Q))) (lbd : list Q) : Q :=
  match data with
  | [] => 0%Q
  | (y, D) :: rest =>
      ((y - explained lbd D) * (y - explained lbd D) + squared_loss rest lbd)%Q
  end.

(** Order of losses, None being infinite. *)
Definition inf_le (x y : option Q) : Prop :=
  match x, y with
  | _, None => True
  | None, Some _ => False
  | Some a, Some b => (a <= b)%Q
  end.

(** [ks] are the [k] smallest of the losses in ascending order, filled up with infinities. *)
Definition k_smallest_of (k : nat) (losses : list Q) (ks : list (option Q)) : Prop :=
  length ks = k /\ StronglySorted inf_le ks /\
  exists rest, Permutation (map Some losses ++ repeat None k) (ks ++ rest) /\
    forall x y, In x ks -> In y rest -> inf_le x y.

(** The outcomes of the first [n] starts. *)
Definition outcomes {A} (run : nat -> result (A * Q * bool)) (n : nat) (os : list (A * Q * bool)) : Prop :=
  mapM run (seq 0 n) = Ok os.

(** A training point that shows impressions of at least two publishers. *)
Definition several_publishers (pt : qpoint) : bool :=
  (2 <=? length (filter (fun x => negb (Qeq_bool x 0)) (rp_impressions pt)))%nat.
