(** Vocabulary for one start of the generalized mixture's fit. *)
From Verif Require Import Prelude ModelReachPoint ModelSurface SpecSurface.
Open Scope Q_scope.

Fixpoint product (n : nat) (f : nat -> Q) : Q :=
  match n with O => 1 | S n' => product n' f * f n' end.

(** The share of the universe that publisher [i] reaches in component [j]. *)
Definition share (N : Q) (c : nat) (a r : list Q) (i j : nat) : Q := entry c a i j * nth i r 0 / N.

(** [t] is the reach of component [j], all publishers together, per reach of the publishers
    one by one. *)
Definition slope (N : Q) (p c : nat) (a r : list Q) (j : nat) (t : Q) : Prop :=
  ~ total p (fun i => share N c a r i j) == 0 /\
  t * total p (fun i => share N c a r i j) == 1 - product p (fun i => 1 - share N c a r i j).

(** The linear model of the surface around the weights [a] at a point where the publishers
    reach [r] one by one. *)
Definition linear_model (N : Q) (p c : nat) (a r z : list Q) : Prop :=
  length z = (p * c)%nat /\
  exists t, (forall j, (j < c)%nat -> slope N p c a r j (t j)) /\
    forall i j, (i < p)%nat -> (j < c)%nat -> entry c z i j == nth i r 0 * t j / N.

Definition predicted (n : nat) (z a : list Q) : Q := total n (fun u => nth u z 0 * nth u a 0).
Definition total_over {A} (l : list A) (f : A -> Q) : Q := Qsum (map f l).

(** One round: the solver is asked for the weights with the smallest squared error of the
    linear models around [a]; [l] is the loss that is reported for its answer [a']. *)
Definition is_round (solver : qp -> result (list Q)) (p c : nat) (N : Q) (rs : list (list Q)) (ys : list Q)
    (a a' : list Q) (l : Q) : Prop :=
  exists zs prob, Forall2 (linear_model N p c a) rs zs /\ solver prob = Ok a' /\
    (forall b, length b = (p * c)%nat -> (qp_feasible prob b <-> mixture_weights p c b)) /\
    (forall b, qp_objective prob (p * c) b ==
       (1#2) * total_over (combine zs ys) (fun zy => let e := snd zy / N - predicted (p * c) (fst zy) b in e * e)
       - (1#2) * total_over (combine zs ys) (fun zy => (snd zy / N) * (snd zy / N))) /\
    l == total_over (combine zs ys) (fun zy => let e := predicted (p * c) (fst zy) a' in e * e - snd zy / N * e).

(** [steps] are the weights and losses of the rounds after the weights [a] with the loss
    [cur], where [prev] was the loss before: there is another round as long as the loss falls
    by more than [mi] and less than [left] rounds were made. *)
Fixpoint rounds_are (round : list Q -> list Q -> Q -> Prop) (mi : Q) (left : nat) (a : list Q) (prev cur : Q)
    (steps : list (list Q * Q)) : Prop :=
  match steps with
  | [] => left = O \/ prev - mi <= cur
  | (a', l) :: rest => (0 < left)%nat /\ cur < prev - mi /\ round a a' l /\
      rounds_are round mi (left - 1) a' cur l rest
  end.
