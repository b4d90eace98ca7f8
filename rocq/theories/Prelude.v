(** Shared vocabulary of the model: Python exceptions as values, Python list
    indexing and slicing, dictionaries as association lists, rationals.
    These are models of Python built-ins, not of code in /repo. *)
From Coq Require Export List ZArith QArith Lia Bool Arith.
Export ListNotations.
#[global] Open Scope Z_scope.

(** Python exception classes raised by the modelled code. *)
Inductive pyerr : Type :=
| ValueError | IndexError | RuntimeError | NameError | OverflowError
| ZeroDivisionError | AssertionError | KeyError | TypeError | FileNotFoundError
| NotImplementedErr | OtherError.

(** A Python call either returns or raises. *)
Inductive result (A : Type) : Type :=
| Ok (a : A)
| Err (e : pyerr).
Arguments Ok {A} a.
Arguments Err {A} e.

Definition bind {A B} (r : result A) (f : A -> result B) : result B :=
  match r with Ok a => f a | Err e => Err e end.

Notation "x <- e ;; f" := (bind e (fun x => f))
  (at level 61, e at next level, right associativity).
Notation "' p <- e ;; f" := (bind e (fun p => f))
  (at level 61, p pattern, e at next level, right associativity).

Definition is_ok {A} (r : result A) : bool :=
  match r with Ok _ => true | Err _ => false end.

(** A Python list comprehension [[f(x) for x in l]] whose body may raise. *)
Fixpoint mapM {A B} (f : A -> result B) (l : list A) : result (list B) :=
  match l with
  | [] => Ok []
  | x :: r => y <- f x ;; ys <- mapM f r ;; Ok (y :: ys)
  end.

(** Python's [l[i]] : negative indices count from the end, otherwise IndexError. *)
Definition py_index {A} (l : list A) (i : Z) : result A :=
  let n := Z.of_nat (length l) in
  let j := if i <? 0 then i + n else i in
  if (0 <=? j) && (j <? n)
  then match nth_error l (Z.to_nat j) with Some x => Ok x | None => Err IndexError end
  else Err IndexError.

(** [l] with position [i] replaced (no change when out of range). *)
Fixpoint set_nth {A} (i : nat) (x : A) (l : list A) : list A :=
  match l, i with
  | [], _ => []
  | _ :: r, O => x :: r
  | y :: r, S i' => y :: set_nth i' x r
  end.

(** Python's [l[i] = x]. *)
Definition py_set {A} (l : list A) (i : Z) (x : A) : result (list A) :=
  let n := Z.of_nat (length l) in
  let j := if i <? 0 then i + n else i in
  if (0 <=? j) && (j <? n) then Ok (set_nth (Z.to_nat j) x l) else Err IndexError.

(** Python's slice [l[:n]]. *)
Definition py_slice_to {A} (l : list A) (n : Z) : list A :=
  if n <? 0 then firstn (Z.to_nat (Z.of_nat (length l) + n)) l
  else firstn (Z.to_nat n) l.

(** Python's [range(a, b)] on integers. *)
Definition py_range (a b : Z) : list Z :=
  map (fun i => a + Z.of_nat i) (seq 0 (Z.to_nat (b - a))).

(** Python's [range(n-1, -1, -1)] as natural numbers, i.e. n-1, ..., 0. *)
Definition range_down (n : nat) : list nat := rev (seq 0 n).

(** Comparisons of rationals as booleans. *)
Definition Qleb (x y : Q) : bool := Qle_bool x y.
Definition Qltb (x y : Q) : bool := negb (Qle_bool y x).
Definition Qeqb (x y : Q) : bool := Qeq_bool x y.

Definition Qmax (x y : Q) : Q := if Qleb x y then y else x.
Definition Qmin (x y : Q) : Q := if Qleb x y then x else y.

(** Sum of a list. *)
Fixpoint Qsum (l : list Q) : Q :=
  match l with [] => 0%Q | x :: r => (x + Qsum r)%Q end.
Fixpoint Zsum (l : list Z) : Z :=
  match l with [] => 0 | x :: r => x + Zsum r end.
Fixpoint nsum (l : list nat) : nat :=
  match l with [] => O | x :: r => (x + nsum r)%nat end.

(** Dictionaries from integers to integers (insertion ordered, as in Python). *)
Definition zdict := list (Z * Z).

(** [d[k] += v] on a defaultdict(int) or Counter. *)
Fixpoint dict_incr (d : zdict) (k v : Z) : zdict :=
  match d with
  | [] => [(k, v)]
  | (k', v') :: r => if k =? k' then (k', v' + v) :: r else (k', v') :: dict_incr r k v
  end.

Definition dict_values (d : zdict) : list Z := map snd d.
Definition dict_keys (d : zdict) : list Z := map fst d.

(** [collections.Counter(ids)]. *)
Definition counter (ids : list Z) : zdict :=
  fold_left (fun d u => dict_incr d u 1) ids [].

(** Number of distinct elements, [len(set(l))]. *)
Definition count_distinct (l : list Z) : nat := length (nodup Z.eq_dec l).

(** Numeric operations used by ReachPoint, which holds ints or floats. *)
Record num_ops (A : Type) : Type := { nadd : A -> A -> A; nsub : A -> A -> A; nzero : A }.
Arguments nadd {A}. Arguments nsub {A}. Arguments nzero {A}.
Definition Zops : num_ops Z := {| nadd := Z.add; nsub := Z.sub; nzero := 0 |}.
Definition Qops : num_ops Q := {| nadd := Qplus; nsub := Qminus; nzero := 0%Q |}.
