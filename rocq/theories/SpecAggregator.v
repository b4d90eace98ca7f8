(** Independent vocabulary for the error metrics of a trial. *)
From Coq Require Import String.
From Verif Require Import Prelude ModelReachPoint ModelAggregator SpecSurface.
Open Scope Z_scope.

(** The entry of a row in a named column. *)
Fixpoint column (row : list (string * cell)) (key : string) : option cell :=
  match row with
  | [] => None
  | (k, c) :: r => if String.eqb key k then Some c else column r key
  end.

(** The column holds a finite number equal to [q]. *)
Definition number (row : list (string * cell)) (key : string) (q : Q) : Prop :=
  exists v, column row key = Some (CStat (Num v)) /\ (v == q)%Q.
(** The column holds nan or an infinity. *)
Definition missing (row : list (string * cell)) (key : string) : Prop :=
  column row key = Some (CStat NotFinite).

(** Two rows that hold the same values. *)
Definition same_cell (a b : cell) : Prop :=
  match a, b with
  | CStat (Num p), CStat (Num q) => (p == q)%Q
  | _, _ => a = b
  end.
Definition same_row (a b : list (string * cell)) : Prop :=
  Forall2 (fun x y => fst x = fst y /\ same_cell (snd x) (snd y)) a b.

(** [f i] is the reach at frequency [k] or more of the [i]-th point of the list. *)
Definition reaches {I} (points : list (reach_point I Q)) (k : Z) (f : nat -> Q) : Prop :=
  forall i p, nth_error points i = Some p -> reach p k = Ok (f i).

(** A point that came out of the constructor. *)
Definition constructed {I} (p : reach_point I Q) : Prop :=
  exists impressions kplus spends universe,
    mk_reach_point Qops impressions kplus spends universe = Ok p.

Definition absolute (x : Q) : Q := Qmax x (- x).

(** How many of [f 0, ..., f (n-1)] satisfy a test. *)
Definition how_many (n : nat) (test : nat -> bool) : Z :=
  Z.of_nat (length (filter test (seq 0 n))).

(** The name of the column of the p percent quantile. *)
Definition quantile_columns : list (Z * string) :=
  [(10, "relative_error_q10"); (20, "relative_error_q20"); (30, "relative_error_q30");
   (40, "relative_error_q40"); (50, "relative_error_q50"); (60, "relative_error_q60");
   (70, "relative_error_q70"); (80, "relative_error_q80"); (90, "relative_error_q90")]%string.

(** The names of the columns of the mean absolute relative error at frequency k or more. *)
Definition mare_columns : list (Z * string) :=
  [(1, "mean_abs_relative_error"); (2, "mare_freq_at_least_2"); (3, "mare_freq_at_least_3");
   (4, "mare_freq_at_least_4"); (5, "mare_freq_at_least_5"); (6, "mare_freq_at_least_6");
   (7, "mare_freq_at_least_7"); (8, "mare_freq_at_least_8"); (9, "mare_freq_at_least_9")]%string.

(** What the aggregator is documented to be called with: two lists of the same length of
    points made by the constructor, each with a reach. *)
Definition comparable {I} (x y : list (reach_point I Q)) : Prop :=
  length x = length y /\ x <> [] /\
  forall p, In p x \/ In p y -> constructed p /\ 1 <= max_frequency p.

(** The share of frequency [j+1] among the first five frequencies. *)
Definition five_share (f : nat -> Q) (j : nat) : Q := (f j / total 5 f)%Q.
