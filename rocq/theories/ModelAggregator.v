(** Model of src/driver/test_point_aggregator.py. *)
From Coq Require Import String Qround.
From Verif Require Import Prelude ModelReachPoint.
Open Scope Z_scope.

(** A number produced by numpy: a finite one or one of nan, inf and -inf. Simplification:
    the three special values are not told apart. *)
Inductive stat : Type := Num (q : Q) | NotFinite.

(** A cell of the one-row data frame. *)
Inductive cell : Type := CInt (z : Z) | CText (s : string) | CStat (s : stat).

Section Aggregator.
Context {I : Type}.
Notation point := (reach_point I Q).

(** test_point_aggregator.py 111-113: _reach *)
Definition reach_array (points : list point) (k : Z) : result (list Q) :=
  mapM (fun p => reach p k) points.

(** Elementwise operations on numpy arrays: equal lengths, or one array of length 1 that is
    stretched; anything else raises ValueError. *)
Definition np_zip {A B C} (f : A -> B -> C) (a : list A) (b : list B) : result (list C) :=
  if Nat.eqb (length a) (length b) then Ok (map (fun p => f (fst p) (snd p)) (combine a b))
  else match a, b with
       | [x], _ => Ok (map (f x) b)
       | _, [y] => Ok (map (fun x => f x y) a)
       | _, _ => Err ValueError
       end.

(** Division of floats; by zero it gives a special value and a warning. *)
Definition np_div (x y : Q) : stat := if Qeqb y 0 then NotFinite else Num (x / y)%Q.

(** numpy.abs *)
Definition Qabs' (x : Q) : Q := if Qleb 0 x then x else (- x)%Q.

(** All entries finite. *)
Fixpoint finite (l : list stat) : option (list Q) :=
  match l with
  | [] => Some []
  | NotFinite :: _ => None
  | Num q :: r => match finite r with Some qs => Some (q :: qs) | None => None end
  end.

Definition length_Q {A} (l : list A) : Q := inject_Z (Z.of_nat (length l)).

(** numpy.mean: nan for no entries, not finite if an entry is not. *)
Definition mean_of (l : list Q) : Q := (Qsum l / length_Q l)%Q.
Definition np_mean (l : list stat) : stat :=
  match finite l with
  | None | Some [] => NotFinite
  | Some qs => Num (mean_of qs)
  end.

(** numpy.var: the mean of the squared distances from the mean. *)
Definition variance_of (l : list Q) : Q :=
  mean_of (map (fun x => ((x - mean_of l) * (x - mean_of l))%Q) l).
Definition np_var (l : list stat) : stat :=
  match finite l with
  | None | Some [] => NotFinite
  | Some qs => Num (variance_of qs)
  end.

(** numpy.sort *)
Fixpoint insert_Q (x : Q) (l : list Q) : list Q :=
  match l with
  | [] => [x]
  | y :: r => if Qleb x y then x :: y :: r else y :: insert_Q x r
  end.
Definition sort_Q (l : list Q) : list Q := fold_right insert_Q [] l.

(** numpy.quantile with linear interpolation: between the entries at the positions around
    q * (n - 1) of the sorted array. No entries: IndexError. Simplification: if some entry
    is not finite the result is taken as not finite (with an infinite entry numpy may still
    give a finite low quantile). *)
Definition quantile_of (l : list Q) (q : Q) : Q :=
  let s := sort_Q l in
  let h := (q * (length_Q l - 1))%Q in
  let lo := Qfloor h in
  let hi := Z.min (lo + 1) (Z.of_nat (length l) - 1) in
  let a := nth (Z.to_nat lo) s 0%Q in
  let b := nth (Z.to_nat hi) s 0%Q in
  (a + (h - inject_Z lo) * (b - a))%Q.
Definition np_quantile (l : list stat) (q : Q) : result stat :=
  match l with
  | [] => Err IndexError
  | _ => match finite l with
         | None => Ok NotFinite
         | Some qs => Ok (Num (quantile_of qs q))
         end
  end.

(** [_reach(x) - _reach(y)] *)
Definition differences (x y : list point) (k : Z) : result (list Q) :=
  a <- reach_array x k ;; b <- reach_array y k ;; np_zip Qminus a b.

(** test_point_aggregator.py 102-108: _mean_abs_relative_error *)
Definition mean_abs_relative_error (x y : list point) (k : Z) : result stat :=
  if existsb (fun p => max_frequency p <? k) x then Ok NotFinite
  else if existsb (fun p => max_frequency p <? k) y then Ok NotFinite
  else
    d <- differences x y k ;;
    a <- reach_array x k ;;
    r <- np_zip np_div (map Qabs' d) a ;;
    Ok (np_mean r).

(** test_point_aggregator.py 116-124: _shuffle_distance, with k = 5 where it is called. The
    sums are compared with zero before dividing, so the divisions are those of numbers. *)
Definition shuffle_distance (xpoint ypoint : point) (k : Z) : result Q :=
  if (max_frequency xpoint <=? k) || (max_frequency ypoint <=? k) then Ok 1%Q
  else
    xfreq <- mapM (fun i => frequency xpoint (i + 1)) (py_range 0 k) ;;
    yfreq <- mapM (fun i => frequency ypoint (i + 1)) (py_range 0 k) ;;
    if Qeqb (Qsum xfreq) 0 || Qeqb (Qsum yfreq) 0 then Ok (1 # 2)%Q
    else
      d <- np_zip (fun a b => Qabs' (a / Qsum xfreq - b / Qsum yfreq)%Q) xfreq yfreq ;;
      Ok ((1 # 2) * Qsum d)%Q.

(** [[_shuffle_distance(x[i], y[i]) for i in range(len(x))]] *)
Definition shuffle_distances (x y : list point) : result (list Q) :=
  mapM (fun i => a <- py_index x i ;; b <- py_index y i ;; shuffle_distance a b 5)
       (py_range 0 (Z.of_nat (length x))).

Definition square (x : Q) : Q := (x * x)%Q.

(** The relative errors of test_point_aggregator.py 61, 64, ... *)
Definition abs_relative_errors (x y : list point) : result (list stat) :=
  d <- differences x y 1 ;; a <- reach_array x 1 ;; np_zip np_div (map Qabs' d) a.

(** test_point_aggregator.py 31-99: AGGREGATORS *)
Definition aggregators : list (string * (list point -> list point -> result cell)) :=
  let stat_of (f : list point -> list point -> result stat) x y := s <- f x y ;; Ok (CStat s) in
  let mare k x y := mean_abs_relative_error x y k in
  let quantile q x y := r <- abs_relative_errors x y ;; np_quantile r q in
  [("npoints", fun x y => Ok (CInt (Z.of_nat (length x))));
   ("mean_error", stat_of (fun x y => d <- differences x y 1 ;; Ok (np_mean (map Num d))));
   ("mean_abs_error",
     stat_of (fun x y => d <- differences x y 1 ;; Ok (np_mean (map Num (map Qabs' d)))));
   ("mean_squared_error",
     stat_of (fun x y => d <- differences x y 1 ;; Ok (np_mean (map Num (map square d)))));
   ("mean_abs_relative_error", stat_of (mare 1));
   ("mare_freq_at_least_2", stat_of (mare 2));
   ("mare_freq_at_least_3", stat_of (mare 3));
   ("mare_freq_at_least_4", stat_of (mare 4));
   ("mare_freq_at_least_5", stat_of (mare 5));
   ("mare_freq_at_least_6", stat_of (mare 6));
   ("mare_freq_at_least_7", stat_of (mare 7));
   ("mare_freq_at_least_8", stat_of (mare 8));
   ("mare_freq_at_least_9", stat_of (mare 9));
   ("mean_squared_relative_error",
     stat_of (fun x y => d <- differences x y 1 ;; a <- reach_array x 1 ;;
                         r <- np_zip np_div (map square d) (map square a) ;; Ok (np_mean r)));
   ("var_error", stat_of (fun x y => d <- differences x y 1 ;; Ok (np_var (map Num d))));
   ("var_relative_error",
     stat_of (fun x y => d <- differences x y 1 ;; a <- reach_array x 1 ;;
                         r <- np_zip np_div d a ;; Ok (np_var r)));
   ("relative_error_q10", stat_of (quantile (10 # 100)));
   ("relative_error_q20", stat_of (quantile (20 # 100)));
   ("relative_error_q30", stat_of (quantile (30 # 100)));
   ("relative_error_q40", stat_of (quantile (40 # 100)));
   ("relative_error_q50", stat_of (quantile (50 # 100)));
   ("relative_error_q60", stat_of (quantile (60 # 100)));
   ("relative_error_q70", stat_of (quantile (70 # 100)));
   ("relative_error_q80", stat_of (quantile (80 # 100)));
   ("relative_error_q90", stat_of (quantile (90 # 100)));
   ("mean_shuffle_distance",
     stat_of (fun x y => l <- shuffle_distances x y ;; Ok (np_mean (map Num l))));
   ("mean_squared_shuffle_distance",
     stat_of (fun x y => l <- shuffle_distances x y ;; Ok (np_mean (map Num (map square l)))));
   ("var_shuffle_distance",
     stat_of (fun x y => l <- shuffle_distances x y ;; Ok (np_var (map Num l))))]%string.

(** test_point_aggregator.py 127-146: aggregate *)
Definition aggregate (true_reach simulated_reach : list point) : result (list (string * cell)) :=
  stats <- mapM (fun a => c <- snd a true_reach simulated_reach ;; Ok (fst a, c)) aggregators ;;
  Ok (("model_succeeded", CInt 1) :: ("model_exception", CText "None") :: stats)%string.

(** test_point_aggregator.py 149-161: aggregate_on_exception *)
Definition aggregate_on_exception (debug_msg : string) : list (string * cell) :=
  (("model_succeeded", CInt 0) :: ("model_exception", CText debug_msg) ::
   map (fun a => (fst a, CStat NotFinite)) aggregators)%string.

End Aggregator.
