(** Model of src/models/reach_surface.py (constructor), src/models/reach_curve.py and
    src/models/goerg_model.py. Floats are exact rationals. *)
From Verif Require Import Prelude ModelReachPoint.
Open Scope Z_scope.

(** A training or query point of a model: impressions and reaches are numbers. *)
Notation qpoint := (reach_point Q Q).

(** reach_surface.py 27-41: the checks of the constructor. *)
Definition surface_init {I A} (data : list (reach_point I A)) : result unit :=
  match data with
  | [] => Err ValueError
  | p0 :: _ =>
      if forallb (fun p => Nat.eqb (length (rp_impressions p)) (length (rp_impressions p0))) data
      then Ok tt else Err ValueError
  end.

(** reach_curve.py 31-41: the checks of the constructor. *)
Definition curve_init {I A} (data : list (reach_point I A)) : result unit :=
  _ <- surface_init data ;;
  p0 <- py_index data 0 ;;
  if Nat.eqb (length (rp_impressions p0)) 1 then Ok tt else Err ValueError.

(** reach_curve.py 63-71: the doubling loop. [n] is 60 minus the variable niter. *)
Fixpoint quantile_double (n : nat) (f : Z -> result Q) (target : Q) (lower upper : Z)
  : result (Z * Z) :=
  r <- f upper ;;
  if Qleb r target then
    match n with
    | O => Err OverflowError
    | S n' => quantile_double n' f target upper (2 * upper)
    end
  else Ok (lower, upper).

(** reach_curve.py 73-78: the bisection loop. [fuel] bounds the number of iterations; when
    it runs out the model answers OtherError, which the code never raises. *)
Fixpoint quantile_bisect (fuel : nat) (f : Z -> result Q) (target : Q) (lower upper : Z)
  : result Z :=
  if 1 <? upper - lower then
    match fuel with
    | O => Err OtherError
    | S fuel' =>
        let mid := (upper + lower) / 2 in
        r <- f mid ;;
        if Qleb r target then quantile_bisect fuel' f target mid upper
        else quantile_bisect fuel' f target lower mid
    end
  else Ok lower.

(** reach_curve.py 43-78: _by_quantile, with [f x] the 1+ reach of [reach_function([x])]. *)
Definition by_quantile (max_reach : Q) (f : Z -> result Q) (q : Q) : result Z :=
  if Qltb 0 q && Qltb q 1 then
    let target := (max_reach * q)%Q in
    '(lower, upper) <- quantile_double 60 f target 0 1 ;;
    quantile_bisect 60 f target lower upper
  else Err ValueError.

(** ** GoergModel *)

(** goerg_model.py 32-62: the attributes after construction. *)
Record goerg : Type := { go_rho : Q; go_beta : Q; go_max_reach : Q; go_cpi : option Q }.

(** goerg_model.py 32-62: constructor and _fit. *)
Definition mk_goerg (data : list qpoint) : result goerg :=
  _ <- curve_init data ;;
  if negb (Nat.eqb (length data) 1) then Err ValueError
  else
    p <- py_index data 0 ;;
    imp <- py_index (rp_impressions p) 0 ;;
    if Qltb imp (1#1000) then Err ValueError
    else
      r <- reach p 1 ;;
      if Qleb imp r then Err ValueError
      else
        let rho := ((imp * r) / (imp - r))%Q in
        cpi <- match rp_spends p with
               | Some l => s <- py_index l 0 ;; Ok (Some (s / imp)%Q)
               | None => Ok None
               end ;;
        Ok {| go_rho := rho; go_beta := rho; go_max_reach := rho; go_cpi := cpi |}.

(** Python's truth value of [self._cpi]. *)
Definition go_cost (g : goerg) : option Q :=
  match go_cpi g with
  | Some c => if Qeqb c 0 then None else Some c
  | None => None
  end.

(** goerg_model.py 64-87: by_impressions *)
Definition goerg_by_impressions (g : goerg) (imps : list Q) (m : Z) : result qpoint :=
  match imps with
  | [x] =>
      kp <- mapM (fun k => if Qeqb (x + go_beta g) 0 then Err ZeroDivisionError
                           else Ok (go_rho g * (x / (x + go_beta g)) ^ k)%Q)
                 (py_range 1 (m + 1)) ;;
      mk_reach_point Qops imps kp
        (match go_cost g with Some c => Some [(x * c)%Q] | None => None end) None
  | _ => Err ValueError
  end.

(** goerg_model.py 89-103: by_spend *)
Definition goerg_by_spend (g : goerg) (spends : list Q) (m : Z) : result qpoint :=
  match go_cost g with
  | None => Err ValueError
  | Some c => match spends with
              | [s] => goerg_by_impressions g [(s / c)%Q] m
              | _ => Err ValueError
              end
  end.

(** goerg_model.py 105-108: impressions_for_spend *)
Definition goerg_impressions_for_spend (g : goerg) (s : Q) : result Q :=
  match go_cost g with None => Err ValueError | Some c => Ok (s / c)%Q end.

(** reach_curve.py 80-104, for a Goerg model *)
Definition goerg_reach (g : goerg) (x : Z) : result Q :=
  p <- goerg_by_impressions g [inject_Z x] 1 ;; reach p 1.
Definition goerg_reach_spend (g : goerg) (x : Z) : result Q :=
  p <- goerg_by_spend g [inject_Z x] 1 ;; reach p 1.
Definition goerg_impressions_at_reach_quantile (g : goerg) (q : Q) : result Z :=
  by_quantile (go_max_reach g) (goerg_reach g) q.
Definition goerg_spend_at_reach_quantile (g : goerg) (q : Q) : result Z :=
  by_quantile (go_max_reach g) (goerg_reach_spend g) q.
