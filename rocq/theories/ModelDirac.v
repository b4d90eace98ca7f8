(** Model of src/models/dirac_mixture_single_publisher_model.py. Floats are exact rationals.
    scipy's Poisson distribution, the logarithm, the convex solvers and the conversion to
    32 bit integers are parameters. *)
From Verif Require Import Prelude ModelReachPoint ModelHalo ModelCurves ModelGamma.
Open Scope Z_scope.

(** What problem.solve does: it ends (the variable then has a value, or None if the solver
    gives up on the problem), or raises cvxpy's SolverError, or raises anything else. *)
Inductive solve_outcome : Type :=
| Solved (ws : option (list Q))
| SolverError
| Raised (e : pyerr).

Record dirac_externals : Type := {
  dx_pmf : Z -> Q -> Q;                              (* scipy.stats.poisson.pmf(k, mu) *)
  dx_sf : Z -> Q -> Q;                               (* scipy.stats.poisson.sf(k, mu) *)
  dx_log : Q -> Q;                                   (* cp.log *)
  dx_ecos : nat -> (list Q -> Q) -> solve_outcome;   (* number of weights, objective; the
                                                        constraints are always the same *)
  dx_scs : nat -> (list Q -> Q) -> solve_outcome;
  dx_int32 : Z -> Z                                  (* astype("int32") *)
}.

(** ** UnivariateMixedPoissonOptimizer *)

(** dirac_mixture_single_publisher_model.py 66-80: validate_frequency_histogram *)
Definition validate_frequency_histogram (h : list Q) : result unit :=
  if (length h <? 2)%nat then Err ValueError
  else if negb (forallb (fun v => Qleb 0 v) h) then Err ValueError
  else if Qleb (Qsum h) 0 then Err ValueError
  else Ok tt.

(** np.linspace(f, f + 1, n, endpoint=False) *)
Definition linspace_unit (f n : Z) : result (list Q) :=
  if n <? 0 then Err ValueError
  else Ok (map (fun i => inject_Z f + inject_Z (Z.of_nat i) * (1 / inject_Z n))%Q (seq 0 (Z.to_nat n))).

(** dirac_mixture_single_publisher_model.py 128-145: the loop over the frequencies and the
    rest after it. The list is what is left of pmf[f:]. *)
Fixpoint grid_from (ncomponents n_left f : Z) (pmf : list Q) : result (list Q) :=
  if 0 <? n_left then
    match pmf with
    | [] => linspace_unit f n_left
    | p :: r =>
        let n := py_round (inject_Z ncomponents * p) in
        l <- linspace_unit f n ;;
        rest <- grid_from ncomponents (n_left - n) (f + 1) r ;;
        Ok (l ++ rest)
    end
  else Ok [].

(** dirac_mixture_single_publisher_model.py 82-145: in_bound_grid *)
Definition in_bound_grid (ncomponents : Z) (pmf : list Q) (dilusion : Q) : result (list Q) :=
  weights <- (if Qltb 0 dilusion then
                match pmf with
                | [] => Err ZeroDivisionError
                | _ => Ok (map (fun p => p * (1 - dilusion) + dilusion / inject_Z (Z.of_nat (length pmf)))%Q pmf)
                end
              else Ok pmf) ;;
  grid_from ncomponents ncomponents 0 weights.

(** dirac_mixture_single_publisher_model.py 147-155 and 157-163 *)
Definition in_bound_purely_weighted_grid (ncomponents : Z) (pmf : list Q) : result (list Q) :=
  in_bound_grid ncomponents pmf 0.
Definition in_bound_uniform_grid (ncomponents : Z) (pmf : list Q) : result (list Q) :=
  in_bound_grid ncomponents pmf 1.

(** The attributes of the optimizer; [op_weights] is [Some ws] once fitted, where ws may be
    None. component_pmfs is not read again. *)
Record optimizer : Type := {
  op_observed : list Q; op_max_freq : Z; op_components : list Q;
  op_weights : option (option (list Q)) }.

(** dirac_mixture_single_publisher_model.py 41-64: constructor *)
Definition mk_optimizer (h : list Q) (ncomponents : Z) : result optimizer :=
  _ <- validate_frequency_histogram h ;;
  let observed := map (fun v => v / Qsum h)%Q h in
  components <- in_bound_purely_weighted_grid ncomponents observed ;;
  Ok {| op_observed := observed; op_max_freq := Z.of_nat (length h) - 1;
        op_components := components; op_weights := None |}.

(** Sums of arrays: builtins.sum starts with the integer 0, which is left alone if there is
    no array ([None]). *)
Fixpoint vadd (a b : list Q) : list Q :=
  match a, b with
  | x :: a', y :: b' => (x + y)%Q :: vadd a' b'
  | _, _ => []
  end.
Definition sum_arrays (l : list (list Q)) : option (list Q) :=
  match l with [] => None | v :: r => Some (fold_left vadd r v) end.
(** [[w * arr for w, arr in zip(ws, arrs)]] *)
Definition weighted (ws : list Q) (arrs : list (list Q)) : list (list Q) :=
  map (fun wa => map (Qmult (fst wa)) (snd wa)) (combine ws arrs).

(** dirac_mixture_single_publisher_model.py 183-204: cross_entropy, for one-dimensional
    arrays *)
Definition tiny : Q := 1 # (10 ^ 200).

Section Dirac.
Context (x : dirac_externals).

Definition cross_entropy (observed fitted : list Q) : Q :=
  (- Qsum (map (fun of => fst of * dx_log x (snd of + tiny)) (combine observed fitted)))%Q.

(** dirac_mixture_single_publisher_model.py 165-181: truncated_poisson_pmf_vec *)
Definition truncated_poisson_pmf_vec (mean : Q) (max_freq : Z) : result (list Q) :=
  py_set (map (fun f => dx_pmf x f mean) (py_range 0 (max_freq + 1))) (-1) (dx_sf x (max_freq - 1) mean).

(** dirac_mixture_single_publisher_model.py 225-260: solve_optimal_weights. [None] is
    ws.value when the solver found no solution. With no component the objective would be
    that of the number 0 (not reached). *)
Definition objective (observed : list Q) (arrs : list (list Q)) (ws : list Q) : Q :=
  match sum_arrays (weighted ws arrs) with
  | Some pred => cross_entropy observed pred
  | None => 0%Q
  end.
Definition solve_optimal_weights (observed : list Q) (arrs : list (list Q)) : result (option (list Q)) :=
  match dx_ecos x (length arrs) (objective observed arrs) with
  | Solved ws => Ok ws
  | Raised e => Err e
  | SolverError =>
      match dx_scs x (length arrs) (objective observed arrs) with
      | Solved ws => Ok ws
      | Raised e => Err e
      | SolverError => Err OtherError
      end
  end.

(** dirac_mixture_single_publisher_model.py 262-275: fit *)
Definition optimizer_fit (o : optimizer) : result optimizer :=
  match op_weights o with
  | Some _ => Ok o
  | None =>
      arrs <- mapM (fun c => truncated_poisson_pmf_vec c (op_max_freq o)) (op_components o) ;;
      ws <- solve_optimal_weights (op_observed o) arrs ;;
      Ok {| op_observed := op_observed o; op_max_freq := op_max_freq o;
            op_components := op_components o; op_weights := Some ws |}
  end.

(** dirac_mixture_single_publisher_model.py 277-318: predict; [zip(None, ...)] raises
    TypeError. The answer [None] is the integer 0. The second component is the optimizer
    afterwards. *)
Definition optimizer_predict (o : optimizer) (scaling : Q) (max_freq : option Z)
  : result (option (list Q)) * optimizer :=
  match optimizer_fit o with
  | Err e => (Err e, o)
  | Ok o' =>
      (pmfs <- mapM (fun c => truncated_poisson_pmf_vec (c * scaling)
                                (match max_freq with Some m => m | None => op_max_freq o' end))
                    (op_components o') ;;
       match op_weights o' with
       | Some (Some ws) => Ok (sum_arrays (weighted ws pmfs))
       | _ => Err TypeError
       end, o')
  end.

(** ** DiracMixtureSinglePublisherModel *)

(** reach_point.py 107-120: zero_included_histogram, for numbers *)
Definition zero_included_histogram_Q (p : qpoint) : result (list Q) :=
  match rp_universe p with
  | None => Err ValueError
  | Some u => r1 <- reach p 1 ;; f <- frequencies_with_kplus_bucket p ;; Ok ((inject_Z u - r1)%Q :: f)
  end.

Record dirac_model : Type := {
  dm_point : qpoint; dm_hist : list Q; dm_cpi : option Q; dm_ncomponents : Z;
  dm_fit_computed : bool; dm_optimizer : option optimizer }.

(** dirac_mixture_single_publisher_model.py 322-357: constructor *)
Definition mk_dirac (data : list qpoint) (ncomponents : Z) : result dirac_model :=
  match data with
  | [p] =>
      imp <- py_index (rp_impressions p) 0 ;;
      if Qltb imp (1 # 1000) then Err ValueError
      else
        r <- reach p 1 ;;
        if Qltb imp r then Err ValueError
        else
          h <- zero_included_histogram_Q p ;;
          cpi <- match rp_spends p with
                 | Some l => s <- py_index l 0 ;; Ok (Some (s / imp)%Q)
                 | None => Ok None
                 end ;;
          _ <- universe_size p ;;
          Ok {| dm_point := p; dm_hist := h; dm_cpi := cpi; dm_ncomponents := ncomponents;
                dm_fit_computed := false; dm_optimizer := None |}
  | _ => Err ValueError
  end.

Definition with_optimizer (m : dirac_model) (n : Z) (computed : bool) (o : option optimizer) : dirac_model :=
  {| dm_point := dm_point m; dm_hist := dm_hist m; dm_cpi := dm_cpi m; dm_ncomponents := n;
     dm_fit_computed := computed; dm_optimizer := o |}.

(** dirac_mixture_single_publisher_model.py 363-379: the loop. [int(n / 2)] is [n / 2] for
    positive n. [fuel] bounds the number of rounds; the caller gives enough of it. *)
Fixpoint fit_loop (fuel : nat) (m : dirac_model) : result unit * dirac_model :=
  if 0 <? dm_ncomponents m then
    match fuel with
    | O => (Err OtherError, m)
    | S f =>
        match mk_optimizer (dm_hist m) (dm_ncomponents m) with
        | Err e => (Err e, m)
        | Ok o =>
            match optimizer_fit o with
            | Ok o' => (Ok tt, with_optimizer m (dm_ncomponents m) true (Some o'))
            | Err _ => fit_loop f (with_optimizer m (dm_ncomponents m / 2) (dm_fit_computed m) (Some o))
            end
        end
    end
  else (Ok tt, with_optimizer m (dm_ncomponents m) true (dm_optimizer m)).

(** dirac_mixture_single_publisher_model.py 359-379: _fit *)
Definition dm_fitted (m : dirac_model) : result unit * dirac_model :=
  if dm_fit_computed m then (Ok tt, m) else fit_loop (Z.to_nat (dm_ncomponents m)) m.

(** dirac_mixture_single_publisher_model.py 399-412: the k+ reaches of a prediction;
    [0[::-1]] raises TypeError. *)
Definition kplus_from_prediction (universe : Z) (hist : option (list Q)) : result (list Z) :=
  match hist with
  | None => Err TypeError
  | Some h => Ok (map (fun v => dx_int32 x (py_round (inject_Z universe * v))) (tl (suffix_sums h)))
  end.

(** dirac_mixture_single_publisher_model.py 381-417: by_impressions. Without an optimizer:
    AttributeError, here OtherError. *)
Definition dm_by_impressions (m : dirac_model) (imps : list Q) (max_freq : Z)
  : result (reach_point Q Z) * dirac_model :=
  match imps with
  | [imp] =>
      match dm_fitted m with
      | (Err e, m1) => (Err e, m1)
      | (Ok _, m1) =>
          match dm_optimizer m1 with
          | None => (Err OtherError, m1)
          | Some o =>
              match py_index (rp_impressions (dm_point m1)) 0 with
              | Err e => (Err e, m1)
              | Ok imp0 =>
                  let '(pred, o') := optimizer_predict o (imp / imp0)%Q (Some max_freq) in
                  (hist <- pred ;;
                   u <- universe_size (dm_point m1) ;;
                   kplus <- kplus_from_prediction u hist ;;
                   mk_reach_point Zops imps kplus
                     (match truthy_cost (dm_cpi m1) with Some c => Some [(imp * c)%Q] | None => None end) None,
                   with_optimizer m1 (dm_ncomponents m1) (dm_fit_computed m1) (Some o'))
              end
          end
      end
  | _ => (Err ValueError, m)
  end.

(** dirac_mixture_single_publisher_model.py 436-440: impressions_for_spend *)
Definition dm_impressions_for_spend (m : dirac_model) (spend : Q) : result Q :=
  match truthy_cost (dm_cpi m) with
  | None => Err ValueError
  | Some c => Ok (spend / c)%Q
  end.

(** dirac_mixture_single_publisher_model.py 419-434: by_spend *)
Definition dm_by_spend (m : dirac_model) (spends : list Q) (max_freq : Z)
  : result (reach_point Q Z) * dirac_model :=
  match spends with
  | [s] => match dm_impressions_for_spend m s with
           | Err e => (Err e, m)
           | Ok imp => dm_by_impressions m [imp] max_freq
           end
  | _ => (Err ValueError, m)
  end.

(** reach_curve.py 43-60 and reach_surface.py 63-66, of an object whose constructor does not
    call the base class: self._max_reach is missing (AttributeError, here OtherError). *)
Definition dm_max_reach (m : dirac_model) : result Q := Err OtherError.
Definition dm_at_reach_quantile (m : dirac_model) (quantile : Q) : result Z :=
  if Qltb 0 quantile && Qltb quantile 1 then mr <- dm_max_reach m ;; Err OtherError else Err ValueError.

End Dirac.
