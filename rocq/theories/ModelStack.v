(** Model of how the driver's parts are put together: the classes that the names of
    src/driver/modeling_strategy_descriptor.py stand for, their keyword arguments, and what
    src/driver/experimental_trial.py does with the model that [strategy.fit] returns. The
    parts are those of ModelCurves.v, ModelGamma.v, ModelGammaPoisson.v, ModelData.v,
    ModelSurface.v, ModelRestricted.v, ModelStrategy.v and ModelDriver.v. *)
From Coq Require Import String.
From Verif Require Import Prelude ModelReachPoint ModelData ModelPrivacy ModelHalo ModelStrategy ModelCurves
  ModelGamma ModelGammaPoisson ModelSurface ModelRestricted ModelTestPoints ModelAggregator ModelFiles ModelDriver.
Open Scope Z_scope.

(** ** What lies outside the repository *)

(** numpy's process-wide generator, cvxopt's solver, scipy's functions, and the number of
    rounds after which the model gives up where the code would go on. *)
Record tools : Type := {
  tl_state : Type;
  tl_random : np_random tl_state;
  tl_solver : qp -> result (list Q);
  tl_gamma_poisson : gp_externals;
  tl_gamma : gamma_externals;
  tl_fuel : nat
}.

(** The rest of [lab]: printing, the sketches of the halo simulator, the generator of a trial. *)
Record bench (T : tools) : Type := {
  bn_float : float_format;
  bn_halo : externals;
  bn_own : Type;
  bn_default_rng : Z -> bn_own;
  bn_draws : point_rng bn_own (tl_state T);
  bn_traceback : pyerr -> string;
  bn_print : list (list (string * cell)) -> text;
  bn_parse : text -> result (list (list (string * cell)));
  bn_md5 : string -> string
}.

Section Stack.
Variable T : tools.

(** ** Single publisher models *)

(** The four classes of reach curves, after [_fit]. A Goerg model keeps its training point. *)
Inductive curve_model : Type :=
| Goerg (g : goerg) (p : qpoint)
| GammaPoisson (m : gpmodel)
| KInflated (m : kmodel)
| GroundTruth (g : ground_truth_curve).

(** A keyword argument, with the default value of the constructor. Simplification: a value
    that is not a number raises TypeError. *)
Definition kw_number (kw : kwargs) (name : string) : result (option number) :=
  match find (fun kv => String.eqb name (fst kv)) kw with
  | None => Ok None
  | Some (_, VNum n) => Ok (Some n)
  | Some _ => Err TypeError
  end.
(** A call with a keyword argument that the constructor does not have raises TypeError. *)
Definition accepts (names : list string) (kw : kwargs) : result unit :=
  if forallb (fun kv => known names (fst kv)) kw then Ok tt else Err TypeError.
Definition number_or (default : Q) (n : option number) : Q :=
  match n with Some n => number_Q n | None => default end.

(** goerg_model.py 32 (no keyword arguments), gamma_poisson_model.py 116-121,
    kinflated_gamma_poisson_model.py 239-245: constructing and fitting the model of the given
    name to one training point. A kmax that is not an integer raises TypeError here; a
    negative one is as good as 0. *)
Definition fit_named (name : string) (kw : kwargs) (p : qpoint) : result curve_model :=
  if String.eqb name "goerg" then
    _ <- accepts [] kw ;;
    g <- mk_goerg [p] ;; Ok (Goerg g p)
  else if String.eqb name "gamma_poisson" then
    _ <- accepts ["max_reach"; "extrapolation_multiplier"]%string kw ;;
    r <- kw_number kw "max_reach" ;;
    e <- kw_number kw "extrapolation_multiplier" ;;
    m <- mk_gpmodel [p] (match r with Some n => Some (number_Q n) | None => None end) (number_or 1 e) ;;
    m' <- gm_fitted (tl_gamma_poisson T) (tl_fuel T) m ;;
    Ok (GammaPoisson m')
  else if String.eqb name "kinflated_gamma_poisson" then
    _ <- accepts ["kmax"; "debug"; "extrapolation_multiplier"]%string kw ;;
    k <- kw_number kw "kmax" ;;
    kmax <- match k with
            | None => Ok 10%nat
            | Some (PInt z) => Ok (Z.to_nat z)
            | Some (PFloat _) => Err TypeError
            end ;;
    e <- kw_number kw "extrapolation_multiplier" ;;
    m <- mk_kmodel [p] kmax (number_or 1 e) ;;
    m' <- km_fitted (tl_gamma T) (tl_fuel T) m None ;;
    Ok (KInflated m')
  else Err KeyError.

(** [curve.by_spend(spends, max_frequency)]. A k-inflated model has been fitted, so that it
    does not change when it is asked. *)
Definition curve_by_spend (c : curve_model) (spends : list Q) (k : Z) : result qpoint :=
  match c with
  | Goerg g _ => goerg_by_spend g spends k
  | GammaPoisson m => gm_by_spend (tl_gamma_poisson T) m spends k
  | KInflated m => fst (km_by_spend (tl_gamma T) (tl_fuel T) m spends (Z.to_nat k))
  | GroundTruth g => p <- gt_by_spend g spends k ;; Ok (point_Q p)
  end.

(** A number of impressions for the ground truth: an integer; slicing a list with anything
    else raises TypeError. *)
Definition integer_of (q : Q) : result Z :=
  if Pos.eqb (Qden (Qred q)) 1 then Ok (Qnum (Qred q)) else Err TypeError.

(** The curve as the surfaces use it. [max_reach] is a number for all fitted models. *)
Definition surface_curve (c : curve_model) : reach_curve :=
  match c with
  | Goerg g _ => {| c_reach := fun x => p <- goerg_by_impressions g [x] 1 ;; reach p 1;
                    c_max_reach := go_max_reach g;
                    c_impressions_for_spend := goerg_impressions_for_spend g |}
  | GammaPoisson m =>
      {| c_reach := fun x => p <- gm_by_impressions (tl_gamma_poisson T) m [x] 1 ;; reach p 1;
         c_max_reach := match gm_max_reach m with Some r => r | None => 0%Q end;
         c_impressions_for_spend := gm_impressions_for_spend m |}
  | KInflated m =>
      {| c_reach := fun x => p <- fst (km_by_impressions (tl_gamma T) (tl_fuel T) m [x] 1) ;; reach p 1;
         c_max_reach := match km_fit m with Some (r, _) => r | None => 0%Q end;
         c_impressions_for_spend := km_impressions_for_spend m |}
  | GroundTruth g =>
      {| c_reach := fun x => z <- integer_of x ;; p <- gt_by_impressions g [z] 1 ;;
                             r <- reach p 1 ;; Ok (inject_Z r);
         c_max_reach := inject_Z (gt_max_reach g);
         c_impressions_for_spend := fun s => z <- gt_impressions_for_spend g s ;; Ok (inject_Z z) |}
  end.

(** ** Multi publisher models *)

(** A fitted surface: the number of publishers, the coefficients [_a], the curves and the
    training points. Both classes answer with the same method. *)
Record surface_model : Type := {
  su_publishers : nat; su_a : list Q; su_curves : list curve_model; su_data : list qpoint }.

(** modeling_strategy_descriptor.py 55-64, m3_strategy.py 124-128: constructing and fitting the
    surface of the given name. The constructors take no keyword arguments; calling None raises
    TypeError. Fitting a restricted surface draws from numpy's process-wide generator. *)
Definition fit_surface (name : string) (kw : kwargs) (g : tl_state T) (curves : list curve_model)
    (points : list qpoint) : result (surface_model * tl_state T) :=
  if String.eqb name "pairwise_union" then
    _ <- accepts [] kw ;;
    p <- surface_ctor points ;;
    a <- pairwise_fit (tl_solver T) (map surface_curve curves) points ;;
    Ok ({| su_publishers := p; su_a := a; su_curves := curves; su_data := points |}, g)
  else if String.eqb name "restricted_pairwise_union" then
    _ <- accepts [] kw ;;
    p <- surface_ctor points ;;
    '(a, g') <- drawn_fit (tl_random T) (truncated_uniform (tl_random T) (tl_fuel T))
                          (map surface_curve curves) points g ;;
    Ok ({| su_publishers := p; su_a := a; su_curves := curves; su_data := points |}, g')
  else if String.eqb name "none" then Err TypeError
  else Err KeyError.

(** reach_surface.py 53-60 with pairwise_union_reach_surface.py 90-110 *)
Definition surface_answer (s : surface_model) (spends : list Q) (k : Z) : result qpoint :=
  let curves := map surface_curve (su_curves s) in
  surface_by_spend curves (fun imps => pairwise_by_impressions (su_publishers s) (su_a s) curves imps k) spends.

(** ** Strategies *)

(** Python's truth value *)
Definition truth_value (v : value) : bool :=
  match v with
  | VNum n => negb (Qeqb (number_Q n) 0)
  | VStr s => negb (String.eqb s "")
  | VBool b => b
  end.
(** m3_strategy.py 41-56: use_ground_truth_for_reach_curves, by default False *)
Definition use_ground_truth (sd : strategy_descriptor) : bool :=
  match find (fun kv => String.eqb "use_ground_truth_for_reach_curves" (fst kv)) (sd_strategy_kwargs sd) with
  | Some (_, v) => truth_value v
  | None => false
  end.

(** The classes that a descriptor names. The generator's state at the time of the fit is
    passed on; only a surface can change it. *)
Definition named_modelers (sd : strategy_descriptor) (g : tl_state T) : modelers :=
  {| curve := curve_model; surface := surface_model * tl_state T;
     fit_single := fun p => fit_named (sd_single sd) (sd_single_kwargs sd) (point_Q p);
     ground_truth_curve_of := fun d i => c <- mk_ground_truth d i ;; Ok (GroundTruth c);
     fit_multi := fun curves points => fit_surface (sd_multi sd) (sd_multi_kwargs sd) g curves (map point_Q points) |}.

(** What [strategy.fit] returns. *)
Inductive fitted_model : Type :=
| OneCurve (c : curve_model)
| Surface (s : surface_model).

(** m3_strategy.py 58-130 and single_publisher_strategy.py 39-65 for a descriptor;
    experimental_trial.py 180-187 *)
Definition fit_strategy {X} (sd : strategy_descriptor) (h : halo) (b : budget) (g : tl_state T)
  : M X (fitted_model * tl_state T) :=
  if String.eqb (sd_strategy sd) "m3strategy" then
    r <~ m3_fit (named_modelers sd g) (use_ground_truth sd) h b ;;
    mret (match r with
          | inl c => (OneCurve c, g)
          | inr (s, g') => (Surface s, g')
          end)
  else if String.eqb (sd_strategy sd) "single_publisher" then
    c <~ single_publisher_fit (named_modelers sd g) h b ;; mret (OneCurve c, g)
  else mlift (Err KeyError).

(** [surface.by_spend(spends, max_frequency)] *)
Definition answer (m : fitted_model) (spends : list Q) (k : Z) : result qpoint :=
  match m with
  | OneCurve c => curve_by_spend c spends k
  | Surface s => surface_answer s spends k
  end.

(** experimental_trial.py 342-347: the k+ reaches of [surface._data[0]]. A ground truth curve
    has no such attribute (AttributeError, here OtherError). *)
Definition training_reaches (m : fitted_model) : result (list Q) :=
  match m with
  | OneCurve (Goerg _ p) => Ok (rp_kplus p)
  | OneCurve (GammaPoisson m) => Ok (rp_kplus (gm_point m))
  | OneCurve (KInflated m) => Ok (rp_kplus (km_point m))
  | OneCurve (GroundTruth _) => Err OtherError
  | Surface s => p <- py_index (su_data s) 0 ;; Ok (rp_kplus p)
  end.

(** The driver's surroundings with these strategies and models. *)
Definition full_lab (B : bench T) : lab := {|
  lab_float := bn_float T B;
  lab_halo := bn_halo T B;
  lab_global := tl_state T;
  lab_seed_global := np_seed (tl_random T);
  lab_own := bn_own T B;
  lab_default_rng := bn_default_rng T B;
  lab_draws := bn_draws T B;
  lab_model := fitted_model;
  lab_fit := fun sd h b g => fit_strategy sd h b g;
  lab_ask := fun m spends k => (answer m spends k, m);
  lab_training := training_reaches;
  lab_traceback := bn_traceback T B;
  lab_print := bn_print T B;
  lab_parse := bn_parse T B;
  lab_md5 := bn_md5 T B |}.

End Stack.
