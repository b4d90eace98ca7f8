(** Model of src/models/gamma_poisson_model.py. Floats are exact rationals, so NaN never
    occurs, and [exp(log a + log b)] is [a * b]. scipy's negative binomial mass function, its
    chi-squared quantiles, its minimiser and the square root are parameters. *)
From Verif Require Import Prelude ModelReachPoint ModelCurves ModelGamma.
Open Scope Z_scope.

(** The external functions and the size of the table. The code fixes
    MAXIMUM_COMPUTATIONAL_FREQUENCY = 1000 (line 25). *)
Record gp_externals : Type := {
  gp_nbinom : Z -> Q -> Q -> Q;                      (* exp(scipy.stats.nbinom.logpmf(k, n, p)) *)
  gp_chi2_ppf : Q -> Z -> Q;                         (* scipy.stats.chi2.ppf(q, df) *)
  gp_sqrt : Q -> Q;                                  (* np.sqrt *)
  gp_minimize : (list Q -> Q) -> list Q -> list (Q * Q) -> result (list Q * Q);
      (* scipy.optimize.minimize(objective, start, bounds): the attributes x and fun *)
  gp_frequencies : nat                               (* MAXIMUM_COMPUTATIONAL_FREQUENCY *)
}.

(** scipy.stats.nbinom.mean(n, p) *)
Definition nbinom_mean (n p : Q) : Q := (n * (1 / p - 1))%Q.

Section GammaPoisson.
Context (x : gp_externals).

(** gamma_poisson_model.py 154-170: _logpmf, without the logarithm *)
Definition gp_mass (alpha beta : Q) (n : nat) : Q :=
  gp_nbinom x (Z.of_nat n - 1) alpha (1 / (1 + beta)).

(** gamma_poisson_model.py 172-197: one entry of the matrix of _knreach. *)
Definition gp_knreach (alpha beta p : Q) (k n : nat) : Q :=
  (binom_pmf k n p * gp_mass alpha beta n)%Q.

(** gamma_poisson_model.py 199-245: _kreach; see [kreach] of ModelGamma.v. [Imax = 0] is not
    modelled (here the quotient is 0). *)
Definition gp_kreach (k : list nat) (I Imax alpha beta : Q) : result (list Q) :=
  match k with
  | [] => Ok []
  | k0 :: _ =>
      if negb (consecutive k) then Err RuntimeError
      else
        let min_freq := fold_right Nat.min k0 k in
        let ns := seq min_freq (gp_frequencies x + 1 - min_freq) in
        Ok (map (fun ik =>
                   Qsum (map (fun jn => if (fst ik <=? fst jn)%nat
                                        then gp_knreach alpha beta (I / Imax) (snd ik) (snd jn)
                                        else 0%Q)
                             (combine (seq 0 (length ns)) ns)))
                (combine (seq 0 (length k)) k))
  end.

(** gamma_poisson_model.py 247-261 *)
Definition expected_impressions (N alpha beta : Q) : Q :=
  (N * (1 + nbinom_mean alpha (1 / (1 + beta))))%Q.

(** gamma_poisson_model.py 263-277 *)
Definition expected_histogram (I Imax N alpha beta : Q) (max_freq : nat) : result (list Q) :=
  l <- gp_kreach (seq 1 max_freq) I Imax alpha beta ;; Ok (map (Qmult N) l).

(** gamma_poisson_model.py 283-296: _histogram_from_reach_point *)
Definition histogram_from_reach_point (p : qpoint) : result (list Q) :=
  mapM (fun i => frequency p i) (py_range 1 (max_frequency p)).
(** gamma_poisson_model.py 298-321: _histogram_with_kplus_bucket *)
Definition histogram_with_kplus_bucket (p : qpoint) : result (list Q) :=
  h <- histogram_from_reach_point p ;;
  r <- reach p (Z.of_nat (length h) + 1) ;;
  Ok (h ++ [r]).

(** gamma_poisson_model.py 323-399: _chi2_distance_with_one_plus_reach; [ev] is the
    attribute _extrapolation_value. The lists passed to _kreach are always consecutive, so
    that it does not raise. *)
Definition or_empty (r : result (list Q)) : list Q := match r with Ok l => l | Err _ => [] end.
Definition gp_distance (ev : Q) (h : list Q) (I N alpha beta weight : Q) : Q :=
  if Qleb alpha 0 || Qleb beta 0 || Qleb N 0 then sum_squares h
  else
    let Imax := expected_impressions N alpha beta in
    if Qleb Imax I then sum_squares h
    else
      let hbar0 := or_empty (expected_histogram I Imax N alpha beta (length h - 1)) in
      let kplus_prob := (1 - Qsum (or_empty (gp_kreach (seq 0 (length h)) I Imax alpha beta)))%Q in
      let hbar := hbar0 ++ [(kplus_prob * N)%Q] in
      let oneplus := (weight * ((Qsum h - Qsum hbar) * (Qsum h - Qsum hbar)))%Q in
      let penalty := if Qltb Imax ev then ((ev - Imax) * (ev - Imax))%Q else 0%Q in
      (Qsum (map (fun bh => (fst bh - snd bh) * (fst bh - snd bh) / (fst bh + (1 # 1000000)))%Q
                 (combine hbar h)) + oneplus + penalty)%Q.

(** gamma_poisson_model.py 523-535: one round of the search: the best of the four neighbours
    that is better than [score]. *)
Definition neighbours (alpha beta width : Q) : list (Q * Q) :=
  [(alpha - width, beta - width); (alpha - width, beta + width);
   (alpha + width, beta - width); (alpha + width, beta + width)]%Q.
Definition best_neighbour (score_of : Q -> Q -> Q) (score : Q) (ns : list (Q * Q)) : option (Q * Q) * Q :=
  fold_left (fun best ab => if Qltb (score_of (fst ab) (snd ab)) (snd best)
                            then (Some ab, score_of (fst ab) (snd ab)) else best) ns (None, score).

(** gamma_poisson_model.py 522-541: the loop. [fuel] bounds the rounds; when it runs out the
    answer is OtherError, where the code would go on. *)
Fixpoint downhill (fuel : nat) (score_of : Q -> Q -> Q) (alpha beta score width : Q) : result (Q * Q) :=
  if Qltb (1 # 100) width then
    match fuel with
    | O => Err OtherError
    | S f =>
        match best_neighbour score_of score (neighbours alpha beta width) with
        | (Some ab, s) => downhill f score_of (fst ab) (snd ab) s width
        | (None, _) => downhill f score_of alpha beta score (width * (1 # 2))%Q
        end
    end
  else Ok (alpha, beta).

Definition huge : Q := inject_Z (10 ^ 99).

(** gamma_poisson_model.py 482-541: _find_starting_point_for_fixed_N. N = 0 is not modelled. *)
Definition starting_point (fuel : nat) (ev : Q) (h : list Q) (I0 N weight : Q) : result (Q * Q) :=
  let start := if Qltb N I0 then ((11 # 10) * gp_sqrt x (I0 / N - 1) + (5 # 100))%Q else (1 # 10)%Q in
  downhill fuel (fun alpha beta => gp_distance ev h I0 N alpha beta weight) start start huge (5 # 100)%Q.

(** gamma_poisson_model.py 543-592: _fit_histogram_fixed_N *)
Definition fit_fixed_N (fuel : nat) (ev : Q) (p : qpoint) (N weight : Q) : result (Q * Q * Q) :=
  I0 <- py_index (rp_impressions p) 0 ;;
  h <- histogram_with_kplus_bucket p ;;
  '(alpha0, beta0) <- starting_point fuel ev h I0 N weight ;;
  r <- gp_minimize x (fun params => match params with
                                    | [alpha; beta] => gp_distance ev h I0 N alpha beta weight
                                    | _ => 0%Q end)
                   [alpha0; beta0] [(1 # 1000000, 100%Q); (1 # 1000000, 100%Q)] ;;
  match fst r with
  | [alpha; beta] => Ok (expected_impressions N alpha beta, alpha, beta)
  | _ => Err ValueError
  end.

(** gamma_poisson_model.py 452-477: the loop over the audience sizes. [best] holds the
    parameters and the score. A name that was never bound raises UnboundLocalError, here
    NameError. *)
Fixpoint try_sizes (fuel : nat) (ev : Q) (p : qpoint) (h : list Q) (I0 Nmin weight stop : Q)
    (best : option (Q * Q * Q)) (best_score : Q) (sizes : list Q) : result (option (Q * Q * Q)) :=
  match sizes with
  | [] => Ok best
  | size :: rest =>
      '(_, alpha0, beta0) <- fit_fixed_N fuel ev p size weight ;;
      r <- gp_minimize x (fun params => match params with
                                        | [alpha; beta; N] => gp_distance ev h I0 N alpha beta weight
                                        | _ => 0%Q end)
                       [alpha0; beta0; size]
                       [(1 # 1000000, 100%Q); (1 # 1000000, 100%Q); (Nmin, (100 * Nmin)%Q)] ;;
      '(best', score') <- (if Qltb (snd r) best_score then
                             match fst r with
                             | [alpha; beta; N] => Ok (Some (alpha, beta, N), snd r)
                             | _ => Err ValueError
                             end
                           else Ok (best, best_score)) ;;
      if Qltb score' stop then Ok best'
      else try_sizes fuel ev p h I0 Nmin weight stop best' score' rest
  end.

(** gamma_poisson_model.py 401-480: _fit_histogram_chi2_distance *)
Definition audience_sizes (Nmin : Q) (n : nat) : list Q :=
  map (fun i => (Nmin / (inject_Z (Z.of_nat i) / inject_Z (Z.of_nat n + 1)))%Q) (seq 1 n).
Definition fit_chi2 (fuel : nat) (ev : Q) (p : qpoint) (weight : Q) (nstart : nat) : result (Q * Q * Q * Q) :=
  Nmin <- reach p 1 ;;
  I0 <- py_index (rp_impressions p) 0 ;;
  h <- histogram_with_kplus_bucket p ;;
  best <- try_sizes fuel ev p h I0 Nmin weight (gp_chi2_ppf x (98 # 100) (Z.of_nat (length h)))
                    None huge (audience_sizes Nmin nstart) ;;
  match best with
  | Some (alpha, beta, N) => Ok (expected_impressions N alpha beta, N, alpha, beta)
  | None => Err NameError
  end.

(** The attributes of GammaPoissonModel; [gm_fit] holds _max_impressions, _alpha and _beta
    once _fit has run. *)
Record gpmodel : Type := {
  gm_point : qpoint; gm_max_reach : option Q; gm_extrapolation : Q; gm_cpi : option Q;
  gm_fit : option (Q * Q * Q) }.

(** gamma_poisson_model.py 116-152: constructor *)
Definition mk_gpmodel (data : list qpoint) (max_reach : option Q) (multiplier : Q) : result gpmodel :=
  _ <- curve_init data ;;
  match data with
  | [p] =>
      imp <- py_index (rp_impressions p) 0 ;;
      if Qltb imp (1 # 1000) then Err ValueError
      else
        r <- reach p 1 ;;
        if Qltb imp r then Err ValueError
        else
          cpi <- match rp_spends p with
                 | Some l => s <- py_index l 0 ;; Ok (Some (s / imp)%Q)
                 | None => Ok None
                 end ;;
          Ok {| gm_point := p; gm_max_reach := max_reach; gm_extrapolation := (multiplier * imp)%Q;
                gm_cpi := cpi; gm_fit := None |}
  | _ => Err ValueError
  end.

(** gamma_poisson_model.py 594-609: _fit, with the default weight 1 and 10 starting points. *)
Definition gm_fitted (fuel : nat) (m : gpmodel) : result gpmodel :=
  match gm_max_reach m with
  | None =>
      '(Imax, N, alpha, beta) <- fit_chi2 fuel (gm_extrapolation m) (gm_point m) 1 10 ;;
      Ok {| gm_point := gm_point m; gm_max_reach := Some N; gm_extrapolation := gm_extrapolation m;
            gm_cpi := gm_cpi m; gm_fit := Some (Imax, alpha, beta) |}
  | Some N =>
      '(Imax, alpha, beta) <- fit_fixed_N fuel (gm_extrapolation m) (gm_point m) N 1 ;;
      Ok {| gm_point := gm_point m; gm_max_reach := Some N; gm_extrapolation := gm_extrapolation m;
            gm_cpi := gm_cpi m; gm_fit := Some (Imax, alpha, beta) |}
  end.

(** gamma_poisson_model.py 611-640: by_impressions. Before the fit the attributes are missing
    (AttributeError, here OtherError). *)
Definition gm_by_impressions (m : gpmodel) (imps : list Q) (max_freq : Z) : result qpoint :=
  match imps with
  | [imp] =>
      match gm_fit m, gm_max_reach m with
      | Some (Imax, alpha, beta), Some N =>
          hist <- expected_histogram (Qmin imp (Imax - 1)) Imax N alpha beta (gp_frequencies x) ;;
          mk_reach_point Qops imps (py_slice_to (suffix_sums hist) max_freq)
            (match truthy_cost (gm_cpi m) with Some c => Some [(imp * c)%Q] | None => None end) None
      | _, _ => Err OtherError
      end
  | _ => Err ValueError
  end.

(** gamma_poisson_model.py 642-661: by_spend and impressions_for_spend *)
Definition gm_impressions_for_spend (m : gpmodel) (spend : Q) : result Q :=
  match truthy_cost (gm_cpi m) with
  | None => Err ValueError
  | Some c => Ok (spend / c)%Q
  end.
Definition gm_by_spend (m : gpmodel) (spends : list Q) (max_freq : Z) : result qpoint :=
  match spends with
  | [s] => imp <- gm_impressions_for_spend m s ;; gm_by_impressions m [imp] max_freq
  | _ => Err ValueError
  end.

End GammaPoisson.
