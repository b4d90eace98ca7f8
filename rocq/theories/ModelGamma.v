(** Model of src/models/kinflated_gamma_poisson_model.py. Floats are exact rationals, so NaN
    never occurs. scipy's negative binomial mass function, its chi-squared distribution
    function and its Nelder-Mead minimiser are parameters. Debug printing is left out. *)
From Verif Require Import Prelude ModelReachPoint ModelCurves.
Open Scope Z_scope.

(** Python's [x / y] on floats. *)
Definition py_div (x y : Q) : result Q :=
  if Qeqb y 0 then Err ZeroDivisionError else Ok (x / y)%Q.

(** ** The exponential-Poisson formulas *)

(** kinflated_gamma_poisson_model.py 335-368 *)
Definition exponential_poisson_reach (I N beta : Q) : Q :=
  if Qleb ((beta + 1) * N) I then N
  else (N * I * (beta + 1) / (N + beta * (N + I)))%Q.

(** kinflated_gamma_poisson_model.py 370-387 *)
Definition exponential_poisson_beta (I N R : Q) : Q :=
  if Qleb (I * R - N * (I - R)) 0 then 1000%Q
  else ((N * (I - R)) / (I * R - N * (I - R)))%Q.

(** kinflated_gamma_poisson_model.py 389-408. The division by zero for [beta = -1] is
    not modelled. *)
Definition exponential_poisson_N_from_beta (I R beta : Q) : Q :=
  if Qltb I (R + (1#1000)) then (100 * R)%Q
  else (- (I * beta * R) / ((beta + 1) * (R - I)))%Q.

(** kinflated_gamma_poisson_model.py 410-423 *)
Definition exponential_poisson_N (I R scale : Q) : result Q :=
  if Qltb scale 1 then Err ValueError
  else if Qltb I (R + (1#1000)) then Ok (100 * R)%Q
  else Ok (R * (scale * I - R) / (scale * (I - R)))%Q.

(** kinflated_gamma_poisson_model.py 461-467: the loop. [fuel] bounds the iterations; when it
    runs out the answer is OtherError, which the code never raises. *)
Fixpoint enlarge (fuel : nat) (I R N beta : Q) : result (Q * Q) :=
  if Qltb (N * (beta + 1)) I then
    match fuel with
    | O => Err OtherError
    | S f => let N' := Qmax 1 ((11#10) * N) in
             enlarge f I R N' (exponential_poisson_beta I N' R)
    end
  else Ok (N, beta).

(** kinflated_gamma_poisson_model.py 448-459: the choice of N and beta. *)
Definition exponential_poisson_start (p : qpoint) (impressions : Q) : result (Q * Q) :=
  reach1 <- reach p 1 ;;
  if (1 <? length (rp_frequencies p))%nat then
    mu <- py_div impressions (Qmin reach1 (impressions - 1)) ;;
    let beta := ((mu - 1) * (12#10))%Q in
    Ok (exponential_poisson_N_from_beta impressions reach1 beta, beta)
  else
    N <- exponential_poisson_N impressions reach1 (3#2) ;;
    Ok (N, exponential_poisson_beta impressions N reach1).

(** kinflated_gamma_poisson_model.py 445-447: the number of impressions the model is fitted
    to. *)
Definition fitted_impressions (p : qpoint) (Imin : Q) : result Q :=
  impressions <- py_index (rp_impressions p) 0 ;;
  Ok (if Qltb impressions Imin then Imin else impressions).

(** kinflated_gamma_poisson_model.py 425-469, without the construction of the distribution
    with parameters 1, beta and no inflation. *)
Definition fit_exponential_poisson (fuel : nat) (p : qpoint) (Imin : Q) : result (Q * Q) :=
  impressions <- fitted_impressions p Imin ;;
  '(N, beta) <- exponential_poisson_start p impressions ;;
  reach1 <- reach p 1 ;;
  enlarge fuel impressions reach1 N beta.

(** ** The distribution *)

(** The external functions and the size of the table. The code fixes
    MAXIMUM_COMPUTATIONAL_FREQUENCY = 1000 (line 30). *)
Record gamma_externals : Type := {
  gx_nbinom : Z -> Q -> Q -> Q;                      (* scipy.stats.nbinom.pmf(k, n, p) *)
  gx_chi2_cdf : Q -> Z -> Q;                         (* scipy.stats.chi2.cdf(x, df) *)
  gx_minimize : (list Q -> result Q) -> list Q -> result (list Q);
                                                     (* scipy.optimize.minimize(...).x *)
  gx_frequencies : Z                                 (* MAXIMUM_COMPUTATIONAL_FREQUENCY *)
}.

(** scipy's binomial mass function, for 0 <= p <= 1 and natural k, n. *)
Fixpoint choose (n k : nat) : Z :=
  match n, k with
  | _, O => 1
  | O, S _ => 0
  | S n', S k' => choose n' k' + choose n' k
  end.
Fixpoint qpow (x : Q) (k : nat) : Q :=
  match k with O => 1%Q | S k' => (x * qpow x k')%Q end.
Definition binom_pmf (k n : nat) (p : Q) : Q :=
  (inject_Z (choose n k) * qpow p k * qpow (1 - p) (n - k))%Q.

(** The attributes of KInflatedGammaPoissonDistribution. *)
Record kdist : Type := { kd_alpha : Q; kd_beta : Q; kd_a : list Q; kd_pmf : list Q }.

Section Gamma.
Context (x : gamma_externals).

(** kinflated_gamma_poisson_model.py 85-106 *)
Definition gamma_poisson_pmf (n : Z) (alpha beta : Q) : Q :=
  gx_nbinom x (n - 1) alpha (1 / (1 + beta)).

(** kinflated_gamma_poisson_model.py 75-81: replacing the last entry by one minus the sum of
    the others; the list is not empty. *)
Definition force_sum (l : list Q) : list Q :=
  removelast l ++ [(1 - Qsum (removelast l))%Q].

(** kinflated_gamma_poisson_model.py 53-83: constructor *)
Definition mk_kdist (alpha beta : Q) (a0 : list Q) : kdist :=
  let a := if Qltb 1 (Qsum a0) then map (fun v => v / Qsum a0)%Q a0 else a0 in
  let n := Z.of_nat (length a) in
  let s := Qsum a in
  let t := Qsum (map (fun i => gamma_poisson_pmf i alpha beta) (py_range 1 (n + 1))) in
  let u := map (fun i => gamma_poisson_pmf i alpha beta) (py_range (n + 1) (gx_frequencies x)) in
  let tail := if Qleb 1 t then map (fun v => 0 * v)%Q u
              else map (fun v => ((1 - s) / (1 - t)) * v)%Q u in
  {| kd_alpha := alpha; kd_beta := beta; kd_a := a; kd_pmf := force_sum ([0%Q] ++ a ++ tail) |}.

(** kinflated_gamma_poisson_model.py 108-118: pmf, for one natural number in the table. *)
Definition kd_at (d : kdist) (n : nat) : Q := nth n (kd_pmf d) 0%Q.

(** kinflated_gamma_poisson_model.py 120-140: one entry of the matrix. *)
Definition knreach (d : kdist) (k n : nat) (p : Q) : Q := (binom_pmf k n p * kd_at d n)%Q.

(** kinflated_gamma_poisson_model.py 164-168: np.array_equiv broadcasts, so it also accepts a
    list that repeats one value. *)
Definition consecutive (k : list nat) : bool :=
  match k with
  | [] => true
  | k0 :: _ =>
      let r := seq k0 (S (last k k0) - k0) in
      if list_eq_dec Nat.eq_dec k r then true
      else Nat.eqb (length r) 1 && forallb (Nat.eqb k0) k
  end.

(** kinflated_gamma_poisson_model.py 142-178: row [i] of the matrix holds frequency [k[i]],
    column [j] inventory size [min_freq + j]; np.triu keeps the columns [j >= i]. *)
Definition kreach (d : kdist) (k : list nat) (p : Q) : result (list Q) :=
  match k with
  | [] => Ok []
  | k0 :: _ =>
      if negb (consecutive k) then Err RuntimeError
      else
        let min_freq := fold_right Nat.min k0 k in
        let ns := seq min_freq (length (kd_pmf d) - min_freq) in
        Ok (map (fun ik =>
                   Qsum (map (fun jn => if (fst ik <=? fst jn)%nat
                                        then knreach d (snd ik) (snd jn) p else 0%Q)
                             (combine (seq 0 (length ns)) ns)))
                (combine (seq 0 (length k)) k))
  end.

(** kinflated_gamma_poisson_model.py 180-196 *)
Definition kplusreach (d : kdist) (k : nat) (p : Q) : result Q :=
  match k with
  | O => Ok 1%Q
  | _ => l <- kreach d (seq 0 k) p ;; Ok (1 - Qsum l)%Q
  end.

(** kinflated_gamma_poisson_model.py 198-200 *)
Definition expected_value (d : kdist) : Q :=
  Qsum (map (fun n => inject_Z (Z.of_nat n) * kd_at d n)%Q (seq 0 (length (kd_pmf d)))).

(** ** The model *)

(** The attributes of KInflatedGammaPoissonModel; [km_fit] holds _max_reach and _dist once
    _fit has been computed. *)
Record kmodel : Type := {
  km_point : qpoint;
  km_kmax : nat;
  km_extrapolation : Q;
  km_cpi : option Q;
  km_fit : option (Q * kdist)
}.

(** kinflated_gamma_poisson_model.py 239-277: constructor *)
Definition mk_kmodel (data : list qpoint) (kmax : nat) (multiplier : Q) : result kmodel :=
  match data with
  | [p] =>
      imp <- py_index (rp_impressions p) 0 ;;
      if Qltb imp (1#1000) then Err ValueError
      else
        r <- reach p 1 ;;
        if Qltb imp r then Err ValueError
        else
          cpi <- match rp_spends p with
                 | Some l => s <- py_index l 0 ;; Ok (Some (s / imp)%Q)
                 | None => Ok None
                 end ;;
          Ok {| km_point := p; km_kmax := kmax; km_extrapolation := (multiplier * imp)%Q;
                km_cpi := cpi; km_fit := None |}
  | _ => Err ValueError
  end.

Definition sum_squares (h : list Q) : Q := Qsum (map (fun v => v * v)%Q h).

(** kinflated_gamma_poisson_model.py 279-333: _chi2_distance. The case of NaN is not
    modelled. *)
Definition chi2_distance (h : list Q) (I N : Q) (d : kdist) : result Q :=
  let Imax := (N * expected_value d)%Q in
  if Qleb Imax I then Ok (sum_squares h)
  else
    freqs <- kreach d (seq 1 (length h - 1)) (I / Imax) ;;
    kplus <- kplusreach d (length h) (I / Imax) ;;
    let hbar := map (Qmult N) freqs ++ [(N * kplus)%Q] in
    Ok (Qsum (map (fun bh => (fst bh - snd bh) * (fst bh - snd bh) / (fst bh + (1#1000000)))%Q
                  (combine hbar h))).

(** kinflated_gamma_poisson_model.py 471-509: _fit_histogram_fixed_length_a *)
Definition fit_bounds (h : list Q) (na : nat) : list (Q * Q) :=
  let Nmin := Qsum h in
  [(1#10000, 1000%Q); (1#10000, 10000%Q); (Nmin, (100 * Nmin)%Q)] ++ repeat (0%Q, 1%Q) na.
Definition fixed_length_objective (h : list Q) (I Imin : Q) (na : nat) (params : list Q)
  : result Q :=
  match params with
  | alpha :: beta :: N :: a =>
      let penalty := (sum_squares h + Imin * Imin)%Q in
      if existsb (fun pb => Qltb (fst pb) (fst (snd pb)) || Qltb (snd (snd pb)) (fst pb))
                 (combine params (fit_bounds h na)) then Ok penalty
      else if negb (Nat.eqb (length a) 0) && Qltb 1 (Qsum a) then Ok penalty
      else
        let d := mk_kdist alpha beta a in
        score <- chi2_distance h I N d ;;
        let Imax := (N * expected_value d)%Q in
        Ok (if Qltb Imax Imin then score + (Imin - Imax) * (Imin - Imax) else score)%Q
  | _ => Err ValueError
  end.
Definition fit_fixed_length (h : list Q) (I Imin N0 alpha0 beta0 : Q) (a0 : list Q)
  : result (Q * kdist * Q) :=
  params <- gx_minimize x (fixed_length_objective h I Imin (length a0))
                        (alpha0 :: beta0 :: N0 :: a0) ;;
  match params with
  | alpha :: beta :: N :: a =>
      let d := mk_kdist alpha beta a in
      score <- chi2_distance h I N d ;;
      Ok (N, d, score)
  | _ => Err ValueError
  end.

(** kinflated_gamma_poisson_model.py 575-582: the loop that lets one more value of the mass
    function be arbitrary; [fuel] as above. *)
Fixpoint inflate (fuel : nat) (kmax : nat) (h : list Q) (I Imin : Q) (N : Q) (d : kdist)
    (score : Q) : result (Q * kdist) :=
  if Qltb (95#100) (gx_chi2_cdf x score (Z.of_nat (length h)))
     && (length (kd_a d) <? kmax)%nat then
    match fuel with
    | O => Err OtherError
    | S f =>
        a_next <- py_index (kd_pmf d) (Z.of_nat (length (kd_a d)) + 1) ;;
        '(N', d', score') <- fit_fixed_length h I Imin N (kd_alpha d) (kd_beta d)
                               (kd_a d ++ [a_next]) ;;
        inflate f kmax h I Imin N' d' score'
    end
  else Ok (N, d).

(** kinflated_gamma_poisson_model.py 539-584: _fit_point *)
Definition fit_point (fuel : nat) (kmax : nat) (p : qpoint) (Imin : Q) : result (Q * kdist) :=
  '(Nexp, beta) <- fit_exponential_poisson fuel p Imin ;;
  let d0 := mk_kdist 1 beta [] in
  h <- frequencies_with_kplus_bucket p ;;
  I <- py_index (rp_impressions p) 0 ;;
  _ <- chi2_distance h I Nexp d0 ;;
  if max_frequency p =? 1 then Ok (Nexp, d0)
  else
    '(N, d, score) <- fit_fixed_length h I Imin Nexp (kd_alpha d0) (kd_beta d0) [] ;;
    inflate fuel kmax h I Imin N d score.

(** kinflated_gamma_poisson_model.py 586-608: _fit *)
Definition km_fitted (fuel : nat) (m : kmodel) (Imin : option Q) : result kmodel :=
  match km_fit m with
  | Some _ => Ok m
  | None =>
      fit <- fit_point fuel (km_kmax m) (km_point m)
               (match Imin with Some v => v | None => km_extrapolation m end) ;;
      Ok {| km_point := km_point m; km_kmax := km_kmax m;
            km_extrapolation := km_extrapolation m; km_cpi := km_cpi m;
            km_fit := Some fit |}
  end.

(** np.cumsum(hist[::-1])[::-1] *)
Fixpoint suffix_sums (l : list Q) : list Q :=
  match l with
  | [] => []
  | v :: r => (v + Qsum r)%Q :: suffix_sums r
  end.

(** Python's truth value of [self._cpi]. *)
Definition truthy_cost (c : option Q) : option Q :=
  match c with Some v => if Qeqb v 0 then None else Some v | None => None end.

(** kinflated_gamma_poisson_model.py 625-636: the answer of a fitted model. *)
Definition km_predict (N : Q) (d : kdist) (cpi : option Q) (imp : Q) (max_freq : nat)
  : result qpoint :=
  r <- py_div imp (N * expected_value d) ;;
  let p := Qmin r 1 in
  freqs <- kreach d (seq 1 (max_freq - 1)) p ;;
  kplus <- kplusreach d max_freq p ;;
  let kplus_reaches := suffix_sums (map (Qmult N) freqs ++ [(N * kplus)%Q]) in
  mk_reach_point Qops [imp] kplus_reaches
    (match truthy_cost cpi with Some c => Some [(imp * c)%Q] | None => None end) None.

(** kinflated_gamma_poisson_model.py 610-636: by_impressions. It may change the model, so it
    returns the model after the call. *)
Definition km_by_impressions (fuel : nat) (m : kmodel) (imps : list Q) (max_freq : nat)
  : result qpoint * kmodel :=
  match imps with
  | [imp] =>
      match km_fitted fuel m (Some (imp + 1)%Q) with
      | Err e => (Err e, m)
      | Ok m' =>
          match km_fit m' with
          | Some (N, d) => (km_predict N d (km_cpi m') imp max_freq, m')
          | None => (Err OtherError, m')
          end
      end
  | _ => (Err ValueError, m)
  end.

(** kinflated_gamma_poisson_model.py 638-662: by_spend and impressions_for_spend *)
Definition km_impressions_for_spend (m : kmodel) (spend : Q) : result Q :=
  match truthy_cost (km_cpi m) with
  | None => Err ValueError
  | Some c => Ok (spend / c)%Q
  end.
Definition km_by_spend (fuel : nat) (m : kmodel) (spends : list Q) (max_freq : nat)
  : result qpoint * kmodel :=
  match spends with
  | [s] => match km_impressions_for_spend m s with
           | Ok imp => km_by_impressions fuel m [imp] max_freq
           | Err e => (Err e, m)
           end
  | _ => (Err ValueError, m)
  end.

End Gamma.
