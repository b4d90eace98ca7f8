(** Double precision arithmetic where the code computes with money and privacy budgets.

    Python's floats are IEEE 754 double precision numbers: the result of an operation is the
    nearest double, ties to even. The other model files compute with exact rationals; this
    file follows the same lines of code with a rounding function [fl] around every operation
    on floats. [double] is the rounding of the machine. Infinities, NaN and overflow are not
    modelled: there is no largest double here. Integers below 2^53 are doubles, so that the
    conversion of the small integers in these formulas is exact. *)
From Coq Require Import String.
From Verif Require Import Prelude ModelReachPoint ModelData ModelGenerators ModelPrivacy ModelHalo
  ModelStrategy ModelTestPoints.
Open Scope Z_scope.

(** ** Rounding *)

(** 2^e *)
Definition pow2 (e : Z) : Q :=
  if 0 <=? e then inject_Z (2 ^ e) else (1 # Z.to_pos (2 ^ (- e)))%Q.

(** The largest k with 2^k <= x, for x > 0. *)
Definition exponent (x : Q) : Z :=
  let k := Z.log2 (Qnum x) - Z.log2 (Zpos (Qden x)) in
  if Qleb (pow2 k) x then k else k - 1.

(** IEEE 754 double precision: 53 significant bits, none below 2^-1074. *)
Definition unit_exponent (x : Q) : Z := Z.max (exponent x - 52) (-1074).
Definition round_positive (x : Q) : Q :=
  let u := pow2 (unit_exponent x) in Qred (inject_Z (py_round (x / u)) * u).
Definition double (x : Q) : Q :=
  if Qeqb x 0 then 0%Q
  else if Qltb 0 x then round_positive x
  else (- round_positive (- x))%Q.

Section Rounded.
Variable fl : Q -> Q.

(** ** Privacy tracker *)

(** privacy_tracker.py 58-63: contains *)
Definition contains_fl (b : sampling_buckets) (x : Q) : bool :=
  let upper := fl (smallest_index b + sampling_rate b) in
  if Qleb (smallest_index b) x then Qltb x upper else Qltb x (fl (upper - 1)).

(** privacy_tracker.py 128-141: privacy_consumption_for_sampling_bucket *)
Definition consumption_at_fl (t : tracker) (x : Q) : budget :=
  fold_left (fun acc e =>
    if contains_fl (ev_buckets e) x
    then {| epsilon := fl (epsilon acc + epsilon (ev_budget e));
            delta := fl (delta acc + delta (ev_budget e)) |}
    else acc) (tr_events t) {| epsilon := 0; delta := 0 |}.

(** privacy_tracker.py 108-126: privacy_consumption *)
Definition privacy_consumption_fl (t : tracker) : budget :=
  fold_left (fun acc x =>
    let c := consumption_at_fl t x in
    {| epsilon := py_max2 (epsilon acc) (epsilon c);
       delta := py_max2 (delta acc) (delta c) |})
    (tr_starts t) {| epsilon := 0; delta := 0 |}.

(** ** Simulator *)

(** publisher.py 58-63 and halo_simulator.py 80-108: the campaign spends. *)
Definition mk_halo_fl (d : data_set) (fractions : list Q) (ll : liquid_legions) : result halo :=
  pubs <- mapM (fun ip => f <- py_index fractions (Z.of_nat (fst ip)) ;;
                          Ok {| pub_data := snd ip;
                                pub_campaign_spend := fl (f * pd_max_spend (snd ip))%Q |})
               (combine (seq 0 (publisher_count d)) (ds_data d)) ;;
  Ok {| h_data_set := d; h_ll := ll; h_publishers := pubs |}.

(** halo_simulator.py 145-225: simulated_reach_by_spend *)
Definition simulated_reach_by_spend_fl {X} (h : halo) (spends : list Q) (b : budget)
    (split : Q) (m : Z) : M X (reach_point Z Z) :=
  p0 <~ mlift (py_index (h_publishers h) 0) ;;
  s0 <~ mlift (py_index spends 0) ;;
  let sk0 := liquid_legions_sketch X (h_ll h) p0 s0 in
  seed1 <~ draw_seed ;;
  seed2 <~ draw_seed ;;
  let cfg := {| ec_max_freq := m;
                ec_reach_epsilon := fl (epsilon b * split);
                ec_frequency_epsilon := fl (epsilon b * fl (1 - split));
                ec_reach_delta := fl (delta b * split);
                ec_frequency_delta := fl (delta b * fl (1 - split));
                ec_reach_seed := seed1; ec_frequency_seed := seed2 |} in
  sk <~ mfold (merge_step h spends) (py_range 1 (Z.of_nat (length spends))) sk0 ;;
  est <~ mlift (estimate X cfg sk) ;;
  let kp := min_accumulate (map (fun x => Z.max x 0) (map py_round est)) in
  mfold (fun _ ed => mappend (halo_event (fst ed) (snd ed) "Discrete Gaussian"))
        (output_privacy_parameters X cfg) tt ;;;
  imps <~ mlift (ds_impressions_by_spend (h_data_set h) spends) ;;
  r1 <~ mlift (py_index kp 0) ;;
  let kp' := if Zsum imps <=? r1
             then Z.max (Zsum imps - 1) 1 :: repeat 0 (Z.to_nat (Z.max 0 (m - 1)))
             else kp in
  mlift (mk_reach_point Zops imps kp' (Some spends) (Some (ds_universe (h_data_set h)))).

(** ** Strategies *)

(** m3_strategy.py 83-98: the single publisher request [i]. *)
Definition single_pub_request_fl {X} (h : halo) (b : budget) (p : nat) (i : Z)
  : M X (reach_point Z Z) :=
  s <~ mlift (py_index (campaign_spends h) i) ;;
  vec <~ mlift (py_set (repeat 0%Q p) i s) ;;
  rp <~ simulated_reach_by_spend_fl h vec b (1#2) 10 ;;
  kp <~ mlift (mapM (fun k => reach rp k) (py_range 1 (max_frequency rp + 1))) ;;
  imp <~ mlift (py_index (rp_impressions rp) i) ;;
  sp <~ mlift (match rp_spends rp with Some l => py_index l i | None => Err TypeError end) ;;
  mlift (mk_reach_point Zops [imp] kp (Some [sp]) None).

(** m3_strategy.py 103-107: the all-but-one request [i]. *)
Definition all_but_one_request_fl {X} (h : halo) (b : budget) (i : Z) : M X (reach_point Z Z) :=
  vec <~ mlift (py_set (campaign_spends h) i 0%Q) ;;
  simulated_reach_by_spend_fl h vec b (1#2) 1.

(** m3_strategy.py 72-75 *)
Definition per_request_budget_fl (b : budget) (p : nat) : budget :=
  let n := inject_Z (2 * Z.of_nat p + 1) in
  {| epsilon := fl (epsilon b / n); delta := fl (delta b / n) |}.

(** m3_strategy.py 58-130: fit *)
Definition m3_fit_fl {X} (S : modelers) (use_ground_truth : bool) (h : halo) (b : budget)
  : M X (curve S + surface S) :=
  let p := h_publisher_count h in
  let pb := per_request_budget_fl b p in
  total <~ simulated_reach_by_spend_fl h (campaign_spends h) pb (1#2) 1 ;;
  singles <~ mmap (single_pub_request_fl h pb p) (py_range 0 (Z.of_nat p)) ;;
  abo <~ (if (2 <? p)%nat then mmap (all_but_one_request_fl h pb) (py_range 0 (Z.of_nat p))
          else mret []) ;;
  curves <~ mlift (mapM (fun i =>
              if use_ground_truth then ground_truth_curve_of S (h_data_set h) i
              else rp <- py_index singles i ;; fit_single S rp)
              (py_range 0 (Z.of_nat p))) ;;
  if Nat.eqb p 1 then c <~ mlift (py_index curves 0) ;; mret (inl c)
  else s <~ mlift (fit_multi S curves (abo ++ [total])) ;; mret (inr s).

(** single_publisher_strategy.py 39-65: fit *)
Definition single_publisher_fit_fl {X} (S : modelers) (h : halo) (b : budget)
  : M X (curve S) :=
  if negb (Nat.eqb (h_publisher_count h) 1) then mlift (Err ValueError)
  else
    total <~ simulated_reach_by_spend_fl h (campaign_spends h) b (1#2) 20 ;;
    mlift (fit_single S total).

(** ** Prices and spends *)

(** fixed_price_generator.py 38-51; [i] counts from the position given. *)
Fixpoint price_from_fl (cpi : Q) (i : Z) (impressions : list Z) : list row :=
  match impressions with
  | [] => []
  | u :: r => (u, fl (inject_Z (i + 1) * cpi)%Q) :: price_from_fl cpi (i + 1) r
  end.
Definition fixed_price_call_fl (cpi : Q) (impressions : list Z) : list row :=
  price_from_fl cpi 0 impressions.

(** grid_test_point_generator.py 58-61: one dimension of the grid. *)
Definition grid_axis_fl (max_spend : Q) (grid_size : Z) : list Q :=
  map (fun k => fl (fl (max_spend * inject_Z k) / inject_Z (grid_size + 1))%Q)
      (py_range 1 (grid_size + 1)).

(** uniformly_random_test_point_generator.py 71 and
    latin_hypercube_random_test_point_generator.py 84-86: the product of two arrays. *)
Definition np_mult_fl (a b : list Q) : result (list Q) :=
  if Nat.eqb (length a) (length b)
  then Ok (map (fun p => fl (fst p * snd p)%Q) (combine a b))
  else Err ValueError.

End Rounded.
