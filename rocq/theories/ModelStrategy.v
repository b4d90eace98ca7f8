(** Model of src/simulator/m3_strategy.py and single_publisher_strategy.py. *)
From Coq Require Import String.
From Verif Require Import Prelude ModelReachPoint ModelData ModelPrivacy ModelHalo.
Open Scope Z_scope.

(** The single publisher model and multi publisher model classes given to a strategy: their
    constructors and [_fit], which may raise. They do not touch the privacy tracker. *)
Record modelers : Type := {
  curve : Type; surface : Type;
  fit_single : reach_point Z Z -> result curve;
  ground_truth_curve_of : data_set -> Z -> result curve;
  fit_multi : list curve -> list (reach_point Z Z) -> result surface
}.

(** m3_strategy.py 83-98: the single publisher request [i]. *)
Definition single_pub_request {X} (h : halo) (b : budget) (p : nat) (i : Z)
  : M X (reach_point Z Z) :=
  s <~ mlift (py_index (campaign_spends h) i) ;;
  vec <~ mlift (py_set (repeat 0%Q p) i s) ;;
  rp <~ simulated_reach_by_spend h vec b (1#2) 10 ;;
  kp <~ mlift (mapM (fun k => reach rp k) (py_range 1 (max_frequency rp + 1))) ;;
  imp <~ mlift (py_index (rp_impressions rp) i) ;;
  sp <~ mlift (match rp_spends rp with Some l => py_index l i | None => Err TypeError end) ;;
  mlift (mk_reach_point Zops [imp] kp (Some [sp]) None).

(** m3_strategy.py 103-107: the all-but-one request [i]. *)
Definition all_but_one_request {X} (h : halo) (b : budget) (i : Z) : M X (reach_point Z Z) :=
  vec <~ mlift (py_set (campaign_spends h) i 0%Q) ;;
  simulated_reach_by_spend h vec b (1#2) 1.

(** m3_strategy.py 72-75 *)
Definition per_request_budget (b : budget) (p : nat) : budget :=
  let n := inject_Z (2 * Z.of_nat p + 1) in
  {| epsilon := epsilon b / n; delta := delta b / n |}.

(** m3_strategy.py 58-130: fit *)
Definition m3_fit {X} (S : modelers) (use_ground_truth : bool) (h : halo) (b : budget)
  : M X (curve S + surface S) :=
  let p := h_publisher_count h in
  let pb := per_request_budget b p in
  total <~ simulated_reach_by_spend h (campaign_spends h) pb (1#2) 1 ;;
  singles <~ mmap (single_pub_request h pb p) (py_range 0 (Z.of_nat p)) ;;
  abo <~ (if (2 <? p)%nat then mmap (all_but_one_request h pb) (py_range 0 (Z.of_nat p))
          else mret []) ;;
  curves <~ mlift (mapM (fun i =>
              if use_ground_truth then ground_truth_curve_of S (h_data_set h) i
              else rp <- py_index singles i ;; fit_single S rp)
              (py_range 0 (Z.of_nat p))) ;;
  if Nat.eqb p 1 then c <~ mlift (py_index curves 0) ;; mret (inl c)
  else s <~ mlift (fit_multi S curves (abo ++ [total])) ;; mret (inr s).

(** single_publisher_strategy.py 39-65: fit *)
Definition single_publisher_fit {X} (S : modelers) (h : halo) (b : budget)
  : M X (curve S) :=
  if negb (Nat.eqb (h_publisher_count h) 1) then mlift (Err ValueError)
  else
    total <~ simulated_reach_by_spend h (campaign_spends h) b (1#2) 20 ;;
    mlift (fit_single S total).
