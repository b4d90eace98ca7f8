(** Vocabulary for trials with the strategies and models that the driver can name. *)
From Coq Require Import String.
From Verif Require Import Prelude ModelReachPoint ModelData SpecData ModelPrivacy ModelHalo SpecSurface ModelRestricted
  SpecRestricted SpecExact ModelAggregator ModelFiles ModelDriver ModelStack.
Open Scope Z_scope.

(** The parts of a trial: [fit] is what fitting the strategy gives for the simulator [h] over
    the data set [d], and [w] the world it leaves. *)
Definition trial_fit (L : lab) (t : trial) (seed : Z) (g : generators L) (d : data_set) (h : halo)
    (fit : result (lab_model L * lab_global L)) (w : world (lab_halo L)) : Prop :=
  dd_by_name (tr_design t) (tr_data_set t) = Ok d /\
  mk_halo d (map number_Q (sp_fractions (td_system (tr_descriptor t)))) (halo_ll (sp_ll (td_system (tr_descriptor t)))) = Ok h /\
  lab_fit L (td_strategy (tr_descriptor t)) h
    {| epsilon := number_Q (ep_epsilon (td_experiment (tr_descriptor t)));
       delta := number_Q (ep_delta (td_experiment (tr_descriptor t))) |}
    (lab_seed_global L seed)
    {| w_tracker := new_tracker; w_rng := g (sp_generator (td_system (tr_descriptor t))) |} = (fit, w).

(** The share of its budget that a strategy uses for [p] publishers: the M3 strategy divides
    by 2p + 1 requests, and makes p + 1 of them for one or two publishers. *)
Definition budget_share (strategy : string) (p : nat) : Q :=
  if string_dec strategy "m3strategy" then
    if (2 <? p)%nat then 1%Q else (inject_Z (Z.of_nat p + 1) / inject_Z (2 * Z.of_nat p + 1))%Q
  else 1%Q.

(** Python takes the value for true. *)
Definition is_true (v : value) : Prop :=
  match v with
  | VNum n => ~ (number_Q n == 0)%Q
  | VStr s => s <> ""%string
  | VBool b => b = true
  end.

(** An M3 strategy that is told to use the true reach curves. *)
Definition uses_truth (sd : strategy_descriptor) : Prop :=
  sd_strategy sd = "m3strategy"%string /\
  exists v, is_true v /\ sd_strategy_kwargs sd = [("use_ground_truth_for_reach_curves"%string, v)].
(** A strategy that fits reach curves to what the simulator reports. *)
Definition uses_estimates (sd : strategy_descriptor) : Prop :=
  sd_strategy_kwargs sd = [] \/
  exists v, ~ is_true v /\ sd_strategy_kwargs sd = [("use_ground_truth_for_reach_curves"%string, v)].

(** Surfaces whose coefficients are known to be an overlap: the pairwise surface if the solver
    respects its constraints, the restricted one for up to three publishers if numpy's
    generator does what it documents. *)
Definition sound_surface (T : tools) (name : string) (p : nat) : Prop :=
  name = "pairwise_union"%string /\ returns_feasible (tl_solver T) (p * p) \/
  name = "restricted_pairwise_union"%string /\ numpy_draws (tl_random T) /\ (p <= 3)%nat.

(** The number of users that each publisher reaches at its spend. *)
Definition reached_by_each (logs : list (list row)) (spends : list Q) (singles : list Z) : Prop :=
  Forall2 (fun ls n => card_is (fun u => 1 <= seen_at_spend u (fst ls) (snd ls)) n) (combine logs spends) singles.

(** The documented reach of a Goerg curve that was fitted to [r] people reached with [imp]
    impressions for the money [c], when it is asked for the spend [s]. *)
Definition goerg_value (imp r c s : Q) : Q :=
  let x := (s * (imp / c))%Q in
  let rho := (imp * r / (imp - r))%Q in
  (rho * (x / (x + rho)))%Q.

(** Its k+ reach. *)
Definition goerg_kplus (imp r c s : Q) (k : Z) : Q :=
  let x := (s * (imp / c))%Q in
  let rho := (imp * r / (imp - r))%Q in
  (rho * (x / (x + rho)) ^ k)%Q.

(** What exact sketches report for a publisher alone at its campaign spend [c]: the number of
    impressions, and the number of people reached, but less than the impressions. *)
Definition campaign_report (log : list row) (c : Q) (imp r : Z) : Prop :=
  imp = bought_at_spend log c /\ 2 <= imp /\
  exists n, card_is (fun u => 1 <= seen_at_spend u log c) n /\ 1 <= n /\ r = Z.min n (imp - 1).

(** Increasing spends. *)
Definition at_least_spends (spends spends' : list Q) : Prop := Forall2 Qle spends spends'.

(** For each publisher, the impressions and the reach that are reported for its campaign, and
    the money of the campaign. *)
Definition campaign_reports (logs : list (list row)) (fractions : list Q) (reports : list (Z * Z * Q)) : Prop :=
  length reports = length logs /\ (length logs <= length fractions)%nat /\
  forall i log f imp r c, nth_error logs i = Some log -> nth_error fractions i = Some f ->
    nth_error reports i = Some (imp, r, c) -> campaign_of log f c /\ campaign_report log c imp r.

(** The reach that the Goerg curve of each publisher gives at its spend. *)
Definition goerg_values (reports : list (Z * Z * Q)) (spends : list Q) : list Q :=
  map (fun qs => goerg_value (inject_Z (fst (fst (fst qs)))) (inject_Z (snd (fst (fst qs)))) (snd (fst qs)) (snd qs))
      (combine reports spends).
