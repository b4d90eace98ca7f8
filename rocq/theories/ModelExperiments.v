(** Model of the experimental designs that come with the driver, in src/driver:
    m3_first_round_experimental_design.py, analysis_example_experimental_design.py,
    single_publisher_design.py and sample_experimental_design.py.

    Literal floats such as 0.1 are the rationals they denote. *)
From Coq Require Import String.
From Verif Require Import Prelude ModelReachPoint ModelData ModelDriver ModelDesigns.
Open Scope Z_scope.

(** ** Levels *)

(** Where the spend fractions of a trial come from: given in the design, or by a function of
    the data set (system_parameters.py 59-62). *)
Inductive spend_source : Type :=
| Given (l : list number)
| FromDataSet (f : data_set -> result (list number)).

(** The dictionary LEVELS, in the order of its keys, as in
    m3_first_round_experimental_design.py 87-95. A privacy budget is (epsilon, delta). *)
Record trial_levels : Type := {
  tl_strategies : list strategy_descriptor;
  tl_spends : list spend_source;
  tl_ll : list ll_parameters;
  tl_budgets : list (number * number);
  tl_replicas : list Z;
  tl_frequencies : list Z;
  tl_points : list (string * kwargs) }.

(** The dictionary design_parameters: one level of each. *)
Record choice : Type := {
  ch_strategy : strategy_descriptor;
  ch_spends : spend_source;
  ch_ll : ll_parameters;
  ch_budget : number * number;
  ch_replica : Z;
  ch_frequency : Z;
  ch_points : string * kwargs }.

(** system_parameters.py 59: the default of campaign_spend_fractions *)
Definition default_fractions : list number := [PInt 0].

(** m3_first_round_experimental_design.py 104-122 and sample_experimental_design.py 112-128.
    [n] is the number of the generator that default_rng(seed=seed) makes for this descriptor. *)
Definition make_descriptor (n : nat) (c : choice) : trial_descriptor :=
  {| td_strategy := ch_strategy c;
     td_system :=
       {| sp_fractions := match ch_spends c with Given l => l | FromDataSet _ => default_fractions end;
          sp_ll := ch_ll c;
          sp_generator := n;
          sp_fractions_generator := match ch_spends c with Given _ => None | FromDataSet f => Some f end |};
     td_experiment :=
       {| ep_epsilon := fst (ch_budget c); ep_delta := snd (ch_budget c);
          ep_replica_id := ch_replica c; ep_max_frequency := ch_frequency c;
          ep_test_points := fst (ch_points c); ep_test_kwargs := snd (ch_points c) |} |}.

(** One descriptor for each choice, with a generator of its own. *)
Definition numbered (cs : list choice) : list trial_descriptor :=
  map (fun nc => make_descriptor (fst nc) (snd nc)) (combine (seq 0 (length cs)) cs).

(** m3_first_round_experimental_design.py 102-103 and analysis_example_experimental_design.py
    88-89: itertools.product of the levels. *)
Definition product_choices (L : trial_levels) : list choice :=
  flat_map (fun strategy =>
  flat_map (fun spends =>
  flat_map (fun ll =>
  flat_map (fun budget =>
  flat_map (fun replica =>
  flat_map (fun frequency =>
  map (fun points =>
    {| ch_strategy := strategy; ch_spends := spends; ch_ll := ll; ch_budget := budget;
       ch_replica := replica; ch_frequency := frequency; ch_points := points |})
  (tl_points L)) (tl_frequencies L)) (tl_replicas L)) (tl_budgets L)) (tl_ll L)) (tl_spends L))
  (tl_strategies L).
Definition product_config (L : trial_levels) : list trial_descriptor := numbered (product_choices L).

(** ** Latin hypercube *)

(** sample_experimental_design.py 109-111: the loop over [zip(keys, sample)]. A key beyond the
    end of the sample is missing in the dictionary. *)
Definition pick_key {A} (l : list A) (sample : list Q) (k : nat) : result A :=
  match nth_error sample k with
  | Some level => pick l level
  | None => Err KeyError
  end.

(** sample_experimental_design.py 109-128: one sample. *)
Definition sample_choice (L : trial_levels) (sample : list Q) : result choice :=
  strategy <- pick_key (tl_strategies L) sample 0 ;;
  spends <- pick_key (tl_spends L) sample 1 ;;
  ll <- pick_key (tl_ll L) sample 2 ;;
  budget <- pick_key (tl_budgets L) sample 3 ;;
  replica <- pick_key (tl_replicas L) sample 4 ;;
  frequency <- pick_key (tl_frequencies L) sample 5 ;;
  points <- pick_key (tl_points L) sample 6 ;;
  Ok {| ch_strategy := strategy; ch_spends := spends; ch_ll := ll; ch_budget := budget;
        ch_replica := replica; ch_frequency := frequency; ch_points := points |}.

(** sample_experimental_design.py 98-128: [samples] is what pyDOE's lhs returned after
    np.random.seed(seed). *)
Definition sample_config (L : trial_levels) (samples : list (list Q)) : result (list trial_descriptor) :=
  cs <- mapM (sample_choice L) samples ;; Ok (numbered cs).

(** ** The designs *)

Definition strategy (name : string) (kw : kwargs) (single : string) (single_kw : kwargs) (multi : string)
  : strategy_descriptor :=
  {| sd_strategy := name; sd_strategy_kwargs := kw; sd_single := single; sd_single_kwargs := single_kw;
     sd_multi := multi; sd_multi_kwargs := [] |}.
(** system_parameters.py 37-39: LiquidLegionsParameters with the default random_seed *)
Definition legions (decay_rate sketch_size : number) : ll_parameters :=
  {| lp_decay_rate := decay_rate; lp_sketch_size := sketch_size; lp_random_seed := 1 |}.

(** [[x] * dataset.publisher_count] *)
Definition all_alike (x : number) : spend_source :=
  FromDataSet (fun d => Ok (repeat x (publisher_count d))).
(** [list(islice(cycle(l), dataset.publisher_count))] for a list that is not empty *)
Definition cycled (l : list number) (n : nat) : list number :=
  map (fun i => nth (i mod length l) l (PInt 0)) (seq 0 n).
Definition in_turn (l : list number) : spend_source :=
  FromDataSet (fun d => Ok (cycled l (publisher_count d))).

(** m3_first_round_experimental_design.py 45-95 *)
Definition m3_trial_levels : trial_levels :=
  {| tl_strategies :=
       [strategy "m3strategy" [("use_ground_truth_for_reach_curves", VBool true)] "goerg" []
                 "restricted_pairwise_union";
        strategy "m3strategy" [] "goerg" [] "restricted_pairwise_union";
        strategy "m3strategy" [] "gamma_poisson" [] "restricted_pairwise_union"]%string;
     tl_spends := [all_alike (PFloat (2 # 10)); in_turn [PFloat (1 # 10); PFloat (2 # 10); PFloat (3 # 10)]];
     tl_ll := [legions (PInt 12) (PFloat 100000)];
     tl_budgets := [(PFloat 1, PFloat (1 # 10000000)); (PFloat 1, PFloat (1 # 1000000000));
                    (PFloat (1 # 10), PFloat (1 # 10000000)); (PFloat (1 # 10), PFloat (1 # 1000000000))];
     tl_replicas := [1; 2; 3];
     tl_frequencies := [5; 20];
     tl_points := [("latin_hypercube", [("npublishers", int 1)]);
                   ("uniformly_random", [("npublishers", int 1)])]%string |}.
(** m3_first_round_experimental_design.py 100-122 *)
Definition m3_experiments : list trial_descriptor := product_config m3_trial_levels.

(** analysis_example_experimental_design.py 42-82 *)
Definition analysis_trial_levels : trial_levels :=
  {| tl_strategies :=
       [strategy "m3strategy" [] "goerg" [] "restricted_pairwise_union";
        strategy "m3strategy" [] "gamma_poisson" [] "restricted_pairwise_union"]%string;
     tl_spends := [all_alike (PFloat (6 # 10)); in_turn [PFloat (4 # 10); PFloat (8 # 10)]];
     tl_ll := [legions (PInt 10) (PInt 8000)];
     tl_budgets := [(PInt 2, PFloat (1 # 1000000000)); (PFloat (5 # 10), PFloat (1 # 1000000000))];
     tl_replicas := [1; 2; 3];
     tl_frequencies := [3; 6];
     tl_points := [("latin_hypercube", [("npublishers", int 1); ("minimum_points_per_publisher", int 10)]);
                   ("uniformly_random", [("npublishers", int 1); ("minimum_points_per_publisher", int 10)])]%string |}.
(** analysis_example_experimental_design.py 86-108 *)
Definition analysis_experiments : list trial_descriptor := product_config analysis_trial_levels.

(** [np.arange(1, 10) * 0.1] *)
Definition tenths : list number := map (fun k => PFloat (inject_Z k * (1 # 10))) (py_range 1 10).

(** single_publisher_design.py 43-70: the dictionary LEVELS, in the order of its keys. *)
Record single_levels : Type := {
  sl_strategies : list (string * kwargs);
  sl_fractions : list number;
  sl_decay_rates : list number;
  sl_sketch_sizes : list number;
  sl_epsilons : list number;
  sl_deltas : list number;
  sl_replicas : list Z;
  sl_test_points : list Z;
  sl_frequencies : list Z }.
Definition single_trial_levels : single_levels :=
  {| sl_strategies :=
       [("goerg", []); ("gamma_poisson", []); ("gamma_poisson", [("extrapolation_multiplier", fl 2)]);
        ("kinflated_gamma_poisson", []);
        ("kinflated_gamma_poisson", [("extrapolation_multiplier", fl 2)])]%string;
     sl_fractions := tenths;
     sl_decay_rates := [PInt 10];
     sl_sketch_sizes := [PInt 100000];
     sl_epsilons := [PFloat (5 # 100); PFloat (10 # 100); PFloat (15 # 100); PFloat (20 # 100); PFloat 100];
     sl_deltas := [PFloat (1 # 1000000000)];
     sl_replicas := [1];
     sl_test_points := [20];
     sl_frequencies := [10] |}.

(** single_publisher_design.py 72-104: the product of the nine lists, and the descriptor of
    one combination. *)
Definition single_choices (L : single_levels) : list choice :=
  flat_map (fun s =>
  flat_map (fun fraction =>
  flat_map (fun decay_rate =>
  flat_map (fun sketch_size =>
  flat_map (fun epsilon =>
  flat_map (fun delta =>
  flat_map (fun replica =>
  flat_map (fun points =>
  map (fun frequency =>
    {| ch_strategy := strategy "single_publisher" [] (fst s) (snd s) "none";
       ch_spends := Given [fraction]; ch_ll := legions decay_rate sketch_size;
       ch_budget := (epsilon, delta); ch_replica := replica; ch_frequency := frequency;
       ch_points := ("grid"%string, [("grid_size"%string, int points)]) |})
  (sl_frequencies L)) (sl_test_points L)) (sl_replicas L)) (sl_deltas L)) (sl_epsilons L))
  (sl_sketch_sizes L)) (sl_decay_rates L)) (sl_fractions L)) (sl_strategies L).
Definition single_experiments : list trial_descriptor := numbered (single_choices single_trial_levels).

(** sample_experimental_design.py 44-92 *)
Definition sample_trial_levels : trial_levels :=
  {| tl_strategies :=
       [strategy "m3strategy" [] "goerg" [] "restricted_pairwise_union";
        strategy "m3strategy" [] "gamma_poisson" [] "restricted_pairwise_union"]%string;
     tl_spends := flat_map (fun a => map (fun b => Given [a; b]) tenths) tenths;
     tl_ll := [legions (PInt 10) (PFloat 100000); legions (PInt 12) (PFloat 100000);
               legions (PInt 17) (PFloat 100000); legions (PInt 10) (PFloat 200000);
               legions (PInt 12) (PFloat 200000); legions (PInt 17) (PFloat 200000)];
     tl_budgets := [(PFloat 1, PFloat (1 # 10000000)); (PFloat 1, PFloat (1 # 100000000));
                    (PFloat (1 # 10), PFloat (1 # 10000000)); (PFloat (1 # 10), PFloat (1 # 100000000))];
     tl_replicas := [1; 2; 3];
     tl_frequencies := [5; 10; 20];
     tl_points := [("latin_hypercube", [("npoints", int 100)]); ("uniformly_random", [("npoints", int 500)]);
                   ("grid", [("grid_size", int 5)])]%string |}.
(** sample_experimental_design.py 95: NUM_TRIALS_PER_DATASET *)
Definition sample_trials : nat := 100.
(** sample_experimental_design.py 98-128 *)
Definition sample_experiments (samples : list (list Q)) : result (list trial_descriptor) :=
  sample_config sample_trial_levels samples.
