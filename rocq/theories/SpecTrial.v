(** Independent vocabulary for the row of a trial. *)
From Coq Require Import String Ascii Sorted.
From Verif Require Import Prelude ModelReachPoint ModelData ModelPrivacy ModelHalo ModelAggregator SpecAggregator
  ModelFiles ModelDriver.
Open Scope Z_scope.

(** ** Columns *)

Definition settings_columns : list string :=
  ["dataset"; "trial"; "replica_id"; "single_pub_model"; "multi_pub_model"; "strategy";
   "liquid_legions_sketch_size"; "liquid_legions_decay_rate"; "maximum_reach"; "ncampaigns";
   "largest_pub_reach"; "max_frequency"; "average_spend_fraction"]%string.
Definition privacy_columns : list string :=
  ["privacy_budget_epsilon"; "privacy_budget_delta"; "privacy_used_epsilon"; "privacy_used_delta";
   "privacy_mechanisms"]%string.
Definition metric_columns : list string :=
  ["model_succeeded"; "model_exception"; "npoints"; "mean_error"; "mean_abs_error"; "mean_squared_error";
   "mean_abs_relative_error"; "mare_freq_at_least_2"; "mare_freq_at_least_3"; "mare_freq_at_least_4";
   "mare_freq_at_least_5"; "mare_freq_at_least_6"; "mare_freq_at_least_7"; "mare_freq_at_least_8";
   "mare_freq_at_least_9"; "mean_squared_relative_error"; "var_error"; "var_relative_error";
   "relative_error_q10"; "relative_error_q20"; "relative_error_q30"; "relative_error_q40";
   "relative_error_q50"; "relative_error_q60"; "relative_error_q70"; "relative_error_q80";
   "relative_error_q90"; "mean_shuffle_distance"; "mean_squared_shuffle_distance"; "var_shuffle_distance"]%string.

(** Percentages of the spend of the training point, with three digits. *)
Definition percents : list string :=
  ["010"; "020"; "030"; "040"; "050"; "060"; "070"; "080"; "090"; "100"; "110"; "120"; "130"; "140"; "150";
   "160"; "170"; "180"; "190"; "200"; "210"; "220"; "230"; "240"; "250"; "260"; "270"; "280"; "290"; "300"]%string.
Definition at_percent (p : string) : string := String.append "relative_error_at_" p.
Definition at_frequency_percent (f : Z) (p : string) : string :=
  String.append "freq_" (String.append (string_of_list_ascii (str_of_int f)) (String.append "_relative_error_at_" p)).
(** 1, 2, ..., k - 1 *)
Definition below (k : Z) : list Z := map (fun n => Z.of_nat n) (seq 1 (Z.to_nat (k - 1))).
Definition single_columns (max_frequency : Z) : list string :=
  map at_percent percents ++
  flat_map (fun f => map (at_frequency_percent f) percents) (below max_frequency) ++
  ["max_nonzero_frequency_from_halo"; "max_nonzero_frequency_from_data"]%string.

(** All columns of a trial's row. *)
Definition row_columns (t : trial) : list string :=
  settings_columns ++ privacy_columns ++ metric_columns ++
  (if string_dec (tr_analysis t) "single_pub"
   then single_columns (ep_max_frequency (td_experiment (tr_descriptor t))) else []).

(** ** Values *)

(** The keyword arguments are integers, handed over under the same names and in the same order. *)
Definition integers_passed (given : kwargs) (passed : list (string * Z)) : Prop :=
  Forall2 (fun a b => exists z, snd a = VNum (PInt z) /\ b = (fst a, z)) given passed.

(** [n] is the last frequency with a reach that is not zero. *)
Definition last_nonzero (l : list Q) (n : Z) : Prop :=
  1 <= n <= Z.of_nat (length l) /\
  (exists q, nth_error l (Z.to_nat (n - 1)) = Some q /\ ~ (q == 0)%Q) /\
  forall m q, n <= Z.of_nat m -> nth_error l m = Some q -> (q == 0)%Q.

(** The cell of a relative error: missing if there is no true reach. *)
Definition relative_error_cell (c : cell) (truth fitted : Q) : Prop :=
  ((truth == 0)%Q /\ c = CStat NotFinite) \/
  (~ (truth == 0)%Q /\ exists v, c = CStat (Num v) /\ (v == absolute ((truth - fitted) / truth))%Q).

(** Models that answer without changing. *)
Definition steady (L : lab) (m : lab_model L) : Prop :=
  forall s k, snd (lab_ask L m s k) = m.

Definition number_of_cell (c : cell) (n : ModelDriver.number) : Prop :=
  match n with PInt z => c = CInt z | PFloat q => c = CStat (Num q) end.

(** The strategy can be made: its names are known, and it takes the given arguments. *)
Definition strategy_known (s : strategy_descriptor) : Prop :=
  In (sd_single s) ["goerg"; "gamma_poisson"; "kinflated_gamma_poisson"]%string /\
  In (sd_multi s) ["pairwise_union"; "restricted_pairwise_union"; "none"]%string /\
  (sd_strategy s = "m3strategy"%string /\
     (forall k v, In (k, v) (sd_strategy_kwargs s) -> k = "use_ground_truth_for_reach_curves"%string) \/
   sd_strategy s = "single_publisher"%string /\ sd_strategy_kwargs s = []).

(** A point of true reach in rational numbers: the true reach of the data set. *)
Definition truth_at (d : data_set) (spends : list Q) (k : Z) (p : reach_point Q Q) : Prop :=
  exists z, reach_by_spend d spends k = Ok z /\
    rp_impressions p = map inject_Z (rp_impressions z) /\ rp_kplus p = map inject_Z (rp_kplus z) /\
    rp_frequencies p = map inject_Z (rp_frequencies z) /\ rp_spends p = rp_spends z /\
    rp_universe p = rp_universe z.

(** The answers of a model that is asked for some points one after the other. *)
Inductive asked (L : lab) (k : Z) : lab_model L -> list (list Q) -> list (reach_point Q Q) -> lab_model L -> Prop :=
| asked_nil : forall m, asked L k m [] [] m
| asked_cons : forall m s p m1 ss ps m2, lab_ask L m s k = (Ok p, m1) -> asked L k m1 ss ps m2 ->
    asked L k m (s :: ss) (p :: ps) m2.
