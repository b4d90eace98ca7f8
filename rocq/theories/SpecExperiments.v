(** Specification vocabulary for the experimental designs: what a choice of levels asks for on
    a data set, when two choices ask for the same, what a Latin sample in seven coordinates is,
    and what replicas of a trial are. *)
From Coq Require Import String Ascii Qround Permutation.
From Verif Require Import Prelude ModelReachPoint ModelData ModelAggregator ModelFiles SpecFiles ModelHalo ModelDriver
  SpecDriver ModelTestPoints ModelDesigns SpecDesigns ModelExperiments.
Open Scope Z_scope.

(** ** Choices *)

(** The spend fractions for a data set. *)
Definition spends_on (s : spend_source) (d : data_set) (l : list number) : Prop :=
  match s with Given x => l = x | FromDataSet f => f d = Ok l end.
(** The arguments of the test points for a data set: the number of publishers is filled in. *)
Definition kwargs_on (d : data_set) (a b : kwargs) : Prop :=
  Forall2 (fun x y => fst x = fst y /\
                      (fst x = "npublishers"%string -> snd y = VNum (PInt (Z.of_nat (length (ds_data d))))) /\
                      (fst x <> "npublishers"%string -> snd y = snd x)) a b.

(** The descriptor of a trial on the data set [d] is as the choice [c] wants it. *)
Definition plays (c : choice) (d : data_set) (t : trial_descriptor) : Prop :=
  td_strategy t = ch_strategy c /\ spends_on (ch_spends c) d (sp_fractions (td_system t)) /\
  sp_ll (td_system t) = ch_ll c /\
  (ep_epsilon (td_experiment t), ep_delta (td_experiment t)) = ch_budget c /\
  ep_replica_id (td_experiment t) = ch_replica c /\ ep_max_frequency (td_experiment t) = ch_frequency c /\
  ep_test_points (td_experiment t) = fst (ch_points c) /\
  kwargs_on d (snd (ch_points c)) (ep_test_kwargs (td_experiment t)).

(** Two choices ask for the same settings on the data set [d]. *)
Definition same_choice (d : data_set) (a b : choice) : Prop :=
  exists x y, plays a d x /\ plays b d y /\ same_settings x y.

(** A choice that can be carried out and printed: the strings contain no special characters,
    the arguments are a dictionary, and the spend fractions for [d] can be made up. *)
Definition clear_choice (F : float_format) (d : data_set) (c : choice) : Prop :=
  (exists l, spends_on (ch_spends c) d l) /\ NoDup (map fst (snd (ch_points c))) /\
  plain (sd_strategy (ch_strategy c)) /\ plain_kwargs F (sd_strategy_kwargs (ch_strategy c)) /\
  plain (sd_single (ch_strategy c)) /\ plain_kwargs F (sd_single_kwargs (ch_strategy c)) /\
  plain (sd_multi (ch_strategy c)) /\ plain_kwargs F (sd_multi_kwargs (ch_strategy c)) /\
  plain (fst (ch_points c)) /\ plain_kwargs F (snd (ch_points c)).

(** A combination of levels. *)
Definition combines (L : trial_levels) (c : choice) : Prop :=
  In (ch_strategy c) (tl_strategies L) /\ In (ch_spends c) (tl_spends L) /\ In (ch_ll c) (tl_ll L) /\
  In (ch_budget c) (tl_budgets L) /\ In (ch_replica c) (tl_replicas L) /\
  In (ch_frequency c) (tl_frequencies L) /\ In (ch_points c) (tl_points L).

(** The same for a design for single publishers. *)
Definition combines_single (L : single_levels) (c : choice) : Prop :=
  exists model fraction decay_rate sketch_size points,
    In model (sl_strategies L) /\ In fraction (sl_fractions L) /\ In decay_rate (sl_decay_rates L) /\
    In sketch_size (sl_sketch_sizes L) /\ In (fst (ch_budget c)) (sl_epsilons L) /\
    In (snd (ch_budget c)) (sl_deltas L) /\ In (ch_replica c) (sl_replicas L) /\
    In points (sl_test_points L) /\ In (ch_frequency c) (sl_frequencies L) /\
    sd_strategy (ch_strategy c) = "single_publisher"%string /\ sd_strategy_kwargs (ch_strategy c) = [] /\
    sd_single (ch_strategy c) = fst model /\ sd_single_kwargs (ch_strategy c) = snd model /\
    sd_multi (ch_strategy c) = "none"%string /\ sd_multi_kwargs (ch_strategy c) = [] /\
    ch_spends c = Given [fraction] /\ lp_decay_rate (ch_ll c) = decay_rate /\
    lp_sketch_size (ch_ll c) = sketch_size /\ lp_random_seed (ch_ll c) = 1 /\
    ch_points c = ("grid", [("grid_size", VNum (PInt points))])%string.

(** The levels differ from each other, on the data set [d]. *)
Definition levels_differ (d : data_set) (L : trial_levels) : Prop :=
  pairwise_different same_strategy (tl_strategies L) /\
  pairwise_different (fun a b => exists x y, spends_on a d x /\ spends_on b d y /\ Forall2 same_number x y) (tl_spends L) /\
  pairwise_different (fun a b => same_number (lp_decay_rate a) (lp_decay_rate b) /\
                                 same_number (lp_sketch_size a) (lp_sketch_size b)) (tl_ll L) /\
  pairwise_different (fun a b => same_number (fst a) (fst b) /\ same_number (snd a) (snd b)) (tl_budgets L) /\
  NoDup (tl_replicas L) /\ NoDup (tl_frequencies L) /\
  pairwise_different (fun a b => fst a = fst b /\ exists x y, kwargs_on d (snd a) x /\ kwargs_on d (snd b) y /\ same_kwargs x y)
                     (tl_points L).

Definition single_levels_differ (L : single_levels) : Prop :=
  pairwise_different (fun a b => fst a = fst b /\ same_kwargs (snd a) (snd b)) (sl_strategies L) /\
  pairwise_different same_number (sl_fractions L) /\ pairwise_different same_number (sl_decay_rates L) /\
  pairwise_different same_number (sl_sketch_sizes L) /\ pairwise_different same_number (sl_epsilons L) /\
  pairwise_different same_number (sl_deltas L) /\
  NoDup (sl_replicas L) /\ NoDup (sl_test_points L) /\ NoDup (sl_frequencies L).

(** ** Data designs *)

(** The data sets have different names, fit for file names and without ':', and can be read;
    each of them satisfies [P]. *)
Definition good_data (x : data_design) (P : data_set -> Prop) : Prop :=
  NoDup (dd_names x) /\
  forall n, In n (dd_names x) -> file_name n /\ ~ In ":"%char (chars n) /\
    exists d, dd_by_name x n = Ok d /\ P d.

(** The trial [t] runs the choice [c] on the data set called [n] and draws from the generator
    number [i]. *)
Definition runs (x : experimental_design) (n : string) (i : nat) (c : choice) (t : trial) : Prop :=
  tr_experiment_dir t = xd_dir x /\ tr_design t = xd_data x /\ tr_data_set t = n /\
  tr_analysis t = xd_analysis x /\ sp_generator (td_system (tr_descriptor t)) = i /\
  exists d, dd_by_name (xd_data x) n = Ok d /\ plays c d (tr_descriptor t).

(** There is one trial for each data set and each choice, data set by data set; the trials of
    a choice draw from the same generator, those of different choices do not; and all trials
    are kept in different results files. *)
Definition one_trial_each (L : lab) (x : experimental_design) (cs : list choice) (ts : list trial) : Prop :=
  Forall2 (fun nic t => runs x (fst nic) (fst (snd nic)) (snd (snd nic)) t)
          (list_prod (dd_names (xd_data x)) (combine (seq 0 (length cs)) cs)) ts /\
  NoDup (map (results_path (lab_float L)) ts).

(** ** Latin hypercube designs *)

Definition point_in (k : nat) (s : list Q) : Prop := length s = k /\ Forall (fun q => 0 <= q < 1)%Q s.
(** A Latin sample of [n] points in [k] coordinates: in each coordinate there is one point in
    each of [n] equal parts of the unit interval. *)
Definition latin_in (k : nat) (samples : list (list Q)) : Prop :=
  let n := length samples in
  Forall (point_in k) samples /\
  forall j, (j < k)%nat ->
    Permutation (map (fun s => Qfloor (nth j s 0%Q * inject_Z (Z.of_nat n))) samples)
                (map Z.of_nat (seq 0 n)).

(** The choice that a point of the sample stands for. *)
Definition choice_at (L : trial_levels) (s : list Q) (c : choice) : Prop :=
  chosen (tl_strategies L) (nth 0 s 0%Q) (ch_strategy c) /\
  chosen (tl_spends L) (nth 1 s 0%Q) (ch_spends c) /\
  chosen (tl_ll L) (nth 2 s 0%Q) (ch_ll c) /\
  chosen (tl_budgets L) (nth 3 s 0%Q) (ch_budget c) /\
  chosen (tl_replicas L) (nth 4 s 0%Q) (ch_replica c) /\
  chosen (tl_frequencies L) (nth 5 s 0%Q) (ch_frequency c) /\
  chosen (tl_points L) (nth 6 s 0%Q) (ch_points c).

(** No list of levels is empty. *)
Definition has_trial_levels (L : trial_levels) : Prop :=
  tl_strategies L <> [] /\ tl_spends L <> [] /\ tl_ll L <> [] /\ tl_budgets L <> [] /\
  tl_replicas L <> [] /\ tl_frequencies L <> [] /\ tl_points L <> [].

(** Each position of [levels] is taken by an even share of the choices. *)
Definition evenly {A} (levels : list A) (field : choice -> A) (cs : list choice) : Prop :=
  exists ks, Forall2 (fun c k => nth_error levels k = Some (field c)) cs ks /\
    forall k, (k < length levels)%nat ->
      even_share (length cs) (length levels) (count_occ Nat.eq_dec ks k).

(** ** Rows *)

(** The columns in which a row says which trial it is. *)
Definition labels : list string := ["trial"; "replica_id"]%string.
Definition unlabelled (row : list (string * cell)) : list (string * cell) :=
  filter (fun c => negb (existsb (String.eqb (fst c)) labels)) row.

(** Two choices that differ in the replica only. *)
Definition replicas (a b : choice) : Prop :=
  ch_strategy a = ch_strategy b /\ ch_spends a = ch_spends b /\ ch_ll a = ch_ll b /\
  ch_budget a = ch_budget b /\ ch_frequency a = ch_frequency b /\ ch_points a = ch_points b.

(** The rows that trials give when they are computed one after the other, each with the
    generators that the ones before have left. *)
Fixpoint row_by_row (L : lab) (seed : Z) (g : generators L) (ts : list trial) (rows : list (list (string * cell)))
  : Prop :=
  match ts, rows with
  | [], [] => True
  | t :: ts', row :: rows' => fst (compute_row L t seed g) = Ok row /\
                              row_by_row L seed (snd (compute_row L t seed g)) ts' rows'
  | _, _ => False
  end.

(** The points at which a trial on the data set [d] measures: how many there are. [gl] is the
    state of numpy's own generator, [st] that of the generator of the test points. *)
Definition makes_points (L : lab) (t : trial) (d : data_set) (gl : lab_global L) (st : lab_own L) (n : Z) : Prop :=
  exists kw points s, int_kwargs (ep_test_kwargs (td_experiment (tr_descriptor t))) = Ok kw /\
    generate_test_points (lab_draws L) (ep_test_points (td_experiment (tr_descriptor t))) kw d gl st = Ok (points, s) /\
    Z.of_nat (length points) = n.

(** The results go into a directory that is not the one for markers, and the names of markers
    are fit for files. *)
Definition good_place (L : lab) (x : experimental_design) : Prop :=
  snd (to_path (xd_dir x)) <> [] /\ last (snd (to_path (xd_dir x))) ""%string <> "pending"%string /\
  forall s, file_name (lab_md5 L s).

(** ** What the shipped designs ask for *)

(** The same fraction for all publishers, or fractions that are repeated in turn. *)
Definition spends_alike (q : Q) (s : spend_source) : Prop :=
  forall d, exists l, spends_on s d l /\ length l = publisher_count d /\ Forall (fun x => x = PFloat q) l.
Definition spends_turns (qs : list Q) (s : spend_source) : Prop :=
  forall d, exists l, spends_on s d l /\ length l = publisher_count d /\
    forall i x, nth_error l i = Some x -> exists q, nth_error qs (i mod length qs) = Some q /\ x = PFloat q.

Definition m3_strategy_with (single : string) (kw : kwargs) (s : strategy_descriptor) : Prop :=
  sd_strategy s = "m3strategy"%string /\ sd_strategy_kwargs s = kw /\ sd_single s = single /\ sd_single_kwargs s = [] /\
  sd_multi s = "restricted_pairwise_union"%string /\ sd_multi_kwargs s = [].

Definition m3_settings (c : choice) : Prop :=
  (m3_strategy_with "goerg" [("use_ground_truth_for_reach_curves"%string, VBool true)] (ch_strategy c) \/
   m3_strategy_with "goerg" [] (ch_strategy c) \/ m3_strategy_with "gamma_poisson" [] (ch_strategy c)) /\
  (spends_alike (2 # 10) (ch_spends c) \/ spends_turns [1 # 10; 2 # 10; 3 # 10] (ch_spends c)) /\
  lp_decay_rate (ch_ll c) = PInt 12 /\ lp_sketch_size (ch_ll c) = PFloat 100000 /\ lp_random_seed (ch_ll c) = 1 /\
  (fst (ch_budget c) = PFloat 1 \/ fst (ch_budget c) = PFloat (1 # 10)) /\
  (snd (ch_budget c) = PFloat (1 # 10000000) \/ snd (ch_budget c) = PFloat (1 # 1000000000)) /\
  1 <= ch_replica c <= 3 /\ (ch_frequency c = 5 \/ ch_frequency c = 20) /\
  (fst (ch_points c) = "latin_hypercube" \/ fst (ch_points c) = "uniformly_random")%string /\
  snd (ch_points c) = [("npublishers"%string, VNum (PInt 1))].

Definition analysis_settings (c : choice) : Prop :=
  (m3_strategy_with "goerg" [] (ch_strategy c) \/ m3_strategy_with "gamma_poisson" [] (ch_strategy c)) /\
  (spends_alike (6 # 10) (ch_spends c) \/ spends_turns [4 # 10; 8 # 10] (ch_spends c)) /\
  lp_decay_rate (ch_ll c) = PInt 10 /\ lp_sketch_size (ch_ll c) = PInt 8000 /\ lp_random_seed (ch_ll c) = 1 /\
  (fst (ch_budget c) = PInt 2 \/ fst (ch_budget c) = PFloat (5 # 10)) /\ snd (ch_budget c) = PFloat (1 # 1000000000) /\
  1 <= ch_replica c <= 3 /\ (ch_frequency c = 3 \/ ch_frequency c = 6) /\
  (fst (ch_points c) = "latin_hypercube" \/ fst (ch_points c) = "uniformly_random")%string /\
  snd (ch_points c) = [("npublishers"%string, VNum (PInt 1)); ("minimum_points_per_publisher"%string, VNum (PInt 10))].

(** A whole number of tenths between 0.1 and 0.9. *)
Definition some_tenths (x : number) : Prop :=
  exists k q, 1 <= k <= 9 /\ x = PFloat q /\ (q == k # 10)%Q.

Definition single_settings (c : choice) : Prop :=
  sd_strategy (ch_strategy c) = "single_publisher"%string /\ sd_strategy_kwargs (ch_strategy c) = [] /\
  In (sd_single (ch_strategy c)) ["goerg"; "gamma_poisson"; "kinflated_gamma_poisson"]%string /\
  (sd_single_kwargs (ch_strategy c) = [] \/
   sd_single (ch_strategy c) <> "goerg"%string /\
   sd_single_kwargs (ch_strategy c) = [("extrapolation_multiplier"%string, VNum (PFloat 2))]) /\
  sd_multi (ch_strategy c) = "none"%string /\ sd_multi_kwargs (ch_strategy c) = [] /\
  (exists f, ch_spends c = Given [f] /\ some_tenths f) /\
  lp_decay_rate (ch_ll c) = PInt 10 /\ lp_sketch_size (ch_ll c) = PInt 100000 /\ lp_random_seed (ch_ll c) = 1 /\
  In (fst (ch_budget c)) [PFloat (5 # 100); PFloat (10 # 100); PFloat (15 # 100); PFloat (20 # 100); PFloat 100] /\
  snd (ch_budget c) = PFloat (1 # 1000000000) /\ ch_replica c = 1 /\ ch_frequency c = 10 /\
  ch_points c = ("grid", [("grid_size", VNum (PInt 20))])%string.

Definition sample_settings (c : choice) : Prop :=
  (m3_strategy_with "goerg" [] (ch_strategy c) \/ m3_strategy_with "gamma_poisson" [] (ch_strategy c)) /\
  (exists f g, ch_spends c = Given [f; g] /\ some_tenths f /\ some_tenths g) /\
  In (lp_decay_rate (ch_ll c)) [PInt 10; PInt 12; PInt 17] /\
  In (lp_sketch_size (ch_ll c)) [PFloat 100000; PFloat 200000] /\ lp_random_seed (ch_ll c) = 1 /\
  (fst (ch_budget c) = PFloat 1 \/ fst (ch_budget c) = PFloat (1 # 10)) /\
  (snd (ch_budget c) = PFloat (1 # 10000000) \/ snd (ch_budget c) = PFloat (1 # 100000000)) /\
  1 <= ch_replica c <= 3 /\ In (ch_frequency c) [5; 10; 20] /\
  In (ch_points c) [("latin_hypercube", [("npoints", VNum (PInt 100))]); ("uniformly_random", [("npoints", VNum (PInt 500))]);
                    ("grid", [("grid_size", VNum (PInt 5))])]%string.
