(** Model of src/driver/experimental_trial.py, experimental_design.py, experiment.py,
    trial_descriptor.py, experiment_parameters.py (printing), modeling_strategy_descriptor.py
    and src/simulator/system_parameters.py.

    Everything that touches the disk is a program: a tree of single observations of and
    single effects on the disk, so that a run can be stopped after any of them and several
    runs can be interleaved. *)
From Coq Require Import String Ascii.
From Verif Require Import Prelude ModelReachPoint ModelData ModelPrivacy ModelHalo ModelTestPoints
  ModelAggregator ModelFiles.
Open Scope Z_scope.

(** ** Descriptors *)

(** Numbers and other values in parameter dictionaries, as far as printing tells them apart. *)
Inductive number : Type := PInt (z : Z) | PFloat (q : Q).
Inductive value : Type := VNum (n : number) | VStr (s : string) | VBool (b : bool).
Definition kwargs : Type := list (string * value).

Definition number_Q (n : number) : Q := match n with PInt z => inject_Z z | PFloat q => q end.

(** [f"{x}"] *)
Definition show_number (F : float_format) (n : number) : text :=
  match n with PInt z => str_of_int z | PFloat q => show_float F q end.
Definition chars (s : string) : text := list_ascii_of_string s.
Definition show_value (F : float_format) (v : value) : text :=
  match v with
  | VNum n => show_number F n
  | VStr s => chars s
  | VBool true => chars "True"
  | VBool false => chars "False"
  end.

(** [sep.join(l)] *)
Fixpoint joined (sep : ascii) (l : list text) : text :=
  match l with
  | [] => []
  | [x] => x
  | x :: r => x ++ sep :: joined sep r
  end.

(** modeling_strategy_descriptor.py 92-97 *)
Record strategy_descriptor : Type := {
  sd_strategy : string; sd_strategy_kwargs : kwargs;
  sd_single : string; sd_single_kwargs : kwargs;
  sd_multi : string; sd_multi_kwargs : kwargs }.

(** experiment_parameters.py 80-84 and modeling_strategy_descriptor.py 109-113: the items of
    a dictionary in parentheses, nothing for an empty one. *)
Definition show_kwargs (F : float_format) (d : kwargs) : text :=
  match d with
  | [] => []
  | _ => "("%char :: joined comma (map (fun kv => chars (fst kv) ++ "="%char :: show_value F (snd kv)) d)
         ++ [")"%char]
  end.

(** modeling_strategy_descriptor.py 115-128: __str__ *)
Definition show_strategy (F : float_format) (s : strategy_descriptor) : text :=
  chars (sd_strategy s) ++ show_kwargs F (sd_strategy_kwargs s) ++ comma ::
  chars (sd_single s) ++ show_kwargs F (sd_single_kwargs s) ++ comma ::
  chars (sd_multi s) ++ show_kwargs F (sd_multi_kwargs s).

(** modeling_strategy_descriptor.py 42-64 and 99-107: instantiate_strategy looks the three
    names up. The two strategies take the keyword arguments that their constructors have
    (m3_strategy.py 41-48, single_publisher_strategy.py 29-38). Here only the errors matter. *)
Definition single_pub_models : list string := ["goerg"; "gamma_poisson"; "kinflated_gamma_poisson"]%string.
Definition multi_pub_models : list string :=
  ["pairwise_union"; "restricted_pairwise_union"; "none"]%string.
Definition known (names : list string) (x : string) : bool := existsb (String.eqb x) names.
Definition instantiate_strategy (s : strategy_descriptor) : result unit :=
  let call (names : list string) :=
    if negb (known single_pub_models (sd_single s)) then Err KeyError
    else if negb (known multi_pub_models (sd_multi s)) then Err KeyError
    else if forallb (fun kv => known names (fst kv)) (sd_strategy_kwargs s) then Ok tt
    else Err TypeError in
  if String.eqb (sd_strategy s) "m3strategy" then call ["use_ground_truth_for_reach_curves"%string]
  else if String.eqb (sd_strategy s) "single_publisher" then call []
  else Err KeyError.

(** system_parameters.py 24-39 and 42-64. A generator is an object that several system
    parameters may share: here the number of a cell that holds its state. *)
Record ll_parameters : Type := { lp_decay_rate : number; lp_sketch_size : number; lp_random_seed : Z }.
Record system_parameters : Type := {
  sp_fractions : list number; sp_ll : ll_parameters; sp_generator : nat;
  sp_fractions_generator : option (data_set -> result (list number)) }.

(** system_parameters.py 66-71: __str__ *)
Definition show_system (F : float_format) (s : system_parameters) : text :=
  chars "spends=(" ++ joined comma (map (show_number F) (sp_fractions s)) ++ chars "),decay_rate=" ++
  show_number F (lp_decay_rate (sp_ll s)) ++ chars ",sketch_size=" ++
  show_number F (lp_sketch_size (sp_ll s)).

(** system_parameters.py 73-81: update_from_dataset *)
Definition update_system (s : system_parameters) (d : data_set) : result system_parameters :=
  fractions <- match sp_fractions_generator s with
               | Some f => f d
               | None => Ok (sp_fractions s)
               end ;;
  Ok {| sp_fractions := fractions; sp_ll := sp_ll s; sp_generator := sp_generator s;
        sp_fractions_generator := None |}.

(** experiment_parameters.py 46-64 *)
Record experiment_parameters : Type := {
  ep_epsilon : number; ep_delta : number; ep_replica_id : Z; ep_max_frequency : Z;
  ep_test_points : string; ep_test_kwargs : kwargs }.

(** experiment_parameters.py 86-94: __str__ *)
Definition show_experiment (F : float_format) (e : experiment_parameters) : text :=
  chars "epsilon=" ++ show_number F (ep_epsilon e) ++ chars ",delta=" ++ show_number F (ep_delta e) ++
  chars ",replica_id=" ++ str_of_int (ep_replica_id e) ++
  chars ",max_frequency=" ++ str_of_int (ep_max_frequency e) ++
  chars ",test_point_strategy=" ++ chars (ep_test_points e) ++ show_kwargs F (ep_test_kwargs e).

Fixpoint kw_replace (kw : kwargs) (key : string) (v : value) : kwargs :=
  match kw with
  | [] => []
  | (k, w) :: r => if String.eqb key k then (k, v) :: r else (k, w) :: kw_replace r key v
  end.

(** experiment_parameters.py 96-106: update_from_dataset *)
Definition update_experiment (e : experiment_parameters) (d : data_set) : experiment_parameters :=
  {| ep_epsilon := ep_epsilon e; ep_delta := ep_delta e; ep_replica_id := ep_replica_id e;
     ep_max_frequency := ep_max_frequency e; ep_test_points := ep_test_points e;
     ep_test_kwargs := kw_replace (ep_test_kwargs e) "npublishers"
                                  (VNum (PInt (Z.of_nat (publisher_count d)))) |}.

(** trial_descriptor.py 34-45 *)
Record trial_descriptor : Type := {
  td_strategy : strategy_descriptor; td_system : system_parameters;
  td_experiment : experiment_parameters }.

(** trial_descriptor.py 47-53: __str__ *)
Definition show_descriptor (F : float_format) (d : trial_descriptor) : text :=
  show_strategy F (td_strategy d) ++ comma :: show_system F (td_system d) ++
  comma :: show_experiment F (td_experiment d).

(** trial_descriptor.py 55-61: update_from_dataset *)
Definition update_descriptor (t : trial_descriptor) (d : data_set) : result trial_descriptor :=
  s <- update_system (td_system t) d ;;
  Ok {| td_strategy := td_strategy t; td_system := s;
        td_experiment := update_experiment (td_experiment t) d |}.

(** Where data sets come from (data_design.py, see ModelFiles.v). Simplification: a fixed
    function; what by_name answers after changes of the directory is not followed here. *)
Record data_design : Type := { dd_names : list string; dd_by_name : string -> result data_set }.

(** experimental_trial.py 81-114 *)
Record trial : Type := {
  tr_experiment_dir : string; tr_design : data_design; tr_data_set : string;
  tr_descriptor : trial_descriptor; tr_analysis : string }.

Definition str (t : text) : string := string_of_list_ascii t.

(** experimental_trial.py 249-253: _compute_trial_results_path *)
Definition results_path (F : float_format) (t : trial) : string :=
  str (chars (tr_experiment_dir t) ++ slash :: chars (tr_data_set t) ++ slash ::
       show_descriptor F (tr_descriptor t) ++ chars ".csv").

(** ** Everything outside this repository *)

Record lab : Type := {
  lab_float : float_format;
  lab_halo : externals;
  (** the state of numpy's process-wide generator, and numpy.random.seed *)
  lab_global : Type;
  lab_seed_global : Z -> lab_global;
  (** a generator made for the trial, and numpy.random.default_rng *)
  lab_own : Type;
  lab_default_rng : Z -> lab_own;
  lab_draws : point_rng lab_own lab_global;
  (** [strategy.fit]: see ModelStrategy.v for two instances. It may use the halo simulator
      and both generators, and may raise. *)
  lab_model : Type;
  lab_fit : strategy_descriptor -> halo -> budget -> lab_global ->
            M lab_halo (lab_model * lab_global);
  (** [surface.by_spend(spends, max_frequency)]: models may change when they are asked. *)
  lab_ask : lab_model -> list Q -> Z -> result (reach_point Q Q) * lab_model;
  (** the k+ reaches of [surface._data[0]] *)
  lab_training : lab_model -> result (list Q);
  (** [traceback.format_exc()] *)
  lab_traceback : pyerr -> string;
  (** [df.to_csv(na_rep="NaN", index=False)] and [pd.read_csv] of a table, i.e. a list of rows *)
  lab_print : list (list (string * cell)) -> text;
  lab_parse : text -> result (list (list (string * cell)));
  (** [hashlib.md5(s.encode()).hexdigest()] *)
  lab_md5 : string -> string
}.

Notation table := (list (list (string * cell))).

Section Trial.
Variable L : lab.
Notation F := (lab_float L).
Notation X := (lab_halo L).

(** The states of the shared generators, by number. *)
Definition generators : Type := nat -> rng X.
Definition put_generator (g : generators) (n : nat) (s : rng X) : generators :=
  fun m => if Nat.eqb m n then s else g m.

(** The keyword arguments of the test point generators. Simplification: arguments that are
    not integers raise TypeError. *)
Definition int_kwargs (kw : kwargs) : result (list (string * Z)) :=
  mapM (fun kv => match snd kv with VNum (PInt z) => Ok (fst kv, z) | _ => Err TypeError end) kw.

(** Asking the fitted model for a list of points, in order. *)
Fixpoint ask_all (m : lab_model L) (qs : list (list Q * Z)) : result (list (reach_point Q Q)) * lab_model L :=
  match qs with
  | [] => (Ok [], m)
  | (s, k) :: r =>
      match lab_ask L m s k with
      | (Err e, m1) => (Err e, m1)
      | (Ok p, m1) => match ask_all m1 r with
                      | (Err e, m2) => (Err e, m2)
                      | (Ok ps, m2) => (Ok (p :: ps), m2)
                      end
      end
  end.

(** True reach is counted in integers. *)
Definition point_Q (p : reach_point Z Z) : reach_point Q Q :=
  {| rp_impressions := map inject_Z (rp_impressions p); rp_kplus := map inject_Z (rp_kplus p);
     rp_frequencies := map inject_Z (rp_frequencies p); rp_spends := rp_spends p;
     rp_universe := rp_universe p |}.
Definition true_reach (h : halo) (spends : list Q) (k : Z) : result (reach_point Q Q) :=
  p <- true_reach_by_spend h spends k ;; Ok (point_Q p).

(** experimental_trial.py 73: the fractions 0.1, ..., 3.0; [int(r * 100)] is 10, ..., 300 *)
Definition single_publisher_fractions : list Z := py_range 1 31.
(** [f"{n:03d}"] *)
Definition three_digits (n : Z) : text :=
  if n <? 10 then chars "00" ++ str_of_int n
  else if n <? 100 then chars "0" ++ str_of_int n else str_of_int n.
Definition fraction_column (r : Z) : string :=
  str (chars "relative_error_at_" ++ three_digits (10 * r)).
Definition frequency_column (f r : Z) : string :=
  str (chars "freq_" ++ str_of_int f ++ chars "_relative_error_at_" ++ three_digits (10 * r)).

(** experimental_trial.py 316-325 and 329-337: one entry. *)
Definition relative_error_at (h : halo) (m : lab_model L) (f r : Z) : result cell * lab_model L :=
  match py_index (campaign_spends h) 0 with
  | Err e => (Err e, m)
  | Ok s =>
      let spend := (s * (inject_Z r * (1 # 10)))%Q in
      match (p <- true_reach h [spend] f ;; reach p f) with
      | Err e => (Err e, m)
      | Ok t =>
          match lab_ask L m [spend] f with
          | (Err e, m1) => (Err e, m1)
          | (Ok q, m1) =>
              match reach q f with
              | Err e => (Err e, m1)
              | Ok v => (Ok (CStat (if Qeqb t 0 then NotFinite else Num (Qabs' ((t - v) / t)))), m1)
              end
          end
      end
  end.

(** experimental_trial.py 315-337: the two loops as a list of (column, frequency, fraction). *)
Definition error_columns (max_frequency : Z) : list (string * (Z * Z)) :=
  map (fun r => (fraction_column r, (1, r))) single_publisher_fractions ++
  flat_map (fun f => map (fun r => (frequency_column f r, (f, r))) single_publisher_fractions)
           (py_range 1 max_frequency).
Fixpoint error_cells (h : halo) (m : lab_model L) (cols : list (string * (Z * Z)))
  : result (list (string * cell)) * lab_model L :=
  match cols with
  | [] => (Ok [], m)
  | (name, (f, r)) :: rest =>
      match relative_error_at h m f r with
      | (Err e, m1) => (Err e, m1)
      | (Ok c, m1) => match error_cells h m1 rest with
                      | (Err e, m2) => (Err e, m2)
                      | (Ok cs, m2) => (Ok ((name, c) :: cs), m2)
                      end
      end
  end.

(** experimental_trial.py 342-354: [max([i + 1 for i, f in enumerate(l) if f != 0])], 0 for an
    empty list of k+ reaches. *)
Definition max_nonzero_frequency (kplus : list Q) : result Z :=
  match kplus with
  | [] => Ok 0
  | _ => match filter (fun ik => negb (Qeqb (snd ik) 0)) (combine (seq 0 (length kplus)) kplus) with
         | [] => Err ValueError
         | l => Ok (fold_left Z.max (map (fun ik => Z.of_nat (fst ik) + 1) l) 0)
         end
  end.

(** experimental_trial.py 312-362: _compute_single_publisher_fractions_dataframe *)
Definition single_publisher_columns (h : halo) (m : lab_model L) (max_frequency : Z)
  : result (list (string * cell)) :=
  cells <- fst (error_cells h m (error_columns max_frequency)) ;;
  training <- lab_training L (snd (error_cells h m (error_columns max_frequency))) ;;
  a <- max_nonzero_frequency training ;;
  p <- true_reach h (campaign_spends h) max_frequency ;;
  b <- max_nonzero_frequency (rp_kplus p) ;;
  Ok (cells ++ [("max_nonzero_frequency_from_halo"%string, CInt a);
                ("max_nonzero_frequency_from_data"%string, CInt b)]).

(** experimental_trial.py 364-377: _single_publisher_fractions_dataframe_on_exception *)
Definition single_publisher_columns_on_exception (max_frequency : Z) : list (string * cell) :=
  map (fun c => (fst c, CStat NotFinite)) (error_columns max_frequency) ++
  [("max_nonzero_frequency_from_halo"%string, CStat NotFinite);
   ("max_nonzero_frequency_from_data"%string, CStat NotFinite)].

(** experimental_trial.py 75 *)
Definition single_pub_analysis (t : trial) : bool := String.eqb (tr_analysis t) "single_pub".

Definition experiment_of (t : trial) : experiment_parameters := td_experiment (tr_descriptor t).
Definition system_of (t : trial) : system_parameters := td_system (tr_descriptor t).
Definition trial_budget (t : trial) : budget :=
  {| epsilon := number_Q (ep_epsilon (experiment_of t)); delta := number_Q (ep_delta (experiment_of t)) |}.

(** experimental_trial.py 188-211: inside the try block, after the fit. *)
Definition measure (t : trial) (d : data_set) (h : halo) (seed : Z) (m : lab_model L)
    (gl : lab_global L) : result (list (string * cell)) :=
  let k := ep_max_frequency (experiment_of t) in
  kw <- int_kwargs (ep_test_kwargs (experiment_of t)) ;;
  '(points, _) <- generate_test_points (lab_draws L) (ep_test_points (experiment_of t)) kw d gl
                                       (lab_default_rng L seed) ;;
  truth <- mapM (fun p => true_reach h p k) points ;;
  fitted <- fst (ask_all m (map (fun p => (p, k)) points)) ;;
  metrics <- aggregate truth fitted ;;
  single <- (if single_pub_analysis t
             then single_publisher_columns h (snd (ask_all m (map (fun p => (p, k)) points))) k
             else Ok []) ;;
  Ok (metrics ++ single).

(** experimental_trial.py 212-224: the except block. *)
Definition measure_on_exception (t : trial) (e : pyerr) : list (string * cell) :=
  aggregate_on_exception (I := Q) (lab_traceback L e) ++
  (if single_pub_analysis t
   then single_publisher_columns_on_exception (ep_max_frequency (experiment_of t)) else []).

(** [max(l)] *)
Definition py_max (l : list Z) : result Z :=
  match l with [] => Err ValueError | x :: r => Ok (fold_left Z.max r x) end.
Definition number_cell (n : number) : cell :=
  match n with PInt z => CInt z | PFloat q => CStat (Num q) end.

(** experimental_trial.py 255-289: _make_independent_vars_dataframe *)
Definition independent_vars (t : trial) : result (list (string * cell)) :=
  d <- dd_by_name (tr_design t) (tr_data_set t) ;;
  largest <- py_max (map pd_max_reach (ds_data d)) ;;
  let s := td_strategy (tr_descriptor t) in
  Ok [("dataset"%string, CText (tr_data_set t));
      ("trial"%string, CText (str (show_descriptor F (tr_descriptor t))));
      ("replica_id"%string, CInt (ep_replica_id (experiment_of t)));
      ("single_pub_model"%string, CText (sd_single s));
      ("multi_pub_model"%string, CText (sd_multi s));
      ("strategy"%string, CText (sd_strategy s));
      ("liquid_legions_sketch_size"%string, number_cell (lp_sketch_size (sp_ll (system_of t))));
      ("liquid_legions_decay_rate"%string, number_cell (lp_decay_rate (sp_ll (system_of t))));
      ("maximum_reach"%string, CInt (ds_maximum_reach d));
      ("ncampaigns"%string, CInt (Z.of_nat (publisher_count d)));
      ("largest_pub_reach"%string, CInt largest);
      ("max_frequency"%string, CInt (ep_max_frequency (experiment_of t)));
      ("average_spend_fraction"%string,
       CStat (np_mean (map (fun n => Num (number_Q n)) (sp_fractions (system_of t)))))].

(** [sorted(set(l))] on strings *)
Definition sorted_set (l : list string) : list string :=
  fold_right insert_string [] (fold_left name_add l []).

(** experimental_trial.py 291-310: _make_privacy_tracking_vars_dataframe *)
Definition privacy_vars (t : trial) (tr : tracker) : list (string * cell) :=
  [("privacy_budget_epsilon"%string, number_cell (ep_epsilon (experiment_of t)));
   ("privacy_budget_delta"%string, number_cell (ep_delta (experiment_of t)));
   ("privacy_used_epsilon"%string, CStat (Num (epsilon (privacy_consumption tr))));
   ("privacy_used_delta"%string, CStat (Num (delta (privacy_consumption tr))));
   ("privacy_mechanisms"%string, CText (String.concat "/" (sorted_set (mechanisms tr))))].

Definition halo_ll (p : ll_parameters) : liquid_legions :=
  {| ll_decay_rate := number_Q (lp_decay_rate p);
     ll_sketch_size := match lp_sketch_size p with PInt z => z | PFloat q => Qround.Qfloor q end;
     ll_random_seed := lp_random_seed p |}.

(** experimental_trial.py 173-238: from the data set to the row. The state is that of the
    shared generators; the privacy tracker is new. *)
Definition compute_row (t : trial) (seed : Z) (g : generators) : result (list (string * cell)) * generators :=
  let n := sp_generator (system_of t) in
  match (d <- dd_by_name (tr_design t) (tr_data_set t) ;;
         h <- mk_halo d (map number_Q (sp_fractions (system_of t))) (halo_ll (sp_ll (system_of t))) ;;
         _ <- instantiate_strategy (td_strategy (tr_descriptor t)) ;;
         Ok (d, h)) with
  | Err e => (Err e, g)
  | Ok (d, h) =>
      let '(fit, w) := lab_fit L (td_strategy (tr_descriptor t)) h (trial_budget t)
                               (lab_seed_global L seed)
                               {| w_tracker := new_tracker; w_rng := g n |} in
      let metrics := match ('(m, gl) <- fit ;; measure t d h seed m gl) with
                     | Ok l => l
                     | Err e => measure_on_exception t e
                     end in
      (iv <- independent_vars t ;; Ok (iv ++ privacy_vars t (w_tracker w) ++ metrics),
       put_generator g n (w_rng w))
  end.

End Trial.

(** ** Programs on the disk *)

(** The effects of ModelFiles.v and removing a file. *)
Inductive effect : Type :=
| Plain (o : op)
| Unlink (p : path) (missing_ok : bool).

Fixpoint disk_remove (d : disk) (p : path) : disk :=
  match d with
  | [] => []
  | (q, n) :: r => if path_eqb p q then disk_remove r p else (q, n) :: disk_remove r p
  end.

(** filesystem_pathlib_wrapper.py: unlink *)
Definition run_effect (d : disk) (e : effect) : result disk :=
  match e with
  | Plain o => run_op d o
  | Unlink p missing_ok =>
      match stat d p with
      | Some (File _) => Ok (disk_remove d p)
      | Some Dir => Err OtherError
      | None => if missing_ok then Ok d else Err FileNotFoundError
      end
  end.

Inductive prog (A : Type) : Type :=
| Ret (a : A)
| Look (p : path) (k : option node -> prog A)
| Act (e : effect) (k : result unit -> prog A).
Arguments Ret {A} a. Arguments Look {A} p k. Arguments Act {A} e k.

(** One observation or effect. *)
Definition advance {A} (d : disk) (p : prog A) : disk * prog A :=
  match p with
  | Ret a => (d, Ret a)
  | Look q k => (d, k (stat d q))
  | Act e k => match run_effect d e with
               | Ok d' => (d', k (Ok tt))
               | Err x => (d, k (Err x))
               end
  end.

(** Running to the end. *)
Fixpoint finish {A} (p : prog A) (d : disk) : A * disk :=
  match p with
  | Ret a => (a, d)
  | Look q k => finish (k (stat d q)) d
  | Act e k => match run_effect d e with
               | Ok d' => finish (k (Ok tt)) d'
               | Err x => finish (k (Err x)) d
               end
  end.

(** Running [n] steps only. *)
Fixpoint advances {A} (n : nat) (d : disk) (p : prog A) : disk * prog A :=
  match n with
  | O => (d, p)
  | S m => let '(d', p') := advance d p in advances m d' p'
  end.

Fixpoint pbind {A B} (p : prog A) (f : A -> prog B) : prog B :=
  match p with
  | Ret a => f a
  | Look q k => Look q (fun n => pbind (k n) f)
  | Act e k => Act e (fun r => pbind (k r) f)
  end.

(** Effects one after the other; the first failure stops them. *)
Fixpoint acts {A} (es : list effect) (k : result unit -> prog A) : prog A :=
  match es with
  | [] => k (Ok tt)
  | e :: r => Act e (fun x => match x with Ok _ => acts r k | Err y => k (Err y) end)
  end.

Section Evaluate.
Variable L : lab.
Notation F := (lab_float L).
Notation answer := (result table * generators L)%type.

(** experimental_trial.py 165-166: the path of the pending marker. *)
Definition pending_path (t : trial) : path :=
  to_path (String.append (path_str (parent (to_path (tr_experiment_dir t))))
                         (String.append "/pending/" (lab_md5 L (results_path F t)))).

(** experimental_trial.py 168-171: its text; [now] is the time. *)
Definition pending_text (t : trial) (now : text) : text :=
  now ++ newline :: chars (tr_data_set t) ++ newline :: show_descriptor F (tr_descriptor t) ++
  [newline; newline].

(** mkdir of the parent and write_text *)
Definition save (p : path) (content : text) : list effect :=
  map Plain (mkdir_ops (parent p) ++ write_file_ops p content).

(** experimental_trial.py 162-247 *)
Definition recompute (t : trial) (seed : Z) (now : text) (g : generators L) : prog answer :=
  let out := to_path (results_path F t) in
  let pending := pending_path t in
  acts (save pending (pending_text t now)) (fun r =>
  match r with
  | Err e => Ret (Err e, g)
  | Ok _ =>
      match compute_row L t seed g with
      | (Err e, g') => Ret (Err e, g')
      | (Ok row, g') =>
          acts (save out (lab_print L [row]) ++ [Unlink pending true]) (fun r =>
          match r with
          | Err e => Ret (Err e, g')
          | Ok _ => Ret (Ok [row], g')
          end)
      end
  end).

(** experimental_trial.py 116-247: evaluate. Simplifications: local paths only; the whole
    file is read in one step. *)
Definition evaluate (t : trial) (seed : Z) (now : text) (g : generators L) : prog answer :=
  let out := to_path (results_path F t) in
  Look out (fun n =>
  match n with
  | Some (File _) =>
      Look out (fun n' =>
      match (match n' with Some (File c) => lab_parse L c | Some Dir => Err OtherError
             | None => Err FileNotFoundError end) with
      | Ok tb => Ret (Ok tb, g)
      | Err _ => Act (Unlink out false) (fun r =>
                 match r with
                 | Err e => Ret (Err e, g)
                 | Ok _ => recompute t seed now g
                 end)
      end)
  | _ => recompute t seed now g
  end).

(** ** Designs *)

(** experimental_design.py 73-116 *)
Record experimental_design : Type := {
  xd_dir : string; xd_data : data_design; xd_descriptors : list trial_descriptor;
  xd_seed : Z; xd_analysis : string }.

(** experiment.py 77-93: generate_trials *)
Definition experiment_trials (x : experimental_design) (name : string) : result (list trial) :=
  mapM (fun desc => d <- dd_by_name (xd_data x) name ;;
                    desc' <- update_descriptor desc d ;;
                    Ok {| tr_experiment_dir := xd_dir x; tr_design := xd_data x;
                          tr_data_set := name; tr_descriptor := desc';
                          tr_analysis := xd_analysis x |}) (xd_descriptors x).

(** experimental_design.py 124: the name of a trial. *)
Definition trial_name (t : trial) : string :=
  str (chars (tr_data_set t) ++ chars "::" ++ show_descriptor F (tr_descriptor t)).

(** experimental_design.py 118-129: _remove_duplicates; [seen] is the set of names. *)
Fixpoint remove_duplicates (seen : list string) (ts : list trial) : list trial :=
  match ts with
  | [] => []
  | t :: r => if existsb (String.eqb (trial_name t)) seen then remove_duplicates seen r
              else t :: remove_duplicates (trial_name t :: seen) r
  end.

(** experimental_design.py 131-146: generate_trials *)
Definition generate_trials (x : experimental_design) : result (list trial) :=
  all <- mapM (experiment_trials x) (dd_names (xd_data x)) ;;
  Ok (remove_duplicates [] (concat all)).

(** pd.concat: the rows of all tables; with no table at all it raises ValueError. *)
Definition concat_tables (ts : list table) : result table :=
  match ts with [] => Err ValueError | _ => Ok (concat ts) end.

(** experimental_design.py 203-206: evaluating the trials one after the other. [nows] gives
    the time of each evaluation. *)
Fixpoint evaluate_all (ts : list trial) (seed : Z) (nows : nat -> text) (g : generators L)
  : prog (result (list table) * generators L) :=
  match ts with
  | [] => Ret (Ok [], g)
  | t :: r =>
      pbind (evaluate t seed (nows O) g) (fun a =>
      match fst a with
      | Err e => Ret (Err e, snd a)
      | Ok tb => pbind (evaluate_all r seed (fun n => nows (S n)) (snd a)) (fun b =>
                 match fst b with
                 | Err e => Ret (Err e, snd b)
                 | Ok tbs => Ret (Ok (tb :: tbs), snd b)
                 end)
      end)
  end.

(** Several programs on one disk: the schedule says whose turn it is. *)
Fixpoint interleave {A} (schedule : list nat) (d : disk) (ps : list (prog A)) : disk * list (prog A) :=
  match schedule with
  | [] => (d, ps)
  | i :: r => match nth_error ps i with
              | None => interleave r d ps
              | Some p => let '(d', p') := advance d p in interleave r d' (set_nth i p' ps)
              end
  end.

(** experimental_design.py 148-160: the programs of the worker processes. Every worker gets
    its own copy of the trials, and so of the generators, as they are when the pool starts.
    That at most [cores] of them run at a time is not modelled: any schedule is possible. *)
Definition workers (ts : list trial) (seed : Z) (nows : nat -> text) (g : generators L)
  : list (prog answer) :=
  map (fun it => evaluate (snd it) seed (nows (fst it)) g) (combine (seq 0 (length ts)) ts).

(** experimental_design.py 180-208: load with cores = 1. *)
Definition load (ts : list trial) (seed : Z) (nows : nat -> text) (g : generators L) (d : disk)
  : result table * disk :=
  let '((r, _), d') := finish (evaluate_all ts seed nows g) d in
  (tbs <- r ;; concat_tables tbs, d').

(** experimental_design.py 180-208: load with several workers, for one schedule of the pool,
    after which the trials are evaluated once more. An exception in a worker is raised by the
    pool. If the schedule does not finish the workers there is no answer. *)
Fixpoint worker_results (ps : list (prog answer)) : option (result (list table)) :=
  match ps with
  | [] => Some (Ok [])
  | Ret (r, _) :: rest =>
      match worker_results rest with
      | None => None
      | Some rs => Some (tb <- r ;; tbs <- rs ;; Ok (tb :: tbs))
      end
  | _ => None
  end.
Definition load_parallel (schedule : list nat) (ts : list trial) (seed : Z)
    (nows nows' : nat -> text) (g : generators L) (d : disk) : option (result table * disk) :=
  let '(d1, ps) := interleave schedule d (workers ts seed nows g) in
  match worker_results ps with
  | None => None
  | Some (Err e) => Some (Err e, d1)
  | Some (Ok _) => Some (load ts seed nows' g d1)
  end.

End Evaluate.

(** experimental_design.py 59-71: CombineDataFrameFn. A runner makes accumulators from parts
    of the input and merges them as it likes. *)
Inductive accumulation : Type :=
| Inputs (l : list table)
| Merged (l : list accumulation).
Definition add_input (acc : list table) (x : table) : list table := acc ++ [x].
Fixpoint accumulator (a : accumulation) : list table :=
  match a with
  | Inputs l => fold_left add_input l []
  | Merged l => flat_map accumulator l
  end.
Definition combine_output (a : accumulation) : result table := concat_tables (accumulator a).
