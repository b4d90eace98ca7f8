(** Specification vocabulary for the driver: which files belong to a trial, which directories
    must exist for them, which disks are usable, histories of interrupted runs, and which
    settings of a trial a user would call the same. *)
From Coq Require Import String Ascii Permutation.
From Verif Require Import Prelude ModelReachPoint ModelData ModelAggregator ModelFiles SpecFiles ModelHalo
  ModelDriver.
Open Scope Z_scope.

(** The results file of a trial. *)
Definition out_of (L : lab) (t : trial) : path := to_path (results_path (lab_float L) t).

(** The directories above the two files of a trial. *)
Definition directory_of (L : lab) (t : trial) (q : path) : Prop :=
  on_the_way (parent (out_of L t)) q \/ on_the_way (parent (pending_path L t)) q.

(** The files of the trials are all different, and none of them is where a directory is
    needed. *)
Definition separate (L : lab) (ts : list trial) : Prop :=
  (forall t, In t ts -> snd (out_of L t) <> [] /\ snd (pending_path L t) <> []) /\
  NoDup (map (out_of L) ts ++ map (pending_path L) ts) /\
  forall t t', In t ts -> In t' ts ->
    ~ directory_of L t (out_of L t') /\ ~ directory_of L t (pending_path L t').

(** A disk on which the trials can run: no file is in the place of a directory, and no
    directory in the place of a file. *)
Definition usable (L : lab) (ts : list trial) (d : disk) : Prop :=
  disk_ok d /\
  forall t, In t ts ->
    (forall q c, directory_of L t q -> stat d q <> Some (File c)) /\
    stat d (out_of L t) <> Some Dir /\ stat d (pending_path L t) <> Some Dir.

(** Apart from the files of the trials, only directories above them have been created. *)
Definition only_adds_directories (L : lab) (ts : list trial) (d d' : disk) : Prop :=
  forall q, stat d' q <> stat d q ->
    (exists t, In t ts /\ (q = out_of L t \/ q = pending_path L t)) \/
    (stat d q = None /\ stat d' q = Some Dir /\ exists t, In t ts /\ directory_of L t q).

(** [c] is what has been written of [whole] when the writer is stopped. *)
Definition written_part (c whole : text) : Prop := exists rest, whole = c ++ rest.

(** There is a results file and it can be read, as [tb]. *)
Definition has_result (L : lab) (t : trial) (d : disk) (tb : table) : Prop :=
  exists c, stat d (out_of L t) = Some (File c) /\ lab_parse L c = Ok tb.
Definition no_result (L : lab) (t : trial) (d : disk) : Prop := forall tb, ~ has_result L t d tb.

(** A complete results file, and no marker. *)
Definition done_with (L : lab) (t : trial) (tb : table) (d : disk) : Prop :=
  stat d (out_of L t) = Some (File (lab_print L tb)) /\ stat d (pending_path L t) = None.

(** Runs of one trial that were stopped: the time, the generators and the number of steps
    made. *)
Record attempt (L : lab) : Type := { at_now : text; at_generators : generators L; at_steps : nat }.
Arguments at_now {L}. Arguments at_generators {L}. Arguments at_steps {L}.
Definition stopped {L} (t : trial) (seed : Z) (d : disk) (a : attempt L) : disk :=
  fst (advances (at_steps a) d (evaluate L t seed (at_now a) (at_generators a))).
Definition after_attempts {L} (t : trial) (seed : Z) (d : disk) (l : list (attempt L)) : disk :=
  fold_left (stopped t seed) l d.

(** The reader refuses a file that is not complete. *)
Definition refuses_parts (L : lab) (tb : table) : Prop :=
  forall c tb', written_part c (lab_print L tb) -> c <> lab_print L tb -> lab_parse L c <> Ok tb'.

(** ** Settings of a trial *)

Definition special (c : ascii) : Prop := In c ["("; ")"; ","; "="; "/"]%char.
Definition no_special (s : text) : Prop := forall c, In c s -> ~ special c.

(** Floats are printed without these characters, differently if they are different, and never
    like an integer or a truth value. *)
Definition tells_floats_apart (F : float_format) : Prop :=
  (forall q, show_float F q <> [] /\ no_special (show_float F q)) /\
  (forall q q', show_float F q = show_float F q' -> (q == q')%Q) /\
  (forall q z, show_float F q <> str_of_int z) /\
  (forall q, show_float F q <> list_ascii_of_string "True" /\ show_float F q <> list_ascii_of_string "False").

(** The same, and equal floats are printed alike. *)
Definition prints_floats (F : float_format) : Prop :=
  (forall q, show_float F q <> [] /\ no_special (show_float F q)) /\
  (forall q q', show_float F q = show_float F q' <-> (q == q')%Q) /\
  (forall q z, show_float F q <> str_of_int z) /\
  (forall q, show_float F q <> list_ascii_of_string "True" /\ show_float F q <> list_ascii_of_string "False").

(** A string that does not look like a number, True or False. *)
Definition looks_like_a_string (F : float_format) (s : string) : Prop :=
  forall v, (forall s', v <> VStr s') -> show_value F v <> list_ascii_of_string s.

Definition plain (s : string) : Prop := no_special (list_ascii_of_string s).
Definition plain_kwargs (F : float_format) (kw : kwargs) : Prop :=
  forall k v, In (k, v) kw -> plain k /\
    forall s, v = VStr s -> plain s /\ looks_like_a_string F s.

Definition plain_descriptor (F : float_format) (d : trial_descriptor) : Prop :=
  plain (sd_strategy (td_strategy d)) /\ plain_kwargs F (sd_strategy_kwargs (td_strategy d)) /\
  plain (sd_single (td_strategy d)) /\ plain_kwargs F (sd_single_kwargs (td_strategy d)) /\
  plain (sd_multi (td_strategy d)) /\ plain_kwargs F (sd_multi_kwargs (td_strategy d)) /\
  plain (ep_test_points (td_experiment d)) /\ plain_kwargs F (ep_test_kwargs (td_experiment d)).

Definition same_number (a b : number) : Prop :=
  match a, b with
  | PInt x, PInt y => x = y
  | PFloat x, PFloat y => (x == y)%Q
  | _, _ => False
  end.
Definition same_value (a b : value) : Prop :=
  match a, b with
  | VNum x, VNum y => same_number x y
  | VStr x, VStr y => x = y
  | VBool x, VBool y => x = y
  | _, _ => False
  end.
Definition same_kwargs (a b : kwargs) : Prop :=
  Forall2 (fun x y => fst x = fst y /\ same_value (snd x) (snd y)) a b.
Definition same_strategy (a b : strategy_descriptor) : Prop :=
  sd_strategy a = sd_strategy b /\ same_kwargs (sd_strategy_kwargs a) (sd_strategy_kwargs b) /\
  sd_single a = sd_single b /\ same_kwargs (sd_single_kwargs a) (sd_single_kwargs b) /\
  sd_multi a = sd_multi b /\ same_kwargs (sd_multi_kwargs a) (sd_multi_kwargs b).
(** except for the random seed of the sketches, the generator and the function that makes up
    spend fractions *)
Definition same_system (a b : system_parameters) : Prop :=
  Forall2 same_number (sp_fractions a) (sp_fractions b) /\
  same_number (lp_decay_rate (sp_ll a)) (lp_decay_rate (sp_ll b)) /\
  same_number (lp_sketch_size (sp_ll a)) (lp_sketch_size (sp_ll b)).
Definition same_experiment (a b : experiment_parameters) : Prop :=
  same_number (ep_epsilon a) (ep_epsilon b) /\ same_number (ep_delta a) (ep_delta b) /\
  ep_replica_id a = ep_replica_id b /\ ep_max_frequency a = ep_max_frequency b /\
  ep_test_points a = ep_test_points b /\ same_kwargs (ep_test_kwargs a) (ep_test_kwargs b).
Definition same_settings (a b : trial_descriptor) : Prop :=
  same_strategy (td_strategy a) (td_strategy b) /\ same_system (td_system a) (td_system b) /\
  same_experiment (td_experiment a) (td_experiment b).

(** The leaves of an accumulation. *)
Fixpoint inputs_of (a : accumulation) : list table :=
  match a with
  | Inputs l => l
  | Merged l => flat_map inputs_of l
  end.

(** Trials of one experiment directory that do not get in each other's way: the directory has
    a name, which is not the name of the marker directory; data sets are named like files;
    descriptors print without '/'; the names of the markers are file names, different for
    different results files; and no two trials have the same data set and print alike. *)
Definition sane_trials (L : lab) (ts : list trial) : Prop :=
  exists dir,
    snd (to_path dir) <> [] /\ last (snd (to_path dir)) ""%string <> "pending"%string /\
    (forall t, In t ts ->
       tr_experiment_dir t = dir /\ file_name (tr_data_set t) /\
       ~ In slash (show_descriptor (lab_float L) (tr_descriptor t)) /\
       file_name (lab_md5 L (results_path (lab_float L) t))) /\
    (forall t t', In t ts -> In t' ts ->
       lab_md5 L (results_path (lab_float L) t) = lab_md5 L (results_path (lab_float L) t') ->
       results_path (lab_float L) t = results_path (lab_float L) t') /\
    NoDup (map (fun t => (tr_data_set t, show_descriptor (lab_float L) (tr_descriptor t))) ts).

(** ** Many trials *)

(** The generators after some trials have been computed. *)
Fixpoint after_computing (L : lab) (seed : Z) (g : generators L) (l : list trial) : generators L :=
  match l with
  | [] => g
  | t :: r => after_computing L seed (snd (compute_row L t seed g)) r
  end.

(** Computing other trials of the list first does not change the row of a trial. *)
Definition unaffected (L : lab) (seed : Z) (g : generators L) (ts : list trial) : Prop :=
  forall t l, In t ts -> (forall x, In x l -> In x ts /\ x <> t) ->
    fst (compute_row L t seed (after_computing L seed g l)) = fst (compute_row L t seed g).

(** The table of a trial: the one in the results file on disk [d], or the row that is computed
    with the generators [g]. *)
Definition answers (L : lab) (seed : Z) (d : disk) (g : generators L) (t : trial) (tb : table) : Prop :=
  has_result L t d tb \/
  (no_result L t d /\ exists row, fst (compute_row L t seed g) = Ok row /\ tb = [row]).

(** All missing rows can be computed. *)
Definition computable (L : lab) (seed : Z) (d : disk) (g : generators L) (ts : list trial) : Prop :=
  forall t, In t ts -> exists tb, answers L seed d g t tb.

(** The reader gets back what was printed. *)
Definition reads_back (L : lab) (seed : Z) (g : generators L) (ts : list trial) : Prop :=
  forall t row, In t ts -> fst (compute_row L t seed g) = Ok row ->
    lab_parse L (lab_print L [row]) = Ok [row].
Definition refuses_all_parts (L : lab) (seed : Z) (g : generators L) (ts : list trial) : Prop :=
  forall t row, In t ts -> fst (compute_row L t seed g) = Ok row -> refuses_parts L [row].

(** Runs of a whole experiment that were stopped: the times and the number of steps made. Each
    run is a new process and makes the generators anew. *)
Definition stopped_run (L : lab) (ts : list trial) (seed : Z) (g : generators L) (d : disk)
    (a : (nat -> text) * nat) : disk :=
  fst (advances (snd a) d (evaluate_all L ts seed (fst a) g)).
Definition after_runs (L : lab) (ts : list trial) (seed : Z) (g : generators L) (d : disk)
    (l : list ((nat -> text) * nat)) : disk :=
  fold_left (stopped_run L ts seed g) l d.

(** ** Designs *)

(** The settings [b] are the settings [a], adapted to the data set [d]: spend fractions that
    are made up from the data set, and the number of publishers as an argument of the test
    points if there is such an argument. *)
Definition adapted (d : data_set) (a b : trial_descriptor) : Prop :=
  td_strategy b = td_strategy a /\
  sp_ll (td_system b) = sp_ll (td_system a) /\ sp_generator (td_system b) = sp_generator (td_system a) /\
  match sp_fractions_generator (td_system a) with
  | Some f => f d = Ok (sp_fractions (td_system b))
  | None => sp_fractions (td_system b) = sp_fractions (td_system a)
  end /\
  ep_epsilon (td_experiment b) = ep_epsilon (td_experiment a) /\
  ep_delta (td_experiment b) = ep_delta (td_experiment a) /\
  ep_replica_id (td_experiment b) = ep_replica_id (td_experiment a) /\
  ep_max_frequency (td_experiment b) = ep_max_frequency (td_experiment a) /\
  ep_test_points (td_experiment b) = ep_test_points (td_experiment a) /\
  Forall2 (fun x y => fst x = fst y /\
                      (fst x = "npublishers"%string -> snd y = VNum (PInt (Z.of_nat (length (ds_data d))))) /\
                      (fst x <> "npublishers"%string -> snd y = snd x))
          (ep_test_kwargs (td_experiment a)) (ep_test_kwargs (td_experiment b)).

(** A trial for the data set called [name] with settings adapted from [desc]. *)
Definition trial_for (x : experimental_design) (name : string) (desc : trial_descriptor) (t : trial) : Prop :=
  tr_experiment_dir t = xd_dir x /\ tr_design t = xd_data x /\ tr_data_set t = name /\
  tr_analysis t = xd_analysis x /\
  exists d, dd_by_name (xd_data x) name = Ok d /\ adapted d desc (tr_descriptor t).

(** [l] without some of its entries. *)
Inductive part_of {A} : list A -> list A -> Prop :=
| part_nil : part_of [] []
| part_skip : forall x s l, part_of s l -> part_of s (x :: l)
| part_keep : forall x s l, part_of s l -> part_of (x :: s) (x :: l).

(** Keyword arguments are dictionaries: no key occurs twice. *)
Definition dictionaries (x : experimental_design) : Prop :=
  forall desc, In desc (xd_descriptors x) -> NoDup (map fst (ep_test_kwargs (td_experiment desc))).

(** Data set and settings of two trials are the same. *)
Definition same_trial (t t' : trial) : Prop :=
  tr_data_set t = tr_data_set t' /\ same_settings (tr_descriptor t) (tr_descriptor t').

(** A design whose names and settings are fit for file names. *)
Definition sane_design (L : lab) (x : experimental_design) : Prop :=
  snd (to_path (xd_dir x)) <> [] /\ last (snd (to_path (xd_dir x))) ""%string <> "pending"%string /\
  (forall n, In n (dd_names (xd_data x)) -> file_name n) /\
  (forall desc, In desc (xd_descriptors x) -> plain_descriptor (lab_float L) desc) /\
  tells_floats_apart (lab_float L) /\ (forall s, file_name (lab_md5 L s)).

(** The markers of different results files have different names. *)
Definition markers_differ (L : lab) (ts : list trial) : Prop :=
  forall t t', In t ts -> In t' ts ->
    lab_md5 L (results_path (lab_float L) t) = lab_md5 L (results_path (lab_float L) t') ->
    results_path (lab_float L) t = results_path (lab_float L) t'.
