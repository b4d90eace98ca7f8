(** Specification vocabulary for running the experiment driver: what must be in place before,
    which files a run may touch, histories of runs. *)
From Coq Require Import String Ascii Permutation Sorted.
From Verif Require Import Prelude ModelData ModelAggregator ModelFiles SpecFiles ModelDriver SpecDriver
  ModelExecute.
Open Scope Z_scope.

Section Execute.
Variable L : lab.

Definition data_dir (dr : driver L) : path := to_path (dr_data_design L dr).
Definition output_path (dr : driver L) : path := to_path (dr_output L dr).

(** The directory of the data design exists, and its subdirectories, the data sets, are named
    like files. *)
Definition has_data (dr : driver L) (d : disk) : Prop :=
  disk_ok d /\ stat d (data_dir dr) = Some Dir /\
  forall n, stat d (entry (data_dir dr) n) = Some Dir -> file_name n.

(** The names of the data sets, in order. *)
Definition data_sets (dr : driver L) (d : disk) (names : list string) : Prop :=
  StronglySorted (fun a b => String.ltb a b = true) names /\
  forall n, In n names <-> stat d (entry (data_dir dr) n) = Some Dir.

(** A trial of the driver on disk [d]: for the data set called [name], which is in its
    directory, with settings adapted from [desc]. *)
Definition trial_on (dr : driver L) (d : disk) (name : string) (desc : trial_descriptor) (t : trial) : Prop :=
  tr_experiment_dir t = dr_intermediates L dr /\ tr_data_set t = name /\ tr_analysis t = dr_analysis L dr /\
  exists s, read_data_set (lab_float L) d (os_join (dr_data_design L dr) name) = Ok s /\
    dd_by_name (tr_design t) name = Ok s /\ adapted s desc (tr_descriptor t).

(** The trials [ts] with generators [g] are what the driver runs on disk [d]. *)
Definition runs (dr : driver L) (d : disk) (ts : list trial) (g : generators L) : Prop :=
  has_data dr d /\ fst (prepare L dr d) = Ok (ts, g).

(** The files of the trials are not in the directory of the data design. *)
Definition apart (dr : driver L) (ts : list trial) : Prop :=
  forall t, In t ts -> ~ within (data_dir dr) (out_of L t) /\ ~ within (data_dir dr) (pending_path L t).

(** A place for one more file: not in the directory of the data design, not a file of a trial
    or a directory above one, not taken by a directory; its own directory is there, or it is
    above the results of a trial. *)
Definition place_for (dr : driver L) (ts : list trial) (d : disk) (p : path) : Prop :=
  snd p <> [] /\ ~ within (data_dir dr) p /\ stat d p <> Some Dir /\
  (forall t, In t ts -> p <> out_of L t /\ p <> pending_path L t /\ ~ directory_of L t p) /\
  (stat d (parent p) = Some Dir \/
   exists t, In t ts /\ on_the_way (parent (out_of L t)) (parent p)).

(** Trials that can be run, with the tables [tbs]: sensible names, nothing in the way, each has
    a results file that can be read or can be computed, and what is computed does not depend on
    what was computed before. *)
Definition good_run (dr : driver L) (d : disk) (ts : list trial) (g : generators L) (tbs : list table) : Prop :=
  runs dr d ts g /\ ts <> [] /\ sane_trials L ts /\ usable L ts d /\
  Forall2 (answers L (dr_seed L dr) d g) ts tbs /\ unaffected L (dr_seed L dr) g ts.

(** Between [d] and [d'] only files of the trials, the files [xs] and directories above the
    files of the trials have changed. *)
Definition touches (ts : list trial) (xs : list path) (d d' : disk) : Prop :=
  forall q, stat d' q <> stat d q ->
    (exists t, In t ts /\ (q = out_of L t \/ q = pending_path L t)) \/ In q xs \/
    (stat d q = None /\ stat d' q = Some Dir /\ exists t, In t ts /\ directory_of L t q).

(** The reader reads what was printed, and nothing else of what has been written. *)
Definition good_reader (dr : driver L) (ts : list trial) (g : generators L) : Prop :=
  reads_back L (dr_seed L dr) g ts /\ refuses_all_parts L (dr_seed L dr) g ts.

(** It also reads whole tables, whatever the order of the rows. *)
Definition reads_tables (tb : table) : Prop :=
  forall tb', Permutation tb' tb -> lab_parse L (lab_print L tb') = Ok tb'.

(** The runner of Beam loses nothing and adds nothing. *)
Definition combines (c : course) : Prop := forall l, Permutation (inputs_of (co_combine c l)) l.

(** What is needed for a run with Beam that gives the rows of [tb]: a runner that is right, a
    reader that is right, and the place for the temporary file in [xs]. *)
Definition call_ok (xs : list path) (tb : table) (ca : call) (c : course) : Prop :=
  ca_beam ca = true -> combines c /\ reads_tables tb /\ In (temp_result_path (ca_temp ca)) xs.

(** After the run the results files are there: those that could be read are as before, the
    others are as printed. *)
Definition results_left (ts : list trial) (tbs : list table) (d d' : disk) : Prop :=
  Forall2 (fun t tb => has_result L t d tb /\ stat d' (out_of L t) = stat d (out_of L t) \/
                       no_result L t d /\ stat d' (out_of L t) = Some (File (lab_print L tb))) ts tbs.

(** The table has been written to the output file, and of the rest of the disk only what a run
    may touch has changed. *)
Definition written (dr : driver L) (ts : list trial) (xs : list path) (tb : table) (d d' : disk) : Prop :=
  stat d' (output_path dr) = Some (File (lab_print L tb)) /\ touches ts xs d d'.

(** Runs that were stopped, or came to an end: how, and the number of steps. *)
Record past_run : Type := { pr_call : call; pr_course : course; pr_steps : nat }.
Definition after_past (dr : driver L) (d : disk) (l : list past_run) : disk :=
  fold_left (fun d a => stopped_execute L dr (pr_call a) (pr_course a) (pr_steps a) d) l d.

End Execute.
