(** Model of src/driver/experiment_driver.py and of ExperimentalDesign.load with Apache Beam
    (src/driver/experimental_design.py 162-208). *)
From Coq Require Import String Ascii.
From Verif Require Import Prelude ModelData ModelAggregator ModelFiles ModelDriver.
Open Scope Z_scope.

Section Execute.
Variable L : lab.

(** experiment_driver.py 154-170: the attributes, without the number of cores.
    [dr_fetch] stands for _fetch_experiment_list (experiment_driver.py 200-208): it loads the
    module and calls generate_experimental_design_config with the seed. Every run is a new
    process, so every run gets new generators; the cells they are in are part of the answer. *)
Record driver : Type := {
  dr_data_design : string;
  dr_fetch : Z -> result (list trial_descriptor * generators L);
  dr_output : string; dr_intermediates : string; dr_seed : Z; dr_analysis : string }.

(** The arguments that say how the trials are run: the cores of the driver, use_apache_beam,
    and temp_location of the pipeline options ("" if it is not there). *)
Record call : Type := { ca_cores : Z; ca_beam : bool; ca_temp : string }.

(** What is left open by the program: the times, the schedule of the workers, and how the
    runner of Beam puts tables together. *)
Record course : Type := {
  co_now : nat -> text; co_later : nat -> text; co_schedule : list nat;
  co_combine : list table -> accumulation }.

(** data_design.py as experiment.py and experimental_trial.py use it. Simplification: data
    sets are read from the disk as it is when the run starts; C53_meanwhile says that
    reading later gives the same. *)
Definition opened (st : store) (de : design) : data_design :=
  {| dd_names := sorted_names de; dd_by_name := fun n => fst (by_name (lab_float L) st de n) |}.

(** experiment_driver.py 179-190: until the trials are there. *)
Definition prepare (dr : driver) (d : disk) : result (list trial * generators L) * disk :=
  let '(r, st) := mk_design {| st_disk := d; st_cache := [] |} (dr_data_design dr) in
  (de <- r ;;
   '(descs, g) <- dr_fetch dr (dr_seed dr) ;;
   ts <- generate_trials L {| xd_dir := dr_intermediates dr; xd_data := opened st de;
                              xd_descriptors := descs; xd_seed := dr_seed dr;
                              xd_analysis := dr_analysis dr |} ;;
   Ok (ts, g), st_disk st).

(** experiment_driver.py 196-198: write_text and return. *)
Definition report (dr : driver) (tb : table) : prog (result table) :=
  acts (map Plain (write_file_ops (to_path (dr_output dr)) (lab_print L tb)))
       (fun r => Ret (_ <- r ;; Ok tb)).

(** experimental_design.py 203-206 and experiment_driver.py 196-198 *)
Definition in_order (dr : driver) (ts : list trial) (nows : nat -> text) (g : generators L)
  : prog (result table) :=
  pbind (evaluate_all L ts (dr_seed dr) nows g) (fun a =>
  match (tbs <- fst a ;; concat_tables tbs) with
  | Err e => Ret (Err e)
  | Ok tb => report dr tb
  end).

(** experimental_design.py 186-189 *)
Definition temp_result_path (temp_location : string) : path :=
  if truthy temp_location then to_path (String.append temp_location "/temp_result.csv")
  else to_path "/temp_result.csv".

(** experimental_design.py 162-176 and 199-201, experiment_driver.py 196-198: the combined
    table goes through a file. *)
Definition through_file (dr : driver) (temp : path) (tb : table) : prog (result table) :=
  acts (map Plain (write_file_ops temp (lab_print L tb))) (fun r =>
  match r with
  | Err e => Ret (Err e)
  | Ok _ =>
      Look temp (fun n =>
      match (match n with Some (File c) => lab_parse L c | Some Dir => Err OtherError
             | None => Err FileNotFoundError end) with
      | Err e => Ret (Err e)
      | Ok tb' => report dr tb'
      end)
  end).

(** experimental_design.py 183-206: the part with several processes, and the program that is
    left after it. None: the schedule has not finished the workers. Lines 183-184 generate the
    trials again if there are none, with the same answer, and are left out. *)
Definition begin_run (dr : driver) (ca : call) (c : course) (ts : list trial) (g : generators L) (d : disk)
  : option (result (prog (result table))) * disk :=
  if ca_beam ca then
    let '(d1, ps) := interleave (co_schedule c) d (workers L ts (dr_seed dr) (co_now c) g) in
    match worker_results L ps with
    | None => (None, d1)
    | Some rs =>
        (Some (tbs <- rs ;; tb <- combine_output (co_combine c tbs) ;;
               Ok (through_file dr (temp_result_path (ca_temp ca)) tb)), d1)
    end
  else if ca_cores ca =? 1 then (Some (Ok (in_order dr ts (co_now c) g)), d)
  else
    let '(d1, ps) := interleave (co_schedule c) d (workers L ts (dr_seed dr) (co_now c) g) in
    match worker_results L ps with
    | None => (None, d1)
    | Some rs => (Some (_ <- rs ;; Ok (in_order dr ts (co_later c) g)), d1)
    end.

(** experiment_driver.py 172-198: execute *)
Definition execute (dr : driver) (ca : call) (c : course) (d : disk) : option (result table * disk) :=
  match prepare dr d with
  | (Err e, d1) => Some (Err e, d1)
  | (Ok (ts, g), d1) =>
      match begin_run dr ca c ts g d1 with
      | (None, _) => None
      | (Some (Err e), d2) => Some (Err e, d2)
      | (Some (Ok p), d2) => Some (finish p d2)
      end
  end.

(** A run that is stopped: while the directory of the data design is made, while the workers
    run (then the schedule says how far they are), or after [n] steps of the rest. *)
Definition stopped_execute (dr : driver) (ca : call) (c : course) (n : nat) (d : disk) : disk :=
  let dirs := mkdir_ops (to_path (dr_data_design dr)) in
  if (n <? length dirs)%nat then snd (run_ops d (firstn n dirs))
  else
    match prepare dr d with
    | (Err _, d1) => d1
    | (Ok (ts, g), d1) =>
        match begin_run dr ca c ts g d1 with
        | (Some (Ok p), d2) => fst (advances (n - length dirs) d2 p)
        | (_, d2) => d2
        end
    end.

End Execute.
