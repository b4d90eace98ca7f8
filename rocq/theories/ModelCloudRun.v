(** Model of src/driver/experiment_driver.py and src/driver/experimental_design.py when they are
    given the cloud file system, as main does with the Dataflow runner. *)
From Coq Require Import String Ascii.
From Verif Require Import Prelude ModelData ModelAggregator ModelFiles ModelDriver ModelExecute ModelCloud.
Open Scope Z_scope.

Section CloudRun.
Variable L : lab.
Notation answer := (result table * generators L)%type.

(** What is left open by the program: the times, and what the runner does. Beam may run a
    bundle again, also while an earlier attempt still runs, and uses the output of one attempt
    for each trial. [cc_attempts] gives the trial of each attempt, [cc_used] the attempt that
    is used for each trial; [cc_schedule] says whose request is next. A runner that gives up
    after some failing attempts is one that uses a failing one. *)
Record cloud_course : Type := {
  cc_now : nat -> text; cc_later : nat -> text; cc_attempts : list nat; cc_schedule : list nat;
  cc_used : nat -> nat; cc_combine : list table -> accumulation }.

(** data_design.py as experiment.py and experimental_trial.py use it. Simplification: data sets
    are read from the bucket as it is when the run starts. *)
Definition cloud_opened (o : objects) (de : design) : data_design :=
  {| dd_names := sorted_names de;
     dd_by_name := fun n => fst (cloud_by_name (lab_float L) {| cs_objects := o; cs_cache := [] |} de n) |}.

(** experiment_driver.py 179-190: until the trials are there. Nothing is written: mkdir does
    nothing on cloud storage. *)
Definition cloud_prepare (dr : driver L) (o : objects) : result (list trial * generators L) :=
  de <- cloud_mk_design o (dr_data_design L dr) ;;
  '(descs, g) <- dr_fetch L dr (dr_seed L dr) ;;
  ts <- generate_trials L {| xd_dir := dr_intermediates L dr; xd_data := cloud_opened o de;
                             xd_descriptors := descs; xd_seed := dr_seed L dr;
                             xd_analysis := dr_analysis L dr |} ;;
  Ok (ts, g).

(** One program after the other. *)
Fixpoint cbind {A B} (p : cprog A) (f : A -> cprog B) : cprog B :=
  match p with
  | CRet a => f a
  | CLook q k => CLook q (fun n => cbind (k n) f)
  | CAct e k => CAct e (cbind k f)
  end.

(** experimental_design.py 203-206: the trials one after the other. *)
Fixpoint cloud_evaluate_all (ts : list trial) (seed : Z) (nows : nat -> text) (g : generators L)
  : cprog (result (list table) * generators L) :=
  match ts with
  | [] => CRet (Ok [], g)
  | t :: r =>
      cbind (cloud_evaluate L t seed (nows O) g) (fun a =>
      match fst a with
      | Err e => CRet (Err e, snd a)
      | Ok tb => cbind (cloud_evaluate_all r seed (fun n => nows (S n)) (snd a)) (fun b =>
                 match fst b with
                 | Err e => CRet (Err e, snd b)
                 | Ok tbs => CRet (Ok (tb :: tbs), snd b)
                 end)
      end)
  end.

(** experimental_design.py 148-172: the programs of the attempts. Every attempt gets its own
    copy of the trials, and so of the generators, as they are when the pipeline starts. *)
Definition attempt_programs (ts : list trial) (seed : Z) (nows : nat -> text) (g : generators L)
    (attempts : list nat) : list (cprog answer) :=
  map (fun ki => match nth_error ts (snd ki) with
                 | Some t => cloud_evaluate L t seed (nows (fst ki)) g
                 | None => CRet (Err IndexError, g)
                 end) (combine (seq 0 (length attempts)) attempts).

(** The tables of trials [i], [i + 1], ... ([n] of them). None: an attempt that is to be used
    has not ended, or is for another trial. *)
Fixpoint used_results (attempts : list nat) (ps : list (cprog answer)) (used : nat -> nat) (i n : nat)
  : option (result (list table)) :=
  match n with
  | O => Some (Ok [])
  | S m =>
      match nth_error attempts (used i), nth_error ps (used i) with
      | Some j, Some (CRet (r, _)) =>
          if (j =? i)%nat then
            match used_results attempts ps used (S i) m with
            | None => None
            | Some rs => Some (tb <- r ;; tbs <- rs ;; Ok (tb :: tbs))
            end
          else None
      | _, _ => None
      end
  end.

(** experiment_driver.py 196-198: write_text and return. *)
Definition cloud_report (dr : driver L) (tb : table) : cprog (result table) :=
  match cloud_path (dr_output L dr) with
  | Err e => CRet (Err e)
  | Ok out => write_object out (lab_print L tb) (fun r => CRet (_ <- r ;; Ok tb))
  end.

(** experimental_design.py 203-206 and experiment_driver.py 196-198 *)
Definition cloud_in_order (dr : driver L) (ts : list trial) (nows : nat -> text) (g : generators L)
  : cprog (result table) :=
  cbind (cloud_evaluate_all ts (dr_seed L dr) nows g) (fun a =>
  match (tbs <- fst a ;; concat_tables tbs) with
  | Err e => CRet (Err e)
  | Ok tb => cloud_report dr tb
  end).

(** experimental_design.py 186-189 *)
Definition cloud_temp (temp_location : string) : result path :=
  cloud_path (if truthy temp_location then String.append temp_location "/temp_result.csv"
              else "/temp_result.csv").

(** experimental_design.py 162-176 and 199-201, experiment_driver.py 196-198: the combined
    table goes through an object. *)
Definition cloud_through_file (dr : driver L) (temp_location : string) (tb : table) : cprog (result table) :=
  match cloud_temp temp_location with
  | Err e => CRet (Err e)
  | Ok temp =>
      write_object temp (lab_print L tb) (fun r =>
      match r with
      | Err e => CRet (Err e)
      | Ok _ =>
          CLook temp (fun n =>
          match parse_node L n with
          | Err e => CRet (Err e)
          | Ok tb' => cloud_report dr tb'
          end)
      end)
  end.

(** experimental_design.py 183-206: the part with several processes, and the program that is
    left after it. Attempts that have not ended when the rest begins are taken to be stopped. *)
Definition cloud_begin (dr : driver L) (ca : call) (c : cloud_course) (ts : list trial) (g : generators L) (o : objects)
  : option (result (cprog (result table))) * objects :=
  if ca_beam ca then
    let '(o1, ps) := cloud_interleave (cc_schedule c) o
                       (attempt_programs ts (dr_seed L dr) (cc_now c) g (cc_attempts c)) in
    match used_results (cc_attempts c) ps (cc_used c) 0 (length ts) with
    | None => (None, o1)
    | Some rs =>
        (Some (tbs <- rs ;; tb <- combine_output (cc_combine c tbs) ;;
               Ok (cloud_through_file dr (ca_temp ca) tb)), o1)
    end
  else if ca_cores ca =? 1 then (Some (Ok (cloud_in_order dr ts (cc_now c) g)), o)
  else
    let each := seq 0 (length ts) in
    let '(o1, ps) := cloud_interleave (cc_schedule c) o
                       (attempt_programs ts (dr_seed L dr) (cc_now c) g each) in
    match used_results each ps (fun i => i) 0 (length ts) with
    | None => (None, o1)
    | Some rs => (Some (_ <- rs ;; Ok (cloud_in_order dr ts (cc_later c) g)), o1)
    end.

(** experiment_driver.py 172-198: execute *)
Definition cloud_execute (dr : driver L) (ca : call) (c : cloud_course) (o : objects)
  : option (result table * objects) :=
  match cloud_prepare dr o with
  | Err e => Some (Err e, o)
  | Ok (ts, g) =>
      match cloud_begin dr ca c ts g o with
      | (None, _) => None
      | (Some (Err e), o1) => Some (Err e, o1)
      | (Some (Ok p), o1) => Some (cloud_finish p o1)
      end
  end.

(** The first [n] requests of a program. *)
Fixpoint cloud_steps {A} (n : nat) (o : objects) (p : cprog A) : objects * cprog A :=
  match n with
  | O => (o, p)
  | S m => let '(o', p') := cloud_advance o p in cloud_steps m o' p'
  end.

(** A run that is stopped: while the attempts run (then the schedule says how far they are), or
    after [n] requests of the rest. *)
Definition cloud_stopped_execute (dr : driver L) (ca : call) (c : cloud_course) (n : nat) (o : objects) : objects :=
  match cloud_prepare dr o with
  | Err _ => o
  | Ok (ts, g) =>
      match cloud_begin dr ca c ts g o with
      | (Some (Ok p), o1) => fst (cloud_steps n o1 p)
      | (_, o1) => o1
      end
  end.

End CloudRun.

(** experiment_driver.py 281-305: how main calls execute. With the runners "dataflow" and
    "DataflowRunner" it is on the cloud file system. Simplification: the location for temporary
    files that main adds is the last one, so the one that counts. *)
Definition main_call (cores : Z) (beam : bool) (intermediates : string) : call :=
  {| ca_cores := cores; ca_beam := beam; ca_temp := intermediates |}.
