(** Specification vocabulary for running the experiment driver on cloud storage. *)
From Coq Require Import String Ascii Permutation Sorted.
From Verif Require Import Prelude ModelData ModelAggregator ModelFiles SpecFiles ModelHalo ModelDriver SpecDriver
  ModelExecute SpecExecute ModelCloud SpecCloud ModelCloudRun.
Open Scope Z_scope.

Section CloudRun.
Variable L : lab.

(** The names of the data sets, in order. *)
Definition cloud_data_sets (data : string) (o : objects) (names : list string) : Prop :=
  StronglySorted (fun a b => String.ltb a b = true) names /\
  forall n, In n names <-> cloud_stat o (entry (to_path data) n) = Some Dir.

(** A trial of the driver on the objects [o]: for the data set called [name], with settings
    adapted from [desc]. *)
Definition cloud_trial_on (dr : driver L) (o : objects) (name : string) (desc : trial_descriptor) (t : trial) : Prop :=
  tr_experiment_dir t = dr_intermediates L dr /\ tr_data_set t = name /\ tr_analysis t = dr_analysis L dr /\
  exists s, cloud_read_data_set (lab_float L) o (os_join (dr_data_design L dr) name) = Ok s /\
    dd_by_name (tr_design t) name = Ok s /\ adapted s desc (tr_descriptor t).

(** The table of a trial: the one in its results object, or the row that is computed. *)
Definition cloud_answers (seed : Z) (dir : path) (o : objects) (g : generators L) (t : trial) (tb : table) : Prop :=
  (exists c, obj_find o (results_object L dir t) = Some c /\ lab_parse L c = Ok tb) \/
  (obj_find o (results_object L dir t) = None /\ exists row, fst (compute_row L t seed g) = Ok row /\ tb = [row]).

(** Trials that can be run, with the tables [tbs]; [local] and [data] are the directory of the
    results and that of the data design, without "gs:/". *)
Definition cloud_good_run (dr : driver L) (local data : string) (o : objects) (ts : list trial) (g : generators L)
    (tbs : list table) : Prop :=
  cloud_prepare L dr o = Ok (ts, g) /\ ts <> [] /\ objects_ok o /\
  has_address data /\ dr_data_design L dr = cloud_address data /\
  (forall n, cloud_stat o (entry (to_path data) n) = Some Dir -> file_name n) /\
  cloud_trials L local ts /\ cloud_usable L (to_path local) ts o /\
  Forall2 (cloud_answers (dr_seed L dr) (to_path local) o g) ts tbs /\
  reads_back L (dr_seed L dr) g ts /\ unaffected L (dr_seed L dr) g ts.

(** The objects of the trials are not in the directory of the data design. *)
Definition cloud_apart (local data : string) (ts : list trial) : Prop :=
  forall t, In t ts -> ~ within (to_path data) (results_object L (to_path local) t) /\
                       ~ within (to_path data) (marker_object L (to_path local) t).

(** Places for more objects: in a bucket, outside the directory of the data design, nothing
    below them, and not above or below an object of a trial or each other. *)
Definition cloud_places (local data : string) (ts : list trial) (o : objects) (xs : list path) : Prop :=
  forall x, In x xs ->
    (2 <= length (snd x))%nat /\ ~ within (to_path data) x /\
    (forall q c, In (q, c) o -> within x q -> q = x) /\
    (forall t, In t ts -> ~ within x (results_object L (to_path local) t) /\ ~ within x (marker_object L (to_path local) t) /\
                          ~ within (results_object L (to_path local) t) x /\ ~ within (marker_object L (to_path local) t) x) /\
    (forall y, In y xs -> within x y -> y = x).

(** The runner attempts trials that there are, and loses and adds nothing; the reader reads
    whole tables; the temporary object has a place. *)
Definition cloud_call_ok (ts : list trial) (xs : list path) (tb : table) (ca : call) (c : cloud_course) : Prop :=
  ca_beam ca = true ->
  (forall i, In i (cc_attempts c) -> (i < length ts)%nat) /\
  (forall l, Permutation (inputs_of (cc_combine c l)) l) /\ reads_tables L tb /\
  exists x, cloud_temp (ca_temp ca) = Ok x /\ In x xs.

(** Between [o] and [o'] only the objects [xs], results that were not there, and their markers
    have changed; a new result is the complete row. *)
Definition cloud_touches (seed : Z) (g : generators L) (dir : path) (ts : list trial) (xs : list path) (o o' : objects) : Prop :=
  (forall t, In t ts ->
     match obj_find o (results_object L dir t) with
     | Some c => obj_find o' (results_object L dir t) = Some c /\
                 obj_find o' (marker_object L dir t) = obj_find o (marker_object L dir t)
     | None => obj_find o' (results_object L dir t) = None \/
               exists row, fst (compute_row L t seed g) = Ok row /\
                 obj_find o' (results_object L dir t) = Some (lab_print L [row])
     end) /\
  (forall q, (forall t, In t ts -> q <> results_object L dir t /\ q <> marker_object L dir t) -> ~ In q xs ->
     obj_find o' q = obj_find o q).

(** The objects [xs] are as before, or hold a complete table with the rows of [whole]. *)
Definition cloud_tables (xs : list path) (whole : table) (o o' : objects) : Prop :=
  forall x, In x xs -> obj_find o' x = obj_find o x \/
    exists tb, Permutation tb whole /\ obj_find o' x = Some (lab_print L tb).

(** Every trial has a results object with its table. *)
Definition cloud_results (dir : path) (ts : list trial) (tbs : list table) (o : objects) : Prop :=
  Forall2 (fun t tb => exists c, obj_find o (results_object L dir t) = Some c /\ lab_parse L c = Ok tb) ts tbs.

(** The requests that a run needs at most for the attempts that count. *)
Definition enough_requests (ts : list trial) (ca : call) (c : cloud_course) : Prop :=
  (ca_beam ca = true -> forall i, (i < length ts)%nat -> nth_error (cc_attempts c) (cc_used c i) = Some i /\
     (8 <= count_occ Nat.eq_dec (cc_schedule c) (cc_used c i))%nat) /\
  (ca_beam ca = false -> ca_cores ca <> 1 -> forall i, (i < length ts)%nat ->
     (8 <= count_occ Nat.eq_dec (cc_schedule c) i)%nat).

(** Runs that were stopped, or came to an end. *)
Record cloud_past : Type := { cp_call : call; cp_course : cloud_course; cp_steps : nat }.
Definition cloud_after_past (dr : driver L) (o : objects) (l : list cloud_past) : objects :=
  fold_left (fun o a => cloud_stopped_execute L dr (cp_call a) (cp_course a) (cp_steps a) o) l o.

End CloudRun.
