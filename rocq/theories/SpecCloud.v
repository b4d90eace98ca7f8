(** Specification vocabulary for cloud storage: which addresses are used, when a disk and a
    bucket have the same files, requests to a data design and their answers, attempts at
    evaluating trials. *)
From Coq Require Import String Ascii Permutation Sorted.
From Verif Require Import Prelude ModelReachPoint ModelData ModelAggregator ModelFiles SpecFiles
  ModelHalo ModelDriver SpecDriver ModelCloud.
Open Scope Z_scope.

(** A local directory /a/b/c that is to be compared with gs://a/b/c. *)
Definition cloud_address (local : string) : string := String.append "gs:/" local.
Definition has_address (local : string) : Prop :=
  (exists rest, local = String "/" rest) /\ snd (to_path local) <> [] /\
  forall a b, local <> String.append a (String.append "://" b).

(** Objects as the wrapper makes them: in a bucket, under one name once, none below another. *)
Definition objects_ok (o : objects) : Prop :=
  NoDup (map fst o) /\
  (forall p c, In (p, c) o -> fst p = true /\ (2 <= length (snd p))%nat) /\
  (forall p q c c', In (p, c) o -> In (q, c') o -> within p q -> p = q).

(** The files of the disk, but for those that are in no bucket, are the objects. *)
Definition same_files (k : disk) (o : objects) : Prop :=
  forall p c, In (p, c) o <-> fst p = true /\ (2 <= length (snd p))%nat /\ stat k p = Some (File c).

(** There is a file below the directory. *)
Definition holds_file (k : disk) (dir : path) : Prop :=
  exists q c, within dir q /\ stat k q = Some (File c).
Definition no_empty_data_set (k : disk) (dir : path) : Prop :=
  forall n, stat k (entry dir n) = Some Dir -> holds_file k (entry dir n).

(** Data sets that differ only in where the publishers' logs are kept. *)
Definition same_publisher (p p' : publisher_data) : Prop :=
  pd_data p' = pd_data p /\ pd_spends p' = pd_spends p /\ pd_max_spend p' = pd_max_spend p /\
  pd_max_reach p' = pd_max_reach p /\ pd_name p' = cloud_address (pd_name p).
Definition same_data_set (d d' : data_set) : Prop :=
  Forall2 same_publisher (ds_data d) (ds_data d') /\ ds_maximum_reach d' = ds_maximum_reach d /\
  ds_name d' = ds_name d /\ ds_universe d' = ds_universe d.
Definition same_reading (r r' : result data_set) : Prop :=
  match r, r' with
  | Ok d, Ok d' => same_data_set d d'
  | Err e, Err e' => e' = e
  | _, _ => False
  end.

(** Requests to a program that has a data design open. *)
Inductive request : Type :=
| Reopen
| ListNames
| AddSet (x : data_set)
| FindSet (n : string).
Inductive reply : Type :=
| Listed (names : list string)
| Accepted
| Raised (e : pyerr)
| Got (d : data_set).
Definition reply_of (r : result data_set) : reply :=
  match r with Ok d => Got d | Err e => Raised e end.

Definition serve (F : float_format) (st : store) (d : design) (rq : request) : reply * store * design :=
  match rq with
  | Reopen => match mk_design st (de_dirpath d) with
              | (Ok d', st') => (Listed (sorted_names d'), st', d')
              | (Err e, st') => (Raised e, st', d)
              end
  | ListNames => (Listed (sorted_names d), st, d)
  | AddSet x => match add F st d x with
                | (Ok d', st') => (Accepted, st', d')
                | (Err e, st') => (Raised e, st', d)
                end
  | FindSet n => let '(r, st') := by_name F st d n in (reply_of r, st', d)
  end.
Fixpoint serve_all (F : float_format) (st : store) (d : design) (rqs : list request) : list reply :=
  match rqs with
  | [] => []
  | rq :: r => let '(a, st', d') := serve F st d rq in a :: serve_all F st' d' r
  end.

Definition cloud_serve (F : float_format) (st : cloud_store) (d : design) (rq : request)
  : reply * cloud_store * design :=
  match rq with
  | Reopen => match cloud_mk_design (cs_objects st) (de_dirpath d) with
              | Ok d' => (Listed (sorted_names d'), st, d')
              | Err e => (Raised e, st, d)
              end
  | ListNames => (Listed (sorted_names d), st, d)
  | AddSet x => match cloud_add F st d x with
                | (Ok d', st') => (Accepted, st', d')
                | (Err e, st') => (Raised e, st', d)
                end
  | FindSet n => let '(r, st') := cloud_by_name F st d n in (reply_of r, st', d)
  end.
Fixpoint cloud_serve_all (F : float_format) (st : cloud_store) (d : design) (rqs : list request) : list reply :=
  match rqs with
  | [] => []
  | rq :: r => let '(a, st', d') := cloud_serve F st d rq in a :: cloud_serve_all F st' d' r
  end.

(** Requests that name files, and add data sets with at least one publisher. *)
Definition sensible (rq : request) : Prop :=
  match rq with
  | AddSet x => file_name (ds_name x) /\ Forall (fun p => file_name (pd_name p)) (ds_data x) /\
                NoDup (map pd_name (ds_data x)) /\ ds_data x <> []
  | FindSet n => file_name n
  | _ => True
  end.

Definition same_reply (a a' : reply) : Prop :=
  match a, a' with
  | Got d, Got d' => same_data_set d d'
  | _, _ => a' = a
  end.

(** ** Trials *)

(** The results object and the marker of a trial whose experiment directory is [dir]. *)
Definition results_object (L : lab) (dir : path) (t : trial) : path :=
  entry (entry dir (tr_data_set t)) (str (show_descriptor (lab_float L) (tr_descriptor t) ++ chars ".csv")).
Definition marker_object (L : lab) (dir : path) (t : trial) : path :=
  entry (entry (parent dir) "pending") (lab_md5 L (results_path (lab_float L) t)).

(** Trials of the experiment directory gs:/[local], which is below a bucket and not called
    "pending": data sets are named like files, descriptors print without "/", the names of
    the markers are file names, different for different results, and different trials have
    different data sets or print differently. *)
Definition cloud_trials (L : lab) (local : string) (ts : list trial) : Prop :=
  (exists rest, local = String "/" rest) /\ (2 <= length (snd (to_path local)))%nat /\
  last (snd (to_path local)) ""%string <> "pending"%string /\
  (forall t, In t ts ->
     tr_experiment_dir t = cloud_address local /\ file_name (tr_data_set t) /\
     ~ In slash (show_descriptor (lab_float L) (tr_descriptor t)) /\
     file_name (lab_md5 L (results_path (lab_float L) t))) /\
  markers_differ L ts /\
  (forall t t', In t ts -> In t' ts -> tr_data_set t = tr_data_set t' ->
     show_descriptor (lab_float L) (tr_descriptor t) = show_descriptor (lab_float L) (tr_descriptor t') -> t = t').

(** A bucket on which the trials can run: nothing is below a results object or a marker. *)
Definition cloud_usable (L : lab) (dir : path) (ts : list trial) (o : objects) : Prop :=
  NoDup (map fst o) /\
  forall t q c, In t ts -> In (q, c) o ->
    (within (results_object L dir t) q -> q = results_object L dir t) /\
    (within (marker_object L dir t) q -> q = marker_object L dir t).

(** A process that evaluates a trial, started at some time with some generators. *)
Record job (L : lab) : Type := { jb_trial : trial; jb_now : text; jb_generators : generators L }.
Arguments jb_trial {L}. Arguments jb_now {L}. Arguments jb_generators {L}.
Definition start {L} (seed : Z) (j : job L) : cprog (result table * generators L) :=
  cloud_evaluate L (jb_trial j) seed (jb_now j) (jb_generators j).

(** What the processes should give for a trial: the table that is already there, or else
    what computing gives. *)
Definition expected (L : lab) (dir : path) (o : objects) (outcome : trial -> result (list (string * cell)))
    (t : trial) : result table :=
  match obj_find o (results_object L dir t) with
  | Some c => lab_parse L c
  | None => match outcome t with Ok row => Ok [row] | Err e => Err e end
  end.

(** One process, stopped after some requests. *)
Fixpoint cloud_advances {A} (n : nat) (o : objects) (p : cprog A) : objects * cprog A :=
  match n with
  | O => (o, p)
  | S n' => let '(o', p') := cloud_advance o p in cloud_advances n' o' p'
  end.
Definition cloud_stopped {L} (seed : Z) (o : objects) (a : job L * nat) : objects :=
  fst (cloud_advances (snd a) o (start seed (fst a))).
