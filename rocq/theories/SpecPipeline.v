(** Specification vocabulary for whole evaluations: tables with one row for every trial, and what
    must be in place for a first run. *)
From Coq Require Import String Ascii Permutation.
From Coq Require Import Sorted.
From Verif Require Import Prelude ModelData ModelAggregator SpecAggregator ModelFiles SpecFiles ModelDriver SpecDriver
  SpecTrial ModelExecute ModelDesigns SpecDesigns ModelExperiments SpecExperiments SpecExecute.
Open Scope Z_scope.

Section Pipeline.
Variable L : lab.

(** A row that the trial computes, with some state of the generators. *)
Definition row_of (seed : Z) (t : trial) (row : list (string * cell)) : Prop :=
  exists g, fst (compute_row L t seed g) = Ok row.

(** The reader gets back tables of such rows. *)
Definition reads_rows (seed : Z) (ts : list trial) : Prop :=
  forall tb, tb <> [] -> Forall (fun row => exists t, In t ts /\ row_of seed t row) tb ->
    lab_parse L (lab_print L tb) = Ok tb.

(** How a run may be made: if it is not one process for one trial after the other, printed tables
    can be read; with Beam the runner loses nothing and the place of the temporary file is in [xs]. *)
Definition way_ok (seed : Z) (ts : list trial) (xs : list path) (ca : call) (c : course) : Prop :=
  (ca_beam ca = true \/ ca_cores ca <> 1 -> reads_rows seed ts) /\
  (ca_beam ca = true -> combines c /\ In (temp_result_path (ca_temp ca)) xs).

(** The table [tb] has one row for every trial, in the order of the trials without Beam, and
    every row is in the results file of its trial. *)
Definition one_row_each (seed : Z) (ts : list trial) (ca : call) (tb : table) (d' : disk) : Prop :=
  exists rows, Forall2 (fun t row => row_of seed t row /\ stat d' (out_of L t) = Some (File (lab_print L [row]))) ts rows /\
    Permutation tb rows /\ (ca_beam ca = false -> tb = rows).

(** ** From the parameters of the data sets to the table *)

(** The directory for markers is beside the one for results. *)
Definition work_dir (dr : driver L) : path := to_path (dr_intermediates L dr).
Definition marker_dir (dr : driver L) : path := entry (parent (work_dir dr)) "pending".

(** Two directories of which none is in the other. *)
Definition disjoint (a b : path) : Prop := ~ within a b /\ ~ within b a.

(** Before the data design is made: the directories for results and markers are empty or are not
    there, and have nothing to do with the one of the data design. *)
Definition new_workspace (dr : driver L) (k : disk) : Prop :=
  snd (work_dir dr) <> [] /\ last (snd (work_dir dr)) ""%string <> "pending"%string /\
  (forall w, w = work_dir dr \/ w = marker_dir dr ->
     no_file_on_the_way k w /\ (forall n, stat k (entry w n) = None) /\ disjoint (data_dir L dr) w).

(** A place for one more file: in a directory that is there, and outside of all this. *)
Definition free_place (dr : driver L) (k : disk) (x : path) : Prop :=
  snd x <> [] /\ stat k x <> Some Dir /\ stat k (parent x) = Some Dir /\
  forall w, w = data_dir L dr \/ w = work_dir dr \/ w = marker_dir dr -> disjoint x w.

(** The row for the data set with parameters [p] and the settings [c] says so. *)
Definition row_about (p : set_parameters) (c : choice) (row : list (string * cell)) : Prop :=
  column row "dataset" = Some (CText (set_name_of (lab_float L) p)) /\
  column row "ncampaigns" = Some (CInt (fp_num_publishers p)) /\
  column row "replica_id" = Some (CInt (ch_replica c)) /\
  column row "single_pub_model" = Some (CText (sd_single (ch_strategy c))) /\
  column row "multi_pub_model" = Some (CText (sd_multi (ch_strategy c))) /\
  column row "strategy" = Some (CText (sd_strategy (ch_strategy c))) /\
  column row "max_frequency" = Some (CInt (ch_frequency c)) /\
  (exists v, column row "liquid_legions_sketch_size" = Some v /\ number_of_cell v (lp_sketch_size (ch_ll c))) /\
  (exists v, column row "liquid_legions_decay_rate" = Some v /\ number_of_cell v (lp_decay_rate (ch_ll c))) /\
  (exists v, column row "privacy_budget_epsilon" = Some v /\ number_of_cell v (fst (ch_budget c))) /\
  (exists v, column row "privacy_budget_delta" = Some v /\ number_of_cell v (snd (ch_budget c))).

(** The table has a row for every data set, in the order of their names, and every choice, in
    the order of the design; with Beam the rows may come in any order. *)
Definition table_for (ps : list set_parameters) (cs : list choice) (ca : call) (tb : table) : Prop :=
  exists qs rows, Permutation qs ps /\
    StronglySorted (fun p q => String.ltb (set_name_of (lab_float L) p) (set_name_of (lab_float L) q) = true) qs /\
    Forall2 (fun pc row => row_about (fst pc) (snd pc) row) (list_prod qs cs) rows /\
    Permutation tb rows /\ (ca_beam ca = false -> tb = rows).

(** Settings that give a row on every data set with such a number of publishers, and different
    trials. *)
Definition always_rows (few : nat -> Prop) (cs : list choice) : Prop :=
  forall d, few (publisher_count d) ->
    (forall c, In c cs -> clear_choice (lab_float L) d c /\ strategy_known (ch_strategy c) /\
       exists l, spends_on (ch_spends c) d l /\ (1 <= publisher_count d <= length l)%nat) /\
    pairwise_different (same_choice d) cs.

(** What has to be in place before the data design is made. *)
Definition good_start (dr : driver L) (k : disk) : Prop :=
  disk_ok k /\ no_file_on_the_way k (data_dir L dr) /\ (forall n, stat k (entry (data_dir L dr) n) = None) /\
  new_workspace dr k /\ forall s, file_name (lab_md5 L s).

(** Whatever way the driver is run once the data design has been made (the disk is [k'], and was
    [k] before that): a run that comes to an end answers a table as it should be, and leaves it in
    the output file, and each row in the results file of its trial. *)
Definition evaluates (dr : driver L) (k k' : disk) (g : generators L) (good : call -> table -> Prop) : Prop :=
  forall xs ca c,
    (forall ts, SpecExecute.runs L dr k' ts g -> markers_differ L ts /\ way_ok (dr_seed L dr) ts xs ca c) ->
    In (output_path L dr) xs -> Forall (free_place dr k) xs ->
    forall r d', execute L dr ca c k' = Some (r, d') ->
      exists tb ts, r = Ok tb /\ good ca tb /\ SpecExecute.runs L dr k' ts g /\
        one_row_each (dr_seed L dr) ts ca tb d' /\ written L dr ts xs tb k' d'.
End Pipeline.
