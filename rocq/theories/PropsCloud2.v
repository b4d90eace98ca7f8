(** More on C56 and C57: looking at and writing single objects, and outputs that cannot be
    written. *)
From Coq Require Import String Ascii Permutation Sorted.
From Verif Require Import Prelude ModelReachPoint ModelData ModelAggregator ModelFiles SpecData SpecFiles
  DataLemmas FilesLemmas FilesLemmas2 FilesLemmas3 ModelHalo ModelDriver SpecDriver DriverLemmas DriverLemmas2 DriverLemmas4 DriverLemmas7 DriverLemmas8
  ModelExecute SpecExecute ExecuteLemmas ExecuteLemmas4 ExampleDriver PropsDriver PropsDriver2 PropsDriver3 PropsExecute
  ModelCloud SpecCloud CloudLemmas CloudLemmas2 CloudLemmas3 CloudLemmas4 ModelCloudRun SpecCloudRun CloudRunLemmas CloudRunLemmas2
  CloudRunLemmas3 CloudRunLemmas4 PropsCloudRun.
Open Scope Z_scope.

(** Buckets are directories. Any other address is a file if there is an object of this name, a
    directory if there is none but objects are below, and nothing otherwise. *)
Theorem C56_look : forall o p, NoDup (map fst o) ->
  ((length (snd p) <= 1)%nat -> cloud_stat o p = Some Dir) /\
  ((2 <= length (snd p))%nat ->
     (forall c, cloud_stat o p = Some (File c) <-> In (p, c) o) /\
     (cloud_stat o p = Some Dir <-> (forall c, ~ In (p, c) o) /\ exists q c, In (q, c) o /\ within p q /\ q <> p) /\
     (cloud_stat o p = None <-> forall q c, In (q, c) o -> ~ within p q)).
Proof.
  intros o p N. split.
  - intros H. unfold cloud_stat. destruct (snd p) as [|a [|b l]]; [reflexivity|reflexivity|cbn [length] in H; lia].
  - intros H. split; [|split].
    + intros c. rewrite cloud_stat_file by exact H. apply obj_find_in. exact N.
    + rewrite cloud_stat_dir by exact H. split; intros [A B]; (split; [|exact B]).
      * intros c I. apply (obj_find_in _ _ _ N) in I. congruence.
      * destruct (obj_find o p) as [c|] eqn:E; [|reflexivity]. apply (obj_find_in _ _ _ N) in E. contradiction (A c E).
    + apply cloud_stat_none. exact H.
Qed.
Print Assumptions C56_look.

(** Writing replaces or adds one object and changes no other; it fails only where a directory
    is. *)
Theorem C56_write : forall o p c, NoDup (map fst o) -> (2 <= length (snd p))%nat ->
  (cloud_stat o p = Some Dir -> cloud_write o p c = Err OtherError) /\
  (cloud_stat o p <> Some Dir -> exists o', cloud_write o p c = Ok o' /\ NoDup (map fst o') /\
     cloud_stat o' p = Some (File c) /\ forall q, q <> p -> forall x, In (q, x) o' <-> In (q, x) o).
Proof.
  intros o p c N H. unfold cloud_write. split; [intros ->; reflexivity|]. intros D.
  exists (obj_put o p c). split; [destruct (cloud_stat o p) as [[|x]|]; [contradiction D; reflexivity|reflexivity|reflexivity]|].
  assert (N' : NoDup (map fst (obj_put o p c))) by (apply obj_put_nodup; exact N).
  split; [exact N'|]. split.
  - apply cloud_stat_file; [exact H|]. rewrite obj_find_put, same_key. reflexivity.
  - intros q Q x. rewrite <- (obj_find_in _ _ _ N'), <- (obj_find_in _ _ _ N), obj_find_put, other_key; [reflexivity|exact Q].
Qed.
Print Assumptions C56_write.

Section Stage.
Variable L : lab.
Variable dr : driver L.
Variables local data : string.
Variable o : objects.
Variable ts : list trial.
Variable g : generators L.
Variable tbs : list table.
Hypothesis Good : cloud_good_run L dr local data o ts g tbs.
Let stage (o1 : objects) : Prop :=
  cloud_usable L (to_path local) ts o1 /\ cloud_results L (to_path local) ts tbs o1 /\
  cloud_touches L (dr_seed L dr) g (to_path local) ts [] o o1.

Lemma serial_stage nows o0 : kept L (dr_seed L dr) g local ts [] (concat tbs) o o0 ->
  Forall2 (cloud_answers L (dr_seed L dr) (to_path local) o0 g) ts tbs ->
  exists o1, cloud_finish (cloud_in_order L dr ts nows g) o0 = cloud_finish (cloud_report L dr (concat tbs)) o1 /\ stage o1.
Proof.
  intros K A. destruct Good as [G1 [G2 [G3 [G4 [G5 [G6 [G7 [G8 [G9 [G10 G11]]]]]]]]]].
  destruct (serial L (dr_seed L dr) g local ts G7 G10 [] (concat tbs) (fun x (X : In x []) => match X with end)
    (fun x y (X : In x []) => match X with end) G11 ts tbs [] g nows o0) as [E1 [E2 [E3 _]]]; auto.
  { apply K. }
  { intros x q c []. }
  { eapply answers_readable; eassumption. }
  { intros t []. }
  destruct (tbs_len L dr g local ts tbs G2 o G9) as [_ Ne].
  pose proof (along_end _ _ _ E2) as K2.
  exists (snd (cloud_finish (cloud_evaluate_all L ts (dr_seed L dr) nows g) o0)). split.
  - unfold cloud_in_order. rewrite finish_cbind, E1. cbn [bind]. rewrite (concat_tables_ok tbs Ne). reflexivity.
  - split; [apply K2|]. split; [exact E3|].
    apply (kept_trans L (dr_seed L dr) g local ts [] (concat tbs) o o0 _ K K2).
Qed.

Lemma report_stage ca c r o' : ca_beam ca = false -> cloud_execute L dr ca c o = Some (r, o') ->
  exists o1, cloud_finish (cloud_report L dr (concat tbs)) o1 = (r, o') /\ stage o1.
Proof.
  intros B E. pose proof Good as [G1 [G2 [G3 [G4 [G5 [G6 [G7 [G8 [G9 [G10 G11]]]]]]]]]]. unfold cloud_execute in E. rewrite G1 in E.
  unfold cloud_begin in E. rewrite B in E. destruct (ca_cores ca =? 1).
  - injection E as E. destruct (serial_stage (cc_now c) o (kept_refl L (dr_seed L dr) g local ts [] (concat tbs) o G8
      (fun x q c (X : In x []) => match X with end)) G9) as [o1 [F S]].
    exists o1. split; [congruence|exact S].
  - assert (C1 : forall i, In i (seq 0 (length ts)) -> (i < length ts)%nat) by (intros i X; apply in_seq in X; lia).
    pose proof (attempts_leave L dr g local ts G7 G10 [] tbs (fun x (X : In x []) => match X with end) (fun x y (X : In x []) => match X with end)
      (cc_now c) (seq 0 (length ts)) (cc_schedule c) o C1 G8 (fun x q c (X : In x []) => match X with end) (answers_readable _ _ _ _ _ _ _ G9)) as H.
    destruct (cloud_interleave _ o _) as [o0 ps]. destruct H as [K [_ [H _]]].
    destruct (used_results L (seq 0 (length ts)) ps (fun i => i) 0 (length ts)) as [rs|] eqn:Eu; [|discriminate E].
    destruct (all_results L dr g local ts tbs G2 o o0 _ ps _ G9 H rs Eu) as [-> [St _]]. cbn [bind] in E.
    injection E as E. destruct (serial_stage (cc_later c) o0 K) as [o1 [F S]].
    { eapply Forall2_impl_In; [|exact St]. intros t tb _ _ X. left. exact X. }
    exists o1. split; [congruence|exact S].
Qed.
End Stage.

(** An output that is not an address of the cloud file system: the run fails, with the error
    of the address, after all trials have been evaluated. *)
Theorem C57_output_address : forall L dr local data o ts g tbs ca c r o' e,
  cloud_good_run L dr local data o ts g tbs -> ca_beam ca = false ->
  cloud_path (dr_output L dr) = Err e -> cloud_execute L dr ca c o = Some (r, o') ->
  r = Err e /\ cloud_results L (to_path local) ts tbs o' /\
  cloud_touches L (dr_seed L dr) g (to_path local) ts [] o o'.
Proof.
  intros L dr local data o ts g tbs ca c r o' e G B P E.
  destruct (report_stage L dr local data o ts g tbs G ca c r o' B E) as [o1 [F [_ S]]].
  unfold cloud_report in F. rewrite P in F. cbn [cloud_finish] in F. apply pair_eq in F. destruct F as [<- <-].
  split; [reflexivity|exact S].
Qed.
Print Assumptions C57_output_address.

(** An output that is a directory of the cloud file system: likewise. *)
Theorem C57_output_directory : forall L dr local data o ts g tbs ca c r o' out x y,
  cloud_good_run L dr local data o ts g tbs -> ca_beam ca = false ->
  cloud_path (dr_output L dr) = Ok out -> (2 <= length (snd out))%nat ->
  (forall t, In t ts -> out <> results_object L (to_path local) t /\ out <> marker_object L (to_path local) t /\
     x <> results_object L (to_path local) t /\ x <> marker_object L (to_path local) t) ->
  obj_find o out = None -> obj_find o x = Some y -> within out x ->
  cloud_execute L dr ca c o = Some (r, o') ->
  r = Err OtherError /\ cloud_results L (to_path local) ts tbs o' /\
  cloud_touches L (dr_seed L dr) g (to_path local) ts [] o o'.
Proof.
  intros L dr local data o ts g tbs ca c r o' out x y G B P D A N X W E.
  destruct (report_stage L dr local data o ts g tbs G ca c r o' B E) as [o1 [F [_ S]]].
  assert (St : cloud_stat o1 out = Some Dir).
  { apply cloud_stat_dir; [exact D|]. destruct S as [_ [_ T]]. split.
    - rewrite T; [exact N| |intros []]. intros t It. split; apply (A t It).
    - exists x, y. split; [apply obj_find_some_in; rewrite T; [exact X| |intros []]; intros t It; split; apply (A t It)|].
      split; [exact W|]. intros ->. congruence. }
  unfold cloud_report in F. rewrite P in F. unfold write_object in F. cbn [cloud_finish] in F. rewrite St in F. cbn [cloud_finish] in F.
  apply pair_eq in F. destruct F as [<- <-]. split; [reflexivity|exact S].
Qed.
Print Assumptions C57_output_directory.

(** ** Examples *)

Example C56_look_example :
  cloud_stat bucket (to_path "/x") = Some Dir /\ cloud_stat bucket (to_path "/x/data") = Some Dir /\
  cloud_stat bucket (to_path "/x/data/ds/q") = None /\ cloud_stat bucket (to_path "/x/notes") = Some (File (chars "z")).
Proof. repeat split; reflexivity. Qed.
Example C56_write_example :
  (exists o', cloud_write bucket (to_path "/x/notes") (chars "y") = Ok o' /\ cloud_stat o' (to_path "/x/notes") = Some (File (chars "y")) /\
     cloud_stat o' (to_path "/x/data/ds/p") = cloud_stat bucket (to_path "/x/data/ds/p")) /\
  cloud_write bucket (to_path "/x/data") (chars "y") = Err OtherError.
Proof. split; [eexists; repeat split; reflexivity|reflexivity]. Qed.

(** The same run with another output. *)
Definition bucket_to (out : string) : driver strict :=
  {| dr_data_design := "gs://x/data"; dr_fetch := dr_fetch strict bucket_driver;
     dr_output := out; dr_intermediates := "gs://x/exp"; dr_seed := 1; dr_analysis := "" |}.
Lemma bucket_to_good out : cloud_good_run strict (bucket_to out) "/x/exp" "/x/data" bucket bucket_run strict_start toy_tables.
Proof. split; [reflexivity|]. exact (proj2 bucket_good). Qed.

Example C57_output_address_example : exists o',
  cloud_execute strict (bucket_to "/x/out.csv") (main_call 1 false "") bucket_course bucket = Some (Err OtherError, o') /\
  cloud_results strict (to_path "/x/exp") bucket_run toy_tables o'.
Proof.
  destruct (cloud_execute strict (bucket_to "/x/out.csv") (main_call 1 false "") bucket_course bucket) as [[r o']|] eqn:E; [|discriminate E].
  destruct (C57_output_address strict (bucket_to "/x/out.csv") "/x/exp" "/x/data" bucket bucket_run strict_start toy_tables (main_call 1 false "") bucket_course r o' OtherError
    (bucket_to_good _) eq_refl eq_refl E) as [-> [S _]].
  exists o'. split; [reflexivity|exact S].
Qed.
Example C57_output_directory_example : exists o',
  cloud_execute strict (bucket_to "gs://x/data") (main_call 1 false "") bucket_course bucket = Some (Err OtherError, o') /\
  cloud_results strict (to_path "/x/exp") bucket_run toy_tables o'.
Proof.
  destruct (cloud_execute strict (bucket_to "gs://x/data") (main_call 1 false "") bucket_course bucket) as [[r o']|] eqn:E; [|discriminate E].
  destruct (C57_output_directory strict (bucket_to "gs://x/data") "/x/exp" "/x/data" bucket bucket_run strict_start toy_tables (main_call 1 false "") bucket_course r o'
    (to_path "/x/data") (to_path "/x/data/ds/p") (chars "1,1" ++ newline :: chars "2,4" ++ [newline])
    (bucket_to_good _) eq_refl eq_refl) as [-> [S _]]; [vm_compute; lia| |reflexivity|reflexivity|eexists; reflexivity|exact E|].
  - intros t _. repeat split; intros X; apply (f_equal snd) in X; cbn in X; discriminate X.
  - exists o'. split; [reflexivity|exact S].
Qed.
