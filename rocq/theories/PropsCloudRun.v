(** C57: the experiment driver on cloud storage. *)
From Coq Require Import String Ascii Permutation Sorted.
From Verif Require Import Prelude ModelReachPoint ModelData ModelAggregator ModelFiles SpecData SpecFiles
  DataLemmas FilesLemmas FilesLemmas2 FilesLemmas3 ModelHalo ModelDriver SpecDriver DriverLemmas DriverLemmas2 DriverLemmas4 DriverLemmas7 DriverLemmas8
  ModelExecute SpecExecute ExecuteLemmas ExecuteLemmas4 ExampleDriver PropsDriver PropsDriver2 PropsDriver3 PropsExecute
  ModelCloud SpecCloud CloudLemmas CloudLemmas2 CloudLemmas3 CloudLemmas4 ModelCloudRun SpecCloudRun CloudRunLemmas CloudRunLemmas2
  CloudRunLemmas3 CloudRunLemmas4.
Open Scope Z_scope.

Section Use.
Variable L : lab.
Variable dr : driver L.
Variables local data : string.
Variable o : objects.
Variable ts : list trial.
Variable g : generators L.
Variable tbs : list table.
Hypothesis Good : cloud_good_run L dr local data o ts g tbs.
Variable xs : list path.
Hypothesis Pl : cloud_places L local data ts o xs.

Lemma use_clear x : In x xs -> forall t, In t ts ->
  ~ within x (results_object L (to_path local) t) /\ ~ within x (marker_object L (to_path local) t) /\
  ~ within (results_object L (to_path local) t) x /\ ~ within (marker_object L (to_path local) t) x.
Proof. intros I. apply (Pl x I). Qed.
Lemma use_single x y : In x xs -> In y xs -> within x y -> y = x.
Proof. intros I J. apply (Pl x I). exact J. Qed.
Lemma use_deep x : In x xs -> (2 <= length (snd x))%nat.
Proof. intros I. apply (Pl x I). Qed.
Lemma use_outside x : In x xs -> ~ within (to_path data) x.
Proof. intros I. apply (Pl x I). Qed.
Lemma use_free : free xs o.
Proof. intros x q c I. apply (Pl x I). Qed.
Lemma use_kept : kept L (dr_seed L dr) g local ts xs (concat tbs) o o.
Proof. destruct Good as [_ [_ [_ [_ [_ [_ [_ [U _]]]]]]]]. apply kept_refl; [exact U|exact use_free]. Qed.
Variable out : path.
Hypothesis Out : cloud_path (dr_output L dr) = Ok out.
Hypothesis Iout : In out xs.

Lemma use_first ca c : cloud_call_ok L ts xs (concat tbs) ca c ->
  match cloud_execute L dr ca c o with
  | None => True
  | Some f => exists tb, finished L dr g local ts xs tbs out o tb ca f
  end.
Proof.
  intros CO. destruct Good as [G1 [G2 [G3 [G4 [G5 [G6 [G7 [G8 [G9 [G10 G11]]]]]]]]]]. unfold cloud_execute. rewrite G1.
  pose proof (begin_ends L dr g local ts G7 G10 xs tbs use_clear use_single use_deep out Out Iout G2 G11 o ca c G8 use_free G9 CO) as H.
  destruct (cloud_begin L dr ca c ts g o) as [[[p|e]|] o1]; [| |exact I].
  - destruct H as [_ [p0 [tb [Ep [F _]]]]]. injection Ep as <-. exists tb. exact F.
  - destruct H as [_ [p0 [tb [Ep _]]]]. discriminate Ep.
Qed.
End Use.

(** ** Runs that end *)

(** On one core, with several processes or with Beam, whatever the runner does: if the run
    ends, it gives the rows of all trials, which are also in the output object; every trial has
    its results object; only those objects, markers and the places given have changed. Without
    Beam the rows are in the order of the trials, and no marker is left of what was computed. *)
Theorem C57_any_way : forall L dr local data o ts g tbs xs out ca c r o',
  cloud_good_run L dr local data o ts g tbs -> cloud_places L local data ts o xs ->
  cloud_path (dr_output L dr) = Ok out -> In out xs -> cloud_call_ok L ts xs (concat tbs) ca c ->
  cloud_execute L dr ca c o = Some (r, o') ->
  exists tb, r = Ok tb /\ Permutation tb (concat tbs) /\ (ca_beam ca = false -> tb = concat tbs) /\
    obj_find o' out = Some (lab_print L tb) /\ cloud_results L (to_path local) ts tbs o' /\
    cloud_touches L (dr_seed L dr) g (to_path local) ts xs o o' /\
    (ca_beam ca = false -> forall t, In t ts -> obj_find o (results_object L (to_path local) t) = None ->
       obj_find o' (marker_object L (to_path local) t) = None).
Proof.
  intros L dr local data o ts g tbs xs out ca c r o' G Pl Out Iout CO E.
  pose proof (use_first L dr local data o ts g tbs G xs Pl out Out Iout ca c CO) as H. rewrite E in H.
  destruct H as [tb [H1 [H2 [H3 [[_ [_ [H4 _]]] [H5 [H6 H7]]]]]]]. cbn [fst snd] in *.
  exists tb. split; [exact H1|]. split; [exact H2|]. split; [exact H3|]. split; [exact H6|]. split; [exact H5|]. split; [exact H4|exact H7].
Qed.
Print Assumptions C57_any_way.

(** ** Runs that were stopped *)

(** After any number of runs of any kind that were stopped anywhere, also those whose attempts
    were given up halfway, a run gives the rows that the first one would have given. *)
Theorem C57_interrupted : forall L dr local data o ts g tbs xs out l ca c r o',
  cloud_good_run L dr local data o ts g tbs -> cloud_apart L local data ts -> cloud_places L local data ts o xs ->
  cloud_path (dr_output L dr) = Ok out -> In out xs ->
  Forall (fun a => cloud_call_ok L ts xs (concat tbs) (cp_call a) (cp_course a)) l ->
  cloud_call_ok L ts xs (concat tbs) ca c ->
  cloud_execute L dr ca c (cloud_after_past L dr o l) = Some (r, o') ->
  exists tb, r = Ok tb /\ Permutation tb (concat tbs) /\ (ca_beam ca = false -> tb = concat tbs) /\
    obj_find o' out = Some (lab_print L tb) /\ cloud_results L (to_path local) ts tbs o' /\
    cloud_touches L (dr_seed L dr) g (to_path local) ts xs o o'.
Proof.
  intros L dr local data o ts g tbs xs out l ca c r o' G Ap Pl Out Iout Hl CO E.
  pose proof G as [G1 [G2 [G3 [G4 [G5 [G6 [G7 [G8 [G9 [G10 G11]]]]]]]]]].
  pose proof (past_kept L dr g local data ts G7 G10 xs tbs (use_clear L local data o ts xs Pl) (use_single L local data o ts xs Pl)
    (use_deep L local data o ts xs Pl) out Out Iout G2 G11 o G4 G5 G6 G3 G1 Ap (use_outside L local data o ts xs Pl) G9 l o
    (use_kept L dr local data o ts g tbs G xs Pl) Hl) as K.
  pose proof (one_run L dr g local data ts G7 G10 xs tbs (use_clear L local data o ts xs Pl) (use_single L local data o ts xs Pl)
    (use_deep L local data o ts xs Pl) out Out Iout G2 G11 o G4 G5 G6 G3 G1 Ap (use_outside L local data o ts xs Pl) G9
    (cloud_after_past L dr o l) ca c K CO) as [_ H]. rewrite E in H.
  destruct H as [tb [H1 [H2 [H3 [H4 [H5 [H6 _]]]]]]]. cbn [fst snd] in *.
  exists tb. split; [exact H1|]. split; [exact H2|]. split; [exact H3|]. split; [exact H6|]. split; [exact H5|].
  apply (touches_trans L (dr_seed L dr) g local ts xs o (cloud_after_past L dr o l)); [apply K|apply H4].
Qed.
Print Assumptions C57_interrupted.

(** What there is after runs that were stopped anywhere: the data sets as they were; of each
    result nothing or all of it; in the output object what was there before, or a complete
    table of all rows. *)
Theorem C57_meanwhile : forall L dr local data o ts g tbs xs out l,
  cloud_good_run L dr local data o ts g tbs -> cloud_apart L local data ts -> cloud_places L local data ts o xs ->
  cloud_path (dr_output L dr) = Ok out -> In out xs ->
  Forall (fun a => cloud_call_ok L ts xs (concat tbs) (cp_call a) (cp_course a)) l ->
  let o' := cloud_after_past L dr o l in
  (forall q, within (to_path data) q -> obj_find o' q = obj_find o q) /\
  cloud_touches L (dr_seed L dr) g (to_path local) ts xs o o' /\ cloud_tables L xs (concat tbs) o o'.
Proof.
  intros L dr local data o ts g tbs xs out l G Ap Pl Out Iout Hl o'.
  pose proof G as [G1 [G2 [G3 [G4 [G5 [G6 [G7 [G8 [G9 [G10 G11]]]]]]]]]].
  pose proof (past_kept L dr g local data ts G7 G10 xs tbs (use_clear L local data o ts xs Pl) (use_single L local data o ts xs Pl)
    (use_deep L local data o ts xs Pl) out Out Iout G2 G11 o G4 G5 G6 G3 G1 Ap (use_outside L local data o ts xs Pl) G9 l o
    (use_kept L dr local data o ts g tbs G xs Pl) Hl) as K. fold o' in K. destruct K as [_ [_ [T Tb]]].
  split; [|split; [exact T|exact Tb]]. intros q W. apply (proj2 T).
  - intros t It. destruct (Ap t It) as [B1 B2]. split; intros ->; [exact (B1 W)|exact (B2 W)].
  - intros I. exact (use_outside L local data o ts xs Pl q I W).
Qed.
Print Assumptions C57_meanwhile.

(** A run whose attempts make enough requests comes to an end, also after such runs. *)
Theorem C57_ends : forall L dr local data o ts g tbs xs out l ca c,
  cloud_good_run L dr local data o ts g tbs -> cloud_apart L local data ts -> cloud_places L local data ts o xs ->
  cloud_path (dr_output L dr) = Ok out -> In out xs ->
  Forall (fun a => cloud_call_ok L ts xs (concat tbs) (cp_call a) (cp_course a)) l ->
  cloud_call_ok L ts xs (concat tbs) ca c -> enough_requests ts ca c ->
  exists r o', cloud_execute L dr ca c (cloud_after_past L dr o l) = Some (r, o').
Proof.
  intros L dr local data o ts g tbs xs out l ca c G Ap Pl Out Iout Hl CO [N1 N2].
  pose proof G as [G1 [G2 [G3 [G4 [G5 [G6 [G7 [G8 [G9 [G10 G11]]]]]]]]]].
  pose proof (past_kept L dr g local data ts G7 G10 xs tbs (use_clear L local data o ts xs Pl) (use_single L local data o ts xs Pl)
    (use_deep L local data o ts xs Pl) out Out Iout G2 G11 o G4 G5 G6 G3 G1 Ap (use_outside L local data o ts xs Pl) G9 l o
    (use_kept L dr local data o ts g tbs G xs Pl) Hl) as K.
  assert (X : cloud_execute L dr ca c (cloud_after_past L dr o l) <> None).
  { eapply run_goes_on; eauto using use_clear, use_single, use_outside. }
  destruct (cloud_execute L dr ca c (cloud_after_past L dr o l)) as [[r o']|]; [|contradiction]. exists r, o'. reflexivity.
Qed.
Print Assumptions C57_ends.

(** ** The temporary object *)

(** With the options that main passes on it is in the directory of the results, which is a
    place for it unless a data set has its name. *)
Theorem C57_temporary : forall L local data ts o cores beam,
  cloud_trials L local ts -> (forall t, In t ts -> tr_data_set t <> "temp_result.csv"%string) ->
  let temp := entry (to_path local) "temp_result.csv" in
  ~ within (to_path data) temp -> (forall q c, In (q, c) o -> within temp q -> q = temp) ->
  cloud_temp (ca_temp (main_call cores beam (cloud_address local))) = Ok temp /\
  cloud_places L local data ts o [temp].
Proof.
  intros L local data ts o cores beam S N temp D F. split; [apply temp_address; apply S|].
  intros x [<-|[]]. split; [unfold temp; rewrite entry_length; pose proof (proj1 (proj2 S)); lia|].
  split; [exact D|]. split; [exact F|]. split; [|intros y [<-|[]] _; reflexivity].
  intros t I. exact (temp_clear L local ts S t (N t I)).
Qed.
Print Assumptions C57_temporary.

Section Stage.
Variable L : lab.
Variable dr : driver L.
Variables local data : string.
Variable o : objects.
Variable ts : list trial.
Variable g : generators L.
Variable tbs : list table.
Hypothesis Good : cloud_good_run L dr local data o ts g tbs.

(** With Beam, once all results are there. *)
Lemma beam_stage ca c r o' : ca_beam ca = true -> (forall i, In i (cc_attempts c) -> (i < length ts)%nat) ->
  (forall l, Permutation (inputs_of (cc_combine c l)) l) ->
  cloud_execute L dr ca c o = Some (r, o') ->
  exists o1 tb, Permutation tb (concat tbs) /\ cloud_finish (cloud_through_file L dr (ca_temp ca) tb) o1 = (r, o') /\
    cloud_usable L (to_path local) ts o1 /\ cloud_results L (to_path local) ts tbs o1 /\
    cloud_touches L (dr_seed L dr) g (to_path local) ts [] o o1.
Proof.
  intros B C1 C2 E. destruct Good as [G1 [G2 [G3 [G4 [G5 [G6 [G7 [G8 [G9 [G10 G11]]]]]]]]]]. unfold cloud_execute in E. rewrite G1 in E.
  unfold cloud_begin in E. rewrite B in E.
  pose proof (attempts_leave L dr g local ts G7 G10 [] tbs (fun x (X : In x []) => match X with end) (fun x y (X : In x []) => match X with end)
    (cc_now c) (cc_attempts c) (cc_schedule c) o C1 G8 (fun x q c (X : In x []) => match X with end) (answers_readable _ _ _ _ _ _ _ G9)) as H.
  destruct (cloud_interleave _ o _) as [o1 ps]. destruct H as [[U [_ [T _]]] [_ [H _]]].
  destruct (used_results L (cc_attempts c) ps (cc_used c) 0 (length ts)) as [rs|] eqn:Eu; [|discriminate E].
  destruct (all_results L dr g local ts tbs G2 o o1 _ ps _ G9 H rs Eu) as [-> [St _]]. cbn [bind] in E.
  destruct (tbs_len L dr g local ts tbs G2 o G9) as [_ Ne].
  destruct (C38_combine_any (cc_combine c tbs) tbs (C2 tbs) Ne) as [tb [Et Pt]]. rewrite Et in E. cbn [bind] in E.
  exists o1, tb. split; [exact Pt|]. split; [injection E as E; exact E|]. split; [exact U|]. split; [exact St|exact T].
Qed.
End Stage.

(** Without a location for temporary files a run with Beam fails, after all trials have been
    evaluated; their results are stored, and nothing else is. *)
Theorem C57_no_temporary : forall L dr local data o ts g tbs ca c r o',
  cloud_good_run L dr local data o ts g tbs -> ca_beam ca = true -> ca_temp ca = ""%string ->
  (forall i, In i (cc_attempts c) -> (i < length ts)%nat) -> (forall l, Permutation (inputs_of (cc_combine c l)) l) ->
  cloud_execute L dr ca c o = Some (r, o') ->
  r = Err OtherError /\ cloud_results L (to_path local) ts tbs o' /\
  cloud_touches L (dr_seed L dr) g (to_path local) ts [] o o'.
Proof.
  intros L dr local data o ts g tbs ca c r o' G B Te C1 C2 E.
  destruct (beam_stage L dr local data o ts g tbs G ca c r o' B C1 C2 E) as [o1 [tb [_ [F [_ [H1 H2]]]]]].
  unfold cloud_through_file in F. rewrite Te in F. change (cloud_temp "") with (@Err path OtherError) in F. cbn [cloud_finish] in F.
  apply pair_eq in F. destruct F as [<- <-]. split; [reflexivity|]. split; assumption.
Qed.
Print Assumptions C57_no_temporary.

(** A data set with the name of the temporary object: every run that main makes with Beam
    fails, after all trials have been evaluated. *)
Theorem C57_temporary_taken : forall L dr local data o ts g tbs cores c t r o',
  cloud_good_run L dr local data o ts g tbs -> In t ts -> tr_data_set t = "temp_result.csv"%string ->
  obj_find o (entry (to_path local) "temp_result.csv") = None ->
  (forall i, In i (cc_attempts c) -> (i < length ts)%nat) -> (forall l, Permutation (inputs_of (cc_combine c l)) l) ->
  cloud_execute L dr (main_call cores true (cloud_address local)) c o = Some (r, o') ->
  r = Err OtherError /\ cloud_results L (to_path local) ts tbs o'.
Proof.
  intros L dr local data o ts g tbs cores c t r o' G It Dt N C1 C2 E.
  destruct (beam_stage L dr local data o ts g tbs G (main_call cores true (cloud_address local)) c r o' eq_refl C1 C2 E)
    as [o1 [tb [_ [F [U [H1 [T1 T2]]]]]]].
  destruct G as [G1 [G2 [G3 [G4 [G5 [G6 [G7 _]]]]]]].
  unfold cloud_through_file in F. cbn [ca_temp main_call] in F. rewrite temp_address in F by apply G7.
  set (temp := entry (to_path local) "temp_result.csv") in *.
  assert (S : cloud_stat o1 temp = Some Dir).
  { apply cloud_stat_dir; [unfold temp; rewrite entry_length; pose proof (proj1 (proj2 G7)); lia|]. split.
    - rewrite T2; [exact N| |intros []]. intros u Iu. split; [|apply (temp_not_M L local ts G7)].
      intros X. apply (f_equal (fun p => length (snd p))) in X. unfold temp in X. rewrite entry_length, R_length in X. lia.
    - assert (exists x, obj_find o1 (results_object L (to_path local) t) = Some x) as [x Ex].
      { clear -H1 It. induction H1 as [|t0 tb0 l l' [x [Ex _]] H IH]; [destruct It|]. destruct It as [->|It]; [exists x; exact Ex|exact (IH It)]. }
      exists (results_object L (to_path local) t), x. split; [apply obj_find_some_in; exact Ex|].
      unfold results_object. rewrite Dt. fold temp. split; [eexists; unfold entry at 1; reflexivity|].
      intros X. apply (f_equal (fun p => length (snd p))) in X. rewrite entry_length in X. lia. }
  unfold write_object in F. cbn [cloud_finish] in F. rewrite S in F. cbn [cloud_finish] in F.
  apply pair_eq in F. destruct F as [<- <-]. split; [reflexivity|exact H1].
Qed.
Print Assumptions C57_temporary_taken.

(** ** Runs that fail *)

(** If a trial without a results object cannot be computed, the run fails. *)
Theorem C57_failure : forall L dr local o ts g t ca c r o',
  cloud_prepare L dr o = Ok (ts, g) -> cloud_trials L local ts -> cloud_usable L (to_path local) ts o ->
  reads_back L (dr_seed L dr) g ts ->
  (forall u x, In u ts -> obj_find o (results_object L (to_path local) u) = Some x -> exists tb, lab_parse L x = Ok tb) ->
  In t ts -> obj_find o (results_object L (to_path local) t) = None ->
  (forall g', exists e, fst (compute_row L t (dr_seed L dr) g') = Err e) ->
  (ca_beam ca = true -> forall i, In i (cc_attempts c) -> (i < length ts)%nat) ->
  cloud_execute L dr ca c o = Some (r, o') -> exists e, r = Err e.
Proof.
  intros L dr local o ts g t ca c r o' P S U RB Rd It N Bad Ha E.
  exact (cloud_fails L dr g local ts S t It Bad o ca c r o' P RB U Rd N Ha E).
Qed.
Print Assumptions C57_failure.

(** Whatever goes wrong before the first trial, nothing has been written: if the design of the
    experiments cannot be loaded, or a data set cannot be read. *)
Theorem C57_no_design : forall L dr data ca c o e, has_address data -> dr_data_design L dr = cloud_address data ->
  dr_fetch L dr (dr_seed L dr) = Err e -> cloud_execute L dr ca c o = Some (Err e, o).
Proof.
  intros L dr data ca c o e Ha Ed F. unfold cloud_execute, cloud_prepare. rewrite Ed.
  destruct (cloud_open o data Ha) as [de [-> _]]. cbn [bind]. rewrite F. reflexivity.
Qed.
Print Assumptions C57_no_design.

Theorem C57_unreadable : forall L dr data ca c o descs g n desc,
  has_address data -> dr_data_design L dr = cloud_address data -> dr_fetch L dr (dr_seed L dr) = Ok (descs, g) ->
  cloud_stat o (entry (to_path data) n) = Some Dir -> In desc descs ->
  (exists e, cloud_read_data_set (lab_float L) o (os_join (dr_data_design L dr) n) = Err e) \/
  (exists s f e, cloud_read_data_set (lab_float L) o (os_join (dr_data_design L dr) n) = Ok s /\
     sp_fractions_generator (td_system desc) = Some f /\ f s = Err e) ->
  exists e, cloud_execute L dr ca c o = Some (Err e, o).
Proof.
  intros L dr data ca c o descs g n desc Ha Ed Ef Hn Hd Bad. unfold cloud_execute, cloud_prepare.
  destruct (cloud_open o data Ha) as [de [E1 [E2 [E3 E4]]]]. rewrite Ed in Bad |- *. rewrite E1. cbn [bind]. rewrite Ef. cbn [bind].
  assert (X : exists e, generate_trials L {| xd_dir := dr_intermediates L dr; xd_data := cloud_opened L o de;
     xd_descriptors := descs; xd_seed := dr_seed L dr; xd_analysis := dr_analysis L dr |} = Err e).
  { unfold generate_trials. cbn [xd_data cloud_opened dd_names].
    match goal with |- context [mapM ?f ?l] => assert (X : exists e, f n = Err e) end.
    { unfold experiment_trials. cbn [xd_data cloud_opened dd_by_name xd_descriptors xd_dir xd_analysis].
      rewrite cloud_first_read, E2.
      match goal with |- exists e, mapM ?f ?l = Err e => assert (X : exists e, f desc = Err e) end.
      { destruct Bad as [[e1 ->]|[s [f [e1 [-> [Eg Es]]]]]]; [exists e1; reflexivity|]. cbn [bind].
        unfold update_descriptor, update_system. rewrite Eg, Es. cbn [bind]. eauto. }
      destruct X as [e1 X]. exact (mapM_one_err _ _ _ _ Hd X). }
    destruct X as [e1 X].
    match goal with |- context [mapM ?f ?l] => destruct (mapM_one_err f l n e1) as [e2 ->] end; [|exact X|cbn [bind]; eauto].
    apply (Permutation_in _ (Permutation_sym (sorted_names_perm de))). apply E4. exact Hn. }
  destruct X as [e1 ->]. exists e1. reflexivity.
Qed.
Print Assumptions C57_unreadable.

(** Without data sets, also when there is nothing at all at the address of the data design,
    there is nothing to put together; nothing is written. *)
Theorem C57_no_data_sets : forall L dr data ca c o descs g r o',
  has_address data -> dr_data_design L dr = cloud_address data -> dr_fetch L dr (dr_seed L dr) = Ok (descs, g) ->
  (forall n, cloud_stat o (entry (to_path data) n) <> Some Dir) ->
  (ca_beam ca = true -> cc_attempts c = [] /\ forall l, Permutation (inputs_of (cc_combine c l)) l) ->
  cloud_execute L dr ca c o = Some (r, o') -> r = Err ValueError /\ o' = o.
Proof.
  intros L dr data ca c o descs g r o' Ha Ed Ef N B E. unfold cloud_execute in E.
  assert (P : cloud_prepare L dr o = Ok ([], g)).
  { unfold cloud_prepare. rewrite Ed. destruct (cloud_open o data Ha) as [de [E1 [E2 [E3 E4]]]]. rewrite E1. cbn [bind]. rewrite Ef. cbn [bind].
    assert (de_names de = []) as X.
    { destruct (de_names de) as [|n l] eqn:En; [reflexivity|]. exfalso. apply (N n). apply E4. left. reflexivity. }
    unfold generate_trials. cbn [xd_data cloud_opened dd_names]. unfold sorted_names. rewrite X. reflexivity. }
  rewrite P in E. unfold cloud_begin in E.
  assert (I : forall s, cloud_interleave s o (@nil (cprog (result table * generators L))) = (o, [])).
  { intros s. induction s as [|i s IH]; [reflexivity|]. cbn [cloud_interleave]. destruct i; exact IH. }
  destruct (ca_beam ca); [|destruct (ca_cores ca =? 1)].
  - destruct (B eq_refl) as [B1 B2]. rewrite B1 in E. unfold attempt_programs in E. cbn [length seq combine map] in E. rewrite I in E.
    cbn [used_results length bind] in E.
    assert (X : combine_output (cc_combine c []) = Err ValueError).
    { rewrite C38_combine. pose proof (B2 []) as Q. apply Permutation_sym, Permutation_nil in Q. rewrite Q. reflexivity. }
    rewrite X in E. cbn [bind] in E. injection E as <- <-. split; reflexivity.
  - cbn in E. injection E as <- <-. split; reflexivity.
  - unfold attempt_programs in E. cbn [length seq combine map] in E. rewrite I in E. cbn in E. injection E as <- <-. split; reflexivity.
Qed.
Print Assumptions C57_no_data_sets.

(** ** Which trials are run *)

(** As on a disk: for the directories of the data design, in the order of their names, and
    within a data set for the descriptors in their order; of trials with the same name the
    first one stays. *)
Theorem C57_trials : forall L dr data o ts g,
  has_address data -> dr_data_design L dr = cloud_address data -> cloud_prepare L dr o = Ok (ts, g) ->
  exists names descs all, cloud_data_sets data o names /\ dr_fetch L dr (dr_seed L dr) = Ok (descs, g) /\
    ((forall desc, In desc descs -> NoDup (map fst (ep_test_kwargs (td_experiment desc)))) ->
     Forall2 (fun nd t => cloud_trial_on L dr o (fst nd) (snd nd) t) (list_prod names descs) all) /\
    part_of ts all /\ NoDup (map (trial_name L) ts) /\
    (forall t, In t ts -> exists l1 l2, all = l1 ++ t :: l2 /\
       forall u, In u l1 -> trial_name L u <> trial_name L t) /\
    forall t, In t all -> exists t', In t' ts /\ trial_name L t' = trial_name L t.
Proof.
  intros L dr data o ts g Ha Ed R. unfold cloud_prepare in R.
  destruct (cloud_open o data Ha) as [de [E1 [E2 [E3 E4]]]]. rewrite Ed, E1 in R. cbn [bind] in R.
  destruct (dr_fetch L dr (dr_seed L dr)) as [[descs g']|e] eqn:Ef; cbn [bind] in *; [|discriminate].
  match type of R with context [generate_trials L ?x] => set (x0 := x) in * end.
  destruct (generate_trials L x0) as [ts0|] eqn:G; cbn [bind] in R; [|discriminate].
  assert (ts0 = ts) by congruence. assert (g' = g) by congruence. subst ts0 g'.
  unfold generate_trials in G.
  destruct (mapM (experiment_trials x0) (dd_names (xd_data x0))) as [all|] eqn:Ea; cbn [bind] in G; [|discriminate].
  exists (sorted_names de), descs, (concat all). split.
  { split; [apply sorted_names_sorted; exact E3|]. intros n. rewrite <- E4.
    split; intros X; [apply (Permutation_in _ (sorted_names_perm de)); exact X|apply (Permutation_in _ (Permutation_sym (sorted_names_perm de))); exact X]. }
  split; [reflexivity|]. split.
  - intros Dic. pose proof (all_trials x0 all Dic Ea) as Al.
    eapply Forall2_impl_In; [|exact Al]. intros [n desc] t Hn _ [T1 [T2 [T3 [T4 [s [T5 T6]]]]]]. cbn [fst snd] in *.
    split; [exact T1|]. split; [exact T3|]. split; [exact T4|]. exists s. split; [|split; [|exact T6]].
    + cbn [x0 xd_data cloud_opened dd_by_name] in T5. rewrite cloud_first_read, E2 in T5. rewrite Ed. exact T5.
    + rewrite T2. exact T5.
  - assert (ts = remove_duplicates L [] (concat all)) as -> by congruence.
    destruct (dedup_spec L (concat all) []) as [P [N [_ [C F]]]].
    split; [exact P|]. split; [exact N|]. split; [exact F|]. intros t Ht. destruct (C t Ht) as [[]|X]. exact X.
Qed.
Print Assumptions C57_trials.

(** ** Examples *)

(** Two replicas on one data set in a bucket. *)
Definition bucket : objects :=
  [(to_path "/x/data/ds/p", chars "1,1" ++ newline :: chars "2,4" ++ [newline]); (to_path "/x/notes", chars "z")].
Definition bucket_driver : driver strict :=
  {| dr_data_design := "gs://x/data";
     dr_fetch := fun _ => Ok ([toy_descriptor 0 0; toy_descriptor 1 1; toy_descriptor 0 0], strict_start);
     dr_output := "gs://x/out.csv"; dr_intermediates := "gs://x/exp"; dr_seed := 1; dr_analysis := "" |}.
Definition bucket_opened : data_design :=
  match cloud_mk_design bucket "gs://x/data" with Ok de => cloud_opened strict bucket de | Err _ => toy_design end.
Definition bucket_trial (generator : nat) (replica : Z) : trial :=
  {| tr_experiment_dir := "gs://x/exp"; tr_design := bucket_opened; tr_data_set := "ds";
     tr_descriptor := toy_descriptor generator replica; tr_analysis := "" |}.
Definition bucket_run : list trial := [bucket_trial 0 0; bucket_trial 1 1].

Lemma bucket_ok : objects_ok bucket.
Proof.
  split; [repeat constructor; cbn; intros X; repeat (destruct X as [X|X]; [discriminate X|]); exact X|]. split.
  - intros p c [X|[X|[]]]; apply pair_eq in X; destruct X as [<- _]; split; try reflexivity; vm_compute; lia.
  - intros p q c c' [X|[X|[]]] [Y|[Y|[]]] W; apply pair_eq in X; destruct X as [<- _]; apply pair_eq in Y; destruct Y as [<- _];
      try reflexivity; destruct W as [r W]; vm_compute in W; discriminate W.
Qed.
Lemma bucket_sane : cloud_trials strict "/x/exp" bucket_run.
Proof.
  split; [eexists; reflexivity|]. split; [vm_compute; lia|]. split; [vm_compute; discriminate|]. split; [|split].
  - intros t I. assert (exists n r, (r = 0 \/ r = 1) /\ t = bucket_trial n r) as [n [r [Hr ->]]].
    { destruct I as [<-|[<-|[]]]; eexists _, _; (split; [|reflexivity]); auto. }
    split; [reflexivity|]. split; [|split].
    + split; [discriminate|]. split; [discriminate|]. split; [discriminate|].
      cbn. intros X. repeat (destruct X as [X|X]; [discriminate|]). exact X.
    + apply (no_slash_toy n r Hr).
    + apply toy_md5_name.
  - intros t t' [<-|[<-|[]]] [<-|[<-|[]]] E; try reflexivity; vm_compute in E; discriminate.
  - intros t t' [<-|[<-|[]]] [<-|[<-|[]]] _ E; try reflexivity; vm_compute in E; discriminate.
Qed.
Lemma bucket_clear p c t : In (p, c) bucket -> ~ within (results_object strict (to_path "/x/exp") t) p /\
  ~ within (marker_object strict (to_path "/x/exp") t) p.
Proof.
  intros [X|[X|[]]]; apply pair_eq in X; destruct X as [<- _]; split; intros [r E]; apply (f_equal snd) in E; cbn in E; discriminate E.
Qed.
Lemma bucket_usable : cloud_usable strict (to_path "/x/exp") bucket_run bucket.
Proof.
  split; [apply bucket_ok|]. intros t q c _ J. destruct (bucket_clear q c t J) as [A B]. split; intros W; [destruct (A W)|destruct (B W)].
Qed.
Lemma bucket_absent t : obj_find bucket (results_object strict (to_path "/x/exp") t) = None.
Proof.
  apply obj_find_none. intros I. apply in_map_iff in I. destruct I as [[q c] [E I]]. cbn [fst] in E. subst q.
  destruct (bucket_clear _ c t I) as [A _]. apply A, within_refl.
Qed.
Lemma bucket_rows n r g : (n = 0 /\ r = 0 \/ n = 1 /\ r = 1)%Z -> g (Z.to_nat n) = 0 ->
  fst (compute_row strict (bucket_trial (Z.to_nat n) r) 1 g) = Ok (toy_row r 0).
Proof.
  intros H E. rewrite (compute_row_own strict _ _ g strict_start) by exact E.
  destruct H as [[-> ->]|[-> ->]]; vm_compute; reflexivity.
Qed.
Lemma bucket_address : has_address "/x/data".
Proof.
  split; [eexists; reflexivity|]. split; [vm_compute; discriminate|]. intros a b E.
  assert (forall n s, String.length s = n -> forall u, s = String.append u (String.append "://" b) -> In ":"%char (list_ascii_of_string s)) as G.
  { intros n s _ u ->. rewrite list_ascii_app. apply in_or_app. right. left. reflexivity. }
  specialize (G _ "/x/data"%string eq_refl a E). cbn in G. repeat (destruct G as [G|G]; [discriminate|]). exact G.
Qed.
Lemma bucket_entries n : cloud_stat bucket (entry (to_path "/x/data") n) = Some Dir -> n = "ds"%string.
Proof.
  intros E. apply cloud_stat_dir in E; [|rewrite entry_length; vm_compute; lia]. destruct E as [_ [q [c [I [[r W] _]]]]].
  destruct I as [I|[I|[]]]; apply pair_eq in I; destruct I as [<- _]; apply (f_equal snd) in W; cbn in W; congruence.
Qed.
Lemma bucket_good : cloud_good_run strict bucket_driver "/x/exp" "/x/data" bucket bucket_run strict_start toy_tables.
Proof.
  split; [reflexivity|]. split; [discriminate|]. split; [exact bucket_ok|]. split; [exact bucket_address|].
  split; [reflexivity|]. split; [|split; [exact bucket_sane|split; [exact bucket_usable|split; [|split]]]].
  - intros n Hn. rewrite (bucket_entries n Hn). split; [discriminate|]. split; [discriminate|]. split; [discriminate|].
    cbn. intros X. repeat (destruct X as [X|X]; [discriminate|]). exact X.
  - constructor; [|constructor; [|constructor]]; right; (split; [apply bucket_absent|]); eexists;
      (split; [|reflexivity]); [apply (bucket_rows 0 0)|apply (bucket_rows 1 1)]; auto.
  - intros t row [<-|[<-|[]]] E; [rewrite (bucket_rows 0 0) in E by auto|rewrite (bucket_rows 1 1) in E by auto];
      injection E as <-; apply strict_round_trips; auto.
  - apply own_generators_unaffected. intros t t' [<-|[<-|[]]] [<-|[<-|[]]] E; try reflexivity; discriminate.
Qed.
Lemma bucket_apart : cloud_apart strict "/x/exp" "/x/data" bucket_run.
Proof. intros t _. split; intros [r E]; apply (f_equal snd) in E; cbn in E; discriminate E. Qed.
Definition bucket_places : list path := [to_path "/x/out.csv"; to_path "/x/exp/temp_result.csv"].
Lemma bucket_place : cloud_places strict "/x/exp" "/x/data" bucket_run bucket bucket_places.
Proof.
  intros x Hx. split; [destruct Hx as [<-|[<-|[]]]; vm_compute; lia|]. split; [|split; [|split]].
  - destruct Hx as [<-|[<-|[]]]; intros [r E]; apply (f_equal snd) in E; cbn in E; discriminate E.
  - intros q c [I|[I|[]]]; apply pair_eq in I; destruct I as [<- _]; intros [r E]; apply (f_equal snd) in E;
      destruct Hx as [<-|[<-|[]]]; cbn in E; discriminate E.
  - intros t Ht. assert (D : tr_data_set t = "ds"%string) by (destruct Ht as [<-|[<-|[]]]; reflexivity).
    unfold results_object, marker_object. rewrite D.
    destruct Hx as [<-|[<-|[]]]; repeat split; intros [r E]; apply (f_equal snd) in E; cbn in E; discriminate E.
  - intros y Hy [r E]. apply (f_equal snd) in E. destruct Hx as [<-|[<-|[]]], Hy as [<-|[<-|[]]]; cbn in E; try reflexivity; discriminate E.
Qed.

(** Whatever was stopped before, and whichever way it is run. *)
Definition bucket_calls (ca : call) (c : cloud_course) : Prop :=
  Forall (fun i => (i < 2)%nat) (cc_attempts c) /\ (forall l, Permutation (inputs_of (cc_combine c l)) l) /\
  ca_temp ca = "gs://x/exp"%string.
Lemma bucket_call ca c : bucket_calls ca c -> cloud_call_ok strict bucket_run bucket_places (concat toy_tables) ca c.
Proof.
  intros [A [B C]] _. split; [apply Forall_forall; exact A|]. split; [exact B|]. split; [exact toy_reads_tables|].
  rewrite C. eexists. split; [reflexivity|right; left; reflexivity].
Qed.
Example C57_example : forall l ca c r o',
  Forall (fun a => bucket_calls (cp_call a) (cp_course a)) l -> bucket_calls ca c ->
  cloud_execute strict bucket_driver ca c (cloud_after_past strict bucket_driver bucket l) = Some (r, o') ->
  exists tb, r = Ok tb /\ Permutation tb [toy_row 0 0; toy_row 1 0] /\
    obj_find o' (to_path "/x/out.csv") = Some (toy_print tb) /\
    (ca_beam ca = false -> tb = [toy_row 0 0; toy_row 1 0]) /\ obj_find o' (to_path "/x/notes") = Some (chars "z").
Proof.
  intros l ca c r o' Hl Hc E.
  destruct (C57_interrupted strict bucket_driver "/x/exp" "/x/data" bucket bucket_run strict_start toy_tables bucket_places
    (to_path "/x/out.csv") l ca c r o' bucket_good bucket_apart bucket_place eq_refl (or_introl eq_refl))
    as [tb [H1 [H2 [H3 [H4 [_ [_ H5]]]]]]].
  - eapply Forall_impl; [|exact Hl]. intros a. apply bucket_call.
  - apply bucket_call. exact Hc.
  - exact E.
  - exists tb. split; [exact H1|]. split; [exact H2|]. split; [exact H4|]. split; [exact H3|].
    rewrite H5; [reflexivity| |].
    + intros t _. split; intros X; apply (f_equal snd) in X; cbn in X; discriminate X.
    + intros [X|[X|[]]]; apply (f_equal snd) in X; cbn in X; discriminate X.
Qed.
(** With Beam: the second trial is attempted twice, at the same time, and the second attempt
    counts. *)
Definition bucket_course : cloud_course :=
  {| cc_now := fun _ => []; cc_later := fun _ => []; cc_attempts := [0; 1; 1]%nat;
     cc_schedule := [0; 1; 2; 2; 1; 0]%nat ++ repeat 1%nat 2 ++ repeat 0%nat 6 ++ repeat 2%nat 6;
     cc_used := fun i => match i with O => 0%nat | _ => 2%nat end; cc_combine := Inputs |}.
Example C57_ends_example : exists tb o',
  cloud_execute strict bucket_driver (main_call 1 true "gs://x/exp") bucket_course bucket = Some (Ok tb, o') /\
  Permutation tb [toy_row 0 0; toy_row 1 0].
Proof.
  assert (C : bucket_calls (main_call 1 true "gs://x/exp") bucket_course).
  { split; [repeat constructor|]. split; [intros l0; apply Permutation_refl|reflexivity]. }
  destruct (C57_ends strict bucket_driver "/x/exp" "/x/data" bucket bucket_run strict_start toy_tables bucket_places
    (to_path "/x/out.csv") [] (main_call 1 true "gs://x/exp") bucket_course bucket_good bucket_apart bucket_place eq_refl
    (or_introl eq_refl) (Forall_nil _) (bucket_call _ _ C)) as [r [o' E]].
  - split; [|discriminate]. intros _ i Hi. destruct i as [|[|i]]; [split; [reflexivity|vm_compute; lia]..|cbn in Hi; lia].
  - destruct (C57_any_way strict bucket_driver "/x/exp" "/x/data" bucket bucket_run strict_start toy_tables bucket_places
      (to_path "/x/out.csv") _ _ r o' bucket_good bucket_place eq_refl (or_introl eq_refl) (bucket_call _ _ C) E)
      as [tb [-> [P _]]].
    exists tb, o'. split; [exact E|exact P].
Qed.

(** Without a location for temporary files the evaluation was for nothing. *)
Example C57_no_temporary_example : forall r o',
  cloud_execute strict bucket_driver (main_call 1 true "") bucket_course bucket = Some (r, o') ->
  r = Err OtherError /\ obj_find o' (to_path "/x/out.csv") = None.
Proof.
  intros r o' E.
  destruct (C57_no_temporary strict bucket_driver "/x/exp" "/x/data" bucket bucket_run strict_start toy_tables (main_call 1 true "") bucket_course r o' bucket_good eq_refl eq_refl)
    as [-> [_ [_ T]]].
  - intros i [<-|[<-|[<-|[]]]]; cbn; lia.
  - intros l. apply Permutation_refl.
  - exact E.
  - split; [reflexivity|]. rewrite T; [reflexivity| |intros []].
    intros t _. split; intros X; apply (f_equal snd) in X; cbn in X; discriminate X.
Qed.

(** A data set called temp_result.csv. *)
Definition taken_bucket : objects :=
  [(to_path "/x/data/temp_result.csv/p", chars "1,1" ++ newline :: chars "2,4" ++ [newline])].
Definition bare : lab := toy_with (fun _ => []) (fun _ => Err ValueError).
Definition taken_trial : trial :=
  {| tr_experiment_dir := "gs://x/exp"; tr_design := match cloud_mk_design taken_bucket "gs://x/data" with
       Ok de => cloud_opened bare taken_bucket de | Err _ => toy_design end; tr_data_set := "temp_result.csv";
     tr_descriptor := toy_descriptor 0 0; tr_analysis := "" |}.
Definition taken_row : list (string * cell) :=
  match fst (compute_row bare taken_trial 1 ((fun _ => 0) : generators bare)) with Ok row => row | Err _ => [] end.
(** Tables with this row only. *)
Definition single : lab := toy_with (fun _ => chars "t") (fun _ => Ok [taken_row]).
Definition single_start : generators single := fun _ => 0.
Definition taken_driver : driver single :=
  {| dr_data_design := "gs://x/data"; dr_fetch := fun _ => Ok ([toy_descriptor 0 0], single_start);
     dr_output := "gs://x/out.csv"; dr_intermediates := "gs://x/exp"; dr_seed := 1; dr_analysis := "" |}.
Lemma taken_good : cloud_good_run single taken_driver "/x/exp" "/x/data" taken_bucket [taken_trial] single_start [[taken_row]].
Proof.
  assert (C : forall p c t, In (p, c) taken_bucket -> ~ within (results_object single (to_path "/x/exp") t) p /\
    ~ within (marker_object single (to_path "/x/exp") t) p).
  { intros p c t [X|[]]. apply pair_eq in X. destruct X as [<- _]. split; intros [r E]; apply (f_equal snd) in E; cbn in E; discriminate E. }
  assert (O : objects_ok taken_bucket).
  { split; [repeat constructor; intros []|]. split.
    - intros p c [X|[]]. apply pair_eq in X. destruct X as [<- _]. split; [reflexivity|vm_compute; lia].
    - intros p q c c' [X|[]] [Y|[]] _. apply pair_eq in X. destruct X as [<- _]. apply pair_eq in Y. destruct Y as [<- _]. reflexivity. }
  assert (F : file_name "temp_result.csv").
  { split; [discriminate|]. split; [discriminate|]. split; [discriminate|].
    cbn. intros X. repeat (destruct X as [X|X]; [discriminate|]). exact X. }
  split; [reflexivity|]. split; [discriminate|]. split; [exact O|]. split; [exact bucket_address|].
  split; [reflexivity|]. split; [|split; [|split; [|split; [|split]]]].
  - intros n E. apply cloud_stat_dir in E; [|rewrite entry_length; vm_compute; lia]. destruct E as [_ [q [c [I [[r W] _]]]]].
    destruct I as [I|[]]; apply pair_eq in I; destruct I as [<- _]; apply (f_equal snd) in W; cbn in W.
    injection W as <- _. exact F.
  - split; [eexists; reflexivity|]. split; [vm_compute; lia|]. split; [vm_compute; discriminate|]. split; [|split].
    + intros t [<-|[]]. split; [reflexivity|]. split; [exact F|]. split; [apply (no_slash_toy 0 0); auto|apply toy_md5_name].
    + intros t t' [<-|[]] [<-|[]] _. reflexivity.
    + intros t t' [<-|[]] [<-|[]] _ _. reflexivity.
  - split; [exact (proj1 O)|]. intros t q c _ J. destruct (C q c t J) as [A B]. split; intros W; [destruct (A W)|destruct (B W)].
  - constructor; [|constructor]. right. split.
    + apply obj_find_none. intros I. apply in_map_iff in I. destruct I as [[q c] [E I]]. cbn [fst] in E. subst q.
      destruct (C _ c taken_trial I) as [A _]. apply A, within_refl.
    + exists taken_row. split; [vm_compute; reflexivity|reflexivity].
  - intros t row [<-|[]] E. assert (X : fst (compute_row single taken_trial (dr_seed single taken_driver) single_start) = Ok taken_row)
      by (vm_compute; reflexivity). rewrite X in E. injection E as <-. reflexivity.
  - intros t l [<-|[]] Hl. apply compute_row_own. apply after_computing_other. intros x Hx _. destruct (Hl x Hx) as [[<-|[]] N]. apply N. reflexivity.
Qed.
Definition taken_course : cloud_course :=
  {| cc_now := fun _ => []; cc_later := fun _ => []; cc_attempts := [0%nat]; cc_schedule := repeat 0%nat 8;
       cc_used := fun i => i; cc_combine := Inputs |}.
Example C57_temporary_taken_example : exists o',
  cloud_execute single taken_driver (main_call 1 true "gs://x/exp") taken_course taken_bucket = Some (Err OtherError, o') /\
  cloud_results single (to_path "/x/exp") [taken_trial] [[taken_row]] o'.
Proof.
  destruct (cloud_execute single taken_driver (main_call 1 true "gs://x/exp") taken_course taken_bucket) as [[r o']|] eqn:E; [|vm_compute in E; discriminate E].
  destruct (C57_temporary_taken single taken_driver "/x/exp" "/x/data" taken_bucket [taken_trial] single_start [[taken_row]] 1 taken_course taken_trial r o'
    taken_good (or_introl eq_refl) eq_refl eq_refl) as [-> R].
  - cbn. intros i [<-|[]]. lia.
  - intros l. apply Permutation_refl.
  - exact E.
  - exists o'. split; [reflexivity|exact R].
Qed.

(** A data set that has only a directory in it. *)
Definition hollow_bucket : objects := [(to_path "/x/data/ds/sub/p", chars "1,1")].
Definition hollow_trial : trial :=
  {| tr_experiment_dir := "gs://x/exp"; tr_design := match cloud_mk_design hollow_bucket "gs://x/data" with
       Ok de => cloud_opened bare hollow_bucket de | Err _ => toy_design end; tr_data_set := "ds";
     tr_descriptor := toy_descriptor 0 0; tr_analysis := "" |}.
Example C57_failure_example : forall ca r o', ca_beam ca = true ->
  cloud_execute single taken_driver ca taken_course hollow_bucket = Some (r, o') -> exists e, r = Err e.
Proof.
  intros ca r o' _ E.
  assert (C : forall p c t, In (p, c) hollow_bucket -> ~ within (results_object single (to_path "/x/exp") t) p /\
    ~ within (marker_object single (to_path "/x/exp") t) p).
  { intros p c t [X|[]]. apply pair_eq in X. destruct X as [<- _]. split; intros [q W]; apply (f_equal snd) in W; cbn in W; discriminate W. }
  apply (C57_failure single taken_driver "/x/exp" hollow_bucket [hollow_trial] single_start hollow_trial ca taken_course r o'); [reflexivity| | | | | | | | |exact E].
  - split; [eexists; reflexivity|]. split; [vm_compute; lia|]. split; [vm_compute; discriminate|]. split; [|split].
    + intros t [<-|[]]. split; [reflexivity|]. split; [|split; [apply (no_slash_toy 0 0); auto|apply toy_md5_name]].
      split; [discriminate|]. split; [discriminate|]. split; [discriminate|].
      cbn. intros X. repeat (destruct X as [X|X]; [discriminate|]). exact X.
    + intros t t' [<-|[]] [<-|[]] _. reflexivity.
    + intros t t' [<-|[]] [<-|[]] _ _. reflexivity.
  - split; [repeat constructor; intros []|]. intros t q c _ J. destruct (C q c t J) as [A B]. split; intros W; [destruct (A W)|destruct (B W)].
  - intros t row [<-|[]] X. exfalso. destruct (no_publishers_fail single hollow_trial 1 _ eq_refl eq_refl single_start) as [e Y].
    change (dr_seed single taken_driver) with 1 in X. rewrite Y in X. discriminate X.
  - intros u x [<-|[]] X. apply obj_find_some_in in X. destruct (C _ _ hollow_trial X) as [A _]. destruct A. apply within_refl.
  - left. reflexivity.
  - apply obj_find_none. intros I. apply in_map_iff in I. destruct I as [[q c] [X I]]. cbn [fst] in X. subst q.
    destruct (C _ c hollow_trial I) as [A _]. apply A, within_refl.
  - apply (no_publishers_fail single hollow_trial 1 _ eq_refl eq_refl).
  - intros _ i [<-|[]]. cbn. lia.
Qed.

(** The place of the temporary object when no data set has its name. *)
Example C57_temporary_example : forall cores beam,
  cloud_places strict "/x/exp" "/x/data" bucket_run bucket [entry (to_path "/x/exp") "temp_result.csv"] /\
  cloud_temp (ca_temp (main_call cores beam "gs://x/exp")) = Ok (to_path "/x/exp/temp_result.csv").
Proof.
  intros cores beam. destruct (C57_temporary strict "/x/exp" "/x/data" bucket_run bucket cores beam bucket_sane) as [A B].
  - intros t [<-|[<-|[]]]; discriminate.
  - intros [r E]; apply (f_equal snd) in E; cbn in E; discriminate E.
  - intros q c [I|[I|[]]]; apply pair_eq in I; destruct I as [<- _]; intros [r E]; apply (f_equal snd) in E; cbn in E; discriminate E.
  - split; [exact B|exact A].
Qed.

(** A data set that cannot be read; no data sets; a design that cannot be loaded. *)
Example C57_unreadable_example : forall ca c, exists e,
  cloud_execute single taken_driver ca c [(to_path "/x/data/ds/p", chars "1,oops")] =
  Some (Err e, [(to_path "/x/data/ds/p", chars "1,oops")]).
Proof.
  intros ca c. apply (C57_unreadable single taken_driver "/x/data" ca c [(to_path "/x/data/ds/p", chars "1,oops")] [toy_descriptor 0 0] single_start "ds" (toy_descriptor 0 0)
    bucket_address eq_refl eq_refl eq_refl (or_introl eq_refl)).
  left. eexists. vm_compute. reflexivity.
Qed.
Example C57_no_data_sets_example : forall ca r o', ca_beam ca = true ->
  cloud_execute single taken_driver ca {| cc_now := fun _ => []; cc_later := fun _ => []; cc_attempts := []; cc_schedule := [];
       cc_used := fun i => i; cc_combine := Inputs |} [(to_path "/x/notes", chars "z")] = Some (r, o') ->
  r = Err ValueError /\ o' = [(to_path "/x/notes", chars "z")].
Proof.
  intros ca r o' _. apply (C57_no_data_sets single taken_driver "/x/data" ca _ _ [toy_descriptor 0 0] single_start r o' bucket_address eq_refl eq_refl).
  - intros n E. apply cloud_stat_dir in E; [|rewrite entry_length; vm_compute; lia]. destruct E as [_ [q [c [I [[p W] _]]]]].
    destruct I as [I|[]]; apply pair_eq in I; destruct I as [<- _]; apply (f_equal snd) in W; cbn in W. discriminate W.
  - intros _. split; [reflexivity|]. intros l. apply Permutation_refl.
Qed.
Example C57_no_design_example : forall ca c,
  cloud_execute strict {| dr_data_design := "gs://x/data"; dr_fetch := fun _ => Err FileNotFoundError; dr_output := "gs://x/out.csv";
     dr_intermediates := "gs://x/exp"; dr_seed := 1; dr_analysis := "" |} ca c bucket = Some (Err FileNotFoundError, bucket).
Proof. intros ca c. apply (C57_no_design strict _ "/x/data"); [exact bucket_address|reflexivity|reflexivity]. Qed.
Example C57_trials_example : exists names descs all,
  cloud_data_sets "/x/data" bucket names /\ In "ds"%string names /\ length descs = 3%nat /\ part_of bucket_run all /\
  Forall2 (fun nd t => cloud_trial_on strict bucket_driver bucket (fst nd) (snd nd) t) (list_prod names descs) all.
Proof.
  destruct (C57_trials strict bucket_driver "/x/data" bucket bucket_run strict_start bucket_address eq_refl eq_refl)
    as [names [descs [all [H1 [H2 [H3 [H4 _]]]]]]].
  exists names, descs, all. split; [exact H1|]. split; [apply (proj2 H1); reflexivity|].
  injection H2 as <-. split; [reflexivity|]. split; [exact H4|]. apply H3.
  intros desc [<-|[<-|[<-|[]]]]; repeat constructor; cbn; intros X; repeat (destruct X as [X|X]; [discriminate X|]); exact X.
Qed.
