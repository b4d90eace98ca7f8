(** C37: which trials share a results file. *)
From Coq Require Import String Ascii.
From Verif Require Import Prelude ModelReachPoint ModelData ModelPrivacy ModelHalo ModelAggregator ModelFiles
  SpecFiles FilesLemmas ModelDriver SpecDriver DriverLemmas2 DriverLemmas3 DriverLemmas4 DriverLemmas5
  ExampleDriver PropsDriver.
Open Scope Z_scope.

(** Two trials of one experiment have the same results file if and only if they have the same
    data set and the same printed settings: strategies, models and their arguments, spend
    fractions, sketch decay rate and size, privacy budget, replica, maximum frequency and
    test points. *)
Theorem C37_paths : forall L t t',
  prints_floats (lab_float L) ->
  tr_experiment_dir t = tr_experiment_dir t' -> tr_experiment_dir t <> ""%string ->
  file_name (tr_data_set t) -> file_name (tr_data_set t') ->
  plain_descriptor (lab_float L) (tr_descriptor t) -> plain_descriptor (lab_float L) (tr_descriptor t') ->
  (out_of L t = out_of L t' <->
   tr_data_set t = tr_data_set t' /\ same_settings (tr_descriptor t) (tr_descriptor t')).
Proof.
  intros L t t' PF Ed Nd F1 F2 P1 P2.
  rewrite (out_path L t Nd F1 (descriptor_no_slash _ _ (prints_apart _ PF) P1)).
  rewrite (out_path L t' ltac:(congruence) F2 (descriptor_no_slash _ _ (prints_apart _ PF) P2)).
  rewrite <- Ed. rewrite <- (descriptor_same _ PF _ _ P1 P2). split.
  - intros E.
    assert (X : [tr_data_set t; str (show_descriptor (lab_float L) (tr_descriptor t) ++ chars ".csv")] =
                [tr_data_set t'; str (show_descriptor (lab_float L) (tr_descriptor t') ++ chars ".csv")]).
    { apply (app_inv_head (snd (to_path (tr_experiment_dir t)))). congruence. }
    assert (X2 : str (show_descriptor (lab_float L) (tr_descriptor t) ++ chars ".csv") =
                 str (show_descriptor (lab_float L) (tr_descriptor t') ++ chars ".csv")) by congruence.
    apply str_inj, app_inv_tail in X2. split; [congruence|exact X2].
  - intros [-> ->]. reflexivity.
Qed.

(** ** Examples *)

Lemma toy_prints_floats : prints_floats toy_float.
Proof.
  assert (D : forall z c, In c (str_of_int z) -> c <> "."%char /\ c <> "T"%char /\ c <> "F"%char).
  { intros z c H. apply str_of_int_char in H. destruct H as [-> | [-> | [v H]]]; [repeat split; discriminate..|].
    destruct H; repeat split; discriminate. }
  split; [|split; [|split]]; intros q; cbn [toy_float show_float].
  - split; [intros X; apply app_eq_nil in X; destruct X; discriminate|].
    intros c H. apply in_app_iff in H. destruct H as [H|[<-|H]].
    + exact (str_of_int_plain _ c H).
    + intros X. cbn in X. repeat (destruct X as [X|X]; [discriminate|]). exact X.
    + exact (str_of_int_plain _ c H).
  - intros q'. split.
    + intros E.
      assert (X : split_on "." (str_of_int (Qnum (Qred q)) ++ "."%char :: str_of_int (Zpos (Qden (Qred q)))) =
                  [str_of_int (Qnum (Qred q)); str_of_int (Zpos (Qden (Qred q)))]).
      { apply split_on_two. split; [reflexivity|]. split; intros H; apply D in H; tauto. }
      assert (Y : split_on "." (str_of_int (Qnum (Qred q')) ++ "."%char :: str_of_int (Zpos (Qden (Qred q')))) =
                  [str_of_int (Qnum (Qred q')); str_of_int (Zpos (Qden (Qred q')))]).
      { apply split_on_two. split; [reflexivity|]. split; intros H; apply D in H; tauto. }
      rewrite E, Y in X.
      assert (E1 : str_of_int (Qnum (Qred q')) = str_of_int (Qnum (Qred q))) by congruence.
      assert (E2 : str_of_int (Zpos (Qden (Qred q'))) = str_of_int (Zpos (Qden (Qred q)))) by congruence.
      apply str_of_int_inj in E1, E2. apply Qred_eq_iff. destruct (Qred q), (Qred q'). cbn in E1, E2. congruence.
    + intros E. apply Qred_eq_iff in E. rewrite E. reflexivity.
  - intros z E. assert (X : In "."%char (str_of_int z)) by (rewrite <- E; apply in_app_iff; right; left; reflexivity).
    apply D in X. tauto.
  - split; intros E.
    + assert (X : In "."%char (list_ascii_of_string "True")) by (rewrite <- E; apply in_app_iff; right; left; reflexivity).
      cbn in X. repeat (destruct X as [X|X]; [discriminate|]). exact X.
    + assert (X : In "."%char (list_ascii_of_string "False")) by (rewrite <- E; apply in_app_iff; right; left; reflexivity).
      cbn in X. repeat (destruct X as [X|X]; [discriminate|]). exact X.
Qed.
Lemma toy_apart_floats : tells_floats_apart toy_float.
Proof. apply prints_apart, toy_prints_floats. Qed.

Ltac plain_literal := 
  let c := fresh "c" in let H := fresh "H" in let X := fresh "X" in
  intros c H X; cbn in H, X;
  repeat (destruct H as [H|H]; [subst c; repeat (destruct X as [X|X]; [discriminate|]); exact X|]); exact H.

Lemma toy_plain n r : plain_descriptor toy_float (toy_descriptor n r).
Proof.
  unfold plain_descriptor, toy_descriptor, toy_strategy, toy_experiment.
  cbn [td_strategy td_experiment sd_strategy sd_strategy_kwargs sd_single sd_single_kwargs sd_multi sd_multi_kwargs
       ep_test_points ep_test_kwargs].
  split; [plain_literal|]. split; [intros k v []|]. split; [plain_literal|]. split; [intros k v []|].
  split; [plain_literal|]. split; [intros k v []|]. split; [plain_literal|].
  intros k v [E|[]]. inversion E; subst. split; [plain_literal|]. intros s X. discriminate.
Qed.

(** Two replicas have different results files. *)
Example C37_paths_example : out_of toy (toy_trial 0 1) <> out_of toy (toy_trial 0 2).
Proof.
  intros E. apply C37_paths in E.
  - destruct E as [_ [_ [_ [_ [_ [E _]]]]]]. discriminate.
  - exact toy_prints_floats.
  - reflexivity.
  - discriminate.
  - split; [discriminate|]. split; [discriminate|]. split; [discriminate|].
    cbn. intros X. repeat (destruct X as [X|X]; [discriminate|]). exact X.
  - split; [discriminate|]. split; [discriminate|]. split; [discriminate|].
    cbn. intros X. repeat (destruct X as [X|X]; [discriminate|]). exact X.
  - apply toy_plain.
  - apply toy_plain.
Qed.

(** ** What does not hold *)

(** Trials with the same results file: whoever comes second gets the row of the first,
    whatever its own settings and seed are. *)
Theorem C37_second_gets_first : forall L t t' seed now g d row g' seed2 now2 g2,
  sane_trials L [t] -> usable L [t] d -> no_result L t d -> out_of L t = out_of L t' ->
  compute_row L t seed g = (Ok row, g') -> lab_parse L (lab_print L [row]) = Ok [row] ->
  let d' := snd (finish (evaluate L t seed now g) d) in
  finish (evaluate L t' seed2 now2 g2) d' = ((Ok [row], g2), d').
Proof.
  intros L t t' seed now g d row g' seed2 now2 g2 S U N E C RT.
  destruct (C36_computed L t seed now g d row g' S U N C) as [d' [H1 [[H2 _] _]]].
  cbv zeta. rewrite H1. cbn [snd]. apply result_finish. exists (lab_print L [row]). rewrite <- E. auto.
Qed.

(** The file does not depend on the kind of analysis, the seed of the sketches, the generator
    and the function that makes up spend fractions; nor on the seed of the evaluation, which
    is not part of a trial. *)
Definition with_ignored (t : trial) (analysis : string) (ll_seed : Z) (generator : nat)
    (f : option (data_set -> result (list number))) : trial :=
  {| tr_experiment_dir := tr_experiment_dir t; tr_design := tr_design t; tr_data_set := tr_data_set t;
     tr_analysis := analysis;
     tr_descriptor :=
       {| td_strategy := td_strategy (tr_descriptor t); td_experiment := td_experiment (tr_descriptor t);
          td_system :=
            {| sp_fractions := sp_fractions (system_of t);
               sp_ll := {| lp_decay_rate := lp_decay_rate (sp_ll (system_of t));
                           lp_sketch_size := lp_sketch_size (sp_ll (system_of t)); lp_random_seed := ll_seed |};
               sp_generator := generator; sp_fractions_generator := f |} |} |}.

Theorem C37_ignored_refuted : forall L t analysis ll_seed generator f,
  out_of L (with_ignored t analysis ll_seed generator f) = out_of L t.
Proof. intros. reflexivity. Qed.

(** The analysis "single_pub" asks for 32 more columns; after an analysis without them it
    gets a row without them. *)
Definition toy_single_pub : trial := with_ignored (toy_trial 0 1) "single_pub" 1 0 None.
Theorem C37_analysis_refuted : exists L t t' seed g row g1 row' g2 d,
  sane_trials L [t] /\ usable L [t] d /\ no_result L t d /\
  tr_analysis t <> tr_analysis t' /\
  compute_row L t seed g = (Ok row, g1) /\ compute_row L t' seed g = (Ok row', g2) /\
  length row' = (length row + 32)%nat /\
  forall now now2, let d' := snd (finish (evaluate L t seed now g) d) in
    finish (evaluate L t' seed now2 g) d' = ((Ok [row], g), d').
Proof.
  exists toy, (toy_trial 0 1), toy_single_pub, 1, toy_start, (toy_row 1 0), (put_generator toy toy_start 0 1).
  eexists. eexists. exists [].
  split; [apply toy_sane; auto|]. split; [apply toy_usable; auto|].
  assert (N : no_result toy (toy_trial 0 1) []).
  { intros tb [c [E _]]. unfold toy in E. rewrite toy_no_result in E by auto. discriminate. }
  split; [exact N|]. split; [discriminate|]. split; [apply toy_computes|].
  split; [vm_compute; reflexivity|]. split; [reflexivity|].
  intros now now2. apply (C37_second_gets_first toy (toy_trial 0 1) toy_single_pub 1 now toy_start [] (toy_row 1 0)
    (put_generator toy toy_start 0 1) 1 now2 toy_start).
  - apply toy_sane; auto.
  - apply toy_usable; auto.
  - exact N.
  - reflexivity.
  - apply toy_computes.
  - vm_compute. reflexivity.
Qed.

(** Another seed gives another row, but not if the first one is in the file. *)
Theorem C37_seed_refuted : exists L t seed seed' g row g1 row' g2 d,
  sane_trials L [t] /\ usable L [t] d /\ no_result L t d /\
  compute_row L t seed g = (Ok row, g1) /\ compute_row L t seed' g = (Ok row', g2) /\ row <> row' /\
  forall now now2, let d' := snd (finish (evaluate L t seed now g) d) in
    finish (evaluate L t seed' now2 g) d' = ((Ok [row], g), d').
Proof.
  exists toy, (toy_trial 0 1), 1, 2, toy_start, (toy_row 1 0), (put_generator toy toy_start 0 1).
  eexists. eexists. exists [].
  split; [apply toy_sane; auto|]. split; [apply toy_usable; auto|].
  assert (N : no_result toy (toy_trial 0 1) []).
  { intros tb [c [E _]]. unfold toy in E. rewrite toy_no_result in E by auto. discriminate. }
  split; [exact N|]. split; [apply toy_computes|].
  split; [vm_compute; reflexivity|].
  split. { intros X. apply (f_equal (cell_named "mean_error")) in X. vm_compute in X. discriminate. }
  intros now now2. apply (C37_second_gets_first toy (toy_trial 0 1) (toy_trial 0 1) 1 now toy_start [] (toy_row 1 0)
    (put_generator toy toy_start 0 1) 2 now2 toy_start).
  - apply toy_sane; auto.
  - apply toy_usable; auto.
  - exact N.
  - reflexivity.
  - apply toy_computes.
  - vm_compute. reflexivity.
Qed.

(** Settings that print alike although they are different: the string "1" and the number 1,
    a string with a comma and two arguments. *)
Definition with_arguments (t : trial) (kw : kwargs) : trial :=
  {| tr_experiment_dir := tr_experiment_dir t; tr_design := tr_design t; tr_data_set := tr_data_set t;
     tr_analysis := tr_analysis t;
     tr_descriptor :=
       {| td_strategy := td_strategy (tr_descriptor t); td_system := system_of t;
          td_experiment :=
            {| ep_epsilon := ep_epsilon (experiment_of t); ep_delta := ep_delta (experiment_of t);
               ep_replica_id := ep_replica_id (experiment_of t); ep_max_frequency := ep_max_frequency (experiment_of t);
               ep_test_points := ep_test_points (experiment_of t); ep_test_kwargs := kw |} |} |}.
Theorem C37_printed_alike_refuted : forall L t, exists kw1 kw2 kw3 kw4,
  ~ same_kwargs kw1 kw2 /\ out_of L (with_arguments t kw1) = out_of L (with_arguments t kw2) /\
  ~ same_kwargs kw3 kw4 /\ length kw3 <> length kw4 /\
  out_of L (with_arguments t kw3) = out_of L (with_arguments t kw4).
Proof.
  intros L t. exists [("grid_size"%string, VNum (PInt 1))], [("grid_size"%string, VStr "1")],
    [("npoints"%string, VNum (PInt 1)); ("npublishers"%string, VNum (PInt 2))],
    [("npoints"%string, VStr "1,npublishers=2")].
  split. { intros H. inversion H as [|? ? ? ? [_ X] _]; subst. exact X. }
  split; [reflexivity|].
  split. { intros H. inversion H as [|? ? ? ? [_ X] _]; subst. exact X. }
  split; [discriminate|]. reflexivity.
Qed.

Print Assumptions C37_paths.
Print Assumptions C37_second_gets_first.
Print Assumptions C37_ignored_refuted.
Print Assumptions C37_analysis_refuted.
Print Assumptions C37_seed_refuted.
Print Assumptions C37_printed_alike_refuted.
