(** C48: the row of a trial. *)
From Coq Require Import String Ascii Sorted Permutation Lqa.
From Verif Require Import Prelude ModelReachPoint ModelData ModelPrivacy ModelHalo ModelTestPoints ModelAggregator
  SpecAggregator AggregatorLemmas ModelFiles FilesLemmas3 ModelDriver SpecTrial DriverLemmas2 DriverLemmas3 DriverLemmas4 DriverLemmas5
  DriverLemmas7 TrialLemmas TrialLemmas2 PropsHalo PropsTestPoints ExampleDriver PropsDriver3.
Open Scope Z_scope.

Section Trial.
Variable L : lab.

(** There is a row exactly if the data set is found and has publishers, each with a campaign
    spend fraction, and the strategy's names and arguments are known: whatever goes wrong in
    the fit or in the questions to the model is in the row, not raised. *)
Theorem C48_row_iff : forall t seed g,
  (exists row, fst (compute_row L t seed g) = Ok row) <->
  exists d, dd_by_name (tr_design t) (tr_data_set t) = Ok d /\ ds_data d <> [] /\
    (length (ds_data d) <= length (sp_fractions (td_system (tr_descriptor t))))%nat /\
    strategy_known (td_strategy (tr_descriptor t)).
Proof. intros t seed g. apply row_exists. Qed.

(** The columns depend on the analysis and the maximum frequency only, not on what happens. *)
Theorem C48_columns : forall t seed g row g', compute_row L t seed g = (Ok row, g') ->
  map fst row = row_columns t /\ NoDup (map fst row).
Proof.
  intros t seed g row g' E. destruct (compute_row_inv L _ _ _ _ _ E) as [d [h [fit [w [iv [E1 [E2 [E3 [E4 [-> _]]]]]]]]]].
  assert (X : map fst (iv ++ privacy_vars t (w_tracker w) ++ metrics_of L t d h seed fit) = row_columns t).
  { rewrite !map_app, (independent_inv L _ _ E4), metrics_names. reflexivity. }
  split; [exact X|]. rewrite X. apply row_columns_NoDup.
Qed.

(** The outcome. Either all went well: then the metric columns are the aggregate of the true
    reach of the data set and the model's answers, at the generated test points. Or something
    was raised: then the row says so, and all other metric columns are missing. *)
Theorem C48_outcome : forall t seed g row g' d h fit w,
  compute_row L t seed g = (Ok row, g') ->
  dd_by_name (tr_design t) (tr_data_set t) = Ok d ->
  mk_halo d (map number_Q (sp_fractions (td_system (tr_descriptor t)))) (halo_ll (sp_ll (td_system (tr_descriptor t)))) = Ok h ->
  lab_fit L (td_strategy (tr_descriptor t)) h
    {| epsilon := number_Q (ep_epsilon (td_experiment (tr_descriptor t)));
       delta := number_Q (ep_delta (td_experiment (tr_descriptor t))) |}
    (lab_seed_global L seed)
    {| w_tracker := new_tracker; w_rng := g (sp_generator (td_system (tr_descriptor t))) |} = (fit, w) ->
  let k := ep_max_frequency (td_experiment (tr_descriptor t)) in
  (exists m gl kw points own truth answers m' metrics,
     fit = Ok (m, gl) /\
     integers_passed (ep_test_kwargs (td_experiment (tr_descriptor t))) kw /\
     generate_test_points (lab_draws L) (ep_test_points (td_experiment (tr_descriptor t))) kw d gl
       (lab_default_rng L seed) = Ok (points, own) /\
     Forall2 (fun p q => truth_at d p k q) points truth /\
     asked L k m points answers m' /\ aggregate truth answers = Ok metrics /\
     (forall c, In c metric_columns -> column row c = column metrics c) /\
     column row "model_succeeded" = Some (CInt 1) /\ column row "model_exception" = Some (CText "None")) \/
  (exists e,
     (fit = Err e \/ exists m gl, fit = Ok (m, gl) /\ measure L t d h seed m gl = Err e) /\
     column row "model_succeeded" = Some (CInt 0) /\ column row "model_exception" = Some (CText (lab_traceback L e)) /\
     (forall c, In c metric_columns -> c <> "model_succeeded"%string -> c <> "model_exception"%string ->
        column row c = Some (CStat NotFinite)) /\
     (tr_analysis t = "single_pub"%string -> forall c, In c (single_columns k) -> column row c = Some (CStat NotFinite))).
Proof.
  intros t seed g row g' d0 h0 fit0 w0 E D0 H0 F0. cbv zeta.
  destruct (compute_row_inv L _ _ _ _ _ E) as [d [h [fit [w [iv [E1 [E2 [E3 [E4 [-> _]]]]]]]]]].
  assert (d0 = d) by congruence. subst d0. fold (system_of t) in H0. assert (h0 = h) by congruence. subst h0.
  fold (experiment_of t) in F0. fold (system_of t) in F0. fold (trial_budget t) in F0.
  assert (X : (fit0, w0) = (fit, w)) by congruence. assert (fit0 = fit) by congruence. assert (w0 = w) by congruence. subst fit0 w0. clear X F0 D0 H0.
  fold (experiment_of t).
  assert (C : forall c, In c metric_columns -> column (iv ++ privacy_vars t (w_tracker w) ++ metrics_of L t d h seed fit) c =
    column (metrics_of L t d h seed fit) c).
  { intros c Hc. apply column_metrics; [exact (independent_inv L _ _ E4)|reflexivity|exact (metric_not_fixed _ Hc)]. }
  assert (C' : forall c, In c (single_columns (ep_max_frequency (experiment_of t))) ->
    column (iv ++ privacy_vars t (w_tracker w) ++ metrics_of L t d h seed fit) c = column (metrics_of L t d h seed fit) c).
  { intros c Hc. apply column_metrics; [exact (independent_inv L _ _ E4)|reflexivity|exact (single_not_fixed' _ _ Hc)]. }
  assert (Fail : forall e, metrics_of L t d h seed fit = measure_on_exception L t e ->
     let r := iv ++ privacy_vars t (w_tracker w) ++ metrics_of L t d h seed fit in
     column r "model_succeeded" = Some (CInt 0) /\ column r "model_exception" = Some (CText (lab_traceback L e)) /\
     (forall c, In c metric_columns -> c <> "model_succeeded"%string -> c <> "model_exception"%string ->
        column r c = Some (CStat NotFinite)) /\
     (tr_analysis t = "single_pub"%string -> forall c, In c (single_columns (ep_max_frequency (experiment_of t))) ->
        column r c = Some (CStat NotFinite))).
  { intros e Y. cbv zeta. split; [|split; [|split]].
    - rewrite C by (cbn; auto). rewrite Y. reflexivity.
    - rewrite C by (cbn; auto). rewrite Y. reflexivity.
    - intros c Hc N1 N2. rewrite C by exact Hc. rewrite Y. apply failed_metric; assumption.
    - intros A c Hc. rewrite C' by exact Hc. rewrite Y. apply failed_single; assumption. }
  destruct fit as [[m gl]|e].
  - destruct (measure L t d h seed m gl) as [l|e] eqn:Em.
    + left. destruct (measure_inv L _ _ _ _ _ _ _ Em) as [kw [points [own [truth [fitted [m' [metrics [single [M1 [M2 [M3 [M4 [M5 [M6 M7]]]]]]]]]]]]]].
      rewrite (mk_halo_data _ _ _ _ E2) in M3.
      assert (Y : metrics_of L t d h seed (Ok (m, gl)) = metrics ++ single) by (unfold metrics_of; cbn [bind]; rewrite Em; exact M6).
      assert (Z : forall c, In c metric_columns -> column (metrics ++ single) c = column metrics c).
      { intros c Hc. rewrite <- (aggregate_names _ _ _ M5) in Hc. destruct (column_In metrics c Hc) as [x Hx]. rewrite Hx.
        apply column_app_l. exact Hx. }
      exists m, gl, kw, points, own, truth, fitted, m', metrics.
      split; [reflexivity|]. split; [apply int_kwargs_iff; exact M1|]. split; [exact M2|]. split; [exact M3|]. split; [exact M4|]. split; [exact M5|].
      split; [intros c Hc; rewrite C, Y by exact Hc; apply Z; exact Hc|].
      assert (Q1 : column metrics "model_succeeded" = Some (CInt 1) /\ column metrics "model_exception" = Some (CText "None")).
      { unfold aggregate in M5. destruct (mapM _ aggregators) as [st|]; cbn [bind] in M5; [|discriminate].
        assert (X : metrics = (("model_succeeded", CInt 1) :: ("model_exception", CText "None") :: st)%string) by congruence.
        rewrite X. split; reflexivity. }
      split; (rewrite C, Y, Z by (cbn; auto)); apply Q1.
    + right. exists e. split; [right; eauto|]. apply Fail. unfold metrics_of. cbn [bind]. rewrite Em. reflexivity.
  - right. exists e. split; [left; reflexivity|]. apply Fail. reflexivity.
Qed.

(** Conversely, a trial in which nothing is raised succeeds. *)
Theorem C48_success : forall t seed g row g' d h m gl w kw points own truth answers m' metrics,
  let k := ep_max_frequency (td_experiment (tr_descriptor t)) in
  compute_row L t seed g = (Ok row, g') ->
  dd_by_name (tr_design t) (tr_data_set t) = Ok d ->
  mk_halo d (map number_Q (sp_fractions (td_system (tr_descriptor t)))) (halo_ll (sp_ll (td_system (tr_descriptor t)))) = Ok h ->
  lab_fit L (td_strategy (tr_descriptor t)) h
    {| epsilon := number_Q (ep_epsilon (td_experiment (tr_descriptor t)));
       delta := number_Q (ep_delta (td_experiment (tr_descriptor t))) |}
    (lab_seed_global L seed)
    {| w_tracker := new_tracker; w_rng := g (sp_generator (td_system (tr_descriptor t))) |} = (Ok (m, gl), w) ->
  integers_passed (ep_test_kwargs (td_experiment (tr_descriptor t))) kw ->
  generate_test_points (lab_draws L) (ep_test_points (td_experiment (tr_descriptor t))) kw d gl
    (lab_default_rng L seed) = Ok (points, own) ->
  Forall2 (fun p q => true_reach h p k = Ok q) points truth ->
  asked L k m points answers m' -> aggregate truth answers = Ok metrics ->
  tr_analysis t <> "single_pub"%string ->
  column row "model_succeeded" = Some (CInt 1).
Proof.
  intros t seed g row g' d h m gl w kw points own truth answers m' metrics k E D H F K G T A Ag Na.
  destruct (C48_outcome t seed g row g' d h (Ok (m, gl)) w E D H F) as [S|[e [[X|[m0 [gl0 [X Y]]]] _]]]; [|discriminate|].
  { destruct S as [? [? [? [? [? [? [? [? [? [_ [_ [_ [_ [_ [_ [_ [S _]]]]]]]]]]]]]]]]]. exact S. }
  apply int_kwargs_iff in K. exfalso. assert (m0 = m) by congruence. assert (gl0 = gl) by congruence. subst m0 gl0.
  unfold measure in Y. cbv zeta in Y. fold (experiment_of t) in K, G. rewrite K in Y. cbn [bind] in Y. rewrite G in Y. cbn [bind] in Y.
  assert (T' : mapM (fun p => true_reach h p (ep_max_frequency (experiment_of t))) points = Ok truth).
  { clear -T. unfold k in T. fold (experiment_of t) in T. induction T as [|p q ps qs X T IH]; [reflexivity|].
    cbn [mapM]. rewrite X. cbn [bind]. rewrite IH. reflexivity. }
  assert (A' : ask_all L m (map (fun p => (p, ep_max_frequency (experiment_of t))) points) = (Ok answers, m')).
  { clear -A. unfold k in A. fold (experiment_of t) in A. induction A as [|m s p m1 ss ps m2 X A IH]; [reflexivity|].
    cbn [map ask_all]. rewrite X, IH. reflexivity. }
  rewrite T', A' in Y. cbn [bind fst snd] in Y. rewrite Ag in Y. cbn [bind] in Y.
  rewrite single_pub_dec in Y. destruct (string_dec (tr_analysis t) "single_pub"); [contradiction|discriminate].
Qed.

(** The settings columns say what was run. *)
Theorem C48_settings : forall t seed g row g' d, compute_row L t seed g = (Ok row, g') ->
  dd_by_name (tr_design t) (tr_data_set t) = Ok d ->
  column row "dataset" = Some (CText (tr_data_set t)) /\
  column row "trial" = Some (CText (str (show_descriptor (lab_float L) (tr_descriptor t)))) /\
  column row "replica_id" = Some (CInt (ep_replica_id (td_experiment (tr_descriptor t)))) /\
  column row "single_pub_model" = Some (CText (sd_single (td_strategy (tr_descriptor t)))) /\
  column row "multi_pub_model" = Some (CText (sd_multi (td_strategy (tr_descriptor t)))) /\
  column row "strategy" = Some (CText (sd_strategy (td_strategy (tr_descriptor t)))) /\
  (exists c, column row "liquid_legions_sketch_size" = Some c /\ number_of_cell c (lp_sketch_size (sp_ll (td_system (tr_descriptor t))))) /\
  (exists c, column row "liquid_legions_decay_rate" = Some c /\ number_of_cell c (lp_decay_rate (sp_ll (td_system (tr_descriptor t))))) /\
  column row "maximum_reach" = Some (CInt (ds_maximum_reach d)) /\
  column row "ncampaigns" = Some (CInt (Z.of_nat (length (ds_data d)))) /\
  (exists r p, column row "largest_pub_reach" = Some (CInt r) /\ In p (ds_data d) /\ pd_max_reach p = r /\
     forall q, In q (ds_data d) -> pd_max_reach q <= r) /\
  column row "max_frequency" = Some (CInt (ep_max_frequency (td_experiment (tr_descriptor t)))) /\
  exists v, column row "average_spend_fraction" = Some (CStat (Num v)) /\
    (v * inject_Z (Z.of_nat (length (sp_fractions (td_system (tr_descriptor t))))) ==
     fold_right Qplus 0 (map number_Q (sp_fractions (td_system (tr_descriptor t)))))%Q.
Proof.
  intros t seed g row g' d0 E D0.
  assert (Ex : exists row, fst (compute_row L t seed g) = Ok row) by (exists row; rewrite E; reflexivity).
  apply C48_row_iff in Ex. destruct Ex as [d1 [D1 [Ne [Len _]]]].
  destruct (compute_row_inv L _ _ _ _ _ E) as [d [h [fit [w [iv [E1 [E2 [E3 [E4 [-> _]]]]]]]]]].
  assert (d0 = d) by congruence. assert (d1 = d) by congruence. subst d0 d1.
  pose proof (independent_inv L _ _ E4) as Names.
  assert (C : forall c, In c settings_columns -> column (iv ++ privacy_vars t (w_tracker w) ++ metrics_of L t d h seed fit) c = column iv c).
  { intros c Hc. apply column_settings; assumption. }
  unfold independent_vars in E4. rewrite E1 in E4. cbn [bind] in E4.
  destruct (py_max (map pd_max_reach (ds_data d))) as [x|] eqn:Ex; cbn [bind] in E4; [|discriminate]. cbv zeta in E4.
  match type of E4 with Ok ?l = Ok _ => assert (X : iv = l) by congruence end.
  repeat (split; [first [rewrite C by (cbn; tauto); rewrite X; reflexivity|idtac]|]).
  - eexists. split; [rewrite C by (cbn; tauto); rewrite X; reflexivity|]. unfold system_of. destruct (lp_sketch_size _); reflexivity.
  - eexists. split; [rewrite C by (cbn; tauto); rewrite X; reflexivity|]. unfold system_of. destruct (lp_decay_rate _); reflexivity.
  - destruct (py_max_spec _ _ Ex) as [I M]. apply in_map_iff in I. destruct I as [p [Ip Hp]]. exists x, p.
    split; [rewrite C by (cbn; tauto); rewrite X; reflexivity|]. split; [exact Hp|]. split; [exact Ip|].
    intros q Hq. apply M. apply in_map. exact Hq.
  - assert (Nf : sp_fractions (system_of t) <> []).
    { intros Z. unfold system_of in Z. rewrite Z in Len. cbn in Len. destruct (ds_data d); [contradiction|cbn in Len; lia]. }
    exists (mean_of (map number_Q (sp_fractions (system_of t)))). split.
    + rewrite C by (cbn; tauto). rewrite X. cbn [column String.eqb Ascii.eqb Bool.eqb]. rewrite <- (map_map number_Q Num), np_mean_Num; [reflexivity|].
      intros Z. apply Nf. destruct (sp_fractions (system_of t)); [reflexivity|discriminate].
    + unfold system_of in *. set (l := sp_fractions (td_system (tr_descriptor t))) in *. unfold mean_of, length_Q. rewrite map_length.
      assert (S : forall l, (Qsum l == fold_right Qplus 0 l)%Q).
      { clear. intros l. unfold Qsum. first [reflexivity | induction l as [|y l IH]; cbn; [reflexivity|rewrite <- IH; reflexivity]]. }
      rewrite S. field. intros Z. apply (inject_Z_injective _ 0) in Z. destruct l as [|y l0]; [contradiction|discriminate].
Qed.

(** The privacy columns: the budget that was given, and what the fit's tracker has recorded. *)
Theorem C48_privacy : forall t seed g row g' d h fit w, compute_row L t seed g = (Ok row, g') ->
  dd_by_name (tr_design t) (tr_data_set t) = Ok d ->
  mk_halo d (map number_Q (sp_fractions (td_system (tr_descriptor t)))) (halo_ll (sp_ll (td_system (tr_descriptor t)))) = Ok h ->
  lab_fit L (td_strategy (tr_descriptor t)) h
    {| epsilon := number_Q (ep_epsilon (td_experiment (tr_descriptor t)));
       delta := number_Q (ep_delta (td_experiment (tr_descriptor t))) |}
    (lab_seed_global L seed)
    {| w_tracker := new_tracker; w_rng := g (sp_generator (td_system (tr_descriptor t))) |} = (fit, w) ->
  (exists c, column row "privacy_budget_epsilon" = Some c /\ number_of_cell c (ep_epsilon (td_experiment (tr_descriptor t)))) /\
  (exists c, column row "privacy_budget_delta" = Some c /\ number_of_cell c (ep_delta (td_experiment (tr_descriptor t)))) /\
  column row "privacy_used_epsilon" = Some (CStat (Num (epsilon (privacy_consumption (w_tracker w))))) /\
  column row "privacy_used_delta" = Some (CStat (Num (delta (privacy_consumption (w_tracker w))))) /\
  exists names, column row "privacy_mechanisms" = Some (CText (String.concat "/" names)) /\
    StronglySorted (fun x y => String.ltb x y = true) names /\
    forall n, In n names <-> exists e, In e (tr_events (w_tracker w)) /\ ev_mechanism e = n.
Proof.
  intros t seed g row g' d0 h0 fit0 w0 E D0 H0 F0.
  destruct (compute_row_inv L _ _ _ _ _ E) as [d [h [fit [w [iv [E1 [E2 [E3 [E4 [-> _]]]]]]]]]].
  assert (d0 = d) by congruence. subst d0. fold (system_of t) in H0. assert (h0 = h) by congruence. subst h0.
  fold (experiment_of t) in F0. fold (system_of t) in F0. fold (trial_budget t) in F0.
  assert (w0 = w) by congruence. subst w0. clear F0 D0 H0 fit0.
  pose proof (independent_inv L _ _ E4) as Names.
  assert (C : forall c x, In c privacy_columns -> column (privacy_vars t (w_tracker w)) c = Some x ->
    column (iv ++ privacy_vars t (w_tracker w) ++ metrics_of L t d h seed fit) c = Some x).
  { intros c x Hc Hx. rewrite column_app_r.
    - apply column_app_l. exact Hx.
    - rewrite Names. intros Y. assert (N : NoDup (settings_columns ++ privacy_columns)) by
        (pose proof fixed_NoDup as N; rewrite app_assoc in N; apply (NoDup_app_l _ _ N)).
      exact (NoDup_app_disj _ _ c N Y Hc). }
  split; [|split; [|split; [|split]]].
  - eexists. split; [apply C; [cbn; tauto|reflexivity]|]. unfold experiment_of. destruct (ep_epsilon _); reflexivity.
  - eexists. split; [apply C; [cbn; tauto|reflexivity]|]. unfold experiment_of. destruct (ep_delta _); reflexivity.
  - apply C; [cbn; tauto|reflexivity].
  - apply C; [cbn; tauto|reflexivity].
  - exists (sorted_set (mechanisms (w_tracker w))). split; [apply C; [cbn; tauto|reflexivity]|].
    destruct (fold_name_add (mechanisms (w_tracker w)) [] (NoDup_nil _)) as [N M]. unfold sorted_set.
    set (l := fold_left name_add (mechanisms (w_tracker w)) []) in *.
    assert (P : Permutation (fold_right insert_string [] l) l).
    { clear. induction l as [|x l IH]; cbn [fold_right]; [constructor|]. rewrite insert_string_perm, IH. reflexivity. }
    split.
    + clear M P. induction l as [|x l IH]; cbn [fold_right]; [constructor|]. inversion N as [|? ? N1 N2]; subst.
      apply insert_string_sorted; [exact (IH N2)|]. intros Y. apply N1. eapply Permutation_in; [|exact Y].
      clear. induction l as [|y l IH]; cbn [fold_right]; [constructor|]. rewrite insert_string_perm, IH. reflexivity.
    + intros n. split.
      * intros Y. apply (Permutation_in _ P) in Y. apply M in Y. destruct Y as [[]|Y]. unfold mechanisms in Y.
        apply in_map_iff in Y. destruct Y as [e [X1 X2]]. eauto.
      * intros [e [X1 X2]]. apply (Permutation_in _ (Permutation_sym P)). apply M. right. unfold mechanisms.
        apply in_map_iff. eauto.
Qed.

(** The single publisher analysis, for models that answer without changing: the columns are the
    relative errors at 10%, 20%, ..., 300% of the spend of the first campaign. *)
Theorem C48_single : forall t seed g row g' d h m gl w,
  (forall x, steady L x) -> compute_row L t seed g = (Ok row, g') ->
  tr_analysis t = "single_pub"%string -> column row "model_succeeded" = Some (CInt 1) ->
  dd_by_name (tr_design t) (tr_data_set t) = Ok d ->
  mk_halo d (map number_Q (sp_fractions (td_system (tr_descriptor t)))) (halo_ll (sp_ll (td_system (tr_descriptor t)))) = Ok h ->
  lab_fit L (td_strategy (tr_descriptor t)) h
    {| epsilon := number_Q (ep_epsilon (td_experiment (tr_descriptor t)));
       delta := number_Q (ep_delta (td_experiment (tr_descriptor t))) |}
    (lab_seed_global L seed)
    {| w_tracker := new_tracker; w_rng := g (sp_generator (td_system (tr_descriptor t))) |} = (Ok (m, gl), w) ->
  exists s rest, campaign_spends h = s :: rest /\
  (forall f i name column_name, (1 <= i <= 30)%nat -> nth_error percents (i - 1) = Some name ->
     f = 1 /\ column_name = at_percent name \/
     1 <= f < ep_max_frequency (td_experiment (tr_descriptor t)) /\ column_name = at_frequency_percent f name ->
     exists c p q x y, column row column_name = Some c /\
       truth_at d [(s * (inject_Z (Z.of_nat i) * (1 # 10)))%Q] f p /\ reach p f = Ok x /\
       fst (lab_ask L m [(s * (inject_Z (Z.of_nat i) * (1 # 10)))%Q] f) = Ok q /\ reach q f = Ok y /\
       relative_error_cell c x y) /\
  (exists training n, lab_training L m = Ok training /\
     column row "max_nonzero_frequency_from_halo" = Some (CInt n) /\
     (training = [] /\ n = 0 \/ last_nonzero training n)) /\
  (exists p n, truth_at d (campaign_spends h) (ep_max_frequency (td_experiment (tr_descriptor t))) p /\
     column row "max_nonzero_frequency_from_data" = Some (CInt n) /\
     (rp_kplus p = [] /\ n = 0 \/ last_nonzero (rp_kplus p) n)).
Proof.
  intros t seed g row g' d0 h0 m0 gl0 w0 St E An Su D0 H0 F0.
  destruct (compute_row_inv L _ _ _ _ _ E) as [d [h [fit [w [iv [E1 [E2 [E3 [E4 [-> _]]]]]]]]]].
  assert (d0 = d) by congruence. subst d0. fold (system_of t) in H0. assert (h0 = h) by congruence. subst h0.
  fold (experiment_of t) in F0 |- *. fold (system_of t) in F0. fold (trial_budget t) in F0.
  assert (fit = Ok (m0, gl0)) by congruence. subst fit. clear F0 D0 H0 w0 E3. rename m0 into m. rename gl0 into gl.
  pose proof (independent_inv L _ _ E4) as Names.
  rewrite column_metrics in Su; [|exact Names|reflexivity|apply metric_not_fixed; cbn; auto].
  assert (Y : exists l, measure L t d h seed m gl = Ok l /\ metrics_of L t d h seed (Ok (m, gl)) = l).
  { unfold metrics_of in *. cbn [bind] in *. destruct (measure L t d h seed m gl) as [l|e] eqn:Em; [eauto|].
    cbn in Su. discriminate. }
  destruct Y as [l [Em El]]. rewrite El in Su |- *.
  destruct (measure_inv L _ _ _ _ _ _ _ Em) as [kw [points [own [truth [fitted [m' [metrics [single [M1 [M2 [M3 [M4 [M5 [M6 M7]]]]]]]]]]]]]].
  specialize (M7 An). rewrite (mk_halo_data _ _ _ _ E2) in M3.
  assert (m' = m).
  { clear -M4 St. induction M4 as [|m s p m1 ss ps m2 X A IH]; [reflexivity|]. pose proof (St m s (ep_max_frequency (experiment_of t))) as Y.
    rewrite X in Y. cbn [snd] in Y. congruence. }
  subst m'.
  assert (C : forall c, In c (single_columns (ep_max_frequency (experiment_of t))) ->
    column (iv ++ privacy_vars t (w_tracker w) ++ l) c = column single c).
  { intros c Hc. rewrite column_metrics; [|exact Names|reflexivity|exact (single_not_fixed' _ _ Hc)].
    rewrite M6, column_app_r; [reflexivity|]. rewrite (aggregate_names _ _ _ M5). exact (single_not_metric _ _ Hc). }
  pose proof M7 as M8. unfold single_publisher_columns in M8.
  destruct (error_cells L h m (error_columns (ep_max_frequency (experiment_of t)))) as [[cells|] m2] eqn:Ec; cbn [fst snd bind] in M8; [|discriminate].
  destruct (error_cells_value L h _ St _ _ _ Ec) as [-> Fc].
  destruct (lab_training L m) as [training|] eqn:Et; cbn [bind] in M8; [|discriminate].
  destruct (max_nonzero_frequency training) as [a|] eqn:Ea; cbn [bind] in M8; [|discriminate].
  destruct (true_reach h (campaign_spends h) (ep_max_frequency (experiment_of t))) as [p|] eqn:Ep; cbn [bind] in M8; [|discriminate].
  destruct (max_nonzero_frequency (rp_kplus p)) as [b|] eqn:Eb; cbn [bind] in M8; [|discriminate].
  assert (Es : single = cells ++ [("max_nonzero_frequency_from_halo"%string, CInt a); ("max_nonzero_frequency_from_data"%string, CInt b)]) by congruence.
  assert (Nc : NoDup (map fst (error_columns (ep_max_frequency (experiment_of t))) ++
      ["max_nonzero_frequency_from_halo"; "max_nonzero_frequency_from_data"]%string)).
  { rewrite error_columns_are. apply single_NoDup. }
  pose proof (error_cells_columns L h _ _ _ _ Ec) as Hcells.
  assert (Hs : exists s rest, campaign_spends h = s :: rest).
  { assert (I : exists c, In (fraction_column 1, (1, 1)) (error_columns (ep_max_frequency (experiment_of t))) /\ relative_error_at L h m 1 1 = (Ok c, m)).
    { assert (I : In (fraction_column 1, (1, 1)) (error_columns (ep_max_frequency (experiment_of t)))) by (apply in_app_iff; left; left; reflexivity).
      destruct (column_Forall2 _ _ (fun col c => relative_error_at L h m (fst (snd col)) (snd (snd col)) = (Ok c, m)) _ (NoDup_app_l _ _ Nc) Fc I) as [c [_ X]].
      exists c. auto. }
    destruct I as [c [_ X]]. unfold relative_error_at in X. destruct (campaign_spends h) as [|s rest]; [discriminate|eauto]. }
  destruct Hs as [s [rest Hs]]. exists s, rest. split; [exact Hs|]. split; [|split].
  - intros f i name column_name Hi Hn Hf.
    assert (Hname : name = str (three_digits (10 * Z.of_nat i))).
    { rewrite <- percents_are in Hn. rewrite nth_error_map in Hn.
      assert (Z : nth_error single_publisher_fractions (i - 1) = Some (Z.of_nat i)).
      { assert (K : forall n, (n < 30)%nat -> nth_error single_publisher_fractions n = Some (Z.of_nat n + 1)).
        { intros n Hnn. do 30 (destruct n as [|n]; [reflexivity|]). lia. }
        rewrite K by lia. f_equal. lia. }
      rewrite Z in Hn. cbn [option_map] in Hn. congruence. }
    assert (Hfr : In (Z.of_nat i) single_publisher_fractions).
    { unfold single_publisher_fractions, py_range. apply in_map_iff. exists (i - 1)%nat. split; [lia|]. apply in_seq. lia. }
    assert (I : In (column_name, (f, Z.of_nat i)) (error_columns (ep_max_frequency (experiment_of t)))).
    { unfold error_columns. apply in_app_iff. destruct Hf as [[-> ->]|[Hf ->]].
      - left. apply in_map_iff. exists (Z.of_nat i). split; [|exact Hfr]. rewrite fraction_column_is, Hname. reflexivity.
      - right. apply in_flat_map. exists f. split.
        + unfold py_range. apply in_map_iff. exists (Z.to_nat (f - 1)). split; [lia|]. apply in_seq. lia.
        + apply in_map_iff. exists (Z.of_nat i). split; [|exact Hfr]. rewrite frequency_column_is, Hname. reflexivity. }
    destruct (column_Forall2 _ _ (fun col c => relative_error_at L h m (fst (snd col)) (snd (snd col)) = (Ok c, m)) _ (NoDup_app_l _ _ Nc) Fc I) as [c [X1 X2]].
    cbn [fst snd] in X1, X2.
    destruct (relative_error_value L h m f (Z.of_nat i) c m X2) as [s' [p' [q [x [y [Y1 [Y2 [Y3 [Y4 [Y5 Y6]]]]]]]]]].
    assert (s' = s) by (rewrite Hs in Y1; cbn in Y1; congruence). subst s'.
    rewrite (mk_halo_data _ _ _ _ E2) in Y2.
    exists c, p', q, x, y. split; [|split; [exact Y2|split; [exact Y3|split; [rewrite Y4; reflexivity|auto]]]].
    rewrite C.
    + rewrite Es. apply column_app_l. exact X1.
    + rewrite <- error_columns_are. apply in_app_iff. left. apply in_map_iff. eexists. split; [|exact I]. reflexivity.
  - exists training, a. split; [reflexivity|]. split.
    + rewrite C by (unfold single_columns; rewrite !in_app_iff; right; right; left; reflexivity).
      rewrite Es, column_app_r; [reflexivity|]. rewrite Hcells. intros Y. apply (NoDup_app_disj _ _ _ Nc Y). left. reflexivity.
    + destruct training as [|x r]; [left; cbn in Ea; split; congruence|]. right.
      pose proof (max_nonzero_spec (x :: r) ltac:(discriminate)) as M. rewrite Ea in M. exact M.
  - exists p, b. split; [rewrite <- (mk_halo_data _ _ _ _ E2); apply true_reach_at; exact Ep|]. split.
    + rewrite C by (unfold single_columns; rewrite !in_app_iff; right; right; right; left; reflexivity).
      rewrite Es, column_app_r; [reflexivity|]. rewrite Hcells. intros Y. apply (NoDup_app_disj _ _ _ Nc Y). right. left. reflexivity.
    + destruct (rp_kplus p) as [|x r]; [left; cbn in Eb; split; congruence|]. right.
      pose proof (max_nonzero_spec (x :: r) ltac:(discriminate)) as M. rewrite Eb in M. exact M.
Qed.
End Trial.

Print Assumptions C48_row_iff.
Print Assumptions C48_columns.
Print Assumptions C48_outcome.
Print Assumptions C48_success.
Print Assumptions C48_settings.
Print Assumptions C48_privacy.
Print Assumptions C48_single.

(** ** Examples *)

(** The trial of ExampleDriver.v with the single publisher analysis. The model has drawn [n]
    and answers [n]; the data set has one user at 50% of the campaign and two at the end. *)
Definition single_trial (generator : nat) (replica : Z) : trial :=
  {| tr_experiment_dir := "/x/exp"; tr_design := toy_design; tr_data_set := "ds";
     tr_descriptor := toy_descriptor generator replica; tr_analysis := "single_pub" |}.
Definition single_row (n : Z) : list (string * cell) :=
  match fst (compute_row toy (single_trial 0 0) 1 ((fun _ => n) : generators toy)) with Ok r => r | Err _ => [] end.

Lemma toy_strategy_known : strategy_known toy_strategy.
Proof. split; [cbn; auto|]. split; [cbn; auto|]. left. split; [reflexivity|]. intros k v []. Qed.

Example C48_row_iff_example : forall n : Z,
  (exists row, fst (compute_row toy (single_trial 0 0) 1 ((fun _ => n) : generators toy)) = Ok row) /\
  forall row, fst (compute_row toy (single_trial 0 0) 1 ((fun _ => n) : generators toy)) = Ok row -> length row = 80%nat.
Proof.
  intros n. split.
  - apply C48_row_iff. exists toy_data. split; [reflexivity|]. split; [discriminate|]. split; [cbn; lia|apply toy_strategy_known].
  - intros row E. destruct (compute_row toy (single_trial 0 0) 1 _) as [r g'] eqn:Ec. cbn [fst] in E. subst r.
    destruct (C48_columns toy _ _ _ _ _ Ec) as [X _]. rewrite <- (map_length fst), X. reflexivity.
Qed.

Example C48_outcome_example :
  column (toy_row 0 1) "model_succeeded" = Some (CInt 1) /\ column (toy_row 0 1) "npoints" = Some (CInt 1) /\
  column (toy_row 0 1) "ncampaigns" = Some (CInt 1) /\ column (toy_row 0 1) "privacy_mechanisms" = Some (CText "").
Proof. repeat split; vm_compute; reflexivity. Qed.

Lemma toy_steady m : steady toy m.
Proof. intros s k. reflexivity. Qed.

Example C48_single_example :
  column (single_row 1) "model_succeeded" = Some (CInt 1) /\
  (exists v, column (single_row 1) "relative_error_at_100" = Some (CStat (Num v)) /\ (v == 0)%Q) /\
  (exists v, column (single_row 1) "relative_error_at_200" = Some (CStat (Num v)) /\ (v == 1 # 2)%Q) /\
  column (single_row 1) "relative_error_at_040" = Some (CStat NotFinite) /\
  column (single_row 1) "max_nonzero_frequency_from_data" = Some (CInt 1).
Proof.
  assert (X : exists a b c, (column (single_row 1) "model_succeeded", column (single_row 1) "relative_error_at_100",
    column (single_row 1) "relative_error_at_200", column (single_row 1) "relative_error_at_040",
    column (single_row 1) "max_nonzero_frequency_from_data") =
    (Some (CInt 1), Some (CStat (Num a)), Some (CStat (Num b)), Some (CStat c), Some (CInt 1)) /\
    Qeq_bool a 0 = true /\ Qeq_bool b (1 # 2) = true /\ c = NotFinite).
  { eexists. eexists. eexists. vm_compute. split; [reflexivity|]. auto. }
  destruct X as [a [b [c [X [A [B ->]]]]]]. apply Qeq_bool_iff in A, B.
  split; [congruence|]. split; [exists a; split; [congruence|exact A]|]. split; [exists b; split; [congruence|exact B]|].
  split; congruence.
Qed.

(** The analysis of a trial should not change whether its model succeeds. It does: if the
    training point has no reach at any frequency, the single publisher analysis raises
    ValueError after the metrics were computed, and the row says that the model failed. *)
Theorem C48_analysis_refuted : ~ (forall L t t' seed g row row',
  tr_experiment_dir t = tr_experiment_dir t' -> tr_design t = tr_design t' -> tr_data_set t = tr_data_set t' ->
  tr_descriptor t = tr_descriptor t' ->
  fst (compute_row L t seed g) = Ok row -> fst (compute_row L t' seed g) = Ok row' ->
  column row "model_succeeded" = column row' "model_succeeded").
Proof.
  intros H.
  assert (E : fst (compute_row toy (toy_trial 0 0) 1 ((fun _ => 0) : generators toy)) = Ok (toy_row 0 0)).
  { unfold toy. rewrite (toy_computes_row toy_print toy_parse 0 0 0) by auto. reflexivity. }
  assert (E' : fst (compute_row toy (single_trial 0 0) 1 ((fun _ => 0) : generators toy)) = Ok (single_row 0)) by (vm_compute; reflexivity).
  specialize (H toy (toy_trial 0 0) (single_trial 0 0) 1 _ _ _ eq_refl eq_refl eq_refl eq_refl E E').
  assert (A : column (toy_row 0 0) "model_succeeded" = Some (CInt 1)) by (vm_compute; reflexivity).
  assert (B : column (single_row 0) "model_succeeded" = Some (CInt 0)) by (vm_compute; reflexivity).
  rewrite A, B in H. discriminate H.
Qed.
Print Assumptions C48_analysis_refuted.
