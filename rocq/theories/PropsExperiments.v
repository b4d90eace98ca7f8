(** C52: the experimental designs that come with the driver. *)
From Coq Require Import String Ascii Qround Permutation Lqa.
From Verif Require Import Prelude ModelReachPoint ModelData DataLemmas ModelPrivacy ModelAggregator ModelFiles SpecFiles ModelHalo
  ModelDriver SpecDriver DriverLemmas4 DriverLemmas5 DriverLemmas6 DriverLemmas7 DriverLemmas8 ExampleDriver PropsDriver PropsDriver2
  PropsDriver3 PropsTestPoints SpecTestPoints SpecTrial TrialLemmas2 ModelDesigns SpecDesigns DesignsLemmas4 DesignsLemmas5
  ModelExperiments SpecExperiments
  ExperimentsLemmas ExperimentsLemmas2 ExperimentsLemmas3 ExperimentsLemmas4 ExperimentsLemmas5 ExperimentsLemmas6
  ExperimentsLemmas7.
Open Scope Z_scope.

(** ** Products of levels *)

(** The product of the levels holds every combination and nothing else, each combination as
    often as its levels are listed; and if on a data set the levels differ from each other,
    then so do the combinations. *)
Theorem C52_product : forall L d,
  (forall c, In c (product_choices L) <-> combines L c) /\
  length (product_choices L) =
    (length (tl_strategies L) * length (tl_spends L) * length (tl_ll L) * length (tl_budgets L) *
     length (tl_replicas L) * length (tl_frequencies L) * length (tl_points L))%nat /\
  (levels_differ d L -> pairwise_different (same_choice d) (product_choices L)).
Proof. intros L d. split; [apply product_in|]. split; [rewrite product_length; lia|apply product_apart]. Qed.

Theorem C52_single_product : forall L d,
  (forall c, In c (single_choices L) <-> combines_single L c) /\
  length (single_choices L) =
    (length (sl_strategies L) * length (sl_fractions L) * length (sl_decay_rates L) * length (sl_sketch_sizes L) *
     length (sl_epsilons L) * length (sl_deltas L) * length (sl_replicas L) * length (sl_test_points L) *
     length (sl_frequencies L))%nat /\
  (single_levels_differ L -> pairwise_different (same_choice d) (single_choices L)).
Proof. intros L d. split; [apply single_in|]. split; [rewrite single_length; lia|apply single_apart]. Qed.

(** ** Trials *)

(** If on each data set the choices ask for different settings, there is one trial for each
    data set and each choice, and no two of them share a results file. *)
Theorem C52_trials : forall L x cs,
  xd_descriptors x = numbered cs -> tells_floats_apart (lab_float L) ->
  good_data (xd_data x) (fun d => (forall c, In c cs -> clear_choice (lab_float L) d c) /\
                                  pairwise_different (same_choice d) cs) ->
  exists ts, generate_trials L x = Ok ts /\ one_trial_each L x cs ts /\
    length ts = (length (dd_names (xd_data x)) * length cs)%nat.
Proof.
  intros L x cs H1 H2 H3. destruct (trials_made L x cs H1 H2 H3) as [ts [E O]]. exists ts. split; [exact E|]. split; [exact O|].
  destruct O as [F _]. apply Forall2_len in F. rewrite <- F, prod_length, combine_length, seq_length, Nat.min_id. reflexivity.
Qed.

(** If on some data set two choices ask for the same, a trial is lost. *)
Theorem C52_lost : forall L x cs ts n d i j c c',
  xd_descriptors x = numbered cs -> prints_floats (lab_float L) ->
  good_data (xd_data x) (fun d => forall c, In c cs -> clear_choice (lab_float L) d c) ->
  generate_trials L x = Ok ts ->
  In n (dd_names (xd_data x)) -> dd_by_name (xd_data x) n = Ok d ->
  nth_error cs i = Some c -> nth_error cs j = Some c' -> i <> j -> same_choice d c c' ->
  (length ts < length (dd_names (xd_data x)) * length cs)%nat.
Proof.
  intros L x cs ts n d i j c c' H1 H2 H3 H4 H5 H6 H7 H8 H9 H10. exact (lost_trials L x cs H1 H2 H3 ts n d i j c c' H4 H5 H6 H7 H8 H9 H10).
Qed.

(** ** The designs that are products *)

(** The first round M3 design: all 288 combinations. *)
Theorem C52_m3 : forall L x,
  xd_descriptors x = m3_experiments -> tells_floats_apart (lab_float L) ->
  good_data (xd_data x) (fun d => publisher_count d <> 0%nat) ->
  exists cs ts, (forall c, In c cs <-> combines m3_trial_levels c) /\ length cs = 288%nat /\
    xd_descriptors x = numbered cs /\
    generate_trials L x = Ok ts /\ one_trial_each L x cs ts /\
    length ts = (length (dd_names (xd_data x)) * 288)%nat.
Proof.
  intros L x Hd Hf [N G]. exists (product_choices m3_trial_levels).
  assert (Le : length (product_choices m3_trial_levels) = 288%nat) by (rewrite product_length; reflexivity).
  destruct (C52_trials L x (product_choices m3_trial_levels) Hd Hf) as [ts [E [O El]]].
  - split; [exact N|]. intros n Hn. destruct (G n Hn) as [G1 [G2 [d [Ed P]]]]. split; [exact G1|]. split; [exact G2|].
    exists d. split; [exact Ed|]. split; [|apply product_apart, m3_differ, P].
    intros c Ic. apply (product_clear _ d m3_trial_levels); [reflexivity|reflexivity| |exact Ic].
    intros s Is. destruct (full_spends d s _ _ Is) as [r [Sr _]]. eauto.
  - exists ts. split; [apply product_in|]. split; [exact Le|]. split; [exact Hd|]. rewrite Le in El. auto.
Qed.

(** The example of an analysis: all 96 combinations. *)
Theorem C52_analysis : forall L x,
  xd_descriptors x = analysis_experiments -> tells_floats_apart (lab_float L) ->
  good_data (xd_data x) (fun d => publisher_count d <> 0%nat) ->
  exists cs ts, (forall c, In c cs <-> combines analysis_trial_levels c) /\ length cs = 96%nat /\
    xd_descriptors x = numbered cs /\
    generate_trials L x = Ok ts /\ one_trial_each L x cs ts /\
    length ts = (length (dd_names (xd_data x)) * 96)%nat.
Proof.
  intros L x Hd Hf [N G]. exists (product_choices analysis_trial_levels).
  assert (Le : length (product_choices analysis_trial_levels) = 96%nat) by (rewrite product_length; reflexivity).
  destruct (C52_trials L x (product_choices analysis_trial_levels) Hd Hf) as [ts [E [O El]]].
  - split; [exact N|]. intros n Hn. destruct (G n Hn) as [G1 [G2 [d [Ed P]]]]. split; [exact G1|]. split; [exact G2|].
    exists d. split; [exact Ed|]. split; [|apply product_apart, analysis_differ, P].
    intros c Ic. apply (product_clear _ d analysis_trial_levels); [reflexivity|reflexivity| |exact Ic].
    intros s Is. destruct (full_spends d s _ _ Is) as [r [Sr _]]. eauto.
  - exists ts. split; [apply product_in|]. split; [exact Le|]. split; [exact Hd|]. rewrite Le in El. auto.
Qed.

(** The design for single publishers: all 225 combinations, on any data sets. *)
Theorem C52_single_publisher : forall L x,
  xd_descriptors x = single_experiments -> tells_floats_apart (lab_float L) ->
  good_data (xd_data x) (fun _ => True) ->
  exists cs ts, (forall c, In c cs <-> combines_single single_trial_levels c) /\ length cs = 225%nat /\
    xd_descriptors x = numbered cs /\
    generate_trials L x = Ok ts /\ one_trial_each L x cs ts /\
    length ts = (length (dd_names (xd_data x)) * 225)%nat.
Proof.
  intros L x Hd Hf [N G]. exists (single_choices single_trial_levels).
  assert (Le : length (single_choices single_trial_levels) = 225%nat) by (rewrite single_length; reflexivity).
  destruct (C52_trials L x (single_choices single_trial_levels) Hd Hf) as [ts [E [O El]]].
  - split; [exact N|]. intros n Hn. destruct (G n Hn) as [G1 [G2 [d [Ed _]]]]. split; [exact G1|]. split; [exact G2|].
    exists d. split; [exact Ed|]. split; [|apply single_apart, single_differ].
    intros c Ic. apply (single_clear _ d single_trial_levels); [reflexivity|exact Ic].
  - exists ts. split; [apply single_in|]. split; [exact Le|]. split; [exact Hd|]. rewrite Le in El. auto.
Qed.

(** The settings of the combinations, in full. *)
Theorem C52_settings : forall c,
  (combines m3_trial_levels c -> m3_settings c) /\
  (combines analysis_trial_levels c -> analysis_settings c) /\
  (combines_single single_trial_levels c -> single_settings c) /\
  (combines sample_trial_levels c -> sample_settings c).
Proof. intros c. split; [apply m3_asks|]. split; [apply analysis_asks|]. split; [apply single_asks|apply sample_asks]. Qed.

(** The comment in the M3 design says that there are 192 trials. *)
Theorem C52_m3_comment_refuted : length m3_experiments <> 192%nat.
Proof. unfold m3_experiments, product_config. rewrite numbered_length, product_length. discriminate. Qed.

(** ** The sample of combinations *)

(** For any sample of points in seven coordinates the sample design has one choice for each
    point, and it is the combination of levels in which the point lies. *)
Theorem C52_sample : forall samples,
  Forall (point_in 7) samples ->
  exists cs, sample_experiments samples = Ok (numbered cs) /\ Forall2 (choice_at sample_trial_levels) samples cs.
Proof.
  intros samples H. destruct (sample_choices_ok sample_trial_levels samples) as [cs [E [F _]]];
    [repeat split; discriminate|exact H|].
  exists cs. split; [|exact F]. unfold sample_experiments, sample_config. rewrite E. reflexivity.
Qed.

(** Of a Latin sample each level gets an even share. *)
Theorem C52_sample_balanced : forall samples, latin_in 7 samples ->
  exists cs, sample_experiments samples = Ok (numbered cs) /\ length cs = length samples /\
    evenly (tl_strategies sample_trial_levels) ch_strategy cs /\ evenly (tl_spends sample_trial_levels) ch_spends cs /\
    evenly (tl_ll sample_trial_levels) ch_ll cs /\ evenly (tl_budgets sample_trial_levels) ch_budget cs /\
    evenly (tl_replicas sample_trial_levels) ch_replica cs /\
    evenly (tl_frequencies sample_trial_levels) ch_frequency cs /\ evenly (tl_points sample_trial_levels) ch_points cs.
Proof.
  intros samples H. destruct (sample_choices_ok sample_trial_levels samples) as [cs [E [_ F]]];
    [repeat split; discriminate|apply H|].
  exists cs. split; [unfold sample_experiments, sample_config; rewrite E; reflexivity|].
  split; [symmetry; exact (Forall2_len _ _ _ F)|]. exact (sample_evenly _ _ _ H F).
Qed.

(** A Latin sample of 100 points need not give 100 trials for each data set. *)
Theorem C52_sample_fewer_refuted : exists samples cs,
  length samples = sample_trials /\ latin_in 7 samples /\ sample_experiments samples = Ok (numbered cs) /\
  forall L x ts, xd_descriptors x = numbered cs -> prints_floats (lab_float L) ->
    good_data (xd_data x) (fun _ => True) -> dd_names (xd_data x) <> [] -> generate_trials L x = Ok ts ->
    (length ts < length (dd_names (xd_data x)) * sample_trials)%nat.
Proof.
  pose proof (diagonal_latin 100 7) as Lt.
  destruct (sample_choices_ok sample_trial_levels (diagonal 100 7)) as [cs [E [F1 F2]]]; [repeat split; discriminate|apply Lt|].
  exists (diagonal 100 7), cs. split; [unfold diagonal; rewrite map_length, seq_length; reflexivity|]. split; [exact Lt|].
  split; [unfold sample_experiments, sample_config; rewrite E; reflexivity|].
  intros L x ts Hd Hf [N G] Ne Et.
  assert (Lc : length cs = 100%nat) by (rewrite <- (Forall2_len _ _ _ F2); unfold diagonal; rewrite map_length, seq_length; reflexivity).
  unfold sample_trials. rewrite <- Lc.
  assert (At : forall k, (k < 100)%nat -> nth_error (diagonal 100 7) k = Some (diagonal_point 100 7 k)).
  { intros k Hk. unfold diagonal. rewrite nth_error_map. rewrite (nth_error_nth' _ 0%nat) by (rewrite seq_length; exact Hk).
    rewrite seq_nth by exact Hk. reflexivity. }
  destruct (Forall2_nth _ _ _ F2 2 _ (At 2%nat ltac:(lia))) as [c [Ec Ac]].
  destruct (Forall2_nth _ _ _ F2 3 _ (At 3%nat ltac:(lia))) as [c' [Ec' Ac']].
  assert (c = c').
  { apply (same_levels _ _ _ _ _ Ac Ac'); vm_compute; reflexivity. }
  subst c'. destruct (dd_names (xd_data x)) as [|n r] eqn:En; [contradiction|].
  destruct (G n (or_introl eq_refl)) as [_ [_ [d [Ed _]]]].
  rewrite <- En. apply (lost_trials L x cs Hd) with (n := n) (d := d) (i := 2%nat) (j := 3%nat) (c := c) (c' := c); auto.
  - split; [rewrite En; exact N|]. intros m Hm. rewrite En in Hm. destruct (G m Hm) as [G1 [G2 [d' [Ed' _]]]].
    split; [exact G1|]. split; [exact G2|]. exists d'. split; [exact Ed'|].
    intros a Ia. apply sample_clear. eapply choices_in; eassumption.
  - rewrite En. left. reflexivity.
  - apply (same_choice_refl (lab_float L)). apply sample_clear. eapply choices_in; [exact F1|]. eapply nth_error_In. exact Ec.
Qed.

(** ** Rows *)

(** A trial of the M3 design or of the analysis has a row if and only if its data set has a
    publisher; one of the design for single publishers if and only if there is exactly one
    publisher; one of the sample design if and only if there are one or two. *)
Theorem C52_rows : forall L seed g x n i c t d,
  runs x n i c t -> dd_by_name (xd_data x) n = Ok d ->
  let has_row := exists row, fst (compute_row L t seed g) = Ok row in
  (combines m3_trial_levels c \/ combines analysis_trial_levels c -> (has_row <-> publisher_count d <> 0%nat)) /\
  (combines_single single_trial_levels c -> (has_row <-> publisher_count d = 1%nat)) /\
  (combines sample_trial_levels c -> (has_row <-> (publisher_count d = 1 \/ publisher_count d = 2)%nat)).
Proof.
  intros L seed g x n i c t d R E has_row. subst has_row. split; [|split].
  - intros [C|C]; [eapply m3_row|eapply analysis_row]; eassumption.
  - intros C. eapply single_row; eassumption.
  - intros C. eapply sample_row; eassumption.
Qed.

(** The first run of the M3 design returns a table with one row for each trial. *)
Theorem C52_m3_first_run : forall L x ts seed nows g d,
  xd_descriptors x = m3_experiments -> tells_floats_apart (lab_float L) -> good_place L x ->
  good_data (xd_data x) (fun d => publisher_count d <> 0%nat) -> dd_names (xd_data x) <> [] ->
  generate_trials L x = Ok ts -> markers_differ L ts ->
  usable L ts d -> (forall t, In t ts -> no_result L t d) ->
  exists tb, fst (load L ts seed nows g d) = Ok tb /\ length tb = (length (dd_names (xd_data x)) * 288)%nat.
Proof.
  intros L x ts seed nows g d Hd Hf Gp Gd Ne E M U No.
  destruct (C52_m3 L x Hd Hf Gd) as [cs [ts' [Ic [Lc [Hn [E' [O Lt]]]]]]]. assert (ts' = ts) by congruence. subst ts'.
  assert (Sep : separate L ts).
  { eapply place_separate; eauto. eapply good_clear; [exact Gd|]. intros d0 c Hc. apply m3_clear, Ic, Hc. }
  assert (Nt : ts <> []) by (intros ->; destruct (dd_names (xd_data x)); [contradiction|cbn in Lt; lia]).
  destruct (load L ts seed nows g d) as [r d'] eqn:El.
  destruct (proj2 (load_first_iff L ts Sep seed nows g d Nt U No)) as [tb Etb].
  { intros t It. destruct (choice_of_trial L x cs ts t O It) as [n [i [c [Hin [Hc R]]]]].
    destruct Gd as [_ G]. destruct (G n Hin) as [_ [_ [dd [Ed P]]]].
    apply (m3_row L seed g x n i c t dd); [apply Ic; eapply nth_error_In; exact Hc|exact R|exact Ed|exact P]. }
  rewrite El in Etb. cbn [fst] in *. exists tb. split; [exact Etb|]. subst r.
  rewrite <- Lt. eapply row_by_row_length. eapply load_first; eauto.
Qed.

(** The first run of the design for single publishers returns a table if and only if each
    data set has exactly one publisher. *)
Theorem C52_single_first_run : forall L x ts seed nows g d,
  xd_descriptors x = single_experiments -> tells_floats_apart (lab_float L) -> good_place L x ->
  good_data (xd_data x) (fun _ => True) -> dd_names (xd_data x) <> [] ->
  generate_trials L x = Ok ts -> markers_differ L ts ->
  usable L ts d -> (forall t, In t ts -> no_result L t d) ->
  ((exists tb, fst (load L ts seed nows g d) = Ok tb) <->
   forall n d, In n (dd_names (xd_data x)) -> dd_by_name (xd_data x) n = Ok d -> publisher_count d = 1%nat).
Proof.
  intros L x ts seed nows g d Hd Hf Gp Gd Ne E M U No.
  destruct (C52_single_publisher L x Hd Hf Gd) as [cs [ts' [Ic [Lc [Hn [E' [O Lt]]]]]]]. assert (ts' = ts) by congruence. subst ts'.
  assert (Sep : separate L ts).
  { eapply place_separate; eauto. eapply good_clear; [exact Gd|]. intros d0 c Hc. apply single_choice_clear, Ic, Hc. }
  assert (Nt : ts <> []) by (intros ->; destruct (dd_names (xd_data x)); [contradiction|cbn in Lt; lia]).
  rewrite (load_first_iff L ts Sep seed nows g d Nt U No). split.
  - intros H n dd Hin Ed. destruct cs as [|c cs]; [discriminate|].
    destruct (trial_of_choice L x (c :: cs) ts n 0%nat c O Hin eq_refl) as [t [It R]].
    apply (single_row L seed g x n 0%nat c t dd); [apply Ic; left; reflexivity|exact R|exact Ed|apply H; exact It].
  - intros H t It. destruct (choice_of_trial L x cs ts t O It) as [n [i [c [Hin [Hc R]]]]].
    destruct Gd as [_ G]. destruct (G n Hin) as [_ [_ [dd [Ed P]]]].
    apply (single_row L seed g x n i c t dd); [apply Ic; eapply nth_error_In; exact Hc|exact R|exact Ed|eapply H; eassumption].
Qed.

(** ** Replicas *)

(** In a run in which nothing has been computed before, trials that differ in the replica only
    have the same row, except for the columns that say which trial it is: the design gives each
    descriptor a generator of its own, all with the same seed. The row of the data set number
    [k] and the choice number [i] is at the position [k * length cs + i]. *)
Theorem C52_replicas : forall L x cs ts seed nows g d tb d',
  one_trial_each L x cs ts -> separate L ts -> usable L ts d -> (forall t, In t ts -> no_result L t d) ->
  (forall i j, g i = g j) -> load L ts seed nows g d = (Ok tb, d') ->
  length tb = length ts /\
  forall k n i j c c', nth_error (dd_names (xd_data x)) k = Some n ->
    nth_error cs i = Some c -> nth_error cs j = Some c' -> replicas c c' ->
    exists row row', nth_error tb (k * length cs + i) = Some row /\ nth_error tb (k * length cs + j) = Some row' /\
      In ("dataset"%string, CText n) row /\ In ("replica_id"%string, CInt (ch_replica c)) row /\
      In ("dataset"%string, CText n) row' /\ In ("replica_id"%string, CInt (ch_replica c')) row' /\
      unlabelled row = unlabelled row'.
Proof.
  intros L x cs ts seed nows g d tb d' O Sep U No Al E.
  pose proof (load_first L ts Sep seed nows g d tb d' U No E) as Rr.
  split; [exact (row_by_row_length L seed g ts tb Rr)|].
  intros k n i j c c' Hn Hc Hc' Rc.
  assert (At : forall i c, nth_error cs i = Some c -> exists row, nth_error tb (k * length cs + i) = Some row /\
     In ("dataset"%string, CText n) row /\ In ("replica_id"%string, CInt (ch_replica c)) row).
  { intros i0 c0 H0. destruct O as [F _].
    assert (X : nth_error (combine (seq 0 (length cs)) cs) i0 = Some (i0, c0)) by (rewrite nth_combine_seq, H0; reflexivity).
    pose proof (nth_prod _ _ _ _ _ _ Hn X) as Y. rewrite combine_length, seq_length, Nat.min_id in Y.
    destruct (Forall2_nth _ _ _ F _ _ Y) as [t [Et Rt]]. cbn [fst snd] in Rt.
    destruct (row_by_row_nth L seed ts g tb _ t Rr Et) as [row [g' [En Ec]]].
    exists row. split; [exact En|]. exact (row_settings L x seed g' n i0 c0 t row Rt Ec). }
  destruct (At i c Hc) as [row [A1 [A2 A3]]]. destruct (At j c' Hc') as [row' [B1 [B2 B3]]].
  exists row, row'. repeat (split; [assumption|]). destruct O as [F _].
  apply (replica_rows L x cs seed (dd_names (xd_data x)) ts g tb) with (k := k) (i := i) (j := j) (c := c) (c' := c'); auto.
  - intros i0 j0 c0 c0' _ _ _. apply Al.
  - apply nth_error_Some. congruence.
Qed.

(** ** Interrupted runs *)

(** With one data set the row of a trial does not depend on which other trials were computed
    before: no two of them draw from the same generator. *)
Theorem C52_one_data_set : forall L x cs ts seed g,
  one_trial_each L x cs ts -> (length (dd_names (xd_data x)) <= 1)%nat -> unaffected L seed g ts.
Proof. intros. eapply one_each_unaffected; eassumption. Qed.

(** ** Test points *)

(** At how many points the trials measure, on a data set with [p] publishers. *)
Theorem C52_points : forall L x n i c t d gl st,
  random_ok (lab_draws L) -> permutation_ok (lab_draws L) -> lhs_ok (lab_draws L) ->
  runs x n i c t -> dd_by_name (xd_data x) n = Ok d ->
  let p := Z.of_nat (publisher_count d) in
  let kind := fst (ch_points c) in
  (combines m3_trial_levels c ->
     (kind = "latin_hypercube"%string /\ makes_points L t d gl st (Z.min (Z.max 100 (100 * p)) 2000)) \/
     (kind = "uniformly_random"%string /\ makes_points L t d gl st (Z.max 100 (100 * p)))) /\
  (combines analysis_trial_levels c ->
     (kind = "latin_hypercube"%string /\ makes_points L t d gl st (Z.min (Z.max 100 (10 * p)) 2000)) \/
     (kind = "uniformly_random"%string /\ makes_points L t d gl st (Z.max 100 (10 * p)))) /\
  (combines_single single_trial_levels c -> kind = "grid"%string /\ makes_points L t d gl st (20 ^ p)) /\
  (combines sample_trial_levels c ->
     (kind = "latin_hypercube"%string /\ makes_points L t d gl st 100) \/
     (kind = "uniformly_random"%string /\ makes_points L t d gl st 500) \/
     (kind = "grid"%string /\ makes_points L t d gl st (5 ^ p))).
Proof.
  intros L x n i c t d gl st R1 R2 R3 R E p kind. subst kind.
  destruct (runs_points x n i c t d R E) as [K1 K2].
  assert (Pp : 0 <= p) by apply Nat2Z.is_nonneg.
  assert (Get : forall k kw l, ch_points c = (k, kw) -> int_kwargs kw = Ok l -> NoDup (map fst kw) ->
    ep_test_points (td_experiment (tr_descriptor t)) = k /\
    int_kwargs (ep_test_kwargs (td_experiment (tr_descriptor t))) =
      Ok (map (fun kv => if String.eqb (fst kv) "npublishers" then (fst kv, p) else kv) l)).
  { intros k kw l Ek El Nd. rewrite Ek in K1, K2. cbn [fst snd] in K1, K2. split; [exact K1|].
    exact (kwargs_on_int d kw _ K2 l El Nd). }
  split; [|split; [|split]].
  - intros [_ [_ [_ [_ [_ [_ C]]]]]]. cbn [tl_points m3_trial_levels In] in C. destruct C as [C|[C|[]]]; symmetry in C; rewrite C; cbn [fst].
    + left. split; [reflexivity|]. destruct (Get _ _ [("npublishers"%string, 1)] C eq_refl) as [T1 T2]; [repeat constructor; intros []|].
      pose proof (makes_latin L R2 R3 t d gl st _ T1 T2 eq_refl) as H. cbn in H.
      replace (Z.min (Z.max 100 (100 * p)) 2000) with (Z.min (Z.max (Z.max 100 (p * 100)) 100) 2000) by lia. exact H.
    + right. split; [reflexivity|]. destruct (Get _ _ [("npublishers"%string, 1)] C eq_refl) as [T1 T2]; [repeat constructor; intros []|].
      pose proof (makes_uniform L R1 t d gl st _ T1 T2 eq_refl) as H. cbn in H.
      replace (Z.max 100 (100 * p)) with (Z.max 0 (Z.max 100 (p * 100))) by lia. exact H.
  - intros [_ [_ [_ [_ [_ [_ C]]]]]]. cbn [tl_points analysis_trial_levels In] in C. destruct C as [C|[C|[]]]; symmetry in C; rewrite C; cbn [fst].
    + left. split; [reflexivity|].
      destruct (Get _ _ [("npublishers"%string, 1); ("minimum_points_per_publisher"%string, 10)] C eq_refl) as [T1 T2].
      { cbn. repeat constructor; cbn; intros X; repeat (destruct X as [X|X]; try discriminate); exact X. }
      pose proof (makes_latin L R2 R3 t d gl st _ T1 T2 eq_refl) as H. cbn in H.
      replace (Z.min (Z.max 100 (10 * p)) 2000) with (Z.min (Z.max (Z.max 100 (p * 10)) 100) 2000) by lia. exact H.
    + right. split; [reflexivity|].
      destruct (Get _ _ [("npublishers"%string, 1); ("minimum_points_per_publisher"%string, 10)] C eq_refl) as [T1 T2].
      { cbn. repeat constructor; cbn; intros X; repeat (destruct X as [X|X]; try discriminate); exact X. }
      pose proof (makes_uniform L R1 t d gl st _ T1 T2 eq_refl) as H. cbn in H.
      replace (Z.max 100 (10 * p)) with (Z.max 0 (Z.max 100 (p * 10))) by lia. exact H.
  - intros [m [f [dr [ss [pt [_ [_ [_ [_ [_ [_ [_ [C8 [_ [_ [_ [_ [_ [_ [_ [_ [_ [_ [_ C]]]]]]]]]]]]]]]]]]]]]]]].
    cbn [sl_test_points single_trial_levels In] in C8. destruct C8 as [<-|[]]. rewrite C. split; [reflexivity|].
    destruct (Get _ _ [("grid_size"%string, 20)] C eq_refl) as [T1 T2]; [repeat constructor; intros []|].
    apply (makes_grid L t d gl st 20 T1 T2). lia.
  - intros [_ [_ [_ [_ [_ [_ C]]]]]]. cbn [tl_points sample_trial_levels In] in C. destruct C as [C|[C|[C|[]]]]; symmetry in C; rewrite C; cbn [fst].
    + left. split; [reflexivity|]. destruct (Get _ _ [("npoints"%string, 100)] C eq_refl) as [T1 T2]; [repeat constructor; intros []|].
      exact (makes_latin L R2 R3 t d gl st _ T1 T2 eq_refl).
    + right; left. split; [reflexivity|]. destruct (Get _ _ [("npoints"%string, 500)] C eq_refl) as [T1 T2]; [repeat constructor; intros []|].
      exact (makes_uniform L R1 t d gl st _ T1 T2 eq_refl).
    + right; right. split; [reflexivity|]. destruct (Get _ _ [("grid_size"%string, 5)] C eq_refl) as [T1 T2]; [repeat constructor; intros []|].
      apply (makes_grid L t d gl st 5 T1 T2). lia.
Qed.

(** ** Examples *)

(** Names of markers from which the path can be read off. *)
Fixpoint safe_chars (s : list ascii) : list ascii :=
  match s with
  | [] => []
  | c :: r => if Ascii.eqb c slash then "_"%char :: "s"%char :: safe_chars r
              else if Ascii.eqb c "_" then "_"%char :: "u"%char :: safe_chars r
              else c :: safe_chars r
  end.
Definition safe_md5 (s : string) : string := str ("m"%char :: safe_chars (chars s)).

Lemma safe_no_slash s : ~ In slash (safe_chars s).
Proof.
  induction s as [|c s IH]; cbn [safe_chars]; [intros []|].
  destruct (Ascii.eqb_spec c slash); [|destruct (Ascii.eqb_spec c "_")]; cbn [In]; intros X;
    repeat (destruct X as [X|X]; [first [discriminate|congruence]|]); exact (IH X).
Qed.
Lemma safe_inj s : forall s', safe_chars s = safe_chars s' -> s = s'.
Proof.
  induction s as [|c s IH]; intros [|c' s'] E; cbn [safe_chars] in E; [reflexivity|exfalso..|].
  - destruct (Ascii.eqb c' slash); [|destruct (Ascii.eqb c' "_")]; discriminate.
  - destruct (Ascii.eqb c slash); [|destruct (Ascii.eqb c "_")]; discriminate.
  - destruct (Ascii.eqb_spec c slash) as [->|H1]; [|destruct (Ascii.eqb_spec c "_") as [->|H2]];
      (destruct (Ascii.eqb_spec c' slash) as [->|H3]; [|destruct (Ascii.eqb_spec c' "_") as [->|H4]]); try (f_equal; apply IH; congruence);
      try congruence.
    f_equal; [congruence|apply IH; congruence].
Qed.
Lemma safe_name s : file_name (safe_md5 s).
Proof.
  unfold safe_md5. split; [discriminate|]. split; [discriminate|]. split; [discriminate|].
  fold (chars (str ("m"%char :: safe_chars (chars s)))). rewrite DriverLemmas4.chars_str.
  intros [X|X]; [discriminate|]. exact (safe_no_slash _ X).
Qed.
Lemma safe_md5_inj s s' : safe_md5 s = safe_md5 s' -> s = s'.
Proof.
  intros E. apply DriverLemmas4.str_inj in E. assert (X : safe_chars (chars s) = safe_chars (chars s')) by congruence.
  apply safe_inj in X. unfold chars in X. rewrite <- (string_of_list_ascii_of_string s), <- (string_of_list_ascii_of_string s'), X. reflexivity.
Qed.

(** A laboratory with a given way to fit. *)
Definition shipped_lab (fit : strategy_descriptor -> halo -> budget -> bool -> M PropsHalo.ex_externals (Z * bool)) : lab :=
  {| lab_float := toy_float; lab_halo := PropsHalo.ex_externals;
     lab_global := bool; lab_seed_global := Z.even; lab_own := unit; lab_default_rng := fun _ => tt;
     lab_draws := diagonal_rng; lab_model := Z; lab_fit := fit; lab_ask := toy_ask;
     lab_training := fun m => Ok [inject_Z m];
     lab_traceback := fun e => match e with ValueError => "value"%string | _ => "other"%string end;
     lab_print := toy_print; lab_parse := toy_parse; lab_md5 := safe_md5 |}.
Definition two_sets : data_design :=
  {| dd_names := ["a"; "b"]%string; dd_by_name := fun _ => Ok toy_data |}.
Definition shipped (descriptors : list trial_descriptor) : experimental_design :=
  {| xd_dir := "/x/exp"; xd_data := two_sets; xd_descriptors := descriptors; xd_seed := 1; xd_analysis := "" |}.
Definition shipped_start fit : generators (shipped_lab fit) := fun _ => 0.

Lemma two_sets_good (P : data_set -> Prop) : P toy_data -> good_data two_sets P.
Proof.
  intros H. split; [repeat constructor; cbn; intros X; repeat (destruct X as [X|X]; try discriminate); exact X|].
  intros n [<-|[<-|[]]]; (split; [repeat split; try discriminate; cbn; intros [X|[]]; discriminate|]);
    (split; [cbn; intros [X|[]]; discriminate|exists toy_data; auto]).
Qed.
Lemma shipped_place fit descs : good_place (shipped_lab fit) (shipped descs).
Proof. split; [discriminate|]. split; [discriminate|exact safe_name]. Qed.
Lemma shipped_markers fit ts : markers_differ (shipped_lab fit) ts.
Proof. intros t t' _ _ E. exact (safe_md5_inj _ _ E). Qed.

(** The M3 design on two data sets: 576 trials; their first run gives 576 rows, and those of
    the replicas 1 and 2 of the first combination, at the positions 0 and 4, are the same. *)
Example C52_m3_example : let L := shipped_lab toy_fit in
  exists ts tb d', generate_trials L (shipped m3_experiments) = Ok ts /\ length ts = 576%nat /\
    load L ts 1 (fun _ => chars "now") (shipped_start toy_fit) [] = (Ok tb, d') /\ length tb = 576%nat /\
    exists row row', nth_error tb 0 = Some row /\ nth_error tb 4 = Some row' /\
      In ("replica_id"%string, CInt 1) row /\ In ("replica_id"%string, CInt 2) row' /\ unlabelled row = unlabelled row'.
Proof.
  intros L. assert (Gd : good_data two_sets (fun d => publisher_count d <> 0%nat)) by (apply two_sets_good; discriminate).
  set (cs := product_choices m3_trial_levels).
  assert (Ic : forall c, In c cs <-> combines m3_trial_levels c) by apply product_in.
  assert (Hn : xd_descriptors (shipped m3_experiments) = numbered cs) by reflexivity.
  destruct (C52_trials L (shipped m3_experiments) cs Hn toy_apart_floats) as [ts [E [O Lt]]].
  { destruct Gd as [N G]. split; [exact N|]. intros n In_n. destruct (G n In_n) as [G1 [G2 [d [Ed P]]]].
    split; [exact G1|]. split; [exact G2|]. exists d. split; [exact Ed|]. split; [|apply product_apart, m3_differ, P].
    intros c Hc. apply m3_clear, Ic, Hc. }
  assert (Sep : separate L ts).
  { apply (place_separate L (shipped m3_experiments) cs); [exact Hn|exact toy_apart_floats| |apply shipped_place|discriminate|exact E|apply shipped_markers].
    apply (good_clear _ _ _ _ Gd). intros d0 c Hc. apply m3_clear, Ic, Hc. }
  assert (U : usable L ts []) by (apply empty_disk_usable; exact (proj1 Sep)).
  assert (No : forall t, In t ts -> no_result L t []).
  { intros t It tb0 [c0 [X _]]. destruct (proj1 Sep t It) as [S1 _].
    destruct (out_of L t) as [a [|b l]]; [contradiction|discriminate]. }
  destruct (C52_m3_first_run L (shipped m3_experiments) ts 1 (fun _ => chars "now") (shipped_start toy_fit) [])
    as [tb [Etb Ltb]]; [reflexivity|exact toy_apart_floats|apply shipped_place|exact Gd|discriminate|exact E|apply shipped_markers|exact U|exact No|].
  destruct (load L ts 1 (fun _ => chars "now") (shipped_start toy_fit) []) as [r d'] eqn:El. cbn [fst] in Etb. subst r.
  exists ts, tb, d'. split; [exact E|]. split; [exact Lt|]. split; [exact El|]. split; [exact Ltb|].
  destruct (C52_replicas L (shipped m3_experiments) cs ts 1 _ (shipped_start toy_fit) _ _ _ O Sep U No
    (fun _ _ => eq_refl) El) as [_ H].
  destruct (nth_error cs 0) as [c|] eqn:Ec; [|discriminate Ec]. destruct (nth_error cs 4) as [c'|] eqn:Ec'; [|discriminate Ec'].
  assert (R : replicas c c' /\ ch_replica c = 1 /\ ch_replica c' = 2).
  { cbn in Ec, Ec'. injection Ec as <-. injection Ec' as <-. cbn. repeat split. }
  destruct R as [R [R1 R2]].
  destruct (H 0%nat "a"%string 0%nat 4%nat c c' eq_refl Ec Ec' R) as [row [row' [A1 [A2 [_ [A3 [_ [A4 A5]]]]]]]].
  rewrite R1 in A3. rewrite R2 in A4. exists row, row'. auto 6.
Qed.

(** On two data sets with two publishers each, a run of the design for single publishers stops
    with an exception. *)
Definition pair_data : data_set :=
  {| ds_data := [{| pd_data := [(1, 1%Q)]; pd_spends := [1%Q]; pd_max_spend := 1; pd_max_reach := 1; pd_name := "a" |};
                 {| pd_data := [(1, 1%Q)]; pd_spends := [1%Q]; pd_max_spend := 1; pd_max_reach := 1; pd_name := "b" |}];
     ds_maximum_reach := 1; ds_name := "pair"; ds_universe := 1 |}.
Definition shipped_on (d : data_set) (descriptors : list trial_descriptor) : experimental_design :=
  {| xd_dir := "/x/exp"; xd_data := {| dd_names := ["a"%string]; dd_by_name := fun _ => Ok d |};
     xd_descriptors := descriptors; xd_seed := 1; xd_analysis := "" |}.
Example C52_single_example : let L := shipped_lab toy_fit in
  (exists ts tb, generate_trials L (shipped_on toy_data single_experiments) = Ok ts /\ length ts = 225%nat /\
     fst (load L ts 1 (fun _ => chars "now") (shipped_start toy_fit) []) = Ok tb) /\
  (exists ts, generate_trials L (shipped_on pair_data single_experiments) = Ok ts /\ length ts = 225%nat /\
     ~ exists tb, fst (load L ts 1 (fun _ => chars "now") (shipped_start toy_fit) []) = Ok tb).
Proof.
  intros L.
  assert (Main : forall d, exists ts, generate_trials L (shipped_on d single_experiments) = Ok ts /\ length ts = 225%nat /\
    ((exists tb, fst (load L ts 1 (fun _ => chars "now") (shipped_start toy_fit) []) = Ok tb) <-> publisher_count d = 1%nat)).
  { intros d. assert (Gd : good_data (xd_data (shipped_on d single_experiments)) (fun _ => True)).
    { split; [repeat constructor; intros []|]. intros n [<-|[]].
      split; [repeat split; try discriminate; cbn; intros [X|[]]; discriminate|].
      split; [cbn; intros [X|[]]; discriminate|exists d; auto]. }
    destruct (C52_single_publisher L (shipped_on d single_experiments) eq_refl toy_apart_floats Gd) as [cs [ts [Ic [Lc [Hn [E [O Lt]]]]]]].
    assert (Gp : good_place L (shipped_on d single_experiments)) by (split; [discriminate|]; split; [discriminate|exact safe_name]).
    assert (Sep : separate L ts).
    { apply (place_separate L (shipped_on d single_experiments) cs); [exact Hn|exact toy_apart_floats| |exact Gp|discriminate|exact E|apply shipped_markers].
      apply (good_clear _ _ _ _ Gd). intros d0 c Hc. apply single_choice_clear, Ic, Hc. }
    assert (No : forall t, In t ts -> no_result L t []).
    { intros t It tb0 [c0 [X _]]. destruct (proj1 Sep t It) as [S1 _].
      destruct (out_of L t) as [a [|b l]]; [contradiction|discriminate]. }
    exists ts. split; [exact E|]. split; [exact Lt|].
    rewrite (C52_single_first_run L (shipped_on d single_experiments) ts 1 (fun _ => chars "now") (shipped_start toy_fit) [] eq_refl
      toy_apart_floats Gp Gd ltac:(discriminate) E (shipped_markers _ _) (empty_disk_usable _ _ (proj1 Sep)) No).
    split; [intros H; exact (H "a"%string d (or_introl eq_refl) eq_refl)|].
    intros H n d' _ Ed. assert (d = d') by (cbn in Ed; congruence). subst d'. exact H. }
  split.
  - destruct (Main toy_data) as [ts [E [Lt [_ H]]]]. destruct (H eq_refl) as [tb Et]. exists ts, tb. auto.
  - destruct (Main pair_data) as [ts [E [Lt [H _]]]]. exists ts. split; [exact E|]. split; [exact Lt|].
    intros X. apply H in X. discriminate.
Qed.

(** With two data sets a row can depend on what was computed before, so that a run that is
    resumed, or that runs in parallel, can give other rows than one that is not: the trials of
    a choice on the two data sets draw from one generator. Here fitting fails with an
    exception that depends on the number drawn. *)
Definition failing_fit (_ : strategy_descriptor) (_ : halo) (_ : budget) (_ : bool)
  : M PropsHalo.ex_externals (Z * bool) :=
  fun w => match draw_seed w with
           | (Ok z, w') => (Err (if z =? 0 then ValueError else KeyError), w')
           | (Err e, w') => (Err e, w')
           end.

Theorem C52_two_data_sets_refuted : exists L x cs ts (g : generators L),
  xd_descriptors x = m3_experiments /\ generate_trials L x = Ok ts /\ one_trial_each L x cs ts /\
  length (dd_names (xd_data x)) = 2%nat /\ (forall i j, g i = g j) /\ ~ unaffected L 1 g ts.
Proof.
  set (L := shipped_lab failing_fit).
  assert (Gd : good_data two_sets (fun d => publisher_count d <> 0%nat)) by (apply two_sets_good; discriminate).
  set (cs := product_choices m3_trial_levels).
  assert (Ic : forall c, In c cs <-> combines m3_trial_levels c) by apply product_in.
  assert (Hn : xd_descriptors (shipped m3_experiments) = numbered cs) by reflexivity.
  destruct (C52_trials L (shipped m3_experiments) cs Hn toy_apart_floats) as [ts [E [O Lt]]].
  { destruct Gd as [N G]. split; [exact N|]. intros n In_n. destruct (G n In_n) as [G1 [G2 [d [Ed P]]]].
    split; [exact G1|]. split; [exact G2|]. exists d. split; [exact Ed|]. split; [|apply product_apart, m3_differ, P].
    intros c Hc. apply m3_clear, Ic, Hc. }
  exists L, (shipped m3_experiments), cs, ts, (shipped_start failing_fit).
  split; [reflexivity|]. split; [exact E|]. split; [exact O|]. split; [reflexivity|]. split; [reflexivity|].
  intros U. destruct (nth_error cs 0) as [c|] eqn:Ec; [|discriminate Ec].
  destruct (trial_of_choice L (shipped m3_experiments) cs ts "a"%string 0%nat c O (or_introl eq_refl) Ec) as [t [It R]].
  destruct (trial_of_choice L (shipped m3_experiments) cs ts "b"%string 0%nat c O (or_intror (or_introl eq_refl)) Ec) as [t' [It' R']].
  assert (Nt : t <> t') by (intros X; rewrite X in R; destruct R as [_ [_ [R _]]]; destruct R' as [_ [_ [R' _]]]; congruence).
  specialize (U t' [t] It'). cbn [after_computing] in U.
  assert (Ud : exists desc, update_descriptor (make_descriptor 0 c) toy_data = Ok desc) by (apply plays_update; cbn in Ec; injection Ec as <-; cbn; eauto).
  destruct Ud as [desc Ud].
  set (tt := fun n : string => {| tr_experiment_dir := "/x/exp"; tr_design := two_sets; tr_data_set := n; tr_descriptor := desc; tr_analysis := "" |}).
  assert (Rt : forall n, runs (shipped m3_experiments) n 0 c (tt n)).
  { intros n. apply update_adapted in Ud; [|cbn in Ec; injection Ec as <-; cbn; repeat constructor; intros []].
    apply adapted_plays in Ud. destruct Ud as [P G]. repeat (split; [first [reflexivity|exact G]|]). exists toy_data. split; [reflexivity|exact P]. }
  assert (Rc : replicas c c) by (repeat split).
  pose proof (runs_twins _ _ _ _ _ _ _ _ R (Rt "a"%string) Rc) as T. pose proof (runs_twins _ _ _ _ _ _ _ _ R' (Rt "b"%string) Rc) as T'.
  assert (Gt : sp_generator (system_of t) = 0%nat) by apply R. assert (Gt' : sp_generator (system_of t') = 0%nat) by apply R'.
  assert (Gd' : sp_generator (td_system desc) = 0%nat) by apply (Rt "a"%string).
  destruct (row_twins L 1 t (tt "a"%string) (shipped_start failing_fit) (shipped_start failing_fit) T eq_refl) as [_ St].
  pose proof (row_twins L 1 t' (tt "b"%string) (shipped_start failing_fit) (shipped_start failing_fit) T' eq_refl) as [Y0 _].
  assert (Hd : desc = match update_descriptor (make_descriptor 0 c) toy_data with Ok x => x | Err _ => desc end) by (rewrite Ud; reflexivity).
  cbn in Ec. injection Ec as <-. vm_compute in Hd. subst desc.
  assert (S1 : snd (compute_row L t 1 (shipped_start failing_fit)) 0%nat = 1) by (rewrite Gt in St; rewrite St; vm_compute; reflexivity).
  pose proof (row_twins L 1 t' (tt "b"%string) (snd (compute_row L t 1 (shipped_start failing_fit))) (fun _ => 1) T') as Y1.
  rewrite Gt' in Y1. destruct (Y1 S1) as [Y2 _]. rewrite U in Y2.
  2:{ intros u [<-|[]]. auto. }
  destruct (fst (compute_row L t' 1 (shipped_start failing_fit))) as [row|e]; vm_compute in Y0, Y2; [rewrite Y0 in Y2; discriminate|contradiction].
Qed.

(** The sample of the points on a diagonal is a Latin sample; its choices are balanced. *)
Example C52_sample_example : exists cs, sample_experiments (diagonal 100 7) = Ok (numbered cs) /\ length cs = 100%nat /\
  evenly (tl_frequencies sample_trial_levels) ch_frequency cs.
Proof.
  destruct (C52_sample_balanced _ (diagonal_latin 100 7)) as [cs [E [Lc [_ [_ [_ [_ [_ [H _]]]]]]]]].
  exists cs. split; [exact E|]. split; [|exact H]. rewrite Lc. unfold diagonal. rewrite map_length, seq_length. reflexivity.
Qed.

(** Trials of the first combination of the sample design with a grid: 25 points for two
    publishers. *)
Definition grid_choice : choice :=
  {| ch_strategy := strategy "m3strategy" [] "goerg" [] "restricted_pairwise_union";
     ch_spends := Given [PFloat (inject_Z 1 * (1 # 10)); PFloat (inject_Z 1 * (1 # 10))];
     ch_ll := legions (PInt 10) (PFloat 100000);
     ch_budget := (PFloat 1, PFloat (1 # 10000000)); ch_replica := 1; ch_frequency := 5;
     ch_points := ("grid", [("grid_size", int 5)])%string |}.
Example C52_points_example : let L := shipped_lab toy_fit in let x := shipped_on pair_data (numbered [grid_choice]) in
  exists ts t, generate_trials L x = Ok ts /\ In t ts /\ runs x "a" 0 grid_choice t /\
    makes_points L t pair_data true tt 25 /\ exists row, fst (compute_row L t 1 (shipped_start toy_fit)) = Ok row.
Proof.
  intros L x.
  assert (Cb : combines sample_trial_levels grid_choice).
  { unfold combines, sample_trial_levels, grid_choice. cbn [tl_strategies tl_spends tl_ll tl_budgets tl_replicas tl_frequencies tl_points
      ch_strategy ch_spends ch_ll ch_budget ch_replica ch_frequency ch_points].
    split; [left; reflexivity|]. split; [left; reflexivity|]. split; [left; reflexivity|]. split; [left; reflexivity|].
    split; [left; reflexivity|]. split; [left; reflexivity|]. right; right; left; reflexivity. }
  destruct (C52_trials L x [grid_choice]) as [ts [E [O Lt]]]; [reflexivity|exact toy_apart_floats| |].
  { split; [repeat constructor; intros []|]. intros n [<-|[]].
    split; [repeat split; try discriminate; cbn; intros [X|[]]; discriminate|].
    split; [cbn; intros [X|[]]; discriminate|]. exists pair_data. split; [reflexivity|]. split.
    - intros c [<-|[]]. apply sample_clear. exact Cb.
    - intros [|[|i]] [|[|j]] a b Ha Hb _; first [reflexivity|discriminate]. }
  destruct (trial_of_choice L x [grid_choice] ts "a"%string 0%nat grid_choice O (or_introl eq_refl) eq_refl) as [t [It R]].
  exists ts, t. split; [exact E|]. split; [exact It|]. split; [exact R|]. split.
  - destruct (C52_points L x "a" 0 grid_choice t pair_data true tt diagonal_random_ok diagonal_permutation_ok diagonal_lhs_ok R eq_refl)
      as [_ [_ [_ H]]]. destruct (H Cb) as [[X _]|[[X _]|[_ X]]]; [discriminate X|discriminate X|exact X].
  - apply (C52_rows L 1 (shipped_start toy_fit) x "a" 0 grid_choice t pair_data R eq_refl); [exact Cb|right; reflexivity].
Qed.

Print Assumptions C52_product.
Print Assumptions C52_single_product.
Print Assumptions C52_trials.
Print Assumptions C52_lost.
Print Assumptions C52_m3.
Print Assumptions C52_analysis.
Print Assumptions C52_single_publisher.
Print Assumptions C52_settings.
Print Assumptions C52_m3_comment_refuted.
Print Assumptions C52_sample.
Print Assumptions C52_sample_balanced.
Print Assumptions C52_sample_fewer_refuted.
Print Assumptions C52_rows.
Print Assumptions C52_m3_first_run.
Print Assumptions C52_single_first_run.
Print Assumptions C52_replicas.
Print Assumptions C52_one_data_set.
Print Assumptions C52_points.
Print Assumptions C52_two_data_sets_refuted.
