(** C55: trials with the strategies and models that the driver can name. *)
From Coq Require Import String Lqa.
From Verif Require Import Prelude ModelReachPoint ModelData SpecData ModelPrivacy SpecPrivacy PrivacyLemmas ModelHalo SpecHalo
  ModelStrategy ReachPointLemmas DataLemmas HaloLemmas HaloLemmas2 ModelCurves ModelSurface SpecSurface
  ModelRestricted SpecRestricted PropsRestricted ModelTestPoints ModelAggregator SpecAggregator AggregatorLemmas PropsAggregator
  ModelFiles ModelDriver SpecTrial TrialLemmas TrialLemmas2 PropsTrial ModelStack SpecStack StackLemmas.
Open Scope Z_scope.

Lemma halo_count d fr ll h : mk_halo d fr ll = Ok h -> h_publisher_count h = length (ds_data d).
Proof.
  unfold mk_halo, h_publisher_count. destruct (mapM _ _) as [pubs|] eqn:E; [|discriminate]. cbn [bind]. intros X. injection X as <-.
  cbn [h_publishers]. apply mapM_ok_length in E. rewrite combine_length, seq_length in E. unfold publisher_count in E. lia.
Qed.

Section Full.
Variable T : tools.
Variable B : bench T.
Let L := full_lab T B.

Lemma row_fit t seed g row g' : compute_row L t seed g = (Ok row, g') ->
  exists d h fit w, trial_fit L t seed g d h fit w.
Proof.
  intros E. destruct (compute_row_inv L _ _ _ _ _ E) as [d [h [fit [w [iv [E1 [E2 [E3 _]]]]]]]].
  exists d, h, fit, w. split; [exact E1|]. split; [exact E2|]. exact E3.
Qed.

(** ** Privacy *)

Lemma share_le sd p : (0 <= budget_share sd p <= 1)%Q.
Proof.
  unfold budget_share. destruct (string_dec sd "m3strategy"); [|lra]. destruct (2 <? p)%nat; [lra|].
  pose proof (inject_pos p). split.
  - apply Qle_shift_div_l; [exact H|]. rewrite Qmult_0_l. change 0%Q with (inject_Z 0). rewrite <- Zle_Qle. lia.
  - apply Qle_shift_div_r; [exact H|]. rewrite Qmult_1_l. rewrite <- Zle_Qle. lia.
Qed.

Lemma fit_charges sd h b g : honest_estimator (bn_halo T B) -> sensible_budget b ->
  (sd_strategy sd = "m3strategy" \/ sd_strategy sd = "single_publisher")%string ->
  let s := budget_share (sd_strategy sd) (h_publisher_count h) in
  chg (X := bn_halo T B) (fit_strategy T sd h b g) (s * epsilon b) (s * delta b).
Proof.
  intros HX Hb Hs s. unfold fit_strategy. subst s. unfold budget_share. set (p := h_publisher_count h).
  pose proof (inject_pos p) as Hp. assert (Np : ~ (inject_Z (2 * Z.of_nat p + 1) == 0)%Q) by (intros C; rewrite C in Hp; lra).
  destruct Hs as [-> | ->].
  - destruct (string_dec "m3strategy" "m3strategy") as [_|N]; [|congruence]. rewrite String.eqb_refl.
    pose proof (chg_m3 (X := bn_halo T B) (named_modelers T sd g) (use_ground_truth sd) h b HX Hb) as C. cbv zeta in C. fold p in C.
    eapply chg_weaken; [| |apply chg_bind; [| |exact C|intros [c|[x y]]; apply chg_ret]]; try lra.
    + unfold m3_requests, per_request_budget. cbn [epsilon]. destruct (2 <? p)%nat.
      * rewrite Qplus_0_r, Qmult_1_l. symmetry. apply div_share.
      * field. exact Np.
    + unfold m3_requests, per_request_budget. cbn [delta]. destruct (2 <? p)%nat.
      * rewrite Qplus_0_r, Qmult_1_l. symmetry. apply div_share.
      * field. exact Np.
  - destruct (string_dec "single_publisher" "m3strategy") as [N|_]; [discriminate N|].
    change (String.eqb "single_publisher" "m3strategy") with false. rewrite String.eqb_refl.
    pose proof (chg_single_publisher (X := bn_halo T B) (named_modelers T sd g) h b HX Hb) as C.
    eapply chg_weaken; [| |apply chg_bind; [| |exact C|intros c; apply chg_ret]]; lra.
Qed.

Lemma new_is_tracker_of : new_tracker = tracker_of [].
Proof. reflexivity. Qed.

Lemma row_strategy t seed g row g' : compute_row L t seed g = (Ok row, g') ->
  strategy_known (td_strategy (tr_descriptor t)).
Proof.
  intros E. assert (Ex : exists row, fst (compute_row L t seed g) = Ok row) by (exists row; rewrite E; reflexivity).
  apply C48_row_iff in Ex. destruct Ex as [d [_ [_ [_ K]]]]. exact K.
Qed.

(** The privacy columns of every row: what was used is no more than the budget; if the model
    was fitted and asked without an exception, it is the strategy's share of the budget. *)
Theorem C55_privacy : forall t seed g row g' d,
  honest_estimator (bn_halo T B) ->
  let eps := number_Q (ep_epsilon (td_experiment (tr_descriptor t))) in
  let del := number_Q (ep_delta (td_experiment (tr_descriptor t))) in
  (0 <= eps)%Q -> (0 <= del)%Q ->
  compute_row L t seed g = (Ok row, g') -> dd_by_name (tr_design t) (tr_data_set t) = Ok d ->
  let share := budget_share (sd_strategy (td_strategy (tr_descriptor t))) (length (ds_data d)) in
  exists e dl, SpecAggregator.number row "privacy_used_epsilon"%string e /\ SpecAggregator.number row "privacy_used_delta"%string dl /\
    (e <= eps)%Q /\ (dl <= del)%Q /\ (e <= share * eps)%Q /\ (dl <= share * del)%Q /\
    (column row "model_succeeded"%string = Some (CInt 1) -> (e == share * eps)%Q /\ (dl == share * del)%Q).
Proof.
  intros t seed g row g' d HX eps del He Hd E D share.
  destruct (row_fit _ _ _ _ _ E) as [d0 [h [fit [w [E1 [E2 E3]]]]]]. assert (d0 = d) by congruence. subst d0.
  pose proof (row_strategy _ _ _ _ _ E) as [_ [_ K]].
  assert (Ks : (sd_strategy (td_strategy (tr_descriptor t)) = "m3strategy" \/ sd_strategy (td_strategy (tr_descriptor t)) = "single_publisher")%string)
    by (destruct K as [[K _]|[K _]]; auto).
  destruct (C48_privacy L t seed g row g' d h fit w E E1 E2 E3) as [_ [_ [P1 [P2 _]]]].
  pose proof (fit_charges (td_strategy (tr_descriptor t)) h {| epsilon := eps; delta := del |} (lab_seed_global L seed) HX (conj He Hd) Ks) as C.
  apply chg_charges in C. rewrite (halo_count _ _ _ _ E2) in C. fold share in C. cbn [epsilon delta] in C.
  specialize (C {| w_tracker := new_tracker; w_rng := g (sp_generator (td_system (tr_descriptor t))) |} [] (Forall_nil _) new_is_tracker_of).
  destruct C as [es [_ [_ [C1 [C2 C3]]]]].
  change (lab_fit L) with (fun sd h b gl => fit_strategy (X := bn_halo T B) T sd h b gl) in E3. cbv beta in E3. fold eps del in E3.
  rewrite E3 in C1, C2, C3. cbn [snd fst w_tracker] in C1, C2, C3.
  change (epsilon (privacy_consumption new_tracker)) with 0%Q in C1, C3.
  change (delta (privacy_consumption new_tracker)) with 0%Q in C2, C3.
  pose proof (share_le (sd_strategy (td_strategy (tr_descriptor t))) (length (ds_data d))) as [S1 S2]. fold share in S1, S2.
  assert (M1 : (share * eps <= eps)%Q) by nra. assert (M2 : (share * del <= del)%Q) by nra.
  change (lab_halo L) with (bn_halo T B) in P1, P2.
  eexists. eexists. split; [eexists; split; [exact P1|reflexivity]|]. split; [eexists; split; [exact P2|reflexivity]|].
  split; [lra|]. split; [lra|]. split; [lra|]. split; [lra|]. intros Su.
  destruct (C48_outcome L t seed g row g' d h fit w E E1 E2 E3) as [Ok'|[e [_ [Z _]]]]; [|rewrite Z in Su; discriminate Su].
  destruct Ok' as [m [gl [kw [points [own [truth [ans [m' [metrics [F _]]]]]]]]]].
  destruct (C3 (m, gl) F) as [G1 G2]. split; lra.
Qed.

(** ** Trials that cannot succeed *)

Lemma failed_fit t seed g row g' d h e w : compute_row L t seed g = (Ok row, g') ->
  trial_fit L t seed g d h (Err e) w ->
  column row "model_succeeded"%string = Some (CInt 0) /\ column row "model_exception"%string = Some (CText (bn_traceback T B e)).
Proof.
  intros E [E1 [E2 E3]].
  destruct (C48_outcome L t seed g row g' d h (Err e) w E E1 E2 E3) as [Ok'|[e' [F [Z [Z' _]]]]].
  - destruct Ok' as [m [gl [kw [points [own [truth [ans [m' [metrics [F _]]]]]]]]]]. discriminate F.
  - split; [exact Z|]. destruct F as [F|[m [gl [F _]]]]; [|discriminate F]. injection F as ->. exact Z'.
Qed.

(** The single publisher strategy on several publishers: ValueError, and nothing is used. *)
Theorem C55_single_publisher_strategy : forall t seed g row g' d,
  compute_row L t seed g = (Ok row, g') -> dd_by_name (tr_design t) (tr_data_set t) = Ok d ->
  sd_strategy (td_strategy (tr_descriptor t)) = "single_publisher"%string -> length (ds_data d) <> 1%nat ->
  column row "model_succeeded"%string = Some (CInt 0) /\
  column row "model_exception"%string = Some (CText (bn_traceback T B ValueError)) /\
  SpecAggregator.number row "privacy_used_epsilon"%string 0 /\ SpecAggregator.number row "privacy_used_delta"%string 0 /\
  column row "privacy_mechanisms"%string = Some (CText ""%string).
Proof.
  intros t seed g row g' d E D S N.
  destruct (row_fit _ _ _ _ _ E) as [d0 [h [fit [w [E1 [E2 E3]]]]]]. assert (d0 = d) by congruence. subst d0.
  pose proof E3 as F. change (lab_fit L) with (fun sd h b gl => fit_strategy (X := bn_halo T B) T sd h b gl) in F. cbv beta in F.
  unfold fit_strategy in F. rewrite S in F. change (String.eqb "single_publisher" "m3strategy") with false in F. rewrite String.eqb_refl in F.
  unfold mbind at 1, single_publisher_fit in F. rewrite (halo_count _ _ _ _ E2) in F.
  destruct (Nat.eqb_spec (length (ds_data d)) 1) as [X|_]; [contradiction|]. cbn [negb] in F. unfold mlift in F. injection F as F1 F2.
  subst fit. destruct (failed_fit _ _ _ _ _ _ _ _ _ E (conj E1 (conj E2 E3))) as [G1 G2].
  split; [exact G1|]. split; [exact G2|].
  destruct (C48_privacy L t seed g row g' d h _ w E E1 E2 E3) as [_ [_ [P1 [P2 [names [P3 [P4 P5]]]]]]].
  subst w. cbn [w_tracker] in P1, P2, P5.
  split; [eexists; split; [exact P1|reflexivity]|]. split; [eexists; split; [exact P2|reflexivity]|].
  rewrite P3. assert (names = []) as ->; [|reflexivity]. destruct names as [|n names]; [reflexivity|].
  destruct (proj1 (P5 n) (or_introl eq_refl)) as [ev [I _]]. destruct I.
Qed.

(** A model whose constructor refuses its arguments, or that has none: no trial succeeds. *)
Definition needs_surface (d : data_set) : Prop := (2 <= length (ds_data d))%nat.
Theorem C55_no_surface : forall t seed g row g' d,
  compute_row L t seed g = (Ok row, g') -> dd_by_name (tr_design t) (tr_data_set t) = Ok d ->
  needs_surface d ->
  (sd_multi (td_strategy (tr_descriptor t)) = "none"%string \/ sd_multi_kwargs (td_strategy (tr_descriptor t)) <> []) ->
  column row "model_succeeded"%string = Some (CInt 0).
Proof.
  intros t seed g row g' d E D Nd Hm.
  destruct (row_fit _ _ _ _ _ E) as [d0 [h [fit [w [E1 [E2 E3]]]]]]. assert (d0 = d) by congruence. subst d0.
  destruct fit as [[m gl]|e]; [|exact (proj1 (failed_fit _ _ _ _ _ _ _ _ _ E (conj E1 (conj E2 E3))))]. exfalso.
  pose proof E3 as F. change (lab_fit L) with (fun sd h b gl => fit_strategy (X := bn_halo T B) T sd h b gl) in F. cbv beta in F.
  apply fit_strategy_inv in F. cbv zeta in F. unfold needs_surface in Nd. rewrite (halo_count _ _ _ _ E2) in F.
  destruct F as [[_ [total [singles [others [curves [_ [_ [_ [_ F]]]]]]]]]|[_ [F _]]]; [|lia].
  destruct m as [c|s]; [destruct F; lia|]. destruct F as [_ F]. apply fit_surface_inv in F.
  destruct F as [_ [_ [_ [K [[K2 _]|[K2 _]]]]]]; destruct Hm as [Hm|Hm]; congruence.
Qed.

(** A Goerg model takes no arguments: with any, no trial succeeds, unless the curves are the
    true ones. *)
Theorem C55_goerg_arguments : forall t seed g row g' d,
  compute_row L t seed g = (Ok row, g') -> dd_by_name (tr_design t) (tr_data_set t) = Ok d ->
  sd_single (td_strategy (tr_descriptor t)) = "goerg"%string -> sd_single_kwargs (td_strategy (tr_descriptor t)) <> [] ->
  uses_estimates (td_strategy (tr_descriptor t)) ->
  column row "model_succeeded"%string = Some (CInt 0).
Proof.
  intros t seed g row g' d E D S Hk Hu.
  destruct (row_fit _ _ _ _ _ E) as [d0 [h [fit [w [E1 [E2 E3]]]]]]. assert (d0 = d) by congruence. subst d0.
  destruct fit as [[m gl]|e]; [|exact (proj1 (failed_fit _ _ _ _ _ _ _ _ _ E (conj E1 (conj E2 E3))))]. exfalso.
  assert (Ne : length (ds_data d) <> 0%nat).
  { assert (Ex : exists row, fst (compute_row L t seed g) = Ok row) by (exists row; rewrite E; reflexivity).
    apply C48_row_iff in Ex. destruct Ex as [d1 [X1 [X2 _]]]. assert (d1 = d) by congruence. subst d1. destruct (ds_data d); [contradiction|discriminate]. }
  pose proof E3 as F. change (lab_fit L) with (fun sd h b gl => fit_strategy (X := bn_halo T B) T sd h b gl) in F. cbv beta in F.
  apply fit_strategy_inv in F. cbv zeta in F. rewrite (halo_count _ _ _ _ E2) in F.
  assert (R : forall p, fit_named T (sd_single (td_strategy (tr_descriptor t))) (sd_single_kwargs (td_strategy (tr_descriptor t))) p = Err TypeError).
  { intros p. unfold fit_named. rewrite S, String.eqb_refl. destruct (sd_single_kwargs _) as [|kv kw]; [contradiction|]. reflexivity. }
  assert (U : use_ground_truth (td_strategy (tr_descriptor t)) = false).
  { unfold use_ground_truth. destruct Hu as [-> | [v [Nv ->]]]; [reflexivity|]. cbn [find fst snd]. rewrite String.eqb_refl.
    unfold is_true in Nv. destruct v as [n|s|[|]]; cbn [truth_value].
    - destruct (Qeqb (number_Q n) 0) eqn:Q0; [reflexivity|]. exfalso. apply Nv. apply Qeq_bool_neq. exact Q0.
    - destruct (String.eqb_spec s ""); [reflexivity|contradiction].
    - contradiction Nv. reflexivity.
    - reflexivity. }
  destruct F as [[_ [total [singles [others [curves [_ [_ [_ [F _]]]]]]]]]|[_ [_ [_ [total [c [_ [F _]]]]]]]].
  - rewrite U in F. destruct (length (ds_data d)) as [|n]; [contradiction|].
    assert (Z : py_range 0 (Z.of_nat (Datatypes.S n)) = 0 :: map (fun i => 0 + Z.of_nat i) (seq 1 n)).
    { unfold py_range. rewrite Z.sub_0_r, Nat2Z.id. reflexivity. }
    rewrite Z in F. inversion F as [|? c ? cs F1 F2]; subst. destruct (py_index singles 0) as [p|]; cbn [bind] in F1; [|discriminate F1].
    rewrite R in F1. discriminate F1.
  - rewrite R in F. discriminate F.
Qed.

(** The single publisher analysis reads the training data of the model, which a true reach
    curve does not have. *)
Lemma uses_truth_computed sd : uses_truth sd -> use_ground_truth sd = true.
Proof.
  intros [_ [v [Hv E]]]. unfold use_ground_truth. rewrite E. cbn [find fst snd]. rewrite String.eqb_refl.
  destruct v as [n|s|b]; cbn [truth_value is_true] in *.
  - destruct (Qeqb (number_Q n) 0) eqn:Q0; [|reflexivity]. exfalso. apply Hv. apply Qeq_bool_iff. exact Q0.
  - destruct (String.eqb_spec s ""); [contradiction|reflexivity].
  - exact Hv.
Qed.

(** What fits with true reach curves to one publisher return. *)
Lemma truth_one_publisher sd h b g (w w' : world (bn_halo T B)) m gl : uses_truth sd ->
  h_publisher_count h = 1%nat -> fit_strategy T sd h b g w = (Ok (m, gl), w') ->
  gl = g /\ exists c, mk_ground_truth (h_data_set h) 0 = Ok c /\ m = OneCurve (GroundTruth c).
Proof.
  intros U P F. pose proof (uses_truth_computed _ U) as U'. destruct U as [S _]. apply fit_strategy_inv in F. cbv zeta in F. rewrite P in F.
  destruct F as [[_ [total [singles [others [curves [_ [_ [_ [F1 F2]]]]]]]]]|[S' _]]; [|congruence].
  rewrite U' in F1. destruct m as [c|s]; [|destruct F2; congruence]. destruct F2 as [_ [-> ->]]. split; [reflexivity|].
  change (py_range 0 (Z.of_nat 1)) with [0] in F1. inversion F1 as [|? ? ? ? F3 _]; subst.
  destruct (mk_ground_truth (h_data_set h) 0) as [c0|]; [|discriminate F3]. cbn [bind] in F3. injection F3 as <-. eauto.
Qed.

Theorem C55_truth_single_analysis : forall t seed g row g' d,
  compute_row L t seed g = (Ok row, g') -> dd_by_name (tr_design t) (tr_data_set t) = Ok d ->
  uses_truth (td_strategy (tr_descriptor t)) -> tr_analysis t = "single_pub"%string -> length (ds_data d) = 1%nat ->
  column row "model_succeeded"%string = Some (CInt 0).
Proof.
  intros t seed g row g' d E D U A N.
  destruct (row_fit _ _ _ _ _ E) as [d0 [h [fit [w [E1 [E2 E3]]]]]]. assert (d0 = d) by congruence. subst d0.
  destruct fit as [[m gl]|e]; [|exact (proj1 (failed_fit _ _ _ _ _ _ _ _ _ E (conj E1 (conj E2 E3))))].
  destruct (C48_outcome L t seed g row g' d h _ w E E1 E2 E3) as [S|[e [_ [S _]]]]; [exfalso|exact S].
  destruct S as [m0 [gl0 [kw [points [own [truth [ans [m' [metrics [_ [_ [_ [_ [_ [_ [_ [Su _]]]]]]]]]]]]]]]]].
  destruct (C48_single L t seed g row g' d h m gl w ltac:(intros x s k; reflexivity) E A Su E1 E2 E3) as [s [rest [_ [_ [[tr [n [X _]]] _]]]]].
  change (lab_fit L) with (fun sd h b gl => fit_strategy (X := bn_halo T B) T sd h b gl) in E3. cbv beta in E3.
  destruct (truth_one_publisher _ _ _ _ _ _ _ _ U ltac:(rewrite (halo_count _ _ _ _ E2); exact N) E3) as [_ [c [_ ->]]].
  discriminate X.
Qed.

(** ** Generators *)

(** A restricted surface is fitted to random starts drawn after seeding numpy's process-wide
    generator with 0: neither the model nor the state that the fit leaves depends on the seed
    of the trial. *)
Theorem C55_restricted_forgets_seed : forall sd h b (w : world (bn_halo T B)) seed seed',
  sd_strategy sd = "m3strategy"%string -> sd_multi sd = "restricted_pairwise_union"%string -> (h_publisher_count h <> 1)%nat ->
  lab_fit L sd h b (lab_seed_global L seed) w = lab_fit L sd h b (lab_seed_global L seed') w.
Proof.
  intros sd h b w seed seed' S M P.
  change (fit_strategy (X := bn_halo T B) T sd h b (np_seed (tl_random T) seed) w = fit_strategy (X := bn_halo T B) T sd h b (np_seed (tl_random T) seed') w).
  generalize (np_seed (tl_random T) seed) (np_seed (tl_random T) seed'). intros g1 g2.
  unfold fit_strategy. rewrite S, String.eqb_refl. unfold m3_fit, mbind, mlift, mret. cbn [curve surface fit_single ground_truth_curve_of fit_multi named_modelers].
  destruct (simulated_reach_by_spend _ _ _ _ _ w) as [[total|e] w1]; [|reflexivity].
  destruct (mmap (single_pub_request _ _ _) _ w1) as [[singles|e] w2]; [|reflexivity].
  match goal with |- context [(if ?c then ?a else ?b) w2] => destruct ((if c then a else b) w2) as [[abo|e] w3]; [|reflexivity] end.
  destruct (mapM _ _) as [curves|e]; [|reflexivity].
  destruct (Nat.eqb_spec (h_publisher_count h) 1) as [C|_]; [contradiction|].
  assert (X : fit_surface T (sd_multi sd) (sd_multi_kwargs sd) g1 curves (map point_Q (abo ++ [total])) =
              fit_surface T (sd_multi sd) (sd_multi_kwargs sd) g2 curves (map point_Q (abo ++ [total]))).
  { unfold fit_surface. rewrite M. change (String.eqb "restricted_pairwise_union" "pairwise_union") with false. rewrite String.eqb_refl.
    rewrite (C54_state_forgotten (tl_random T) (truncated_uniform (tl_random T) (tl_fuel T)) (map (surface_curve T) curves)
               (map point_Q (abo ++ [total])) g1 g2). reflexivity. }
  rewrite X. destruct (fit_surface T _ _ g2 _ _) as [[s g']|e]; reflexivity.
Qed.

(** Fitting anything else leaves numpy's process-wide generator alone. *)
Theorem C55_state_kept : forall sd h b (w w' : world (bn_halo T B)) seed m gl,
  sd_multi sd <> "restricted_pairwise_union"%string \/ h_publisher_count h = 1%nat ->
  lab_fit L sd h b (lab_seed_global L seed) w = (Ok (m, gl), w') -> gl = np_seed (tl_random T) seed.
Proof.
  intros sd h b w w' seed m gl H F.
  change (lab_fit L) with (fun sd h b gl => fit_strategy (X := bn_halo T B) T sd h b gl) in F. cbv beta in F.
  apply fit_strategy_inv in F. cbv zeta in F.
  destruct F as [[_ [total [singles [others [curves [_ [_ [_ [_ F]]]]]]]]]|[_ [_ [-> _]]]]; [|reflexivity].
  destruct m as [c|s]; [destruct F as [_ [_ ->]]; reflexivity|]. destruct F as [N F]. apply fit_surface_inv in F.
  destruct F as [_ [_ [_ [_ [[_ [_ ->]]|[K2 _]]]]]]; [reflexivity|]. destruct H; contradiction.
Qed.

End Full.

Print Assumptions C55_privacy.
Print Assumptions C55_single_publisher_strategy.
Print Assumptions C55_no_surface.
Print Assumptions C55_goerg_arguments.
Print Assumptions C55_truth_single_analysis.
Print Assumptions C55_restricted_forgets_seed.
Print Assumptions C55_state_kept.
