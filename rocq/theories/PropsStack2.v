(** C55, continued: trials that use the true reach curves. *)
From Coq Require Import String Lqa.
From Verif Require Import Prelude ModelReachPoint ModelData SpecData ModelPrivacy SpecPrivacy ModelHalo SpecHalo
  ModelStrategy ReachPointLemmas DataLemmas DataLemmas2 DataLemmas3 PropsData HaloLemmas HaloLemmas2 ModelCurves ModelSurface SpecSurface
  ModelRestricted SpecRestricted PropsSurface ModelTestPoints ModelAggregator SpecAggregator AggregatorLemmas PropsAggregator
  ModelFiles ModelDriver SpecTrial TrialLemmas TrialLemmas2 PropsTrial ModelStack SpecStack StackLemmas PropsStack.
Open Scope Z_scope.

Section Full.
Variable T : tools.
Variable B : bench T.
Let L := full_lab T B.

Lemma asked_answers k m points answers m' : asked L k m points answers m' ->
  Forall2 (fun s p => answer T m s k = Ok p) points answers.
Proof.
  induction 1 as [|m s p m1 ss ps m2 E A IH]; [constructor|].
  change (lab_ask L m s k) with (answer T m s k, m) in E. injection E as E <-. constructor; assumption.
Qed.

Lemma truth_point d spends k q z : truth_at d spends k q -> reach_by_spend d spends k = Ok z -> q = point_Q z.
Proof.
  intros [z' [E [E1 [E2 [E3 [E4 E5]]]]]] E'. assert (z' = z) by congruence. subst z'.
  destruct q as [a b c e f]. cbn in *. subst. reflexivity.
Qed.

Lemma diffs_inject l : diffs Qops (map inject_Z l) = map inject_Z (diffs Zops l).
Proof.
  induction l as [|x [|y l] IH]; [reflexivity|reflexivity|].
  change (diffs Qops (map inject_Z (x :: y :: l))) with
    ((inject_Z x - inject_Z y)%Q :: diffs Qops (map inject_Z (y :: l))).
  change (diffs Zops (x :: y :: l)) with ((x - y) :: diffs Zops (y :: l)). cbn [map]. rewrite <- IH. f_equal.
  unfold Qminus, Qplus, Qopp, inject_Z. cbn [Qnum Qden]. f_equal. lia.
Qed.

Lemma truth_constructed logs d spends k z : is_data_set_of logs d -> 1 <= k -> reach_by_spend d spends k = Ok z ->
  constructed (point_Q z) /\ max_frequency (point_Q z) = k.
Proof.
  intros Hd Hk E. split.
  - unfold reach_by_spend in E. destruct (negb _); [discriminate E|]. destruct (rbs_loop _ _ _ _) as [imps counts].
    destruct (counts_to_histogram counts k) as [kp|]; [|discriminate E]. cbn [bind] in E. pose proof E as E'.
    apply mk_reach_point_ok in E'. unfold mk_reach_point in E.
    exists (map inject_Z imps), (map inject_Z kp), (Some spends), (Some (ds_universe d)).
    unfold mk_reach_point. rewrite map_length. destruct (match _ with Some s => _ | None => false end); [discriminate E|].
    injection E as <-. unfold point_Q. cbn. rewrite diffs_inject. reflexivity.
  - destruct (C10_returned_point logs d spends k z Hd Hk E) as [M _]. unfold max_frequency, point_Q in *. cbn [rp_kplus]. rewrite map_length. exact M.
Qed.

(** With the true reach curve of its only publisher, a model makes no error at any test point. *)
Theorem C55_truth_one_publisher : forall t seed g row g' log d,
  dd_by_name (tr_design t) (tr_data_set t) = Ok d -> is_data_set_of [log] d ->
  uses_truth (td_strategy (tr_descriptor t)) -> 1 <= ep_max_frequency (td_experiment (tr_descriptor t)) ->
  compute_row L t seed g = (Ok row, g') ->
  column row "model_succeeded" = Some (CInt 1) ->
  (forall key, In key ["mean_error"; "mean_abs_error"; "mean_squared_error"; "var_error"]%string ->
     SpecAggregator.number row key 0) /\
  (forall key, In key (map snd mare_columns) -> SpecAggregator.number row key 0 \/ missing row key).
Proof.
  intros t seed g row g' log d D Hd U Hk E Su.
  destruct (row_fit T B _ _ _ _ _ E) as [d0 [h [fit [w [E1 [E2 E3]]]]]]. assert (d0 = d) by congruence. subst d0.
  destruct (C48_outcome L t seed g row g' d h fit w E E1 E2 E3) as [S|[e [_ [Z _]]]]; [|rewrite Z in Su; discriminate Su].
  destruct S as [m [gl [kw [points [own [truth [ans [m' [metrics [F [_ [_ [Tr [As [Ag [Cols _]]]]]]]]]]]]]]]].
  subst fit. change (lab_fit L) with (fun sd h b gl => fit_strategy (X := bn_halo T B) T sd h b gl) in E3. cbv beta in E3.
  assert (C1 : h_publisher_count h = 1%nat) by (rewrite (halo_count _ _ _ _ E2); apply (is_data_set_count _ _ Hd)).
  destruct (truth_one_publisher T B _ _ _ _ _ _ _ _ U C1 E3) as [_ [c [Hc ->]]].
  rewrite (mk_halo_data _ _ _ _ E2) in Hc. apply asked_answers in As.
  assert (X : truth = ans /\ forall q, In q truth -> constructed q /\ max_frequency q = ep_max_frequency (td_experiment (tr_descriptor t))).
  { assert (P1 : publisher_count d = 1%nat) by apply (is_data_set_count _ _ Hd).
    clear -Tr As Hc P1 Hd Hk. revert ans As. induction Tr as [|s q points truth Q Tr IH]; intros ans As; inversion As as [|? a ? rest A1 A2]; subst.
    - split; [reflexivity|]. intros q [].
    - destruct (IH _ A2) as [-> IH2]. cbn [answer curve_by_spend] in A1.
      pose proof (ground_truth_inv _ _ _ Hc) as [p' [_ ->]].
      destruct (gt_by_spend _ s _) as [z|] eqn:G; [|discriminate A1]. cbn [bind] in A1. injection A1 as <-.
      destruct s as [|s [|s' s'']]; [discriminate G| |discriminate G]. cbn [gt_by_spend gt_data_set gt_index] in G. rewrite P1 in G.
      cbn in G. rewrite (truth_point _ _ _ _ _ Q G). split; [reflexivity|].
      intros q' [<-|I]; [|exact (IH2 _ I)]. exact (truth_constructed _ _ _ _ _ Hd Hk G). }
  destruct X as [<- X]. assert (Ne : truth <> []).
  { intros ->. vm_compute in Ag. discriminate Ag. }
  assert (Cm : comparable truth truth).
  { split; [reflexivity|]. split; [exact Ne|]. intros p Hp. assert (I : In p truth) by tauto. destruct (X p I) as [X1 X2]. split; [exact X1|]. rewrite X2. exact Hk. }
  assert (Re : forall k, 1 <= k <= ep_max_frequency (td_experiment (tr_descriptor t)) -> exists f, reaches truth k f).
  { intros k Hk'. exists (fun i => match nth_error truth i with Some p => match reach p k with Ok r => r | Err _ => 0%Q end | None => 0%Q end).
    intros i p I. rewrite I. destruct (X p (nth_error_In _ _ I)) as [_ X2]. destruct (reach p k) as [r|] eqn:R; [reflexivity|].
    assert (K : is_ok (reach p k) = true) by (apply reach_ok_iff; lia). rewrite R in K. discriminate K. }
  assert (Z0 : forall a f, (forall i, (i < a)%nat -> (f i == 0)%Q) -> (total a f == 0)%Q).
  { induction a as [|a IH]; intros f Hf; cbn [total]; [reflexivity|]. rewrite IH by (intros; apply Hf; lia). rewrite Hf by lia. reflexivity. }
  split.
  - destruct (Re 1 ltac:(lia)) as [f Hf].
    destruct (C41_absolute_errors truth truth (length truth) f f Cm eq_refl Hf Hf) as [row' [bias [mae [mse [var
      [A0 [_ [A1 [A2 [A3 [A4 [_ [_ [_ [_ [A9 [A10 [_ [_ [A13 A14]]]]]]]]]]]]]]]]]]]].
    assert (row' = metrics) by congruence. subst row'.
    assert (M0 : (mae == 0)%Q) by (apply A13; intros; reflexivity). assert (M1 : (mse == 0)%Q) by (apply A14; intros; reflexivity).
    assert (B0 : (bias == 0)%Q).
    { unfold absolute in A10. pose proof (SurfaceLemmas.Qmax_le_l bias (- bias)). pose proof (SurfaceLemmas.Qmax_le_r bias (- bias)). lra. }
    assert (V0 : (var == 0)%Q) by (rewrite M1, B0 in A9; lra).
    intros key [<-|[<-|[<-|[<-|[]]]]]; unfold SpecAggregator.number in *; rewrite Cols by (cbn; tauto).
    + destruct A1 as [v [A1 V]]. exists v. split; [exact A1|]. rewrite V. exact B0.
    + destruct A2 as [v [A2 V]]. exists v. split; [exact A2|]. rewrite V. exact M0.
    + destruct A3 as [v [A3 V]]. exists v. split; [exact A3|]. rewrite V. exact M1.
    + destruct A4 as [v [A4 V]]. exists v. split; [exact A4|]. rewrite V. exact V0.
  - intros key Hkey. apply in_map_iff in Hkey. destruct Hkey as [[k name] [K In']]. cbn [snd] in K. subst name.
    assert (Mc : In key metric_columns /\ 1 <= k) by (cbn in In'; repeat (destruct In' as [In'|In']; [injection In' as <- <-; split; [cbn; tauto|lia]|]); destruct In').
    destruct Mc as [Mc K1]. unfold SpecAggregator.number, missing. rewrite (Cols _ Mc).
    destruct (C41_relative_errors truth truth k key Cm In') as [row' [A0 [A1 A2]]]. assert (row' = metrics) by congruence. subst row'.
    destruct (Z_lt_le_dec (ep_max_frequency (td_experiment (tr_descriptor t))) k) as [Lt|Le].
    + right. apply A1. destruct truth as [|p truth']; [contradiction|]. exists p. split; [left; left; reflexivity|].
      rewrite (proj2 (X p (or_introl eq_refl))). exact Lt.
    + destruct (Re k (conj K1 Le)) as [f Hf].
      destruct (A2 (length truth) f f eq_refl Hf Hf ltac:(intros p Hp; assert (I : In p truth) by tauto; rewrite (proj2 (X p I)); exact Le)) as [A3 A4].
      assert (Dc : forall a, (exists i, (i < a)%nat /\ (f i == 0)%Q) \/ (forall i, (i < a)%nat -> ~ (f i == 0)%Q)).
      { induction a as [|a [[i [I1 I2]]|IH]]; [right; intros; lia|left; exists i; split; [lia|exact I2]|].
        destruct (Qeq_dec (f a) 0) as [Y|Y]; [left; exists a; split; [lia|exact Y]|]. right. intros i Hi.
        destruct (Nat.eq_dec i a) as [->|]; [exact Y|apply IH; lia]. }
      destruct (Dc (length truth)) as [Y|Y]; [right; exact (A3 Y)|left]. destruct (A4 Y) as [v [V1 V2]]. exists v. split; [exact V1|]. rewrite V2.
      rewrite Z0.
      * unfold Qdiv. apply Qmult_0_l.
      * intros i Hi. assert (Zr : (absolute (f i - f i) == 0)%Q).
        { unfold absolute, Qmax. destruct (Qleb (f i - f i) (- (f i - f i))); ring. }
        rewrite Zr. unfold Qdiv. apply Qmult_0_l.
Qed.

(** ** Several publishers *)

Lemma truth_surface_fit logs d fr ll h sd b g (w w' : world (bn_halo T B)) m gl :
  is_data_set_of logs d -> (2 <= length logs)%nat -> mk_halo d fr ll = Ok h ->
  uses_truth sd -> sound_surface T (sd_multi sd) (length logs) ->
  fit_strategy T sd h b g w = (Ok (m, gl), w') ->
  exists s, m = Surface s /\ su_publishers s = length logs /\ length (su_curves s) = length logs /\
    overlap_coefficients (length logs) (su_a s) /\
    forall i c, nth_error (su_curves s) i = Some c -> exists g, mk_ground_truth d (Z.of_nat i) = Ok g /\ c = GroundTruth g.
Proof.
  intros Hd H2 Eh U HS F. pose proof (uses_truth_computed _ U) as U'. destruct U as [Sn _].
  apply fit_strategy_inv in F. cbv zeta in F.
  rewrite (halo_count _ _ _ _ Eh), (proj2 (is_data_set_count _ _ Hd)), (mk_halo_data _ _ _ _ Eh) in F.
  destruct F as [[_ [total [singles [others [curves [F1 [_ [F3 [F4 F5]]]]]]]]]|[Sn' _]]; [|congruence].
  destruct m as [c|s]; [destruct F5; lia|]. destruct F5 as [_ F5]. rewrite U' in F4. exists s. split; [reflexivity|].
  assert (Lc : length curves = length logs).
  { apply Forall2_len in F4. unfold py_range in F4. rewrite map_length, seq_length in F4. lia. }
  pose proof (surface_points_length _ _ _ _ F1 F3) as Hl. rewrite (mk_halo_data _ _ _ _ Eh), (proj1 (is_data_set_count _ _ Hd)) in Hl.
  destruct (fit_surface_coefficients T _ _ _ _ _ _ _ _ F5 Lc HS Hl) as [C1 [C2 C3]].
  rewrite C1. split; [exact C2|]. split; [exact Lc|]. split; [exact C3|].
  intros i c Hi. assert (Lt : (i < length logs)%nat) by (rewrite <- Lc; apply nth_error_Some; congruence).
  assert (Q : nth_error (py_range 0 (Z.of_nat (length logs))) i = Some (Z.of_nat i)).
  { apply PropsExact.range_nth. exact Lt. }
  pose proof (PropsExact.Forall2_nth _ _ _ F4 i _ _ Q Hi) as R. cbv beta in R.
  destruct (mk_ground_truth d (Z.of_nat i)) as [g0|]; [|discriminate R]. cbn [bind] in R. injection R as <-. eauto.
Qed.

Lemma true_union logs spends singles truth : length spends = length logs -> reached_by_each logs spends singles ->
  card_is (fun u => 1 <= total_seen (seen_at_spend u) logs spends) truth ->
  (forall n, In n singles -> n <= truth) /\ truth <= Zsum singles.
Proof.
  intros Ls Hs Ht. split.
  - intros n Hn. unfold reached_by_each in Hs.
    assert (G : exists ls, In ls (combine logs spends) /\ card_is (fun u => 1 <= seen_at_spend u (fst ls) (snd ls)) n).
    { clear -Hs Hn. induction Hs as [|ls n' l ns H Hs IH]; [destruct Hn|]. destruct Hn as [->|Hn].
      - exists ls. split; [left; reflexivity|exact H].
      - destruct (IH Hn) as [ls' [I C]]. exists ls'. split; [right; exact I|exact C]. }
    destruct G as [[log s] [I C]]. eapply card_is_le; [|exact C|exact Ht]. intros u Hu. cbn [fst snd] in Hu.
    clear -I Hu. revert spends I. induction logs as [|l logs IH]; intros [|s0 spends] I; cbn in I; try destruct I.
    + injection H as -> ->. cbn [total_seen].
      assert (0 <= total_seen (seen_at_spend u) logs spends) by (clear; revert spends; induction logs; intros [|]; cbn [total_seen]; try lia; pose proof (IHlogs l); unfold seen_at_spend at 1; lia). lia.
    + cbn [total_seen]. pose proof (IH _ H). unfold seen_at_spend at 1. lia.
  - eapply (union_bound (fun log s u => 1 <= seen_at_spend u log s)); [|exact Hs|exact Ht].
    intros u Hu. apply total_seen_pos_component in Hu; [|intros; unfold seen_at_spend; lia]. exact Hu.
Qed.

(** What a surface of true reach curves answers: at least the reach of each publisher, at most
    their sum, and not further from the truth than the reach of all but one of them. It is
    right where only one publisher reaches anybody. *)
Theorem C55_truth_surface : forall logs d fr ll h sd b w w' seed m gl,
  is_data_set_of logs d -> (2 <= length logs)%nat -> Forall increasing_prices logs -> mk_halo d fr ll = Ok h ->
  uses_truth sd -> sound_surface T (sd_multi sd) (length logs) ->
  lab_fit L sd h b (lab_seed_global L seed) w = (Ok (m, gl), w') ->
  forall spends singles truth k, length spends = length logs -> reached_by_each logs spends singles ->
    card_is (fun u => 1 <= total_seen (seen_at_spend u) logs spends) truth ->
    exists p v, fst (lab_ask L m spends k) = Ok p /\ reach p 1 = Ok v /\
      rp_impressions p = map inject_Z (SpecHalo.bought logs spends) /\
      (forall n, In n singles -> inject_Z n <= v)%Q /\ (v <= inject_Z (Zsum singles))%Q /\
      (forall n, In n singles -> absolute (v - inject_Z truth) <= inject_Z (Zsum singles - n))%Q /\
      (forall i, (i < length logs)%nat -> (forall j n, j <> i -> nth_error singles j = Some n -> n = 0) -> (v == inject_Z truth)%Q).
Proof.
  intros logs d fr ll h sd b w w' seed m gl Hd H2 Hinc Eh U HS F spends singles truth k Ls Hs Ht.
  change (lab_fit L) with (fun sd h b gl => fit_strategy (X := bn_halo T B) T sd h b gl) in F. cbv beta in F.
  destruct (truth_surface_fit _ _ _ _ _ _ _ _ _ _ _ _ Hd H2 Eh U HS F) as [s [-> [S1 [S2 [S3 S4]]]]].
  destruct (truth_curves T logs d (su_curves s) spends singles Hd Hinc S2 Ls S4 Hs) as [imps [G1 [G2 [G3 G4]]]].
  assert (Lm : length (map (surface_curve T) (su_curves s)) = length logs) by (rewrite map_length; exact S2).
  destruct (C29_union_bounds (map (surface_curve T) (su_curves s)) (su_a s) imps (map inject_Z singles) k ltac:(rewrite Lm; exact S3) G4 G3)
    as [p [v [P1 [P2 [P3 [P4 P5]]]]]].
  exists p, v. change (fst (lab_ask L (Surface s) spends k)) with (surface_answer T s spends k).
  unfold surface_answer. cbv zeta. rewrite (PropsSurface2.C29_by_spend_buys_impressions _ _ _ _ G1). rewrite S1. rewrite Lm in P1.
  split; [exact P1|]. split; [exact P2|]. split; [rewrite P3; exact G2|].
  assert (Sm : (Qsum (map inject_Z singles) == inject_Z (Zsum singles))%Q).
  { clear. induction singles as [|a l IH]; [reflexivity|]. cbn [map]. change (Qsum (inject_Z a :: map inject_Z l)) with (inject_Z a + Qsum (map inject_Z l))%Q.
    change (Zsum (a :: l)) with (a + Zsum l). rewrite IH, inject_Z_plus. reflexivity. }
  assert (V1 : forall n, In n singles -> (inject_Z n <= v)%Q) by (intros n Hn; apply P4, in_map; exact Hn).
  rewrite Sm in P5. split; [exact V1|]. split; [exact P5|].
  destruct (true_union _ _ _ _ Ls Hs Ht) as [T1 T2]. split.
  - intros n Hn. pose proof (V1 n Hn). pose proof (T1 n Hn) as T3. rewrite Zle_Qle in T3. rewrite Zle_Qle in T2.
    unfold absolute. apply SurfaceLemmas.Qmax_lub; unfold Zminus; rewrite inject_Z_plus, inject_Z_opp; lra.
  - intros i Hi Hz.
    assert (Lsg : length singles = length logs) by (apply Forall2_len in Hs; rewrite combine_length in Hs; lia).
    assert (Nz : forall a, nth a (map inject_Z singles) 0%Q = inject_Z (nth a singles 0)).
    { intros a. change 0%Q with (inject_Z 0) at 1. apply map_nth. }
    pose proof (C29_one_active (map (surface_curve T) (su_curves s)) (su_a s) imps (map inject_Z singles) k i p v ltac:(rewrite Lm; exact S3)
      G4 G3 ltac:(rewrite Lm; exact Hi)) as O. rewrite Lm in O.
    rewrite O; [| |exact P1|exact P2].
    + rewrite Nz. apply inject_Z_injective.
      assert (Zs : Zsum singles = nth i singles 0).
      { clear -Hz Hi Lsg. rewrite <- Lsg in Hi. clear Lsg. revert i Hz Hi. induction singles as [|a l IH]; intros i Hz Hi; cbn in Hi; [lia|].
        change (Zsum (a :: l)) with (a + Zsum l). destruct i as [|i]; cbn [nth].
        - assert (Zr : Zsum l = 0); [|lia]. assert (W : forall j n, nth_error l j = Some n -> n = 0) by (intros j n Hj; apply (Hz (S j) n); [discriminate|exact Hj]).
          clear -W. induction l as [|b l IH]; [reflexivity|]. change (Zsum (b :: l)) with (b + Zsum l).
          rewrite (W O b eq_refl), IH; [reflexivity|]. intros j n Hj. exact (W (S j) n Hj).
        - rewrite (IH i); [|intros j n Hj Hn; apply (Hz (S j) n); [congruence|exact Hn]|lia].
          rewrite (Hz O a ltac:(discriminate) eq_refl). lia. }
      assert (In (nth i singles 0) singles) by (apply nth_In; lia). pose proof (T1 _ H). lia.
    + intros j Hj Hn. rewrite Nz. destruct (nth_error singles j) as [n|] eqn:En; [|apply nth_error_None in En; lia].
      rewrite (nth_error_nth _ _ 0 En), (Hz j n Hn En). reflexivity.
Qed.

(** A surface answers with the reach at frequency one only. *)
Lemma surface_point s spends k p : surface_answer T s spends k = Ok p -> constructed p /\ max_frequency p = 1.
Proof.
  unfold surface_answer, surface_by_spend. cbv zeta.
  destruct (mapM _ (combine (map (surface_curve T) (su_curves s)) spends)) as [imps|]; [|discriminate]. cbn [bind].
  unfold pairwise_by_impressions. destruct (get_reach_vector _ _) as [rv|]; [|discriminate]. cbn [bind].
  destruct (mapM _ _) as [terms|]; [|discriminate]. cbn [bind]. intros E. split; [eexists; eexists; eexists; eexists; exact E|].
  unfold mk_reach_point in E. cbn in E. injection E as <-. reflexivity.
Qed.

(** So the columns about frequencies say nothing in the rows of several publishers, whatever
    the models and the frequency that was asked for. *)
Theorem C55_no_frequencies : forall t seed g row g' logs d,
  dd_by_name (tr_design t) (tr_data_set t) = Ok d -> is_data_set_of logs d -> (2 <= length logs)%nat ->
  1 <= ep_max_frequency (td_experiment (tr_descriptor t)) ->
  compute_row L t seed g = (Ok row, g') -> column row "model_succeeded" = Some (CInt 1) ->
  (forall k name, In (k, name) mare_columns -> 2 <= k -> missing row name) /\
  SpecAggregator.number row "mean_shuffle_distance" 1 /\ SpecAggregator.number row "mean_squared_shuffle_distance" 1 /\
  SpecAggregator.number row "var_shuffle_distance" 0.
Proof.
  intros t seed g row g' logs d D Hd H2 Hk E Su.
  destruct (row_fit T B _ _ _ _ _ E) as [d0 [h [fit [w [E1 [E2 E3]]]]]]. assert (d0 = d) by congruence. subst d0.
  destruct (C48_outcome L t seed g row g' d h fit w E E1 E2 E3) as [S|[e [_ [Z _]]]]; [|rewrite Z in Su; discriminate Su].
  destruct S as [m [gl [kw [points [own [truth [ans [m' [metrics [F [_ [_ [Tr [As [Ag [Cols _]]]]]]]]]]]]]]]].
  subst fit. change (lab_fit L) with (fun sd h b gl => fit_strategy (X := bn_halo T B) T sd h b gl) in E3. cbv beta in E3.
  assert (C1 : h_publisher_count h = length logs) by (rewrite (halo_count _ _ _ _ E2); apply (is_data_set_count _ _ Hd)).
  assert (Sf : exists s, m = Surface s).
  { apply fit_strategy_inv in E3. cbv zeta in E3. rewrite C1 in E3. destruct E3 as [[_ [a [b [c [e [_ [_ [_ [_ M]]]]]]]]]|[_ [P _]]]; [|rewrite P in H2; lia].
    destruct m as [x|s]; [destruct M as [M _]; rewrite M in H2; lia|eauto]. }
  destruct Sf as [s ->]. clear E3. apply asked_answers in As.
  assert (X1 : forall q, In q truth -> constructed q /\ max_frequency q = ep_max_frequency (td_experiment (tr_descriptor t))).
  { clear -Tr Hd Hk. induction Tr as [|s q points truth Q Tr IH]; [intros q []|]. intros q' [<-|I]; [|exact (IH _ I)].
    pose proof Q as [z [Q1 _]]. rewrite (truth_point _ _ _ _ _ Q Q1). exact (truth_constructed _ _ _ _ _ Hd Hk Q1). }
  assert (X2 : forall q, In q ans -> constructed q /\ max_frequency q = 1).
  { clear -As. induction As as [|x q points ans Q As IH]; [intros q []|]. intros q' [<-|I]; [|exact (IH _ I)]. exact (surface_point _ _ _ _ Q). }
  assert (Ln : length truth = length ans) by (rewrite <- (Forall2_len _ _ _ Tr), <- (Forall2_len _ _ _ As); reflexivity).
  assert (Ne : truth <> []).
  { intros ->. destruct ans; [|discriminate Ln]. vm_compute in Ag. discriminate Ag. }
  assert (Cm : comparable truth ans).
  { split; [exact Ln|]. split; [exact Ne|]. intros p [Hp|Hp]; [destruct (X1 p Hp) as [Y1 Y2]|destruct (X2 p Hp) as [Y1 Y2]]; (split; [exact Y1|lia]). }
  assert (Na : exists p, In p ans) by (destruct ans as [|p ans]; [destruct truth; [contradiction|discriminate Ln]|exists p; left; reflexivity]).
  split.
  - intros k name I K. destruct (C41_relative_errors truth ans k name Cm I) as [row' [A0 [A1 _]]]. assert (row' = metrics) by congruence. subst row'.
    assert (Mc : In name metric_columns) by (cbn in I; repeat (destruct I as [I|I]; [injection I as _ <-; cbn; tauto|]); destruct I).
    unfold missing. rewrite (Cols _ Mc). apply A1. destruct Na as [p Hp]. exists p. split; [right; exact Hp|]. rewrite (proj2 (X2 p Hp)). lia.
  - destruct (C41_shuffle_columns truth ans (length truth) (fun _ => 1%Q) Cm eq_refl) as [row' [m1 [m2 [v [A0 [A1 [A2 [A3 [B1 [B2 [B3 _]]]]]]]]]]].
    { intros i a b Ia Ib. destruct (C41_shuffle_distance a b (proj1 (X1 a (nth_error_In _ _ Ia))) (proj1 (X2 b (nth_error_In _ _ Ib)))) as [v [V1 [V2 _]]].
      rewrite V1, V2; [reflexivity|]. right. rewrite (proj2 (X2 b (nth_error_In _ _ Ib))). lia. }
    assert (row' = metrics) by congruence. subst row'.
    assert (N1 : (0 < inject_Z (Z.of_nat (length truth)))%Q).
    { change 0%Q with (inject_Z 0). rewrite <- Zlt_Qlt. destruct truth; [contradiction|cbn [length]; lia]. }
    assert (T1 : (total (length truth) (fun _ => 1) == inject_Z (Z.of_nat (length truth)))%Q).
    { generalize (length truth). induction n as [|n IH]; [reflexivity|]. cbn [total]. rewrite IH, Nat2Z.inj_succ. unfold Z.succ. rewrite inject_Z_plus. reflexivity. }
    assert (T2 : (total (length truth) (fun _ => 1 * 1) == inject_Z (Z.of_nat (length truth)))%Q).
    { rewrite <- T1. generalize (length truth). induction n as [|n IH]; [reflexivity|]. cbn [total]. rewrite IH. ring. }
    assert (M1 : (m1 == 1)%Q).
    { apply (Qmult_inj_r _ _ (inject_Z (Z.of_nat (length truth)))); [lra|]. rewrite B1, T1. ring. }
    assert (M2 : (m2 == 1)%Q).
    { apply (Qmult_inj_r _ _ (inject_Z (Z.of_nat (length truth)))); [lra|]. rewrite B2, T2. ring. }
    assert (V0 : (v == 0)%Q) by (rewrite M1, M2 in B3; lra).
    unfold SpecAggregator.number in *. rewrite !Cols by (cbn; tauto).
    destruct A1 as [x1 [A1 Y1]]. destruct A2 as [x2 [A2 Y2]]. destruct A3 as [x3 [A3 Y3]].
    split; [exists x1; split; [exact A1|rewrite Y1; exact M1]|]. split; [exists x2; split; [exact A2|rewrite Y2; exact M2]|].
    exists x3. split; [exact A3|rewrite Y3; exact V0].
Qed.

End Full.

Print Assumptions C55_truth_one_publisher.
Print Assumptions C55_truth_surface.
Print Assumptions C55_no_frequencies.
