(** What a fit through the driver's names has done. *)
From Coq Require Import String Lqa Sorting.Sorted Sorting.Permutation.
From Verif Require Import Prelude ModelReachPoint ModelData SpecData ModelPrivacy ModelHalo SpecHalo ModelStrategy
  ReachPointLemmas DataLemmas DataLemmas2 DataLemmas3 HaloLemmas SpecVenn VennLemmas HaloLemmas2 PropsHalo PropsData PropsExact
  ModelCurves ModelGamma ModelGammaPoisson ModelSurface SpecSurface SurfaceLemmas PropsSurface PropsSurface2
  ModelRestricted SpecRestricted PropsRestricted ModelTestPoints ModelAggregator ModelFiles ModelDriver ModelStack SpecStack.
Open Scope Z_scope.

(** ** Strategies *)

Lemma m3_inv {X} S gt h b (w w' : world X) r : m3_fit S gt h b w = (Ok r, w') ->
  let p := h_publisher_count h in
  let pb := per_request_budget b p in
  exists total singles others curves,
    (exists v v', simulated_reach_by_spend (X:=X) h (campaign_spends h) pb (1#2) 1 v = (Ok total, v')) /\
    Forall2 (fun i q => exists v v', single_pub_request (X:=X) h pb p i v = (Ok q, v')) (py_range 0 (Z.of_nat p)) singles /\
    Forall (fun q => exists i v v', all_but_one_request (X:=X) h pb i v = (Ok q, v')) others /\
    Forall2 (fun i c => (if gt then ground_truth_curve_of S (h_data_set h) i
                         else rp <- py_index singles i ;; fit_single S rp) = Ok c) (py_range 0 (Z.of_nat p)) curves /\
    match r with
    | inl c => p = 1%nat /\ curves = [c]
    | inr s => p <> 1%nat /\ fit_multi S curves (others ++ [total]) = Ok s
    end.
Proof.
  intros H p pb. unfold m3_fit in H. cbv zeta in H. fold p in H. fold pb in H.
  unfold mbind at 1 in H. destruct (simulated_reach_by_spend h (campaign_spends h) pb (1#2) 1 w) as [[total|] w1] eqn:Et; [|discriminate H].
  unfold mbind at 1 in H. destruct (mmap (single_pub_request h pb p) _ w1) as [[singles|] w2] eqn:Es; [|discriminate H].
  unfold mbind at 1 in H.
  match type of H with context [match ?e w2 with _ => _ end] =>
    destruct (e w2) as [[others|] w3] eqn:Eo; [|discriminate H] end.
  unfold mbind at 1, mlift at 1 in H.
  match type of H with context [match ?e with Ok _ => _ | Err _ => _ end] =>
    destruct e as [curves|] eqn:Ec; [|discriminate H] end.
  exists total, singles, others, curves. split; [eauto|]. split; [apply (mmap_Forall2 _ _ _ _ _ Es)|]. split.
  { destruct (2 <? p)%nat.
    - apply mmap_Forall2 in Eo. clear -Eo. induction Eo; constructor; eauto.
    - inversion Eo. constructor. }
  apply mapM_Forall2 in Ec. split; [exact Ec|].
  pose proof (Forall2_len _ _ _ Ec) as Lc. rewrite range_length in Lc.
  destruct (Nat.eqb_spec p 1) as [E1|E1].
  - rewrite E1 in Lc. destruct curves as [|c [|? ?]]; cbn [length] in Lc; try lia.
    unfold mbind, mlift, mret in H. simpl in H. inversion H; subst. auto.
  - unfold mbind, mlift, mret in H. destruct (fit_multi S curves (others ++ [total])) as [s|] eqn:Ef; [|discriminate H].
    inversion H; subst. auto.
Qed.

Lemma single_publisher_inv {X} S h b (w w' : world X) c : single_publisher_fit S h b w = (Ok c, w') ->
  h_publisher_count h = 1%nat /\
  exists total, (exists v v', simulated_reach_by_spend (X:=X) h (campaign_spends h) b (1#2) 20 v = (Ok total, v')) /\
    fit_single S total = Ok c.
Proof.
  unfold single_publisher_fit. destruct (Nat.eqb_spec (h_publisher_count h) 1) as [E|E]; intros H; [|discriminate H].
  simpl in H. split; [exact E|]. unfold mbind at 1 in H.
  destruct (simulated_reach_by_spend h (campaign_spends h) b (1#2) 20 w) as [[total|] w1] eqn:Et; [|discriminate H].
  exists total. split; [eauto|]. unfold mlift in H. congruence.
Qed.

(** ** Training points have one entry for each publisher *)

Lemma request_length {X} h spends b split m (w w' : world X) p :
  simulated_reach_by_spend h spends b split m w = (Ok p, w') ->
  length (rp_impressions p) = publisher_count (h_data_set h).
Proof.
  intros H. apply C20_simulated_reach_well_formed in H. destruct H as [_ [_ [_ [H _]]]].
  unfold ds_impressions_by_spend in H. apply mapM_ok_length in H.
  rewrite combine_length, seq_length, Nat.min_id in H. exact H.
Qed.
Lemma abo_length {X} h b i (w w' : world X) p : all_but_one_request h b i w = (Ok p, w') ->
  length (rp_impressions p) = publisher_count (h_data_set h).
Proof.
  unfold all_but_one_request. unfold mbind at 1, mlift at 1. destruct (py_set _ _ _) as [vec|]; [|discriminate].
  apply request_length.
Qed.

(** ** Ground truth curves *)

Lemma sorted_filter_firstn l s : StronglySorted row_le l ->
  filter (fun r => Qleb (snd r) s) l = firstn (length (filter (fun r => Qleb (snd r) s) l)) l.
Proof.
  induction 1 as [|a l H IH Hf]; [reflexivity|]. cbn [filter]. destruct (Qleb (snd a) s) eqn:E.
  - cbn [length firstn]. rewrite <- IH. reflexivity.
  - assert (Z : filter (fun r => Qleb (snd r) s) l = []).
    { clear -Hf E. apply Qleb_gt in E. induction Hf as [|b l Hb Hf IH]; [reflexivity|]. cbn [filter].
      unfold row_le in Hb. replace (Qleb (snd b) s) with false; [exact IH|].
      symmetry. apply Qleb_gt. lra. }
    rewrite Z. reflexivity.
Qed.

(** The cheapest impressions, as many as the spend buys, are those that the spend buys. *)
Lemma seen_bought u log s : seen_at_impressions u log (bought_at_spend log s) = seen_at_spend u log s.
Proof.
  rewrite seen_at_impressions_sorted by (unfold bought_at_spend; lia).
  rewrite <- (seen_at_spend_perm u _ _ s (sort_rows_perm log)). unfold seen_at_spend. f_equal.
  unfold bought_at_spend. rewrite Nat2Z.id.
  rewrite <- (Permutation_length (filter_perm (fun x => Qle_bool (snd x) s) _ _ (sort_rows_perm log))).
  change Qle_bool with Qleb. rewrite <- (sorted_filter_firstn _ s (sort_rows_sorted log)).
  induction (sort_rows log) as [|a l IH]; [reflexivity|]. cbn [filter]. destruct (Qleb (snd a) s); cbn [filter].
  - rewrite andb_true_r. destruct (fst a =? u); cbn [length]; rewrite IH; reflexivity.
  - rewrite andb_false_r. exact IH.
Qed.

Lemma is_data_set_count logs d : is_data_set_of logs d -> publisher_count d = length logs /\ length (ds_data d) = length logs.
Proof.
  intros [pubs [nm [un [HP Hds]]]]. apply data_set_fields in Hds. destruct Hds as [Hdata _].
  unfold publisher_count. rewrite Hdata. rewrite (Forall2_len _ _ _ HP). auto.
Qed.

Lemma is_data_set_publisher logs d i log : is_data_set_of logs d -> nth_error logs i = Some log ->
  exists p, nth_error (ds_data d) i = Some p /\ is_publisher_of log p.
Proof.
  intros [pubs [nm [un [HP Hds]]]] E. apply data_set_fields in Hds. destruct Hds as [Hdata _]. rewrite Hdata.
  clear Hdata. revert i E. induction HP as [|l p logs ps R HP IH]; intros [|i] E; cbn in *; try discriminate.
  - injection E as ->. eauto.
  - apply (IH i E).
Qed.

(** A publisher has reached somebody. *)
Lemma max_reach_pos log p : is_publisher_of log p -> 0 < pd_max_reach p /\
  card_is (fun u => exists q, In (u, q) log) (pd_max_reach p).
Proof.
  intros Hp. pose proof (C07_publisher_maxima log p Hp) as [_ [_ [C _]]]. split; [|exact C].
  destruct Hp as [rn [nm H]]. apply publisher_fields in H. destruct H as [_ [_ [H _]]].
  destruct log as [|[u q] log]; [discriminate H|].
  destruct C as [l [_ [M N]]]. destruct l as [|x l]; [|cbn [length] in N; lia].
  exfalso. apply (M u). exists q. left. reflexivity.
Qed.

Lemma integer_of_Z z : integer_of (inject_Z z) = Ok z.
Proof.
  unfold integer_of. assert (E : Qred (inject_Z z) = inject_Z z).
  { unfold Qred, inject_Z. pose proof (Z.ggcd_gcd z 1) as G. destruct (Z.ggcd z (Z.pos 1)) as [g [aa bb]] eqn:E.
    pose proof (Z.ggcd_correct_divisors z 1) as D. rewrite E in D. destruct D as [D1 D2].
    cbn [fst] in G. rewrite Z.gcd_1_r in G. subst g. rewrite Z.mul_1_l in D1, D2. subst aa bb. reflexivity. }
  rewrite E. reflexivity.
Qed.

Lemma ground_truth_inv d i g : mk_ground_truth d i = Ok g ->
  exists p, py_index (ds_data d) i = Ok p /\ g = {| gt_data_set := d; gt_index := i; gt_max_reach := pd_max_reach p |}.
Proof. unfold mk_ground_truth. destruct (py_index (ds_data d) i) as [p|]; [|discriminate]. cbn [bind]. intros E. injection E as <-. eauto. Qed.

Section Surface.
Variable T : tools.

(** A ground truth curve in a surface answers with the users reached at the spend. *)
Lemma truth_curve logs d i log g s : is_data_set_of logs d -> nth_error logs i = Some log -> increasing_prices log ->
  mk_ground_truth d (Z.of_nat i) = Ok g ->
  let c := surface_curve T (GroundTruth g) in
  exists x n, c_impressions_for_spend c s = Ok x /\ c_reach c x = Ok (inject_Z n) /\
    x = inject_Z (bought_at_spend log s) /\
    card_is (fun u => 1 <= seen_at_spend u log s) n /\ (0 <= inject_Z n <= c_max_reach c)%Q /\ (0 < c_max_reach c)%Q.
Proof.
  intros Hd Hi Hinc Hg. cbv zeta. destruct (is_data_set_publisher _ _ _ _ Hd Hi) as [p [Hp Pp]].
  pose proof (ground_truth_inv _ _ _ Hg) as [p' [Ep ->]].
  rewrite py_index_nonneg in Ep by lia. rewrite Nat2Z.id, Hp in Ep. injection Ep as <-.
  destruct (C42_by_impressions_is_single_publisher logs d (Z.of_nat i) log _ (bought_at_spend log s) 1 1 Hd ltac:(lia)
    ltac:(rewrite Nat2Z.id; exact Hi) Hg ltac:(unfold bought_at_spend; lia) ltac:(lia)) as [q [n [E1 [E2 C]]]].
  assert (C' : card_is (fun u => 1 <= seen_at_spend u log s) n).
  { eapply card_is_ext; [|exact C]. intros u. cbv beta. rewrite seen_bought. reflexivity. }
  destruct (max_reach_pos _ _ Pp) as [Pos Cm].
  exists (inject_Z (bought_at_spend log s)), n. cbn [surface_curve c_impressions_for_spend c_reach c_max_reach gt_max_reach].
  split; [|split; [|split; [reflexivity|split; [exact C'|split]]]].
  - unfold gt_impressions_for_spend. cbn [gt_data_set gt_index]. rewrite py_index_nonneg by lia. rewrite Nat2Z.id, Hp.
    cbn [bind]. rewrite (impressions_by_spend_sorted log p s Pp Hinc). reflexivity.
  - rewrite integer_of_Z. cbn [bind]. rewrite E1. cbn [bind]. rewrite E2. reflexivity.
  - change 0%Q with (inject_Z 0). rewrite <- !Zle_Qle. split; [eapply card_is_nonneg; eauto|].
    eapply card_is_le; [|exact C'|exact Cm]. intros u Hu. apply seen_at_spend_in in Hu. destruct Hu as [q0 [Hq _]]. eauto.
  - change 0%Q with (inject_Z 0). rewrite <- Zlt_Qlt. exact Pos.
Qed.

(** All publishers at once. *)
Lemma truth_curves logs d curves spends singles : is_data_set_of logs d -> Forall increasing_prices logs ->
  length curves = length logs -> length spends = length logs ->
  (forall i c, nth_error curves i = Some c -> exists g, mk_ground_truth d (Z.of_nat i) = Ok g /\ c = GroundTruth g) ->
  Forall2 (fun ls n => card_is (fun u => 1 <= seen_at_spend u (fst ls) (snd ls)) n) (combine logs spends) singles ->
  exists imps, PropsSurface2.bought (map (surface_curve T) curves) spends imps /\
    imps = map inject_Z (SpecHalo.bought logs spends) /\
    single_reaches (map (surface_curve T) curves) imps (map inject_Z singles) /\
    non_trivial_curves (map (surface_curve T) curves).
Proof.
  intros Hd Hinc Lc Ls Hc Hs.
  assert (G : forall k logs' curves' spends' singles', (forall i log, nth_error logs' i = Some log -> nth_error logs (k + i) = Some log) ->
    length curves' = length logs' -> length spends' = length logs' ->
    (forall i c, nth_error curves' i = Some c -> nth_error curves (k + i) = Some c) ->
    Forall2 (fun ls n => card_is (fun u => 1 <= seen_at_spend u (fst ls) (snd ls)) n) (combine logs' spends') singles' ->
    PropsSurface2.bought (map (surface_curve T) curves') spends' (map inject_Z (SpecHalo.bought logs' spends')) /\
    single_reaches (map (surface_curve T) curves') (map inject_Z (SpecHalo.bought logs' spends')) (map inject_Z singles') /\
    non_trivial_curves (map (surface_curve T) curves')).
  { intros k logs'. revert k. induction logs' as [|log logs' IH]; intros k curves' spends' singles' H1 L1 L2 H2 H3.
    - destruct curves'; [|discriminate]. destruct spends'; [|discriminate]. cbn in H3. inversion H3. repeat constructor.
    - destruct curves' as [|c curves']; [discriminate|]. destruct spends' as [|s spends']; [discriminate|].
      cbn [combine] in H3. inversion H3 as [|? n ? ns H4 H5]; subst. cbn [length] in L1, L2. cbn [fst snd] in H4.
      pose proof (H1 0%nat log eq_refl) as E1. rewrite Nat.add_0_r in E1.
      pose proof (H2 0%nat c eq_refl) as E2. rewrite Nat.add_0_r in E2.
      destruct (Hc k c E2) as [g [Eg ->]].
      assert (Hl : increasing_prices log) by (rewrite Forall_forall in Hinc; apply Hinc; eapply nth_error_In; eauto).
      destruct (truth_curve logs d k log g s Hd E1 Hl Eg) as [x [n' [F1 [F2 [F3 [F4 [F5 F6]]]]]]].
      assert (n' = n) by (eapply card_is_unique; eauto). subst n'.
      destruct (IH (S k) curves' spends' ns) as [I1 [I2 I3]]; [| lia | lia | |exact H5|].
      { intros i l Hi. specialize (H1 (S i) l Hi). rewrite Nat.add_succ_r in H1. exact H1. }
      { intros i l Hi. specialize (H2 (S i) l Hi). rewrite Nat.add_succ_r in H2. exact H2. }
      unfold SpecHalo.bought in *. cbn [combine map fst snd]. subst x.
      split; [constructor; [exact F1|exact I1]|]. split; [constructor; [exact F2|exact F5|exact I2]|].
      constructor; [exact F6|exact I3]. }
  destruct (G 0%nat logs curves spends singles) as [G1 [G2 G3]]; auto.
  exists (map inject_Z (SpecHalo.bought logs spends)). auto.
Qed.

(** ** Surfaces *)

Lemma fit_surface_inv name kw g curves points s g' : fit_surface T name kw g curves points = Ok (s, g') ->
  su_curves s = curves /\ su_data s = points /\ surface_ctor points = Ok (su_publishers s) /\ kw = [] /\
  (name = "pairwise_union"%string /\ pairwise_fit (tl_solver T) (map (surface_curve T) curves) points = Ok (su_a s) /\ g' = g \/
   name = "restricted_pairwise_union"%string /\
     drawn_fit (tl_random T) (truncated_uniform (tl_random T) (tl_fuel T)) (map (surface_curve T) curves) points g = Ok (su_a s, g')).
Proof.
  assert (K : forall kw', accepts [] kw' = Ok tt -> kw' = []).
  { intros [|kv kw'] E; [reflexivity|]. cbn in E. discriminate E. }
  unfold fit_surface. destruct (String.eqb_spec name "pairwise_union") as [->|N1].
  - destruct (accepts [] kw) as [[]|] eqn:Ek; [|discriminate]. cbn [bind].
    destruct (surface_ctor points) as [p|] eqn:Ep; [|discriminate]. cbn [bind].
    destruct (pairwise_fit (tl_solver T) (map (surface_curve T) curves) points) as [a|] eqn:Ea; [|discriminate].
    cbn [bind]. intros E. injection E as <- <-. cbn. repeat (split; auto).
  - destruct (String.eqb_spec name "restricted_pairwise_union") as [->|N2].
    + destruct (accepts [] kw) as [[]|] eqn:Ek; [|discriminate]. cbn [bind].
      destruct (surface_ctor points) as [p|] eqn:Ep; [|discriminate]. cbn [bind].
      destruct (drawn_fit _ _ _ _ g) as [[a g1]|] eqn:Ea; [|discriminate].
      cbn [bind]. intros E. injection E as <- <-. cbn. repeat (split; auto).
    + destruct (String.eqb_spec name "none"); discriminate.
Qed.

Lemma fit_surface_coefficients name kw g curves points s g' p : fit_surface T name kw g curves points = Ok (s, g') ->
  length curves = p -> sound_surface T name p -> Forall (fun pt => length (rp_impressions pt) = p) points ->
  su_curves s = curves /\ su_publishers s = p /\ overlap_coefficients p (su_a s).
Proof.
  intros E L HS HF. destruct (fit_surface_inv _ _ _ _ _ _ _ E) as [E1 [E2 [E3 [_ E4]]]].
  split; [exact E1|]. split; [exact (ctor_count _ _ _ HF E3)|].
  assert (Lm : length (map (surface_curve T) curves) = p) by (rewrite map_length; exact L).
  destruct HS as [[-> HS]|[-> [HS Hp]]]; destruct E4 as [[N [E4 _]]|[N E4]]; try discriminate N.
  - rewrite <- Lm. apply (C29_fit_gives_coefficients (tl_solver T) _ points); [rewrite Lm; exact HS| |exact E4].
    rewrite Lm. exact HF.
  - rewrite <- Lm. eapply C54_three_publishers; [exact HS|rewrite Lm; exact Hp|rewrite Lm; exact HF|exact E4].
Qed.

(** The points that a fit hands to the surface. *)
Lemma surface_points_length {X} h b total others :
  (exists v v', simulated_reach_by_spend (X:=X) h (campaign_spends h) b (1#2) 1 v = (Ok total, v')) ->
  Forall (fun q => exists i v v', all_but_one_request (X:=X) h b i v = (Ok q, v')) others ->
  Forall (fun pt => length (rp_impressions pt) = publisher_count (h_data_set h)) (map point_Q (others ++ [total])).
Proof.
  intros [v [v' H1]] H2. apply Forall_map. apply Forall_app. split.
  - eapply Forall_impl; [|exact H2]. intros q [i [v0 [v1 Hq]]]. unfold point_Q. cbn [rp_impressions]. rewrite map_length.
    exact (abo_length _ _ _ _ _ _ Hq).
  - constructor; [|constructor]. unfold point_Q. cbn [rp_impressions]. rewrite map_length. exact (request_length _ _ _ _ _ _ _ _ H1).
Qed.

Lemma fit_strategy_inv {X} sd h b g (w w' : world X) m g' : fit_strategy T sd h b g w = (Ok (m, g'), w') ->
  let p := h_publisher_count h in
  (sd_strategy sd = "m3strategy"%string /\
   let pb := per_request_budget b p in
   exists total singles others curves,
    (exists v v', simulated_reach_by_spend (X:=X) h (campaign_spends h) pb (1#2) 1 v = (Ok total, v')) /\
    Forall2 (fun i q => exists v v', single_pub_request (X:=X) h pb p i v = (Ok q, v')) (py_range 0 (Z.of_nat p)) singles /\
    Forall (fun q => exists i v v', all_but_one_request (X:=X) h pb i v = (Ok q, v')) others /\
    Forall2 (fun i c => (if use_ground_truth sd then g <- mk_ground_truth (h_data_set h) i ;; Ok (GroundTruth g)
                         else rp <- py_index singles i ;; fit_named T (sd_single sd) (sd_single_kwargs sd) (point_Q rp)) = Ok c)
      (py_range 0 (Z.of_nat p)) curves /\
    match m with
    | OneCurve c => p = 1%nat /\ curves = [c] /\ g' = g
    | Surface s => p <> 1%nat /\
        fit_surface T (sd_multi sd) (sd_multi_kwargs sd) g curves (map point_Q (others ++ [total])) = Ok (s, g')
    end) \/
  (sd_strategy sd = "single_publisher"%string /\ p = 1%nat /\ g' = g /\
   exists total c, (exists v v', simulated_reach_by_spend (X:=X) h (campaign_spends h) b (1#2) 20 v = (Ok total, v')) /\
     fit_named T (sd_single sd) (sd_single_kwargs sd) (point_Q total) = Ok c /\ m = OneCurve c).
Proof.
  unfold fit_strategy. destruct (String.eqb_spec (sd_strategy sd) "m3strategy") as [E|N].
  - intros H. unfold mbind at 1 in H. destruct (m3_fit _ _ _ _ w) as [[r|] w1] eqn:Em; [|discriminate H].
    left. split; [exact E|]. apply m3_inv in Em. cbv zeta in Em. destruct Em as [total [singles [others [curves [H1 [H2 [H3 [H4 H5]]]]]]]].
    exists total, singles, others, curves. split; [exact H1|]. split; [exact H2|]. split; [exact H3|]. split; [exact H4|].
    destruct r as [c|[s g1]]; unfold mret in H; injection H as <- <- _.
    + destruct H5. auto.
    + exact H5.
  - destruct (String.eqb_spec (sd_strategy sd) "single_publisher") as [E|N2]; [|discriminate].
    intros H. unfold mbind at 1 in H. destruct (single_publisher_fit _ _ _ w) as [[c|] w1] eqn:Em; [|discriminate H].
    unfold mret in H. injection H as <- <- _. right. split; [exact E|]. apply single_publisher_inv in Em.
    destruct Em as [H1 [total [H2 H3]]]. split; [exact H1|]. split; [reflexivity|]. exists total, c. auto.
Qed.

End Surface.
