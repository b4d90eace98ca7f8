(** C55, continued: trials with the k-inflated and the Gamma-Poisson reach curves. *)
From Coq Require Import String Lqa.
From Verif Require Import Prelude ModelReachPoint ModelData SpecData ModelPrivacy ModelHalo SpecHalo ModelStrategy
  ReachPointLemmas DataLemmas DataLemmas2 DataLemmas3 HaloLemmas HaloLemmas2 PropsHalo SpecVenn ExactLemmas2 SpecExact PropsExact ModelCurves ModelGamma SpecGamma GammaLemmas GammaLemmas2
  SpecGammaFit GammaFitLemmas PropsGamma PropsGamma2 PropsGammaFit ModelGammaPoisson GammaPoissonLemmas PropsGammaPoisson
  ModelSurface ModelRestricted ModelTestPoints ModelAggregator ModelFiles ModelDriver ModelStack SpecStack SpecStack2
  StackLemmas PropsRestricted ExampleDriver PropsStack PropsStack2 PropsStack3 PropsStack4.
Open Scope Z_scope.

Lemma kw_number_spec kw name r : kw_number kw name = Ok r ->
  (not_passed kw name /\ r = None) \/ exists n, passed kw name (VNum n) /\ r = Some n.
Proof.
  unfold kw_number. intros H.
  assert (G : match find (fun kv => String.eqb name (fst kv)) kw with
              | None => not_passed kw name
              | Some (_, v) => passed kw name v
              end).
  { clear H. induction kw as [|[k v] kw IH]; [intros []|]. cbn [find fst].
    destruct (String.eqb_spec name k) as [->|N].
    - exists [], kw. split; [reflexivity|intros []].
    - destruct (find _ kw) as [[k' v']|].
      + destruct IH as [b [a [-> Nb]]]. exists ((k, v) :: b), a. split; [reflexivity|].
        cbn [map fst]. intros [X|X]; [apply N; symmetry; exact X|contradiction].
      + intros [X|X]; [apply N; symmetry; exact X|exact (IH X)]. }
  destruct (find _ kw) as [[k v]|].
  - right. destruct v as [n|s|b]; try discriminate H. exists n. split; [exact G|congruence].
  - left. split; [exact G|congruence].
Qed.

Lemma accepts_spec names kw u : accepts names kw = Ok u -> forall k v, In (k, v) kw -> In k names.
Proof.
  unfold accepts. destruct (forallb _ kw) eqn:F; [|discriminate]. intros _ k v H.
  rewrite forallb_forall in F. specialize (F _ H). cbn [fst] in F. unfold known in F.
  apply existsb_exists in F. destruct F as [x [Hx E]]. apply String.eqb_eq in E. subst x. exact Hx.
Qed.

Section Named.
Variable T : tools.

(** A k-inflated model that was made from a name and keyword arguments is fitted with the
    arguments passed, or their defaults, and there is no other argument. *)
Theorem C55_kinflated_arguments : forall kw p c, fit_named T "kinflated_gamma_poisson" kw p = Ok c ->
  (forall k v, In (k, v) kw -> In k ["kmax"; "debug"; "extrapolation_multiplier"]%string) /\
  exists kmax mult imp m N d, kmax_of kw kmax /\ multiplier_of kw mult /\
    py_index (rp_impressions p) 0 = Ok imp /\ c = KInflated m /\ km_point m = p /\ km_kmax m = kmax /\
    fit_point (tl_gamma T) (tl_fuel T) kmax p (mult * imp) = Ok (N, d) /\ km_fit m = Some (N, d).
Proof.
  intros kw p c H. unfold fit_named in H.
  change (String.eqb "kinflated_gamma_poisson" "goerg") with false in H.
  change (String.eqb "kinflated_gamma_poisson" "gamma_poisson") with false in H.
  change (String.eqb "kinflated_gamma_poisson" "kinflated_gamma_poisson") with true in H. cbv iota in H.
  destruct (accepts _ kw) as [u|] eqn:Ea; cbn [bind] in H; [|discriminate H].
  split; [exact (accepts_spec _ _ _ Ea)|].
  destruct (kw_number kw "kmax") as [k|] eqn:Ek; cbn [bind] in H; [|discriminate H].
  match type of H with (bind ?e _) = _ => destruct e as [kmax|] eqn:Em; cbn [bind] in H; [|discriminate H] end.
  destruct (kw_number kw "extrapolation_multiplier") as [e|] eqn:Ee; cbn [bind] in H; [|discriminate H].
  destruct (mk_kmodel [p] kmax (number_or 1 e)) as [m|] eqn:Emk; cbn [bind] in H; [|discriminate H].
  destruct (km_fitted (tl_gamma T) (tl_fuel T) m None) as [m'|] eqn:Ef; cbn [bind] in H; [|discriminate H].
  injection H as <-.
  unfold mk_kmodel in Emk. destruct (py_index (rp_impressions p) 0) as [imp|] eqn:Ei; cbn [bind] in Emk; [|discriminate Emk].
  destruct (Qltb imp (1#1000)); [discriminate Emk|].
  destruct (reach p 1) as [r|]; cbn [bind] in Emk; [|discriminate Emk].
  destruct (Qltb imp r); [discriminate Emk|].
  destruct (match rp_spends p with Some l => _ | None => _ end) as [cpi|]; cbn [bind] in Emk; [|discriminate Emk].
  injection Emk as <-. unfold km_fitted in Ef. cbn [km_fit km_kmax km_point km_extrapolation km_cpi] in Ef.
  destruct (fit_point (tl_gamma T) (tl_fuel T) kmax p (number_or 1 e * imp)) as [[N d]|] eqn:Efp; cbn [bind] in Ef; [|discriminate Ef].
  injection Ef as <-. exists kmax, (number_or 1 e), imp, (Build_kmodel p kmax (number_or 1 e * imp) cpi (Some (N, d))), N, d.
  split.
  { destruct (kw_number_spec _ _ _ Ek) as [[A ->]|[n [A ->]]].
    - left. split; [exact A|congruence].
    - right. destruct n as [z|q]; [|discriminate Em]. exists z. split; [exact A|congruence]. }
  split.
  { destruct (kw_number_spec _ _ _ Ee) as [[A ->]|[n [A ->]]]; [left; auto|right; exists n; auto]. }
  auto 8.
Qed.

(** Likewise for a Gamma-Poisson model. *)
Theorem C55_gamma_poisson_arguments : forall kw p c, fit_named T "gamma_poisson" kw p = Ok c ->
  (forall k v, In (k, v) kw -> In k ["max_reach"; "extrapolation_multiplier"]%string) /\
  exists r mult imp m, max_reach_of kw r /\ multiplier_of kw mult /\
    py_index (rp_impressions p) 0 = Ok imp /\ c = GammaPoisson m /\ gm_point m = p /\
    match r with
    | None => exists Imax N alpha beta,
        fit_chi2 (tl_gamma_poisson T) (tl_fuel T) (mult * imp) p 1 10 = Ok (Imax, N, alpha, beta) /\
        PropsGammaPoisson.fitted m N Imax alpha beta
    | Some N => exists Imax alpha beta,
        fit_fixed_N (tl_gamma_poisson T) (tl_fuel T) (mult * imp) p N 1 = Ok (Imax, alpha, beta) /\
        PropsGammaPoisson.fitted m N Imax alpha beta
    end.
Proof.
  intros kw p c H. unfold fit_named in H.
  change (String.eqb "gamma_poisson" "goerg") with false in H.
  change (String.eqb "gamma_poisson" "gamma_poisson") with true in H. cbv iota in H.
  destruct (accepts _ kw) as [u|] eqn:Ea; cbn [bind] in H; [|discriminate H].
  split; [exact (accepts_spec _ _ _ Ea)|].
  destruct (kw_number kw "max_reach") as [r|] eqn:Er; cbn [bind] in H; [|discriminate H].
  destruct (kw_number kw "extrapolation_multiplier") as [e|] eqn:Ee; cbn [bind] in H; [|discriminate H].
  set (mr := match r with Some n => Some (number_Q n) | None => None end) in H.
  destruct (mk_gpmodel [p] mr (number_or 1 e)) as [m|] eqn:Emk; cbn [bind] in H; [|discriminate H].
  destruct (gm_fitted (tl_gamma_poisson T) (tl_fuel T) m) as [m'|] eqn:Ef; cbn [bind] in H; [|discriminate H].
  injection H as <-.
  unfold mk_gpmodel in Emk. destruct (curve_init [p]); cbn [bind] in Emk; [|discriminate Emk].
  destruct (py_index (rp_impressions p) 0) as [imp|] eqn:Ei; cbn [bind] in Emk; [|discriminate Emk].
  destruct (Qltb imp (1#1000)); [discriminate Emk|].
  destruct (reach p 1) as [r1|]; cbn [bind] in Emk; [|discriminate Emk].
  destruct (Qltb imp r1); [discriminate Emk|].
  destruct (match rp_spends p with Some l => _ | None => _ end) as [cpi|]; cbn [bind] in Emk; [|discriminate Emk].
  injection Emk as <-. unfold gm_fitted in Ef. cbn [gm_fit gm_max_reach gm_point gm_extrapolation gm_cpi] in Ef.
  assert (A1 : max_reach_of kw mr).
  { unfold mr. destruct (kw_number_spec _ _ _ Er) as [[A ->]|[n [A ->]]]; [left; auto|right; exists n; auto]. }
  assert (A2 : multiplier_of kw (number_or 1 e)).
  { destruct (kw_number_spec _ _ _ Ee) as [[A ->]|[n [A ->]]]; [left; auto|right; exists n; auto]. }
  exists mr, (number_or 1 e), imp.
  destruct mr as [N|].
  - destruct (fit_fixed_N _ _ _ _ _ _) as [[[Imax alpha] beta]|] eqn:E; cbn [bind] in Ef; [|discriminate Ef].
    injection Ef as <-. eexists. split; [exact A1|]. split; [exact A2|]. split; [reflexivity|]. split; [reflexivity|].
    split; [reflexivity|]. exists Imax, alpha, beta. split; [reflexivity|]. split; reflexivity.
  - destruct (fit_chi2 _ _ _ _ _ _) as [[[[Imax N] alpha] beta]|] eqn:E; cbn [bind] in Ef; [|discriminate Ef].
    injection Ef as <-. eexists. split; [exact A1|]. split; [exact A2|]. split; [reflexivity|]. split; [reflexivity|].
    split; [reflexivity|]. exists Imax, N, alpha, beta. split; [reflexivity|]. split; reflexivity.
Qed.

(** ** Training points of one publisher *)

Lemma diffs_inject : forall l, diffs Qops (map inject_Z l) = map inject_Z (diffs Zops l).
Proof.
  induction l as [|x [|y l] IH]; [reflexivity|reflexivity|].
  cbn [map diffs nsub Qops Zops] in *. rewrite IH. f_equal.
  unfold Qminus, Qplus, Qopp, inject_Z. cbn [Qnum Qden]. f_equal. lia.
Qed.

Lemma point_Q_made imps kp sp u p : mk_reach_point Zops imps kp sp u = Ok p ->
  mk_reach_point Qops (map inject_Z imps) (map inject_Z kp) sp u = Ok (point_Q p).
Proof.
  unfold mk_reach_point. rewrite map_length. destruct (match _ with Some s => _ | None => _ end); [discriminate|].
  intros E. injection E as <-. unfold point_Q. cbn [rp_impressions rp_kplus rp_frequencies rp_spends rp_universe].
  rewrite diffs_inject. reflexivity.
Qed.

Lemma request_made {X} h spends b split m (w w' : world X) p :
  simulated_reach_by_spend h spends b split m w = (Ok p, w') ->
  exists imps kp u, mk_reach_point Zops imps kp (Some spends) u = Ok p.
Proof.
  unfold simulated_reach_by_spend. cbv zeta. intros H.
  repeat (unfold mbind at 1 in H;
    match type of H with
    | (match ?e with _ => _ end) = _ => let E := fresh "E" in let a := fresh "a" in let v := fresh "v" in
        destruct e as [a v] eqn:E; destruct a as [a|a]; [|discriminate H]
    end).
  unfold mlift in H. eexists _, _, _. injection H as H _. exact H.
Qed.

Lemma made_fields imps kp sp u (p : reach_point Z Z) : mk_reach_point Zops imps kp sp u = Ok p ->
  rp_impressions p = imps /\ rp_kplus p = kp.
Proof.
  unfold mk_reach_point. cbv zeta. match goal with |- (if ?b then _ else _) = _ -> _ => destruct b; [discriminate|] end.
  intros E. injection E as <-. auto.
Qed.

(** One publisher's measured campaign. *)
Lemma measured_one log c m p : measured [log] [c] m p ->
  rp_spends p = Some [c] /\ rp_impressions p = [bought_at_spend log c] /\
  exact_reaches (fun u => seen_at_spend u log c) (bought_at_spend log c) m p.
Proof.
  intros [M1 [M2 M3]]. split; [exact M1|]. split; [exact M2|].
  unfold SpecHalo.bought in M3. cbn [combine map fst snd total_seen] in M3. unfold exact_reaches in *.
  destruct M3 as [Y1 [n1 [Y2 [Y3 Y4]]]].
  change (Zsum [bought_at_spend log c]) with (bought_at_spend log c + 0) in Y3, Y4. rewrite Z.add_0_r in Y3, Y4.
  split; [exact Y1|]. exists n1. split; [eapply card_is_ext; [|exact Y2]; intros u; cbv beta; rewrite Z.add_0_r; tauto|].
  split; [|exact Y4]. intros Hlt k Hk. destruct (Y3 Hlt k Hk) as [n [C R]]. exists n. split; [|exact R].
  eapply card_is_ext; [|exact C]. intros u. cbv beta. rewrite Z.add_0_r. tauto.
Qed.

Lemma one_campaign log f fr h : is_halo_with [log] (f :: fr) h ->
  exists c, campaign_spends h = [c] /\ campaign_of log f c.
Proof.
  intros Hh. destruct (campaigns_are _ _ _ Hh) as [L1 [L2 L3]].
  destruct (campaign_spends h) as [|s [|? ?]] eqn:E; try discriminate L1.
  exists s. split; [reflexivity|]. apply (L3 0%nat); reflexivity.
Qed.

(** What a strategy for one publisher trains its curve on. *)
Lemma one_training {X} times log f fr h sd b g (w w' : world X) m g' :
  exact_sketches X times -> is_halo_with [log] (f :: fr) h -> increasing_prices log ->
  uses_estimates sd -> fit_strategy T sd h b g w = (Ok (m, g'), w') ->
  exists c spend q u, m = OneCurve c /\ campaign_of log f spend /\
    let depth := if string_dec (sd_strategy sd) "m3strategy" then 10 else 20 in
    mk_reach_point Zops [bought_at_spend log spend] (rp_kplus q) (Some [spend]) u = Ok q /\
    exact_reaches (fun u => seen_at_spend u log spend) (bought_at_spend log spend) depth q /\
    fit_named T (sd_single sd) (sd_single_kwargs sd) (point_Q q) = Ok c.
Proof.
  intros HX Hh Hi Ue F. pose proof (estimates_computed _ Ue) as Ue'.
  destruct (one_campaign _ _ _ _ Hh) as [c [Ec Hc]].
  destruct (campaigns_index _ _ _ Hh) as [_ [HLp _]].
  assert (Hlen : h_publisher_count h = 1%nat) by exact HLp.
  assert (Hle : forall i x y, nth_error (campaign_spends h) i = Some x -> nth_error [c] i = Some y -> (y <= x)%Q).
  { rewrite Ec. intros i x y E1 E2. assert (x = y) as -> by congruence. apply Qle_refl. }
  apply fit_strategy_inv in F. cbv zeta in F. rewrite Hlen in F.
  destruct F as [[S1 [total [singles [others [curves [_ [K2 [_ [K4 K5]]]]]]]]]|[S1 [_ [-> [total [cu [[v [v' K1]] [K2 ->]]]]]]]].
  - destruct m as [cu|s]; [|destruct K5 as [K5 _]; contradiction K5; reflexivity]. destruct K5 as [_ [-> ->]].
    change (py_range 0 (Z.of_nat 1)) with [0] in K2, K4.
    destruct singles as [|q [|? ?]]; [inversion K2| |inversion K2 as [|? ? ? ? _ K2']; inversion K2'].
    inversion K2 as [|? ? ? ? [v [v' R]] _]; subst. inversion K4 as [|? ? ? ? R4 _]; subst.
    rewrite Ue' in R4. change (py_index [q] 0) with (Ok q) in R4. cbn [bind] in R4.
    unfold single_pub_request in R. rewrite Ec in R.
    unfold mbind at 1, mlift at 1 in R. change (py_index [c] 0) with (Ok c) in R.
    unfold mbind at 1, mlift at 1 in R. change (py_set (repeat 0%Q 1) 0 c) with (Ok [c]) in R.
    unfold mbind at 1 in R. destruct (simulated_reach_by_spend h [c] _ _ _ v) as [[rp|] v1] eqn:Er; [|discriminate R].
    pose proof (request_measured times [log] (f :: fr) h [c] _ _ 10 _ _ _ HX Hh ltac:(constructor; [exact Hi|constructor]) eq_refl ltac:(lia) Hle Er) as M.
    apply measured_one in M. destruct M as [M1 [M2 M3]].
    unfold mbind at 1, mlift at 1 in R.
    match type of R with context [mapM ?f ?l] => destruct (mapM f l) as [kp|] eqn:Ek; [|discriminate R] end.
    apply mapM_reach in Ek. subst kp.
    unfold mbind at 1, mlift at 1 in R. rewrite M2 in R. change (py_index [bought_at_spend log c] 0) with (Ok (bought_at_spend log c)) in R.
    unfold mbind at 1, mlift at 1 in R. rewrite M1 in R. change (py_index [c] 0) with (Ok c) in R.
    unfold mlift in R. apply (f_equal fst) in R. cbn [fst] in R. pose proof (made_fields _ _ _ _ _ R) as [_ R2].
    exists cu, c, q, None. split; [reflexivity|]. split; [exact Hc|].
    destruct (string_dec _ _) as [_|N]; [|contradiction]. cbv zeta. rewrite R2. split; [exact R|]. split; [|exact R4].
    unfold exact_reaches, reach, max_frequency in *. rewrite R2. exact M3.
  - rewrite Ec in K1.
    pose proof (request_measured times [log] (f :: fr) h [c] _ _ 20 _ _ _ HX Hh ltac:(constructor; [exact Hi|constructor]) eq_refl ltac:(lia) Hle K1) as M.
    apply measured_one in M. destruct M as [M1 [M2 M3]].
    destruct (request_made _ _ _ _ _ _ _ _ K1) as [imps [kp [u R]]]. pose proof (made_fields _ _ _ _ _ R) as [R1 R2].
    exists cu, c, total, u. split; [reflexivity|]. split; [exact Hc|].
    destruct (string_dec _ _) as [E|_]; [rewrite E in S1; discriminate S1|]. cbv zeta.
    rewrite R2. rewrite <- M2, R1. auto.
Qed.
End Named.
Print Assumptions C55_kinflated_arguments.
Print Assumptions C55_gamma_poisson_arguments.

Open Scope Q_scope.
(** The spend buys impressions at the price of the training point. *)
Lemma km_spend_imp I r kp s0 u p kmax mult m s :
  mk_reach_point Qops [I] (r :: kp) (Some [s0]) u = Ok p -> mk_kmodel [p] kmax mult = Ok m -> ~ s0 == 0 -> 0 < I ->
  exists imp, km_impressions_for_spend m s = Ok imp /\ imp == s * I / s0.
Proof.
  intros HP HM Hs HI.
  assert (E : km_cpi m = Some (s0 / I)).
  { assert (X1 := f_equal (fun a => match a with Ok q => rp_spends q | Err _ => None end) HP).
    assert (X2 := f_equal (fun a => match a with Ok q => rp_impressions q | Err _ => [] end) HP). cbn in X1, X2.
    unfold mk_kmodel in HM. rewrite <- X1, <- X2 in HM. change (py_index [I] 0) with (Ok I) in HM. cbn [bind] in HM.
    destruct (Qltb I (1#1000)); [discriminate HM|]. destruct (reach p 1) as [r1|]; cbn [bind] in HM; [|discriminate HM].
    destruct (Qltb I r1); [discriminate HM|]. change (py_index [s0] 0) with (Ok s0) in HM. cbn [bind] in HM.
    assert (X := f_equal (fun a => match a with Ok q => km_cpi q | Err _ => None end) HM). cbn [km_cpi] in X. auto. }
  assert (Nz : ~ s0 / I == 0).
  { intros X. apply Hs. setoid_replace s0 with (s0 / I * I) by (field; lra). rewrite X. ring. }
  exists (s / (s0 / I)). split; [|field; split; [exact Hs|lra]].
  unfold km_impressions_for_spend, truthy_cost. rewrite E.
  destruct (Qeqb (s0 / I) 0) eqn:B; [apply Qeq_bool_iff in B; contradiction|]. reflexivity.
Qed.
Close Scope Q_scope.

Section Full.
Variable T : tools.
Variable B : bench T.
Let L := full_lab T B.

(** A trial of one publisher with exact sketches, whatever curve it names: the curve is fitted
    to the true frequencies of the campaign, up to 10 for the M3 strategy and up to 20 for the
    strategy for a single publisher. *)
Theorem C55_one_publisher_training : forall times log d f fr ll h sd b w w' seed m gl,
  exact_sketches (bn_halo T B) times -> is_data_set_of [log] d -> increasing_prices log ->
  mk_halo d (f :: fr) ll = Ok h -> uses_estimates sd ->
  lab_fit L sd h b (lab_seed_global L seed) w = (Ok (m, gl), w') ->
  exists c spend q counts, m = OneCurve c /\ campaign_of log f spend /\
    training_point q (inject_Z (bought_at_spend log spend)) (map inject_Z counts) spend /\
    reported_counts log spend (if string_dec (sd_strategy sd) "m3strategy" then 10 else 20) counts /\
    fit_named T (sd_single sd) (sd_single_kwargs sd) q = Ok c.
Proof.
  intros times log d f fr ll h sd b w w' seed m gl HX Hd Hi Eh Ue F.
  change (lab_fit L) with (fun sd h b gl => fit_strategy (X := bn_halo T B) T sd h b gl) in F. cbv beta in F.
  assert (Hh : is_halo_with [log] (f :: fr) h) by (exists d, ll; auto).
  destruct (one_training T times log f fr h sd b _ w w' m gl HX Hh Hi Ue F) as [c [spend [q [u [-> [C1 [Q1 [Q2 Q3]]]]]]]].
  exists c, spend, (point_Q q), (rp_kplus q). split; [reflexivity|]. split; [exact C1|].
  split; [exists u; exact (point_Q_made _ _ _ _ _ Q1)|]. split; [|exact Q3].
  unfold reported_counts. revert Q2. generalize (if string_dec (sd_strategy sd) "m3strategy" then 10 else 20). intros m [M1 [n [M2 [M3 M4]]]].
  assert (R : forall k v, reach q k = Ok v -> nth_error (rp_kplus q) (Z.to_nat (k - 1)) = Some v).
  { intros k v. unfold reach. destruct (Z.ltb_spec 0 k); [|discriminate]. cbn [andb].
    destruct (Z.leb_spec k (max_frequency q)) as [Hk|]; [|discriminate]. rewrite py_index_nonneg by lia.
    destruct (nth_error _ _); [congruence|discriminate]. }
  split; [unfold max_frequency in M1; lia|]. exists n. split; [exact M2|]. split.
  - intros Hlt k Hk. destruct (M3 Hlt k Hk) as [v [V1 V2]]. exists v. auto.
  - intros Hge. destruct (M4 Hge) as [V1 V2]. split; [exact (R 1 _ V1)|]. intros k Hk. exact (R k _ (V2 k Hk)).
Qed.

(** Its k-inflated curve: the arguments that the descriptor passes are those of the fit; the
    answer for any spend is that of the fitted distribution at the impressions which the spend
    buys at the campaign's price. *)
Theorem C55_kinflated_one_publisher : forall times log d f fr ll h sd b w w' seed m gl,
  exact_sketches (bn_halo T B) times -> is_data_set_of [log] d -> increasing_prices log -> positive_prices [log] ->
  mk_halo d (f :: fr) ll = Ok h -> uses_estimates sd -> sd_single sd = "kinflated_gamma_poisson"%string ->
  lab_fit L sd h b (lab_seed_global L seed) w = (Ok (m, gl), w') ->
  exists spend q counts kmax mult N dist,
    let I := inject_Z (bought_at_spend log spend) in
    campaign_of log f spend /\ (0 < spend)%Q /\ training_point q I (map inject_Z counts) spend /\
    reported_counts log spend (if string_dec (sd_strategy sd) "m3strategy" then 10 else 20) counts /\
    kmax_of (sd_single_kwargs sd) kmax /\ multiplier_of (sd_single_kwargs sd) mult /\
    fit_point (tl_gamma T) (tl_fuel T) kmax q (mult * I) = Ok (N, dist) /\
    ((0 < N)%Q -> is_distribution (kd_pmf dist) -> (nth 0 (kd_pmf dist) 0 == 0)%Q ->
     forall s k, 1 <= k -> exists p, fst (lab_ask L m [s] k) = Ok p /\ max_frequency p = k /\
       forall j, 1 <= j <= k -> exists v, reach p j = Ok v /\
         (v == N * shown_at_least (kd_pmf dist) (Z.to_nat j) (shown_chance N (kd_pmf dist) (s * I / spend)))%Q).
Proof.
  intros times log d f fr ll h sd b w w' seed m gl HX Hd Hi Hpos Eh Ue Sk F.
  destruct (C55_one_publisher_training times log d f fr ll h sd b w w' seed m gl HX Hd Hi Eh Ue F)
    as [c [spend [q [counts [-> [C1 [[u Q1] [Q2 Q3]]]]]]]]. rewrite Sk in Q3.
  pose proof Q3 as Q3'. apply C55_kinflated_arguments in Q3'.
  destruct Q3' as [_ [kmax [mult [imp [m [N [dist [K1 [K2 [K3 [-> [K5 [K6 [K7 K8]]]]]]]]]]]]]].
  set (I := inject_Z (bought_at_spend log spend)) in *.
  assert (EI : rp_impressions q = [I] /\ exists r kp, map inject_Z counts = r :: kp).
  { assert (X := f_equal (fun a => match a with Ok q => rp_impressions q | Err _ => [] end) Q1).
    unfold mk_reach_point in X. cbn in X. split; [congruence|].
    destruct Q2 as [L1 _]. destruct counts as [|z l]; [|cbn; eauto]. destruct (string_dec _ _); discriminate L1. }
  destruct EI as [EI [r [kp Ek]]].
  rewrite EI in K3. change (py_index [I] 0) with (Ok I) in K3. injection K3 as <-.
  (* the model before the fit *)
  unfold fit_named in Q3.
  change (String.eqb "kinflated_gamma_poisson" "goerg") with false in Q3.
  change (String.eqb "kinflated_gamma_poisson" "gamma_poisson") with false in Q3.
  change (String.eqb "kinflated_gamma_poisson" "kinflated_gamma_poisson") with true in Q3. cbv iota in Q3.
  destruct (accepts _ _) as [u0|] eqn:Ea; cbn [bind] in Q3; [|discriminate Q3].
  destruct (kw_number _ "kmax") as [k0|] eqn:Ek0; cbn [bind] in Q3; [|discriminate Q3].
  match type of Q3 with (bind ?e _) = _ => destruct e as [kmax0|] eqn:Em; cbn [bind] in Q3; [|discriminate Q3] end.
  destruct (kw_number _ "extrapolation_multiplier") as [e|] eqn:Ee; cbn [bind] in Q3; [|discriminate Q3].
  destruct (mk_kmodel [q] kmax0 (number_or 1 e)) as [m0|] eqn:Emk; cbn [bind] in Q3; [|discriminate Q3].
  destruct (km_fitted (tl_gamma T) (tl_fuel T) m0 None) as [m1|] eqn:Ef; cbn [bind] in Q3; [|discriminate Q3].
  injection Q3 as ->.
  rewrite Ek in Q1.
  pose proof (proj1 (C33_accepted I r kp (Some [spend]) u q kmax0 (number_or 1 e) Q1)) as [_ A].
  destruct (A (ex_intro _ m0 Emk)) as [HI _].
  assert (B1 : 1 <= bought_at_spend log spend).
  { destruct (Z_lt_le_dec (bought_at_spend log spend) 1) as [Z0|]; [|assumption].
    assert (I <= 0)%Q by (unfold I; change 0%Q with (inject_Z 0); rewrite <- Zle_Qle; lia). lra. }
  assert (Sp : (0 < spend)%Q).
  { inversion Hpos as [|? ? Hp _]; subst. exact (campaign_positive log _ Hp B1). }
  assert (EC : km_cpi m = km_cpi m0 /\ km_fit m0 = None).
  { assert (Kn : km_fit m0 = None).
    { unfold mk_kmodel in Emk. destruct (py_index (rp_impressions q) 0); cbn [bind] in Emk; [|discriminate Emk].
      destruct (Qltb _ _); [discriminate Emk|]. destruct (reach q 1); cbn [bind] in Emk; [|discriminate Emk].
      destruct (Qltb _ _); [discriminate Emk|].
      destruct (match rp_spends q with Some l => _ | None => _ end); cbn [bind] in Emk; [|discriminate Emk].
      injection Emk as <-. reflexivity. }
    split; [|exact Kn]. unfold km_fitted in Ef. rewrite Kn in Ef.
    destruct (fit_point _ _ _ _ _); cbn [bind] in Ef; [|discriminate Ef]. injection Ef as <-. reflexivity. }
  destruct EC as [EC Kn].
  exists spend, q, counts, kmax, mult, N, dist. cbv zeta. fold I. split; [exact C1|]. split; [exact Sp|].
  split; [exists u; rewrite Ek; exact Q1|]. split; [exact Q2|]. split; [exact K1|]. split; [exact K2|]. split; [exact K7|].
  intros HN HD H0 s k Hk.
  change (fst (lab_ask L (OneCurve (KInflated m)) [s] k)) with (fst (km_by_spend (tl_gamma T) (tl_fuel T) m [s] (Z.to_nat k))).
  assert (Im : km_impressions_for_spend m s = km_impressions_for_spend m0 s).
  { unfold km_impressions_for_spend. rewrite EC. reflexivity. }
  assert (Ix : exists x', km_impressions_for_spend m0 s = Ok x' /\ (x' == s * I / spend)%Q).
  { apply (km_spend_imp I r kp spend u q kmax0 (number_or 1 e)); auto; lra. }
  destruct Ix as [x' [Ix Ex']].
  cbn [km_by_spend]. rewrite Im, Ix. unfold km_by_impressions, km_fitted. rewrite K8.
  destruct (C34_answer N dist (km_cpi m) x' (Z.to_nat k) HN HD H0 ltac:(lia)) as [p [P1 [_ [P2 [_ P3]]]]].
  rewrite K8. cbn [fst]. exists p. split; [exact P1|]. rewrite Z2Nat.id in P2 by lia. split; [exact P2|].
  intros j Hj. rewrite Z2Nat.id in P3 by lia. destruct (P3 j Hj) as [v [V1 V2]]. exists v. split; [exact V1|].
  rewrite V2. apply Qmult_comp; [reflexivity|].
  apply (shown_Qeq _ _ _ _ _ (same_mass_refl _)). unfold shown_chance.
  assert (E : (x' / (N * mean (kd_pmf dist)) == s * I / spend / (N * mean (kd_pmf dist)))%Q) by (rewrite Ex'; reflexivity).
  unfold Qmin. destruct (Qleb_spec (x' / (N * mean (kd_pmf dist))) 1), (Qleb_spec (s * I / spend / (N * mean (kd_pmf dist))) 1); lra.
Qed.

(** If scipy's minimiser never returns a worse point than its start and its distributions are
    distributions, then the answers of that curve grow with the spend at every frequency and
    stay below its universe, which has between 1 and 100 times the reach of the campaign. *)
Theorem C55_kinflated_shape : forall times log d f fr ll h sd b w w' seed m gl,
  never_worse (tl_gamma T) -> nbinom_sane_everywhere (tl_gamma T) ->
  exact_sketches (bn_halo T B) times -> is_data_set_of [log] d -> increasing_prices log -> positive_prices [log] ->
  mk_halo d (f :: fr) ll = Ok h -> uses_estimates sd -> sd_single sd = "kinflated_gamma_poisson"%string ->
  lab_fit L sd h b (lab_seed_global L seed) w = (Ok (m, gl), w') ->
  exists spend q counts kmax mult,
    let I := inject_Z (bought_at_spend log spend) in
    let r := inject_Z (nth 0 counts 0) in
    let Imin := (mult * I)%Q in
    campaign_of log f spend /\ training_point q I (map inject_Z counts) spend /\
    reported_counts log spend (if string_dec (sd_strategy sd) "m3strategy" then 10 else 20) counts /\
    kmax_of (sd_single_kwargs sd) kmax /\ multiplier_of (sd_single_kwargs sd) mult /\
    ((Z.of_nat kmax + 1 < gx_frequencies (tl_gamma T))%Z -> 0 < r -> r + 1 <= fitted_at I Imin ->
     (101 # 100) * r <= fitted_at I Imin -> fitted_at I Imin <= 6000 * r ->
     exists N0 beta0, fit_exponential_poisson (tl_fuel T) q Imin = Ok (N0, beta0) /\
       let h := bucket_counts (map inject_Z counts) in
       (cost h I Imin N0 (kd_pmf (mk_kdist (tl_gamma T) 1 beta0 [])) < not_allowed h Imin ->
        exists N, r <= N /\ N <= 100 * r /\
          forall s s' k, 0 <= s -> s <= s' -> (1 <= k)%Z -> exists p p',
            fst (lab_ask L m [s] k) = Ok p /\ fst (lab_ask L m [s'] k) = Ok p' /\
            forall j, (1 <= j <= k)%Z -> exists v v', reach p j = Ok v /\ reach p' j = Ok v' /\ 0 <= v /\ v <= v' /\ v' <= N))%Q.
Proof.
  intros times log d f fr ll h sd b w w' seed m gl NW SN HX Hd Hi Hpos Eh Ue Sk F.
  destruct (C55_kinflated_one_publisher times log d f fr ll h sd b w w' seed m gl HX Hd Hi Hpos Eh Ue Sk F)
    as [spend [q [counts [kmax [mult [N [dist [C1 [Sp [[u Q1] [Q2 [K1 [K2 [K3 K4]]]]]]]]]]]]]].
  exists spend, q, counts, kmax, mult. cbv zeta. split; [exact C1|]. split; [exists u; exact Q1|]. split; [exact Q2|].
  split; [exact K1|]. split; [exact K2|]. intros G1 G2 G3 G4 G5.
  set (I := inject_Z (bought_at_spend log spend)) in *.
  assert (Ec : exists r k2 kp, counts = r :: k2 :: kp).
  { destruct Q2 as [L1 _]. destruct counts as [|r [|k2 kp]]; [| |eauto]; destruct (string_dec _ _); cbn in L1; lia. }
  destruct Ec as [r [k2 [kp ->]]]. cbn [nth map] in *.
  destruct (C61_fit (tl_gamma T) (tl_fuel T) kmax q I (inject_Z r) (inject_Z k2) (map inject_Z kp) (Some [spend]) u (mult * I) N dist
    NW SN G1 Q1 G2 G3 G4 G5 K3) as [N0 [beta0 [E0 X]]].
  exists N0, beta0. split; [exact E0|]. intros HC. destruct (X HC) as [X1 [X2 [X3 [X4 _]]]].
  exists N. split; [exact X1|]. split; [exact X2|]. intros s s' k Hs Hss Hk.
  assert (HN : (0 < N)%Q) by lra. specialize (K4 HN X3 X4).
  destruct (K4 s k Hk) as [p [P1 [P2 P3]]]. destruct (K4 s' k Hk) as [p' [P1' [P2' P3']]].
  exists p, p'. split; [exact P1|]. split; [exact P1'|]. intros j Hj.
  destruct (P3 j Hj) as [v [V1 V2]]. destruct (P3' j Hj) as [v' [V1' V2']]. exists v, v'. split; [exact V1|]. split; [exact V1'|].
  assert (HI : (0 <= I)%Q).
  { unfold I. change 0%Q with (inject_Z 0). rewrite <- Zle_Qle. unfold bought_at_spend. lia. }
  assert (Hi1 : (0 <= s * I / spend)%Q) by (apply Qle_shift_div_l; [exact Sp|]; rewrite Qmult_0_l; apply Qmult_le_0_compat; assumption).
  assert (Hi2 : (s * I / spend <= s' * I / spend)%Q).
  { unfold Qdiv. apply Qmult_le_compat_r; [|apply Qlt_le_weak, Qinv_lt_0_compat; exact Sp]. apply Qmult_le_compat_r; assumption. }
  destruct (C34_answer N dist None (s * I / spend) (Z.to_nat k) HN X3 X4 ltac:(lia)) as [a [A1 [_ [A2 [_ A3]]]]].
  destruct (C34_answer N dist None (s' * I / spend) (Z.to_nat k) HN X3 X4 ltac:(lia)) as [a' [A1' [_ [A2' [_ A3']]]]].
  destruct (A3 j ltac:(lia)) as [t [T1 T2]]. destruct (A3' j ltac:(lia)) as [t' [T1' T2']].
  destruct (C34_answer_shape N dist None _ _ (Z.to_nat k) a a' j t t' HN X3 X4 ltac:(lia) Hi1 Hi2 A1 A1' T1 T1') as [S1 [S2 [S3 _]]].
  rewrite V2, V2', <- T2, <- T2'. auto.
Qed.
End Full.
Print Assumptions C55_one_publisher_training.
Print Assumptions C55_kinflated_one_publisher.
Print Assumptions C55_kinflated_shape.

(** ** Example: the publisher with two users and three impressions *)

(** A scipy with at most one impression per user in the table, for which the example is cheap. *)
Definition short_scipy : gamma_externals :=
  {| gx_nbinom := gx_nbinom staying_scipy; gx_chi2_cdf := fun _ _ => 1%Q; gx_minimize := fun _ l => Ok l; gx_frequencies := 2 |}.
Definition ex_tools_k : tools :=
  {| tl_state := nat; tl_random := ex_random; tl_solver := zeros_solver 4;
     tl_gamma_poisson := PropsGammaPoisson.toy 2 toy_mass into_bounds; tl_gamma := short_scipy; tl_fuel := 1 |}.
Definition ex_bench_k : bench ex_tools_k :=
  {| bn_float := toy_float; bn_halo := ex_externals; bn_own := unit; bn_default_rng := fun _ => tt;
     bn_draws := (ex_draws : point_rng unit (tl_state ex_tools_k)); bn_traceback := fun _ => "traceback"%string;
     bn_print := fun _ => []; bn_parse := fun _ => Err ValueError; bn_md5 := toy_md5 |}.
Definition ex_strategy_k : strategy_descriptor :=
  {| sd_strategy := "m3strategy"; sd_strategy_kwargs := []; sd_single := "kinflated_gamma_poisson";
     sd_single_kwargs := [("kmax"%string, VNum (PInt 0)); ("extrapolation_multiplier"%string, VNum (PInt 2))];
     sd_multi := "none"; sd_multi_kwargs := [] |}.
Definition ex_budget_k : budget := {| epsilon := 1; delta := 1 # 2 |}.
Definition ex_counts_k : list Q := [2; 1; 0; 0; 0; 0; 0; 0; 0; 0]%Q.
Definition ex_point_k : qpoint :=
  match mk_reach_point Qops [3] ex_counts_k (Some [1]) None with
  | Ok p => p
  | Err _ => {| rp_impressions := []; rp_kplus := []; rp_frequencies := []; rp_spends := None; rp_universe := None |}
  end%Q.

Definition ex_world_k : world (bn_halo ex_tools_k ex_bench_k) :=
  {| w_tracker := new_tracker; w_rng := (0 : rng ex_externals) |}.

(** Its trial fits a model. *)
Example C55_kinflated_example : exists h m gl w',
  never_worse (tl_gamma ex_tools_k) /\ nbinom_sane_everywhere (tl_gamma ex_tools_k) /\
  mk_halo (ex_data [ex_a]) [1%Q] (halo_ll {| lp_decay_rate := PInt 13; lp_sketch_size := PInt 1000; lp_random_seed := 1 |}) = Ok h /\
  lab_fit (full_lab ex_tools_k ex_bench_k) ex_strategy_k h ex_budget_k
    (lab_seed_global (full_lab ex_tools_k ex_bench_k) 1) ex_world_k = (Ok (m, gl), w') /\
  kmax_of (sd_single_kwargs ex_strategy_k) 0 /\ multiplier_of (sd_single_kwargs ex_strategy_k) 2.
Proof.
  assert (match mk_halo (ex_data [ex_a]) [1%Q] (halo_ll {| lp_decay_rate := PInt 13; lp_sketch_size := PInt 1000; lp_random_seed := 1 |}) with
          | Ok h => match fst (lab_fit (full_lab ex_tools_k ex_bench_k) ex_strategy_k h ex_budget_k
                (lab_seed_global (full_lab ex_tools_k ex_bench_k) 1) ex_world_k) with
                    | Ok _ => true | Err _ => false end
          | Err _ => false end = true) as H by (vm_compute; reflexivity).
  destruct (mk_halo _ _ _) as [h|]; [|discriminate H]. exists h.
  destruct (lab_fit _ _ _ _ _ _) as [[[m gl]|e] w']; [|discriminate H]. exists m, gl, w'.
  split; [exact staying_never_worse|]. split; [intros alpha beta Ha Hb; exact (staying_sane alpha beta Ha Hb)|]. split; [reflexivity|]. split; [reflexivity|].
  split; right.
  - exists 0. split; [|reflexivity]. exists [], [("extrapolation_multiplier"%string, VNum (PInt 2))]. split; [reflexivity|intros []].
  - exists (PInt 2). split; [|reflexivity]. exists [("kmax"%string, VNum (PInt 0))], []. split; [reflexivity|].
    intros [C|[]]. discriminate C.
Qed.
(** And meets the conditions on the start of the fit. *)
Example C55_kinflated_start : exists N0 beta0,
  fit_exponential_poisson 1 ex_point_k 6 = Ok (N0, beta0) /\
  (cost (bucket_counts ex_counts_k) 3 6 N0 (kd_pmf (mk_kdist short_scipy 1 beta0 [])) <
   not_allowed (bucket_counts ex_counts_k) 6)%Q /\
  fitted_at 3 6 = 6%Q /\ Z.of_nat 0 + 1 < gx_frequencies short_scipy.
Proof.
  assert (match fit_exponential_poisson 1 ex_point_k 6 with
          | Ok (n, b) => Qltb (cost (bucket_counts ex_counts_k) 3 6 n (kd_pmf (mk_kdist short_scipy 1 b [])))
             (not_allowed (bucket_counts ex_counts_k) 6) = true
          | Err _ => False end) as H by (vm_compute; reflexivity).
  destruct (fit_exponential_poisson 1 ex_point_k 6) as [[n b]|]; [|destruct H]. exists n, b. split; [reflexivity|].
  split; [|split; [reflexivity|reflexivity]].
  match type of H with Qltb ?a ?c = true => destruct (Qltb_spec a c) as [G|G]; [exact G|discriminate H] end.
Qed.

(** A Gamma-Poisson model with a given size of the audience. *)
Definition ex_tools_g : tools :=
  {| tl_state := nat; tl_random := ex_random; tl_solver := zeros_solver 4;
     tl_gamma_poisson := PropsGammaPoisson.toy 0 no_mass into_bounds; tl_gamma := small_scipy; tl_fuel := 12 |}.
Example C55_gamma_poisson_example : exists c,
  fit_named ex_tools_g "gamma_poisson" [("max_reach"%string, VNum (PInt 16))] example_point_1 = Ok c.
Proof.
  assert (match fit_named ex_tools_g "gamma_poisson" [("max_reach"%string, VNum (PInt 16))] example_point_1 with
          | Ok _ => True | Err _ => False end) as H by (vm_compute; exact I).
  destruct (fit_named _ _ _ _) as [c|]; [exists c; reflexivity|destruct H].
Qed.
