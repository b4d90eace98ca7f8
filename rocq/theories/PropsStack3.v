(** C55, continued: trials with Goerg curves and exact sketches. *)
From Coq Require Import String Lqa.
From Verif Require Import Prelude ModelReachPoint ModelData SpecData ModelPrivacy SpecPrivacy ModelHalo SpecHalo SpecExact
  ModelStrategy ReachPointLemmas DataLemmas DataLemmas2 DataLemmas3 PropsData HaloLemmas HaloLemmas2 SpecVenn ExactLemmas2 PropsExact ModelCurves SpecCurves CurvesLemmas PropsCurves ModelSurface SpecSurface
  ModelRestricted SpecRestricted PropsSurface ModelTestPoints ModelAggregator SpecAggregator AggregatorLemmas PropsAggregator
  ModelFiles ModelDriver SpecTrial TrialLemmas TrialLemmas2 PropsTrial ModelStack SpecStack StackLemmas PropsStack PropsStack2.
Open Scope Z_scope.

(** ** One Goerg curve *)

Lemma trained_of_fit p g imp r c : mk_goerg [p] = Ok g -> rp_impressions p = [imp] -> rp_spends p = Some [c] ->
  reach p 1 = Ok r -> goerg_trained_at g imp r (Some [c]).
Proof.
  intros E Ei Es Er.
  destruct (mk_reach_point Qops [imp] (rp_kplus p) (Some [c]) None) as [p'|] eqn:M; [|discriminate M].
  exists p', (rp_kplus p), None. split; [exact M|]. unfold mk_reach_point in M. cbn in M. injection M as <-.
  assert (R : forall a b, reach {| rp_impressions := [imp]; rp_kplus := rp_kplus p; rp_frequencies := a; rp_spends := Some [c]; rp_universe := b |} 1 = reach p 1) by reflexivity.
  split; [rewrite R; exact Er|]. revert E. unfold mk_goerg, curve_init, surface_init. cbn. rewrite Ei, Es, R. cbn. auto.
Qed.

Lemma goerg_at g imp r c s : goerg_trained_at g imp r (Some [c]) -> (0 < r)%Q -> (0 < c)%Q -> (0 <= s)%Q ->
  exists x v, goerg_impressions_for_spend g s = Ok x /\
    (forall k, 1 <= k -> exists p, goerg_by_impressions g [x] k = Ok p /\ reach p 1 = Ok v /\ max_frequency p = k /\
       forall j, 1 <= j <= k -> exists v', reach p j = Ok v' /\ (v' == goerg_kplus imp r c s j)%Q) /\
    (v == goerg_value imp r c s)%Q /\ (0 <= v <= go_max_reach g)%Q /\ (0 < go_max_reach g)%Q.
Proof.
  intros H Hr Hc Hs. destruct (C28_constant_price g imp r c s H ltac:(lra)) as [x [Ex Px]].
  destruct (trained_facts _ _ _ _ H) as [H1 [H2 [Hrho [Hb [Hm _]]]]].
  pose proof (rho_sign _ _ _ _ H Hr) as Hrs.
  assert (Hx : (x == s * (imp / c))%Q).
  { assert (x == x * c / c)%Q as -> by (field; lra). rewrite Px. field. lra. }
  assert (X0 : (0 <= x)%Q).
  { rewrite Hx. apply Qmult_le_0_compat; [exact Hs|]. apply Qle_shift_div_l; lra. }
  assert (Nz : ~ (x + go_rho g == 0)%Q) by lra.
  pose proof (goerg_answers g imp r (Some [c]) x 1 H Nz ltac:(lia)) as A.
  exists x, (go_rho g * (x / (x + go_beta g)) ^ 1)%Q. split; [exact Ex|].
  assert (V : (go_rho g * (x / (x + go_beta g)) ^ 1 == goerg_value imp r c s)%Q).
  { unfold goerg_value. cbv zeta. rewrite Hb. change ((x / (x + go_rho g)) ^ 1)%Q with (x / (x + go_rho g))%Q. rewrite Hrho, Hx. reflexivity. }
  split; [|split; [exact V|]].
  - intros k Hk. destruct (CurvesLemmas.goerg_by_impressions_ok g x k) as [p [E1 [_ [_ [E3 E2]]]]]; [rewrite Hb; exact Nz|].
    exists p. split; [exact E1|]. split; [apply E2; lia|]. split; [lia|]. intros j Hj. eexists. split; [apply E2; exact Hj|].
    unfold goerg_kplus. cbv zeta. rewrite Hb, Hrho, Hx. reflexivity.
  - rewrite Hm. change ((x / (x + go_beta g)) ^ 1)%Q with (x / (x + go_beta g))%Q. rewrite Hb.
    pose proof (ratio_bounds x (go_rho g) X0 ltac:(lra)) as Rb. split; [|lra]. split; nra.
Qed.

(** The fitted curve goes through the reported point, starts at 0 and increases. *)
Lemma goerg_value_at imp r c : (0 < r)%Q -> (r < imp)%Q -> (0 < c)%Q -> (goerg_value imp r c c == r)%Q.
Proof. intros H1 H2 H3. unfold goerg_value. cbv zeta. field. repeat split; try lra. nra. Qed.
Lemma goerg_value_0 imp r c : (goerg_value imp r c 0 == 0)%Q.
Proof. unfold goerg_value, Qdiv. cbv zeta. ring. Qed.
Lemma goerg_value_same imp r c c' s s' : (c == c')%Q -> (s == s')%Q -> (goerg_value imp r c s == goerg_value imp r c' s')%Q.
Proof. intros H1 H2. unfold goerg_value. cbv zeta. rewrite H1, H2. reflexivity. Qed.
Lemma goerg_value_mono imp r c s s' : (0 < r)%Q -> (r < imp)%Q -> (0 < c)%Q -> (0 <= s)%Q -> (s <= s')%Q ->
  (goerg_value imp r c s <= goerg_value imp r c s')%Q.
Proof.
  intros H1 H2 H3 H4 H5. unfold goerg_value. cbv zeta.
  assert (R : (0 < imp * r / (imp - r))%Q) by (apply Qlt_shift_div_l; nra). set (rho := (imp * r / (imp - r))%Q) in *.
  assert (K : (0 < imp / c)%Q) by (apply Qlt_shift_div_l; lra). set (q := (imp / c)%Q) in *.
  assert (X : (0 <= s * q)%Q) by nra. assert (Y : (s * q <= s' * q)%Q) by nra.
  rewrite !(Qmult_comm rho). apply Qmult_le_compat_r; [|lra].
  set (x := (s * q)%Q) in *. set (y := (s' * q)%Q) in *.
  apply Qle_shift_div_l; [lra|]. setoid_replace (x / (x + rho) * (y + rho))%Q with (x * (y + rho) / (x + rho))%Q by (field; lra).
  apply Qle_shift_div_r; [lra|]. nra.
Qed.

(** ** What the strategies fit Goerg curves to *)

Lemma reported log c m p g : exact_reaches (fun u => seen_at_spend u log c) (bought_at_spend log c) m p -> 1 <= m ->
  rp_impressions p = [bought_at_spend log c] -> mk_goerg [point_Q p] = Ok g ->
  exists r, reach p 1 = Ok r /\ campaign_report log c (bought_at_spend log c) r.
Proof.
  intros [Mf [n1 [C [A B]]]] Hm Ei E.
  apply mk_goerg_inv in E. destruct E as [p0 [imp [r [E1 [E2 [E3 [E4 [E5 _]]]]]]]]. injection E1 as <-.
  unfold point_Q in E2. cbn [rp_impressions] in E2. rewrite Ei in E2. cbn [map] in E2. injection E2 as <-.
  assert (Rr : exists z, reach p 1 = Ok z /\ r = inject_Z z).
  { unfold reach in E3 |- *. unfold point_Q, max_frequency in E3. cbn [rp_kplus] in E3. rewrite map_length in E3. unfold max_frequency.
    destruct ((0 <? 1) && (1 <=? Z.of_nat (length (rp_kplus p)))); [|discriminate E3].
    destruct (rp_kplus p) as [|z l]; [discriminate E3|]. cbn in E3 |- *. injection E3 as <-. eauto. }
  destruct Rr as [z [Rz ->]]. rewrite <- Zlt_Qlt in E5.
  assert (I1 : 1 <= bought_at_spend log c).
  { assert (0 < bought_at_spend log c); [|lia]. rewrite Zlt_Qlt. change (inject_Z 0) with 0%Q. lra. }
  assert (N1 : 1 <= n1).
  { unfold bought_at_spend in I1. destruct (filter (fun r => Qle_bool (snd r) c) log) as [|[u q] l] eqn:F; [cbn in I1; lia|].
    assert (I : In (u, q) (filter (fun r => Qle_bool (snd r) c) log)) by (rewrite F; left; reflexivity).
    apply filter_In in I. destruct I as [I1' I2].
    destruct C as [S [_ [M N]]]. assert (In u S).
    { apply M. apply seen_at_spend_in. exists q. split; [exact I1'|]. apply Qle_bool_iff. exact I2. }
    destruct S; [destruct H|cbn in N; lia]. }
  exists z. split; [exact Rz|]. split; [reflexivity|].
  destruct (Z_lt_le_dec n1 (bought_at_spend log c)) as [Lt|Le].
  - destruct (A Lt 1 ltac:(lia)) as [n [Cn Rn]]. assert (n = z) by congruence. subst n. assert (n1 = z) by (eapply card_is_unique; eauto). subst z.
    split; [lia|]. exists n1. split; [exact C|]. split; [exact N1|]. lia.
  - destruct (B Le) as [R1 _]. assert (Zr : z = Z.max (bought_at_spend log c - 1) 1) by congruence. split; [lia|]. exists n1. split; [exact C|]. split; [exact N1|]. lia.
Qed.

Lemma campaign_positive log c : Forall (fun r => (0 < snd r)%Q) log -> 1 <= bought_at_spend log c -> (0 < c)%Q.
Proof.
  intros H I. unfold bought_at_spend in I. destruct (filter (fun r => Qle_bool (snd r) c) log) as [|[u q] l] eqn:F; [cbn in I; lia|].
  assert (J : In (u, q) (filter (fun r => Qle_bool (snd r) c) log)) by (rewrite F; left; reflexivity).
  apply filter_In in J. destruct J as [J1 J2]. rewrite Forall_forall in H. specialize (H _ J1). apply Qle_bool_iff in J2. cbn [snd] in *. lra.
Qed.

Lemma report_bounds log c imp r : campaign_report log c imp r -> (0 < inject_Z r)%Q /\ (inject_Z r < inject_Z imp)%Q.
Proof.
  intros [_ [H2 [n [_ [H1 ->]]]]]. split; [change 0%Q with (inject_Z 0)|]; rewrite <- Zlt_Qlt; lia.
Qed.

Lemma absolute_same x y : (x == y)%Q -> (absolute x == absolute y)%Q.
Proof.
  intros E. unfold absolute, Qmax. destruct (GammaLemmas2.Qleb_spec x (- x)), (GammaLemmas2.Qleb_spec y (- y)); lra.
Qed.

Lemma reach_le_bought log c n : card_is (fun u => 1 <= seen_at_spend u log c) n -> n <= bought_at_spend log c.
Proof.
  intros [S [Nd [M <-]]]. unfold bought_at_spend.
  rewrite <- (map_length fst (filter (fun r => Qle_bool (snd r) c) log)). apply inj_le. apply NoDup_incl_length; [exact Nd|].
  intros u Hu. apply M in Hu. apply seen_at_spend_in in Hu. destruct Hu as [q [I1 I2]]. apply in_map_iff. exists (u, q). split; [reflexivity|].
  apply filter_In. split; [exact I1|]. apply Qle_bool_iff. exact I2.
Qed.

Section Full.
Variable T : tools.
Variable B : bench T.
Let L := full_lab T B.

Lemma estimates_computed sd : uses_estimates sd -> use_ground_truth sd = false.
Proof.
  intros Hu. unfold use_ground_truth. destruct Hu as [-> | [v [Nv ->]]]; [reflexivity|]. cbn [find fst snd]. rewrite String.eqb_refl.
  unfold is_true in Nv. destruct v as [n|s|[|]]; cbn [truth_value].
  - destruct (Qeqb (number_Q n) 0) eqn:Q0; [reflexivity|]. exfalso. apply Nv. apply Qeq_bool_neq. exact Q0.
  - destruct (String.eqb_spec s ""); [reflexivity|contradiction].
  - contradiction Nv. reflexivity.
  - reflexivity.
Qed.

Lemma goerg_named kw p c : fit_named T "goerg" kw p = Ok c -> exists g, mk_goerg [p] = Ok g /\ c = Goerg g p.
Proof.
  unfold fit_named. rewrite String.eqb_refl. destruct (accepts [] kw); [|discriminate]. cbn [bind].
  destruct (mk_goerg [p]) as [g|]; [|discriminate]. cbn [bind]. intros E. injection E as <-. eauto.
Qed.

(** A curve that was fitted to what is reported for a campaign. *)
Definition fitted_curve (log : list row) (f : Q) (c : curve_model) (imp r : Z) (spend : Q) : Prop :=
  campaign_of log f spend /\ campaign_report log spend imp r /\
  exists g p, c = Goerg g p /\ goerg_trained_at g (inject_Z imp) (inject_Z r) (Some [spend]).

Lemma fitted_from_point log f spend m p kw c : campaign_of log f spend -> rp_spends p = Some [spend] ->
  rp_impressions p = [bought_at_spend log spend] ->
  exact_reaches (fun u => seen_at_spend u log spend) (bought_at_spend log spend) m p -> 1 <= m ->
  fit_named T "goerg" kw (point_Q p) = Ok c ->
  exists r, fitted_curve log f c (bought_at_spend log spend) r spend.
Proof.
  intros Hc Es Ei Hr Hm E. apply goerg_named in E. destruct E as [g [E ->]].
  destruct (reported _ _ _ _ _ Hr Hm Ei E) as [r [R Rep]]. exists r. split; [exact Hc|]. split; [exact Rep|].
  exists g, (point_Q p). split; [reflexivity|]. apply (trained_of_fit (point_Q p)); [exact E| | |].
  - unfold point_Q. cbn [rp_impressions]. rewrite Ei. reflexivity.
  - exact Es.
  - unfold reach in *. unfold point_Q, max_frequency in *. cbn [rp_kplus]. rewrite map_length.
    destruct ((0 <? 1) && (1 <=? Z.of_nat (length (rp_kplus p)))); [|discriminate R].
    destruct (rp_kplus p) as [|z l]; [discriminate R|]. cbn in R |- *. congruence.
Qed.

Lemma goerg_fit times logs d fr ll h sd b g (w w' : world (bn_halo T B)) m gl :
  exact_sketches (bn_halo T B) times -> is_data_set_of logs d -> Forall increasing_prices logs -> positive_prices logs ->
  Forall (fun f => (0 <= f)%Q) fr -> mk_halo d fr ll = Ok h ->
  sd_single sd = "goerg"%string -> uses_estimates sd -> fit_strategy T sd h b g w = (Ok (m, gl), w') ->
  exists curves params, length curves = length logs /\ length params = length logs /\
    (forall i log f c q, nth_error logs i = Some log -> nth_error fr i = Some f -> nth_error curves i = Some c ->
       nth_error params i = Some q -> fitted_curve log f c (fst (fst q)) (snd (fst q)) (snd q)) /\
    (length logs <= length fr)%nat /\
    match m with
    | OneCurve c => length logs = 1%nat /\ curves = [c]
    | Surface s => length logs <> 1%nat /\ su_curves s = curves /\
        (sound_surface T (sd_multi sd) (length logs) -> su_publishers s = length logs /\ overlap_coefficients (length logs) (su_a s))
    end.
Proof.
  intros HX Hd Hinc Hpos Hfr Eh Sg Ue F. pose proof F as F0.
  assert (Hh : is_halo_with logs fr h) by (exists d, ll; auto).
  pose proof (estimates_computed _ Ue) as Ue'. unfold fit_strategy in F.
  destruct (String.eqb_spec (sd_strategy sd) "m3strategy") as [S1|N1].
  - unfold mbind at 1 in F. destruct (m3_fit _ _ _ _ w) as [[r|] w1] eqn:Em; [|discriminate F].
    rewrite Ue' in Em.
    destruct (C45_m3_training_data _ _ _ _ _ _ _ _ _ _ _ HX Hh Hinc Hpos Hfr Em)
      as [campaigns [total [singles [others [curves [K1 [K2 [K3 [K4 [K5 [K6 [K7 [K8 K9]]]]]]]]]]]]].
    cbn [curve named_modelers] in curves, K7, K8, K9.
    change (@length (curve (named_modelers T sd g)) curves) with (@length curve_model curves) in K7.
    exists curves.
    assert (G : forall i, (i < length logs)%nat -> exists q : Z * Z * Q, forall log f c, nth_error logs i = Some log -> nth_error fr i = Some f ->
       nth_error curves i = Some c -> fitted_curve log f c (fst (fst q)) (snd (fst q)) (snd q)).
    { intros i Hi. destruct (nth_error logs i) as [log|] eqn:El; [|apply nth_error_None in El; lia].
      destruct K1 as [L1 [L2 L3]].
      destruct (nth_error fr i) as [f|] eqn:Ef; [|apply nth_error_None in Ef; lia].
      destruct (nth_error campaigns i) as [c|] eqn:Ec; [|apply nth_error_None in Ec; lia].
      destruct (nth_error singles i) as [p|] eqn:Ep; [|apply nth_error_None in Ep; lia].
      destruct (nth_error curves i) as [cu|] eqn:Ecu; [|apply nth_error_None in Ecu; lia].
      destruct (K4 i log c p El Ec Ep) as [P1 [P2 P3]]. pose proof (K8 i p cu Ep Ecu) as Fi. cbn [fit_single named_modelers] in Fi. rewrite Sg in Fi.
      destruct (fitted_from_point log f c 10 p _ cu (L3 i log f c El Ef Ec) P1 P2 P3 ltac:(lia) Fi) as [r' R].
      exists (bought_at_spend log c, r', c). intros log' f' c' E1 E2 E3. injection E1 as <-. injection E2 as <-. injection E3 as <-. exact R. }
    assert (P : exists params : list (Z * Z * Q), length params = length logs /\ forall i q, nth_error params i = Some q ->
       forall log f c, nth_error logs i = Some log -> nth_error fr i = Some f ->
       nth_error curves i = Some c -> fitted_curve log f c (fst (fst q)) (snd (fst q)) (snd q)).
    { clear -G. assert (Q : forall n, (n <= length logs)%nat -> exists params : list (Z * Z * Q), length params = n /\ forall i q, nth_error params i = Some q ->
       forall log f c, nth_error logs i = Some log -> nth_error fr i = Some f -> nth_error curves i = Some c -> fitted_curve log f c (fst (fst q)) (snd (fst q)) (snd q)).
      { induction n as [|n IH]; intros Hn; [exists []; split; [reflexivity|]; intros [|i] q E; discriminate E|].
        destruct (IH ltac:(lia)) as [ps [P1 P2]]. destruct (G n ltac:(lia)) as [q Hq]. exists (ps ++ [q]). split; [rewrite app_length; cbn; lia|].
        intros i q' E. destruct (Nat.lt_ge_cases i (length ps)) as [Hi|Hi].
        - rewrite nth_error_app1 in E by exact Hi. exact (P2 i q' E).
        - rewrite nth_error_app2 in E by exact Hi. destruct (i - length ps)%nat as [|j] eqn:D; [|destruct j; discriminate E].
          injection E as <-. assert (i = n) by lia. subst i. exact Hq. }
      exact (Q (length logs) (le_n _)). }
    destruct P as [params [P1 P2]]. exists params. split; [exact K7|]. split; [exact P1|]. split; [eauto|].
    split; [apply K1|].
    destruct r as [c|[s g1]]; unfold mret in F; injection F as <- <- _.
    + exact K9.
    + destruct K9 as [K9 K10]. split; [exact K9|]. cbn [fit_multi named_modelers] in K10.
      split; [apply (fit_surface_inv T _ _ _ _ _ _ _ K10)|]. intros HS.
      apply fit_strategy_inv in F0. cbv zeta in F0.
      rewrite (halo_count _ _ _ _ Eh), (proj2 (is_data_set_count _ _ Hd)) in F0.
      assert (Hl : Forall (fun pt => length (rp_impressions pt) = length logs) (map point_Q (others ++ [total]))).
      { apply Forall_map, Forall_app. split.
        - apply Forall_forall. intros q Hq. apply In_nth_error in Hq. destruct Hq as [i Hi]. destruct (K6 i q Hi) as [sp [Z1 [_ [Z2 _]]]].
          unfold point_Q. cbn [rp_impressions]. rewrite map_length, Z2. unfold SpecHalo.bought. rewrite map_length, combine_length.
          destruct Z1 as [Z1 _]. rewrite Z1, (proj1 K1). lia.
        - constructor; [|constructor]. destruct K2 as [_ [K2 _]]. unfold point_Q. cbn [rp_impressions]. rewrite map_length, K2.
          unfold SpecHalo.bought. rewrite map_length, combine_length, (proj1 K1). lia. }
      destruct (fit_surface_coefficients T _ _ _ _ _ _ _ (length logs) K10 K7 HS Hl) as [_ [Q1 Q2]]. auto.
  - destruct (String.eqb_spec (sd_strategy sd) "single_publisher") as [S1|N2]; [|discriminate F].
    unfold mbind at 1 in F. destruct (single_publisher_fit _ _ _ w) as [[c|] w1] eqn:Em; [|discriminate F].
    injection F as <- <- _.
    destruct (C45_single_publisher_training_data _ _ _ _ _ _ _ _ _ _ HX Hh Hinc Em) as [log [sp [p [-> [K1 [[M1 [M2 M3]] K3]]]]]].
    destruct fr as [|f fr]; [destruct (campaigns_are _ _ _ Hh) as [_ [Y _]]; cbn in Y; lia|]. cbn [nth] in K1.
    cbn [fit_single named_modelers] in K3. rewrite Sg in K3.
    assert (Ex : exact_reaches (fun u => seen_at_spend u log sp) (bought_at_spend log sp) 20 p).
    { unfold SpecHalo.bought in M3. cbn [combine map fst snd total_seen] in M3. unfold exact_reaches in *. destruct M3 as [Y1 [n1 [Y2 [Y3 Y4]]]].
      change (Zsum [bought_at_spend log sp]) with (bought_at_spend log sp + 0) in Y3, Y4. rewrite Z.add_0_r in Y3, Y4.
      split; [exact Y1|]. exists n1. split; [eapply card_is_ext; [|exact Y2]; intros u; cbv beta; rewrite Z.add_0_r; tauto|].
      split; [|exact Y4]. intros Hlt k Hk. destruct (Y3 Hlt k Hk) as [n [C R]]. exists n. split; [|exact R].
      eapply card_is_ext; [|exact C]. intros u. cbv beta. rewrite Z.add_0_r. tauto. }
    destruct (fitted_from_point log f sp 20 p _ c K1 M1 M2 Ex ltac:(lia) K3) as [r R].
    exists [c], [(bought_at_spend log sp, r, sp)]. split; [reflexivity|]. split; [reflexivity|].
    split; [|split; [cbn; lia|split; reflexivity]].
    intros [|[|i]] log' f' c' q E1 E2 E3 E4; try discriminate E1. injection E1 as <-. injection E2 as <-. injection E3 as <-. injection E4 as <-. exact R.
Qed.

(** With exact sketches, the Goerg curve of a single publisher goes through what is reported
    for its campaign, and answers with the documented formula at every other spend. *)
Theorem C55_goerg_one_publisher : forall times log d f fr ll h sd b w w' seed m gl,
  exact_sketches (bn_halo T B) times -> is_data_set_of [log] d -> increasing_prices log -> positive_prices [log] ->
  Forall (fun f => (0 <= f)%Q) (f :: fr) -> mk_halo d (f :: fr) ll = Ok h ->
  sd_single sd = "goerg"%string -> uses_estimates sd ->
  lab_fit L sd h b (lab_seed_global L seed) w = (Ok (m, gl), w') ->
  exists spend imp r, campaign_of log f spend /\ campaign_report log spend imp r /\
    (goerg_value (inject_Z imp) (inject_Z r) spend spend == inject_Z r)%Q /\
    forall s k, (0 <= s)%Q -> 1 <= k -> exists p v, fst (lab_ask L m [s] k) = Ok p /\ reach p 1 = Ok v /\
      (v == goerg_value (inject_Z imp) (inject_Z r) spend s)%Q /\ max_frequency p = k /\
      forall j, 1 <= j <= k -> exists v', reach p j = Ok v' /\ (v' == goerg_kplus (inject_Z imp) (inject_Z r) spend s j)%Q.
Proof.
  intros times log d f fr ll h sd b w w' seed m gl HX Hd Hinc Hpos Hfr Eh Sg Ue F.
  change (lab_fit L) with (fun sd h b gl => fit_strategy (X := bn_halo T B) T sd h b gl) in F. cbv beta in F.
  destruct (goerg_fit times [log] d (f :: fr) ll h sd b _ w w' m gl HX Hd ltac:(constructor; [exact Hinc|constructor]) Hpos Hfr Eh Sg Ue F)
    as [curves [params [L1 [L2 [P [_ M]]]]]].
  destruct m as [c|s]; [|destruct M as [M _]; cbn in M; lia]. destruct M as [_ ->].
  destruct params as [|[[imp r] spend] [|? ?]]; try discriminate L2.
  destruct (P 0%nat log f c _ eq_refl eq_refl eq_refl eq_refl) as [C1 [C2 [g [p [-> Tr]]]]]. cbn [fst snd] in *.
  exists spend, imp, r. split; [exact C1|]. split; [exact C2|]. destruct (report_bounds _ _ _ _ C2) as [R1 R2].
  assert (Sp : (0 < spend)%Q).
  { inversion Hpos as [|? ? Hp _]; subst. apply (campaign_positive log); [exact Hp|]. destruct C2 as [-> [C2 _]]. lia. }
  split; [apply goerg_value_at; assumption|]. intros s k Hs Hk.
  destruct (goerg_at g _ _ spend s Tr R1 Sp Hs) as [x [v [A1 [A2 [A3 _]]]]].
  destruct (A2 k Hk) as [q [Q1 [Q2 [Q3 Q4]]]]. exists q, v.
  change (fst (lab_ask L (OneCurve (Goerg g p)) [s] k)) with (goerg_by_spend g [s] k). rewrite C28_spend_is_impressions, A1. auto 6.
Qed.

Lemma campaign_unique log f c c' : campaign_of log f c -> campaign_of log f c' -> (c == c')%Q.
Proof.
  intros [t [I [M E]]] [t' [I' [M' E']]]. assert (X : (t == t')%Q).
  { apply in_map_iff in I. destruct I as [r [<- Ir]]. apply in_map_iff in I'. destruct I' as [r' [<- Ir']].
    apply Qle_antisym; auto. }
  rewrite E, E', X. reflexivity.
Qed.

Lemma seen_same log c c' u : (c == c')%Q -> seen_at_spend u log c = seen_at_spend u log c'.
Proof.
  intros E. unfold seen_at_spend. do 2 f_equal. apply filter_ext. intros r. f_equal.
  destruct (Qle_bool (snd r) c) eqn:A, (Qle_bool (snd r) c') eqn:A'; try reflexivity.
  - apply Qle_bool_iff in A. rewrite E in A. apply Qle_bool_iff in A. congruence.
  - apply Qle_bool_iff in A'. rewrite <- E in A'. apply Qle_bool_iff in A'. congruence.
Qed.
Lemma bought_same log c c' : (c == c')%Q -> bought_at_spend log c = bought_at_spend log c'.
Proof.
  intros E. unfold bought_at_spend. do 2 f_equal. apply filter_ext. intros r.
  destruct (Qle_bool (snd r) c) eqn:A, (Qle_bool (snd r) c') eqn:A'; try reflexivity.
  - apply Qle_bool_iff in A. rewrite E in A. apply Qle_bool_iff in A. congruence.
  - apply Qle_bool_iff in A'. rewrite <- E in A'. apply Qle_bool_iff in A'. congruence.
Qed.

(** So its row has no error at the campaign spend, if some user saw more than one impression. *)
Theorem C55_goerg_training_spend : forall t seed g row g' times log d f fr,
  exact_sketches (bn_halo T B) times -> dd_by_name (tr_design t) (tr_data_set t) = Ok d ->
  is_data_set_of [log] d -> increasing_prices log -> positive_prices [log] ->
  map number_Q (sp_fractions (td_system (tr_descriptor t))) = f :: fr -> Forall (fun f => (0 <= f)%Q) (f :: fr) ->
  sd_single (td_strategy (tr_descriptor t)) = "goerg"%string -> uses_estimates (td_strategy (tr_descriptor t)) ->
  compute_row L t seed g = (Ok row, g') -> tr_analysis t = "single_pub"%string ->
  column row "model_succeeded" = Some (CInt 1) ->
  exists spend n, campaign_of log f spend /\ card_is (fun u => 1 <= seen_at_spend u log spend) n /\ 2 <= bought_at_spend log spend /\
    (n < bought_at_spend log spend -> SpecAggregator.number row "relative_error_at_100" 0) /\
    (bought_at_spend log spend <= n -> SpecAggregator.number row "relative_error_at_100" (1 / inject_Z n)).
Proof.
  intros t seed g row g' times log d f fr HX D Hd Hinc Hpos Ef Hfr Sg Ue E An Su.
  destruct (row_fit T B _ _ _ _ _ E) as [d0 [h [fit [w [E1 [E2 E3]]]]]]. assert (d0 = d) by congruence. subst d0.
  destruct fit as [[m gl]|e]; [|destruct (failed_fit T B _ _ _ _ _ _ _ _ _ E (conj E1 (conj E2 E3))) as [Z _]; rewrite Z in Su; discriminate Su].
  destruct (C48_single L t seed g row g' d h m gl w ltac:(intros x s k; reflexivity) E An Su E1 E2 E3) as [s [rest [Cs [Rw _]]]].
  rewrite Ef in E2.
  destruct (C55_goerg_one_publisher times log d f fr _ h _ _ _ _ seed m gl HX Hd Hinc Hpos Hfr E2 Sg Ue E3)
    as [spend [imp [r [C1 [C2 [Vc V]]]]]].
  assert (Es : (s == spend)%Q).
  { assert (Hh : is_halo_with [log] (f :: fr) h) by (exists d; eexists; split; [exact Hd|exact E2]).
    destruct (campaigns_are _ _ _ Hh) as [_ [_ G]]. rewrite Cs in G. eapply campaign_unique; [exact (G 0%nat log f s eq_refl eq_refl eq_refl)|exact C1]. }
  destruct C2 as [-> [I2 [n [Cn [N1 Er]]]]]. exists spend, n. split; [exact C1|]. split; [exact Cn|]. split; [exact I2|].
  destruct (Rw 1 10%nat "100"%string (at_percent "100") ltac:(lia) eq_refl ltac:(left; auto)) as [c [p [q [x [y [Cc [Tx [Rx [Ay [Ry Re]]]]]]]]]].
  change (at_percent "100") with "relative_error_at_100"%string in Cc.
  set (s' := (s * (inject_Z (Z.of_nat 10) * (1 # 10)))%Q) in *.
  assert (Es' : (s' == spend)%Q) by (unfold s'; rewrite Es; change (inject_Z (Z.of_nat 10)) with 10%Q; field).
  assert (X : x = inject_Z n).
  { destruct (reach_by_spend_card [log] d [s'] 1 1 Hd eq_refl ltac:(lia)) as [pz [rz [Z1 [Z2 Z3]]]].
    rewrite (truth_point _ _ _ _ _ Tx Z1) in Rx.
    assert (rz = n) as ->.
    { eapply card_is_unique; [exact Z3|]. eapply card_is_ext; [|exact Cn]. intros u. cbn [total_seen]. rewrite (seen_same log s' spend u Es'). lia. }
    unfold reach in Rx, Z2. unfold point_Q, max_frequency in *. cbn [rp_kplus] in Rx. rewrite map_length in Rx.
    destruct ((0 <? 1) && (1 <=? Z.of_nat (length (rp_kplus pz)))); [|discriminate Rx].
    destruct (rp_kplus pz) as [|z l]; [discriminate Rx|]. cbn in Rx, Z2. congruence. }
  subst x.
  assert (Sp : (0 < spend)%Q).
  { inversion Hpos as [|? ? Hp _]; subst. apply (campaign_positive log); [exact Hp|]. lia. }
  destruct (V s' 1 ltac:(rewrite Es'; lra) ltac:(lia)) as [q' [v [V1 [V2 [V3 _]]]]].
  assert (q' = q) by congruence. subst q'. assert (v = y) by congruence. subst v.
  assert (Y : (y == inject_Z r)%Q) by (rewrite V3; etransitivity; [apply goerg_value_same; [reflexivity|exact Es']|exact Vc]).
  assert (N0 : ~ (inject_Z n == 0)%Q).
  { change 0%Q with (inject_Z 0). rewrite inject_Z_injective. lia. }
  assert (Np : (0 < inject_Z n)%Q) by (change 0%Q with (inject_Z 0); rewrite <- Zlt_Qlt; lia).
  destruct Re as [[Z _]|[_ [v [-> Hv]]]]; [contradiction|].
  split; intros Hlt; exists v; (split; [exact Cc|]); rewrite Hv.
  - assert (r = n) as -> by lia. apply (absolute_same _ 0). rewrite Y. field. exact N0.
  - assert (Nb : n <= bought_at_spend log spend) by (eapply reach_le_bought; exact Cn).
    assert (r = n - 1) as -> by lia. etransitivity; [apply (absolute_same _ (1 / inject_Z n))|].
    + rewrite Y. unfold Zminus. rewrite inject_Z_plus. change (inject_Z (- (1))) with (-1)%Q. field. exact N0.
    + unfold absolute, Qmax. assert (0 < 1 / inject_Z n)%Q by (apply Qlt_shift_div_l; lra). destruct (GammaLemmas2.Qleb_spec (1 / inject_Z n) (- (1 / inject_Z n))); lra.
Qed.

Definition goerg_curve_of (c : curve_model) (q : Z * Z * Q) : Prop :=
  exists g p, c = Goerg g p /\ goerg_trained_at g (inject_Z (fst (fst q))) (inject_Z (snd (fst q))) (Some [snd q]) /\
    (0 < inject_Z (snd (fst q)))%Q /\ (inject_Z (snd (fst q)) < inject_Z (fst (fst q)))%Q /\ (0 < snd q)%Q.

Lemma goerg_curves curves params spends : Forall2 goerg_curve_of curves params -> length spends = length params ->
  Forall (fun s => (0 <= s)%Q) spends ->
  exists imps rs, PropsSurface2.bought (map (surface_curve T) curves) spends imps /\
    single_reaches (map (surface_curve T) curves) imps rs /\ Forall2 Qeq rs (goerg_values params spends) /\
    non_trivial_curves (map (surface_curve T) curves).
Proof.
  intros H. revert spends. induction H as [|c q curves params [g [p [-> [Tr [H1 [H2 H3]]]]]] _ IH]; intros spends Ls Hs.
  - destruct spends; [|discriminate Ls]. exists [], []. repeat split; constructor.
  - destruct spends as [|s spends]; [discriminate Ls|]. inversion Hs as [|? ? Hs1 Hs2]; subst.
    destruct (IH spends ltac:(cbn in Ls; lia) Hs2) as [imps [rs [G1 [G2 [G3 G4]]]]].
    destruct (goerg_at g _ _ _ s Tr H1 H3 Hs1) as [x [v [A1 [A2 [A3 [A4 A5]]]]]].
    exists (x :: imps), (v :: rs). cbn [map]. split; [|split; [|split]].
    + constructor; [exact A1|exact G1].
    + constructor; [|exact A4|exact G2]. cbn [surface_curve c_reach]. destruct (A2 1 ltac:(lia)) as [p' [B1 [B2 _]]]. rewrite B1. exact B2.
    + constructor; [exact A3|exact G3].
    + constructor; [exact A5|exact G4].
Qed.

(** With exact sketches, the surface over Goerg curves lies between the largest curve and
    their sum at every spend, does not fall when spends rise, and follows the curve of a
    publisher that spends alone. *)
Theorem C55_goerg_surface : forall times logs d fr ll h sd b w w' seed m gl,
  exact_sketches (bn_halo T B) times -> is_data_set_of logs d -> (2 <= length logs)%nat ->
  Forall increasing_prices logs -> positive_prices logs -> Forall (fun f => (0 <= f)%Q) fr -> mk_halo d fr ll = Ok h ->
  sd_single sd = "goerg"%string -> uses_estimates sd -> sound_surface T (sd_multi sd) (length logs) ->
  lab_fit L sd h b (lab_seed_global L seed) w = (Ok (m, gl), w') ->
  exists reports, campaign_reports logs fr reports /\
    (forall spends k, length spends = length logs -> Forall (fun s => (0 <= s)%Q) spends ->
       exists p v, fst (lab_ask L m spends k) = Ok p /\ reach p 1 = Ok v /\
         (forall x, In x (goerg_values reports spends) -> x <= v)%Q /\ (v <= Qsum (goerg_values reports spends))%Q /\
         (forall i x, (forall j s, j <> i -> nth_error spends j = Some s -> s == 0)%Q ->
            nth_error (goerg_values reports spends) i = Some x -> (v == x)%Q)) /\
    (forall spends spends' k p p' v v', length spends = length logs -> Forall (fun s => (0 <= s)%Q) spends ->
       at_least_spends spends spends' -> fst (lab_ask L m spends k) = Ok p -> reach p 1 = Ok v ->
       fst (lab_ask L m spends' k) = Ok p' -> reach p' 1 = Ok v' -> (v <= v')%Q).
Proof.
  intros times logs d fr ll h sd b w w' seed m gl HX Hd H2 Hinc Hpos Hfr Eh Sg Ue HS F.
  change (lab_fit L) with (fun sd h b gl => fit_strategy (X := bn_halo T B) T sd h b gl) in F. cbv beta in F.
  destruct (goerg_fit times logs d fr ll h sd b _ w w' m gl HX Hd Hinc Hpos Hfr Eh Sg Ue F)
    as [curves [params [L1 [L2 [P [Lf M]]]]]].
  destruct m as [c|s]; [destruct M as [M _]; rewrite M in H2; lia|]. destruct M as [_ [Sc M]]. destruct (M HS) as [S1 S2]. clear M F. subst curves.
  exists params. split.
  { split; [exact L2|]. split; [exact Lf|]. intros i log f imp r c E1 E2 E3.
    destruct (nth_error (su_curves s) i) as [cu|] eqn:E4; [|apply nth_error_None in E4; apply (f_equal (fun o => match o with Some _ => true | None => false end)) in E1; assert (nth_error logs i <> None) by (destruct (nth_error logs i); congruence); apply nth_error_Some in H; lia].
    destruct (P i log f cu _ E1 E2 E4 E3) as [C1 [C2 _]]. split; [exact C1|exact C2]. }
  assert (FG : Forall2 goerg_curve_of (su_curves s) params).
  { clear -P L1 L2 Lf Hpos. revert params fr logs P L1 L2 Lf Hpos. induction (su_curves s) as [|c cs IH]; intros [|q params] fr [|log logs] P L1 L2 Lf Hpos; try discriminate; [constructor|].
    destruct fr as [|f fr]; [cbn in Lf; lia|]. inversion Hpos as [|? ? Hp1 Hp2]; subst. constructor.
    - destruct (P O log f c q eq_refl eq_refl eq_refl eq_refl) as [C1 [C2 [g [p [-> Tr]]]]]. destruct (report_bounds _ _ _ _ C2) as [R1 R2].
      exists g, p. split; [reflexivity|]. split; [exact Tr|]. split; [exact R1|]. split; [exact R2|].
      apply (campaign_positive log); [exact Hp1|]. destruct C2 as [X1 [X2 _]]. lia.
    - apply (IH params fr logs); [|cbn in *; lia..|exact Hp2]. intros i log' f' c' q'. exact (P (S i) log' f' c' q'). }
  assert (Lm : length (map (surface_curve T) (su_curves s)) = length logs) by (rewrite map_length; exact L1).
  assert (S2' : overlap_coefficients (length (map (surface_curve T) (su_curves s))) (su_a s)) by (rewrite Lm; exact S2).
  assert (An : forall spends imps k, PropsSurface2.bought (map (surface_curve T) (su_curves s)) spends imps ->
     fst (lab_ask L (Surface s) spends k) = pairwise_by_impressions (length logs) (su_a s) (map (surface_curve T) (su_curves s)) imps k).
  { intros spends imps k Hb. change (fst (lab_ask L (Surface s) spends k)) with (surface_answer T s spends k).
    unfold surface_answer. cbv zeta. rewrite (PropsSurface2.C29_by_spend_buys_impressions _ _ _ _ Hb). rewrite S1. reflexivity. }
  split.
  - intros spends k Ls Hs. destruct (goerg_curves _ _ spends FG ltac:(lia) Hs) as [imps [rs [G1 [G2 [G3 G4]]]]].
    destruct (C29_union_bounds _ (su_a s) imps rs k S2' G4 G2) as [p [v [P1 [P2 [P3 [P4 P5]]]]]].
    exists p, v. rewrite (An _ _ k G1). rewrite Lm in P1. split; [exact P1|]. split; [exact P2|]. split; [|split].
    + intros x Hx. apply In_nth_error in Hx. destruct Hx as [i Hi].
      destruct (nth_error rs i) as [y|] eqn:Ey; [|apply nth_error_None in Ey; rewrite (Forall2_len _ _ _ G3) in Ey; assert (nth_error (goerg_values params spends) i <> None) by congruence; apply nth_error_Some in H; lia].
      rewrite <- (PropsExact.Forall2_nth _ _ _ G3 i y x Ey Hi). apply P4. apply nth_error_In in Ey. exact Ey.
    + assert (Sm : (Qsum rs == Qsum (goerg_values params spends))%Q).
      { clear -G3. induction G3 as [|a b l l' H _ IH]; [reflexivity|]. unfold Qsum in *. cbn [fold_right]. rewrite H, IH. reflexivity. }
      rewrite <- Sm. exact P5.
    + intros i x Hz Hi.
      assert (Lr : length rs = length logs).
      { rewrite (Forall2_len _ _ _ G3). unfold goerg_values. rewrite map_length, combine_length. lia. }
      assert (Hil : (i < length logs)%nat).
      { rewrite <- Lr, (Forall2_len _ _ _ G3). apply nth_error_Some. congruence. }
      destruct (nth_error rs i) as [y|] eqn:Ey; [|apply nth_error_None in Ey; lia].
      rewrite <- (PropsExact.Forall2_nth _ _ _ G3 i y x Ey Hi). rewrite <- (nth_error_nth _ _ 0%Q Ey).
      eapply (C29_one_active _ (su_a s) imps rs k i p v S2' G4 G2); [lia| |rewrite Lm; exact P1|exact P2].
      rewrite Lm. intros j Hj Hn. destruct (nth_error rs j) as [z|] eqn:Ez; [|apply nth_error_None in Ez; lia].
      destruct (nth_error (goerg_values params spends) j) as [z'|] eqn:Ez'; [|apply nth_error_None in Ez'; rewrite <- (Forall2_len _ _ _ G3) in Ez'; lia].
      rewrite (nth_error_nth _ _ 0%Q Ez), (PropsExact.Forall2_nth _ _ _ G3 j z z' Ez Ez').
      unfold goerg_values in Ez'. rewrite nth_error_map in Ez'. destruct (nth_error (combine params spends) j) as [[q s']|] eqn:Ec; [|discriminate Ez'].
      injection Ez' as <-. cbn [fst snd].
      assert (s' == 0)%Q as Z0.
      { apply (Hz j s' Hn). clear -Ec. revert spends j Ec. induction params as [|a l IH]; intros [|b l'] [|j] Ec; try discriminate Ec; cbn in *; [congruence|eauto]. }
      rewrite (goerg_value_same _ _ _ _ s' 0 (Qeq_refl _) Z0). apply goerg_value_0.
  - intros spends spends' k p p' v v' Ls Hs Hle E1 E2 E1' E2'.
    assert (Ls' : length spends' = length logs) by (rewrite <- (Forall2_len _ _ _ Hle); exact Ls).
    assert (Hs' : Forall (fun s => (0 <= s)%Q) spends').
    { clear -Hs Hle. induction Hle as [|a b l l' H _ IH]; [constructor|]. inversion Hs; subst. constructor; [lra|auto]. }
    destruct (goerg_curves _ _ spends FG ltac:(lia) Hs) as [imps [rs [G1 [G2 [G3 G4]]]]].
    destruct (goerg_curves _ _ spends' FG ltac:(lia) Hs') as [imps' [rs' [G1' [G2' [G3' _]]]]].
    rewrite (An _ _ k G1) in E1. rewrite (An _ _ k G1') in E1'. rewrite <- Lm in E1, E1'.
    eapply (C29_monotone _ (su_a s) imps imps' rs rs' k); eauto.
    clear -FG G3 G3' Hle Hs. revert spends spends' rs rs' Hle Hs G3 G3'.
    induction FG as [|c q curves params [g [pt [_ [_ [Q1 [Q2 Q3]]]]]] _ IH]; intros spends spends' rs rs' Hle Hs G3 G3'.
    + inversion G3; subst. inversion G3'; subst. constructor.
    + destruct Hle as [|a b l l' Hab Hl]; [inversion G3; subst; inversion G3'; subst; constructor|].
      unfold goerg_values in G3, G3'. cbn [combine map fst snd] in G3, G3'.
      inversion G3 as [|x ? xs ? Hx Hxs]; subst. inversion G3' as [|y ? ys ? Hy Hys]; subst. inversion Hs; subst.
      constructor; [|exact (IH l l' xs ys Hl ltac:(assumption) Hxs Hys)].
      rewrite Hx, Hy. apply goerg_value_mono; assumption.
Qed.

End Full.

Print Assumptions C55_goerg_one_publisher.
Print Assumptions C55_goerg_training_spend.
Print Assumptions C55_goerg_surface.
