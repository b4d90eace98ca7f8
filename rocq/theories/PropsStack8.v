(** C55, continued: trials of one publisher with the Gamma-Poisson reach curve. *)
From Coq Require Import String Lqa.
From Verif Require Import Prelude ModelReachPoint ModelData SpecData ModelPrivacy ModelHalo SpecHalo ModelStrategy
  ReachPointLemmas DataLemmas DataLemmas2 DataLemmas3 HaloLemmas HaloLemmas2 PropsHalo SpecVenn ExactLemmas2 SpecExact PropsExact ModelCurves ModelGamma
  GammaLemmas2 ModelGammaPoisson SpecGammaPoisson GammaPoissonLemmas PropsGammaPoisson
  ModelSurface ModelRestricted ModelTestPoints ModelAggregator ModelFiles ModelDriver ModelStack SpecStack SpecStack2
  StackLemmas PropsRestricted ExampleDriver PropsStack PropsStack2 PropsStack3 PropsStack4 PropsStack5.
Open Scope Z_scope.

Lemma card_some (P : Z -> Prop) n u : card_is P n -> P u -> 1 <= n.
Proof. intros [l [_ [H <-]]] Hu. apply H in Hu. destruct l as [|a l]; [destruct Hu|]. cbn [Datatypes.length]. lia. Qed.
Lemma somebody log s : 1 <= bought_at_spend log s -> exists u, 1 <= seen_at_spend u log s.
Proof.
  unfold bought_at_spend, seen_at_spend. intros H.
  destruct (filter (fun r => Qle_bool (snd r) s) log) as [|r l] eqn:E; [cbn in H; lia|].
  assert (I : In r (filter (fun r => Qle_bool (snd r) s) log)) by (rewrite E; left; reflexivity).
  apply filter_In in I. destruct I as [I1 I2]. exists (fst r).
  assert (I : In r (filter (fun r0 => (fst r0 =? fst r) && Qle_bool (snd r0) s) log)).
  { apply filter_In. split; [exact I1|]. rewrite Z.eqb_refl, I2. reflexivity. }
  destruct (filter (fun r0 => (fst r0 =? fst r) && Qle_bool (snd r0) s) log); [destruct I|]. cbn [Datatypes.length]. lia.
Qed.
Lemma reported_reach log spend depth counts : 1 <= depth -> 1 <= bought_at_spend log spend -> reported_counts log spend depth counts -> 1 <= nth 0 counts 0.
Proof.
  intros Hd Hb [_ [n [_ [A B]]]]. destruct (Z_lt_le_dec n (bought_at_spend log spend)) as [C|C].
  - destruct (A C 1 ltac:(lia)) as [c [C1 C2]]. change (Z.to_nat (1 - 1)) with 0%nat in C2. rewrite (nth_error_nth _ _ _ C2).
    destruct (somebody _ _ Hb) as [u Hu]. exact (card_some _ _ u C1 Hu).
  - destruct (B C) as [B1 _]. rewrite (nth_error_nth _ _ _ B1). lia.
Qed.

Section Full.
Variable T : tools.
Variable B : bench T.
Let L := full_lab T B.
Notation X := (tl_gamma_poisson T).

(** The Gamma-Poisson curve of a single publisher, with exact sketches: it is fitted to the
    true frequencies of the campaign, with parameters within their bounds, for the audience
    passed or one between 1 and 100 times the campaign's reach. Its answer for any spend is that
    of the fitted distribution at the impressions which the spend buys at the campaign's price;
    it grows with the spend and stays below the audience. *)
Theorem C55_gamma_poisson_one_publisher : forall times log d f fr ll h sd b w w' seed m gl,
  gp_minimizes X -> (forall alpha beta, 0 < alpha -> 0 < beta -> gp_sane X alpha beta)%Q ->
  exact_sketches (bn_halo T B) times -> is_data_set_of [log] d -> increasing_prices log -> positive_prices [log] ->
  mk_halo d (f :: fr) ll = Ok h -> uses_estimates sd -> sd_single sd = "gamma_poisson"%string ->
  lab_fit L sd h b (lab_seed_global L seed) w = (Ok (m, gl), w') ->
  exists spend q counts max_reach N alpha beta,
    let I := inject_Z (bought_at_spend log spend) in
    let r := inject_Z (nth 0 counts 0) in
    campaign_of log f spend /\ (0 < spend)%Q /\ training_point q I (map inject_Z counts) spend /\
    reported_counts log spend (if string_dec (sd_strategy sd) "m3strategy" then 10 else 20) counts /\
    max_reach_of (sd_single_kwargs sd) max_reach /\
    (match max_reach with Some n => N = n | None => 1 <= r /\ r <= N /\ N <= 100 * r end)%Q /\
    ((1#1000000) <= alpha <= 100)%Q /\ ((1#1000000) <= beta <= 100)%Q /\
    (1 <= N -> forall s k, (1 <= k)%Z -> exists p, fst (lab_ask L m [s] k) = Ok p /\ max_frequency p = Z.min k (Z.of_nat (gp_frequencies X)) /\
       forall j, (1 <= j <= Z.min k (Z.of_nat (gp_frequencies X)))%Z -> exists v, reach p j = Ok v /\
         v == N * seen_at_least X alpha beta (Z.to_nat j) (Qmin (s * I / spend) (inventory N alpha beta - 1) / inventory N alpha beta))%Q /\
    (1 <= N -> forall s s' k j p p' v v', 0 <= s -> s <= s' -> (1 <= k)%Z ->
       fst (lab_ask L m [s] k) = Ok p -> fst (lab_ask L m [s'] k) = Ok p' -> reach p j = Ok v -> reach p' j = Ok v' ->
       0 <= v /\ v <= v' /\ v' < N)%Q.
Proof.
  intros times log d f fr ll h sd b w w' seed m gl GM GS HX Hd Hi Hpos Eh Ue Sk F.
  destruct (C55_one_publisher_training T B times log d f fr ll h sd b w w' seed m gl HX Hd Hi Eh Ue F)
    as [c [spend [q [counts [-> [C1 [[u Q1] [Q2 Q3]]]]]]]]. rewrite Sk in Q3.
  set (I := inject_Z (bought_at_spend log spend)) in *.
  assert (Ek : exists r kp, counts = r :: kp).
  { destruct Q2 as [L1 _]. destruct counts as [|z l]; [|eauto]. destruct (string_dec _ _); discriminate L1. }
  destruct Ek as [r [kp ->]]. cbn [map] in Q1.
  assert (MP : made_point q [I] (inject_Z r) (map inject_Z kp) (Some [spend])) by (exists u; exact Q1).
  unfold fit_named in Q3.
  change (String.eqb "gamma_poisson" "goerg") with false in Q3.
  change (String.eqb "gamma_poisson" "gamma_poisson") with true in Q3. cbv iota in Q3.
  destruct (accepts _ _) as [u0|] eqn:Ea; cbn [bind] in Q3; [|discriminate Q3].
  destruct (kw_number _ "max_reach") as [r0|] eqn:Er0; cbn [bind] in Q3; [|discriminate Q3].
  destruct (kw_number _ "extrapolation_multiplier") as [e|] eqn:Ee; cbn [bind] in Q3; [|discriminate Q3].
  set (mr := match r0 with Some n => Some (number_Q n) | None => None end) in Q3.
  destruct (mk_gpmodel [q] mr (number_or 1 e)) as [m0|] eqn:Emk; cbn [bind] in Q3; [|discriminate Q3].
  destruct (gm_fitted X (tl_fuel T) m0) as [m1|] eqn:Ef; cbn [bind] in Q3; [|discriminate Q3].
  injection Q3 as <-.
  destruct (proj1 (proj1 (C49_accepted q [I] _ _ _ mr (number_or 1 e) MP)) (ex_intro _ m0 Emk)) as [I' [EI [HI _]]].
  injection EI as <-.
  assert (B1 : 1 <= bought_at_spend log spend).
  { destruct (Z_lt_le_dec (bought_at_spend log spend) 1) as [Z0|]; [|assumption].
    assert (I <= 0)%Q by (unfold I; change 0%Q with (inject_Z 0); rewrite <- Zle_Qle; lia). lra. }
  assert (Sp : (0 < spend)%Q).
  { inversion Hpos as [|? ? Hp _]; subst. exact (campaign_positive log _ Hp B1). }
  destruct (C49_fitted X (tl_fuel T) q I (inject_Z r) (map inject_Z kp) (Some [spend]) mr (number_or 1 e) m0 m1 GM MP Emk Ef)
    as [N [Imax [alpha [beta [Ft [Ha [Hb [EJ [EN _]]]]]]]]].
  assert (Sn : gp_sane X alpha beta) by (apply GS; lra).
  assert (By : forall s k, exists imp, (imp == s * I / spend)%Q /\ fst (lab_ask L (OneCurve (GammaPoisson m1)) [s] k) = gm_by_impressions X m1 [imp] k).
  { intros s k. destruct (C49_by_spend X q I (inject_Z r) (map inject_Z kp) spend mr (number_or 1 e) m0 m1 (tl_fuel T) s k MP Emk Ef ltac:(lra)) as [imp [E1 E2]].
    exists imp. split; [exact E1|]. exact E2. }
  assert (Hn : (1 <= N)%Q -> (1 <= inventory N alpha beta)%Q).
  { intros H1. unfold inventory. assert (0 <= alpha * beta)%Q by (apply Qmult_le_0_compat; lra). nra. }
  exists spend, q, (r :: kp), mr, N, alpha, beta. cbv zeta. fold I. split; [exact C1|]. split; [exact Sp|]. split; [exists u; exact Q1|].
  split; [exact Q2|]. split.
  { unfold mr. destruct (kw_number_spec _ _ _ Er0) as [[A ->]|[n [A ->]]]; [left; auto|right; exists n; auto]. }
  split.
  { destruct mr; [exact EN|]. split; [|exact EN]. cbn [nth]. change 1%Q with (inject_Z 1). rewrite <- Zle_Qle.
    refine (reported_reach log spend _ (r :: kp) _ B1 Q2). destruct (string_dec _ _); lia. }
  split; [exact Ha|]. split; [exact Hb|]. split.
  - intros HN s k Hk. destruct (By s k) as [imp [E1 E2]].
    destruct (C49_answer X m1 N Imax alpha beta imp k Ft Sn ltac:(lia)) as [p [P1 [_ [P2 [_ [_ P3]]]]]].
    exists p. split; [rewrite E2; exact P1|]. split; [exact P2|]. intros j Hj. destruct (P3 j Hj) as [v [V1 V2]].
    exists v. split; [exact V1|]. rewrite V2. apply Qmult_comp; [reflexivity|]. apply seen_comp.
    unfold Qdiv at 1. apply Qmult_comp; [|apply Qinv_comp; exact EJ].
    unfold Qmin. destruct (Qleb_spec imp (Imax - 1)), (Qleb_spec (s * I / spend) (inventory N alpha beta - 1)); lra.
  - intros HN s s' k j p p' v v' Hs Hss Hk Ep Ep' Ev Ev'.
    destruct (By s k) as [imp [E1 E2]]. destruct (By s' k) as [imp' [E1' E2']]. rewrite E2 in Ep. rewrite E2' in Ep'.
    assert (HI0 : (0 <= I)%Q) by lra.
    assert (Hi1 : (0 <= imp)%Q) by (rewrite E1; apply Qle_shift_div_l; [exact Sp|]; rewrite Qmult_0_l; apply Qmult_le_0_compat; assumption).
    assert (Hi2 : (imp <= imp')%Q).
    { rewrite E1, E1'. unfold Qdiv. apply Qmult_le_compat_r; [|apply Qlt_le_weak, Qinv_lt_0_compat; exact Sp]. apply Qmult_le_compat_r; assumption. }
    specialize (Hn HN). assert (HJ : (1 <= Imax)%Q) by lra.
    destruct (C49_shape X m1 N Imax alpha beta imp imp' k p p' j v v' Ft Sn ltac:(lra) HJ Hi1 Hi2 ltac:(lia) Ep Ep' Ev Ev') as [S1 [_ [S2 _]]].
    destruct (C49_shape X m1 N Imax alpha beta imp' imp' k p' p' j v' v' Ft Sn ltac:(lra) HJ ltac:(lra) (Qle_refl _) ltac:(lia) Ep' Ep' Ev' Ev') as [_ [S3 _]].
    auto.
Qed.
End Full.
Print Assumptions C55_gamma_poisson_one_publisher.

(** ** Example: the publisher with two users and three impressions *)
Definition ex_tools_p : tools :=
  {| tl_state := nat; tl_random := ex_random; tl_solver := zeros_solver 4;
     tl_gamma_poisson := PropsGammaPoisson.toy 2 toy_mass into_bounds; tl_gamma := short_scipy; tl_fuel := 5 |}.
Definition ex_bench_p : bench ex_tools_p :=
  {| bn_float := toy_float; bn_halo := ex_externals; bn_own := unit; bn_default_rng := fun _ => tt;
     bn_draws := (ex_draws : point_rng unit (tl_state ex_tools_p)); bn_traceback := fun _ => "traceback"%string;
     bn_print := fun _ => []; bn_parse := fun _ => Err ValueError; bn_md5 := toy_md5 |}.
Definition ex_strategy_p : strategy_descriptor :=
  {| sd_strategy := "m3strategy"; sd_strategy_kwargs := []; sd_single := "gamma_poisson";
     sd_single_kwargs := [("max_reach"%string, VNum (PInt 2))];
     sd_multi := "none"; sd_multi_kwargs := [] |}.
Definition ex_world_p : world (bn_halo ex_tools_p ex_bench_p) :=
  {| w_tracker := new_tracker; w_rng := (0 : rng ex_externals) |}.
Example C55_gamma_poisson_trial : exists h m gl w',
  gp_minimizes (tl_gamma_poisson ex_tools_p) /\ (forall alpha beta, gp_sane (tl_gamma_poisson ex_tools_p) alpha beta) /\
  mk_halo (ex_data [ex_a]) [1%Q] (halo_ll {| lp_decay_rate := PInt 13; lp_sketch_size := PInt 1000; lp_random_seed := 1 |}) = Ok h /\
  uses_estimates ex_strategy_p /\
  lab_fit (full_lab ex_tools_p ex_bench_p) ex_strategy_p h ex_budget_k
    (lab_seed_global (full_lab ex_tools_p ex_bench_p) 1) ex_world_p = (Ok (m, gl), w').
Proof.
  assert (match mk_halo (ex_data [ex_a]) [1%Q] (halo_ll {| lp_decay_rate := PInt 13; lp_sketch_size := PInt 1000; lp_random_seed := 1 |}) with
          | Ok h => match fst (lab_fit (full_lab ex_tools_p ex_bench_p) ex_strategy_p h ex_budget_k
                (lab_seed_global (full_lab ex_tools_p ex_bench_p) 1) ex_world_p) with
                    | Ok _ => true | Err _ => false end
          | Err _ => false end = true) as H by (vm_compute; reflexivity).
  destruct (mk_halo _ _ _) as [h|]; [|discriminate H]. exists h.
  destruct (lab_fit _ _ _ _ _ _) as [[[m gl]|e] w']; [|discriminate H]. exists m, gl, w'.
  split; [apply toy_into_bounds|]. split; [intros alpha beta; exact (toy_sane into_bounds alpha beta)|]. split; [reflexivity|]. split; [|reflexivity].
  left. reflexivity.
Qed.
