(** C61: the fit of the k-inflated Gamma-Poisson model to a histogram of frequencies. *)
From Coq Require Import Lqa Qfield Qround.
From Verif Require Import Prelude ModelReachPoint ModelCurves SpecSurface ModelSurface SurfaceLemmas
  SurfaceLemmas2 HaloLemmas ReachPointLemmas ModelGamma SpecGamma GammaLemmas GammaLemmas2 GammaLemmas3
  SpecGammaFit GammaFitLemmas.
Open Scope Z_scope.
Local Open Scope Q_scope.

(** ** What is minimised *)

(** The histogram that is fitted: its entries are the differences of the k+ reaches and the
    last k+ reach; they add up to the reach. *)
Lemma bucket_counts_diffs k kp : exists w, diffs Qops (k :: kp) ++ [w] = bucket_counts (k :: kp) /\
  py_index (k :: kp) (-1) = Ok w.
Proof.
  revert k. induction kp as [|k' kp IH]; intros k.
  - exists k. split; reflexivity.
  - destruct (IH k') as [w [E F]]. exists w. split.
    + change (diffs Qops (k :: k' :: kp)) with ((k - k') :: diffs Qops (k' :: kp)).
      change (bucket_counts (k :: k' :: kp)) with ((k - k') :: bucket_counts (k' :: kp)).
      rewrite <- E. reflexivity.
    + destruct (exists_last (l := k' :: kp) ltac:(discriminate)) as [l [v El]]. rewrite El in *.
      rewrite py_index_last in F. rewrite <- F. change (k :: l ++ [v]) with ((k :: l) ++ [v]). apply py_index_last.
Qed.
Lemma bucket_counts_sum k kp : Qsum (bucket_counts (k :: kp)) == k.
Proof.
  revert k. induction kp as [|k' kp IH]; intros k; [cbn; ring|].
  change (bucket_counts (k :: k' :: kp)) with ((k - k') :: bucket_counts (k' :: kp)).
  cbn [Qsum]. rewrite IH. ring.
Qed.
Theorem C61_histogram {X} : forall (imps : list X) r kp spends u p, mk_reach_point Qops imps (r :: kp) spends u = Ok p ->
  frequencies_with_kplus_bucket p = Ok (bucket_counts (r :: kp)) /\ Qsum (bucket_counts (r :: kp)) == r.
Proof.
  intros imps r kp spends u p HP. destruct (point_fields _ _ _ _ _ HP) as [_ [EK EF]].
  split; [|apply bucket_counts_sum]. unfold frequencies_with_kplus_bucket. rewrite EK, EF.
  destruct (bucket_counts_diffs r kp) as [w [E F]]. rewrite F. cbn [bind]. rewrite E. reflexivity.
Qed.
Print Assumptions C61_histogram.

Lemma square_nonneg v : 0 <= square v.
Proof. unfold square. destruct (Qlt_le_dec v 0); nra. Qed.

(** The distance is the chi-squared distance to the histogram that the parameters predict,
    and never negative for a universe of people with a distribution of impressions. *)
Theorem C61_distance : forall h I N d, Qsum (kd_pmf d) == 1 ->
  exists v, chi2_distance h I N d = Ok v /\ v == misfit h I N (kd_pmf d) /\
    (0 < N -> 0 <= I -> is_distribution (kd_pmf d) -> 0 <= v).
Proof.
  intros h I N d HS. destruct (chi2_value h I N d HS) as [v [E Hv]]. exists v. split; [exact E|]. split; [exact Hv|].
  intros HN HI HD. rewrite Hv. unfold misfit. destruct (Qleb_spec (N * mean (kd_pmf d)) I) as [G|G].
  - apply total_nonneg. intros i _. apply square_nonneg.
  - apply total_nonneg. intros i _. cbv zeta.
    assert (0 <= I / (N * mean (kd_pmf d))) as P0 by (apply Qle_shift_div_l; lra).
    assert (I / (N * mean (kd_pmf d)) <= 1) as P1 by (apply Qle_shift_div_r; lra).
    assert (0 <= expected_count h N (kd_pmf d) (I / (N * mean (kd_pmf d))) i) as E0.
    { unfold expected_count. destruct (_ <? _)%nat.
      - pose proof (shown_k (kd_pmf d) (S i) _ HD P0 P1). apply Qmult_le_0_compat; lra.
      - destruct (shown_bounds (kd_pmf d) (S i) _ HD P0 P1) as [B _]. apply Qmult_le_0_compat; [lra|exact B]. }
    apply Qle_shift_div_l; [lra|]. rewrite Qmult_0_l. apply square_nonneg.
Qed.
Print Assumptions C61_distance.

(** What the minimiser is asked to minimise: the cost of the fit at allowed parameters, a
    fixed penalty elsewhere. *)
Theorem C61_objective : forall x h I Imin alpha beta N a, exists v,
  fixed_length_objective x h I Imin (length a) (alpha :: beta :: N :: a) = Ok v /\
  (allowed h alpha beta N a -> v == cost h I Imin N (kd_pmf (mk_kdist x alpha beta a))) /\
  (~ allowed h alpha beta N a -> v == not_allowed h Imin).
Proof. intros. apply objective_value. Qed.
Print Assumptions C61_objective.

(** ** One run of the minimiser *)

(** A run that starts at allowed parameters, cheaper than the penalty, ends at allowed
    parameters that cost no more. *)
Theorem C61_run : forall x h I Imin N0 alpha0 beta0 a0 N d score, never_worse x ->
  allowed h alpha0 beta0 N0 a0 ->
  cost h I Imin N0 (kd_pmf (mk_kdist x alpha0 beta0 a0)) < not_allowed h Imin ->
  fit_fixed_length x h I Imin N0 alpha0 beta0 a0 = Ok (N, d, score) ->
  exists alpha beta a, d = mk_kdist x alpha beta a /\ length a = length a0 /\
    allowed h alpha beta N a /\ score == misfit h I N (kd_pmf d) /\
    cost h I Imin N (kd_pmf d) <= cost h I Imin N0 (kd_pmf (mk_kdist x alpha0 beta0 a0)).
Proof.
  intros x h I Imin N0 alpha0 beta0 a0 N d score NW HA HC HF.
  destruct (fixed_allowed x h I Imin _ _ _ _ _ _ _ NW HF HA HC) as [alpha [beta [a [-> [E1 [E2 [E3 E4]]]]]]].
  exists alpha, beta, a. split; [reflexivity|]. split; [exact E1|]. split; [exact E2|]. split; [|exact E3].
  destruct (chi2_value h I N (mk_kdist x alpha beta a) (mk_kdist_sum _ _ _ _)) as [v [Ev Hv]].
  rewrite Ev in E4. injection E4 as <-. exact Hv.
Qed.
Print Assumptions C61_run.

(** Letting one more value of the mass function be arbitrary starts from the same mass
    function: nothing is lost between two runs. *)
Theorem C61_handover : forall x alpha beta a, (Z.of_nat (length a) + 2 < gx_frequencies x)%Z ->
  (forall v, In v a -> 0 <= v) -> Qsum a <= 1 -> nbinom_sane x alpha beta ->
  let next := nth (S (length a)) (kd_pmf (mk_kdist x alpha beta a)) 0 in
  0 <= next /\ Qsum (a ++ [next]) <= 1 /\
  same_mass (kd_pmf (mk_kdist x alpha beta (a ++ [next]))) (kd_pmf (mk_kdist x alpha beta a)).
Proof. intros x alpha beta a H1 H2 H3 H4. apply handover; auto. Qed.
Print Assumptions C61_handover.

(** ** The start *)

(** For a point with at least two k+ reaches, whose people are reached between 1.01 and 6000
    times on average at the impressions fitted to, the exponential-Poisson fit is allowed. *)
Lemma start_allowed fuel p I r k2 kp sp u Imin :
  mk_reach_point Qops [I] (r :: k2 :: kp) sp u = Ok p -> 0 < r ->
  r + 1 <= fitted_at I Imin -> (101#100) * r <= fitted_at I Imin -> fitted_at I Imin <= 6000 * r ->
  exists N beta, fit_exponential_poisson fuel p Imin = Ok (N, beta) /\
    allowed (bucket_counts (r :: k2 :: kp)) 1 beta N [].
Proof.
  intros HP Hr H1 H2 H3. set (h := bucket_counts (r :: k2 :: kp)).
  assert (Qsum h == r) as Hh by apply bucket_counts_sum.
  destruct (Nat.eq_dec (length kp) 0) as [L0|L0].
  - destruct (fit_short_value fuel p I r (k2 :: kp) sp u Imin HP ltac:(cbn; lia) Hr ltac:(lra))
      as [N [beta [E [EN [EB HN]]]]].
    set (J := fitted_at I Imin) in *.
    exists N, beta. split; [exact E|]. unfold allowed. rewrite Hh.
    assert (1 <= J / r) as B1 by (apply Qle_shift_div_l; lra).
    assert (J / r <= 6000) as B2 by (apply Qle_shift_div_r; lra).
    split; [lra|]. split; [lra|]. split; [lra|]. split; [lra|]. split; [exact HN|]. split; [|split; [intros v []|cbn; lra]].
    rewrite EN. apply Qle_shift_div_r; [lra|]. nra.
  - destruct (point_fields _ _ _ _ _ HP) as [EI [EK EF]].
    pose proof (point_reach_1 p r (k2 :: kp) EK) as ER.
    unfold fit_exponential_poisson, fitted_impressions, exponential_poisson_start.
    rewrite EI. change (py_index [I] 0) with (Ok I). cbn [bind]. fold (fitted_at I Imin).
    set (J := fitted_at I Imin) in *. rewrite ER. cbn [bind]. rewrite EF, diffs_length. cbn [length].
    replace (S (S (length kp)) - 1)%nat with (S (length kp)) by lia.
    destruct (Nat.ltb_spec 1 (S (length kp))) as [_|C]; [|lia].
    unfold py_div, Qeqb. destruct (Qmin_cases r (J - 1)) as [[_ E]|[C _]]; [|lra]. rewrite E.
    destruct (Qeq_bool r 0) eqn:E0; [apply Qeq_bool_iff in E0; lra|]. cbn [bind].
    set (beta := (J / r - 1) * (12#10)).
    assert ((101#100) <= J / r) as B1 by (apply Qle_shift_div_l; lra).
    assert (J / r <= 6000) as B2 by (apply Qle_shift_div_r; lra).
    assert (J == r * (J / r)) as EJ by (field; lra).
    assert (0 < beta) as Hb by (unfold beta; lra).
    assert (J <= r * (beta + 1)) as Hc by (unfold beta; nra).
    destruct (N_from_beta_facts J r beta Hr ltac:(lra) Hb Hc) as [F1 [F2 F3]].
    exists (exponential_poisson_N_from_beta J r beta), beta. rewrite enlarge_idle by auto.
    split; [reflexivity|]. unfold allowed. rewrite Hh.
    split; [lra|]. split; [lra|]. split; [unfold beta; lra|]. split; [unfold beta; lra|]. split; [exact F1|].
    split; [|split; [intros v []|cbn; lra]].
    unfold exponential_poisson_N_from_beta. destruct (Qltb_spec J (r + (1#1000))) as [C|_]; [lra|].
    assert (- (J * beta * r) / ((beta + 1) * (r - J)) == r * (J * beta) / ((beta + 1) * (J - r))) as EQ
      by (field; repeat split; lra).
    rewrite EQ. assert (0 < (beta + 1) * (J - r)) by nra. apply Qle_shift_div_r; [auto|].
    assert (J * beta <= 100 * ((beta + 1) * (J - r))); [|nra].
    assert (beta * r == (12#10) * (J - r)) as EB by (unfold beta; field; lra).
    assert (J * beta <= 2 * ((beta + 1) * (J - r))); [|nra].
    assert (J * beta == (J - r) * beta + (12#10) * (J - r)) as EX by (rewrite <- EB; ring).
    rewrite EX. nra.
Qed.

(** ** The whole fit *)

Section Whole.
Context (x : gamma_externals) (NW : never_worse x) (SN : nbinom_sane_everywhere x).
Context (fuel : nat) (p : qpoint) (I r k2 : Q) (kp : list Q) (spends : option (list Q)) (u : option Z).
Context (HP : mk_reach_point Qops [I] (r :: k2 :: kp) spends u = Ok p) (Hr : 0 < r).
Let h := bucket_counts (r :: k2 :: kp).

Lemma fit_point_long kmax Imin N0 beta0 N d :
  fit_exponential_poisson fuel p Imin = Ok (N0, beta0) -> fit_point x fuel kmax p Imin = Ok (N, d) ->
  exists N1 d1 s1, fit_fixed_length x h I Imin N0 1 beta0 [] = Ok (N1, d1, s1) /\
    inflate x fuel kmax h I Imin N1 d1 s1 = Ok (N, d).
Proof.
  intros E. unfold fit_point. rewrite E. cbn [bind].
  destruct (C61_histogram _ _ _ _ _ _ HP) as [EH _]. fold h in EH. rewrite EH. cbn [bind].
  destruct (point_fields _ _ _ _ _ HP) as [EI [EK _]]. rewrite EI. change (py_index [I] 0) with (Ok I). cbn [bind].
  destruct (chi2_ok h I N0 (mk_kdist x 1 beta0 []) (mk_kdist_sum _ _ _ _)) as [v ->]. cbn [bind].
  unfold max_frequency. rewrite EK. cbn [length].
  destruct (Z.eqb_spec (Z.of_nat (S (S (length kp)))) 1) as [C|_]; [lia|].
  change (kd_alpha (mk_kdist x 1 beta0 [])) with 1. change (kd_beta (mk_kdist x 1 beta0 [])) with beta0.
  destruct (fit_fixed_length x h I Imin N0 1 beta0 []) as [[[N1 d1] s1]|e]; [|discriminate]. cbn [bind].
  intros H. exists N1, d1, s1. split; [reflexivity|exact H].
Qed.
End Whole.

(** The fit of the model. Whatever the number of runs, if the exponential-Poisson fit that it
    starts from costs less than the penalty, then the universe is between the reach and a
    hundred times the reach, the table is a probability distribution, the inflation values
    are allowed and at most [kmax], and the fit costs no more than the start. *)
Theorem C61_fit : forall x fuel kmax p I r k2 kp spends u Imin N d,
  never_worse x -> nbinom_sane_everywhere x -> (Z.of_nat kmax + 1 < gx_frequencies x)%Z ->
  mk_reach_point Qops [I] (r :: k2 :: kp) spends u = Ok p -> 0 < r ->
  r + 1 <= fitted_at I Imin -> (101#100) * r <= fitted_at I Imin -> fitted_at I Imin <= 6000 * r ->
  fit_point x fuel kmax p Imin = Ok (N, d) ->
  let h := bucket_counts (r :: k2 :: kp) in
  exists N0 beta0, fit_exponential_poisson fuel p Imin = Ok (N0, beta0) /\
    let start := cost h I Imin N0 (kd_pmf (mk_kdist x 1 beta0 [])) in
    (start < not_allowed h Imin ->
     r <= N /\ N <= 100 * r /\ is_distribution (kd_pmf d) /\ nth 0 (kd_pmf d) 0 == 0 /\
     (length (kd_a d) <= kmax)%nat /\
     cost h I Imin N (kd_pmf d) <= start /\
     (0 <= I -> square (shortfall Imin N (kd_pmf d)) <= start) /\
     exists alpha beta, d = mk_kdist x alpha beta (kd_a d) /\ allowed h alpha beta N (kd_a d)).
Proof.
  intros x fuel kmax p I r k2 kp spends u Imin N d NW SN HK HP Hr H1 H2 H3 HF h.
  destruct (start_allowed fuel p I r k2 kp spends u Imin HP Hr H1 H2 H3) as [N0 [beta0 [E0 A0]]].
  fold h in A0. exists N0, beta0. split; [exact E0|]. intros start HC.
  destruct (fit_point_long x fuel p I r k2 kp spends u HP kmax Imin N0 beta0 N d E0 HF)
    as [N1 [d1 [s1 [F1 F2]]]]. fold h in F1, F2.
  destruct (fixed_allowed x h I Imin _ _ _ _ _ _ _ NW F1 A0 HC) as [al [be [a1 [-> [L1 [A1 [C1 S1]]]]]]].
  fold start in C1.
  destruct (inflate_good x h I Imin kmax NW SN HK _ _ _ _ _ _ _ _ A1 ltac:(fold start in HC; lra) S1 F2)
    as [al' [be' [a' [s' [E1 [E2 [E3 [E4 [_ [E6 _]]]]]]]]]].
  pose proof E2 as [B1 [B2 [B3 [B4 [B5 [B6 [B7 B8]]]]]]].
  assert (Qsum h == r) as Hh by apply bucket_counts_sum. rewrite Hh in B5, B6.
  assert (kd_a d = a') as Ea by (rewrite E1; apply kd_a_allowed; auto).
  assert (is_distribution (kd_pmf d)) as HD.
  { rewrite E1. apply mk_kdist_dist; [intros v Hv; apply B7; auto|apply SN; lra]. }
  split; [exact B5|]. split; [exact B6|]. split; [exact HD|].
  split. { rewrite E1, mk_kdist_0 by (left; lia). reflexivity. }
  cbn [length] in L1. rewrite L1 in E6. rewrite Nat.max_0_r in E6.
  split; [rewrite Ea; exact E6|].
  assert (cost h I Imin N (kd_pmf d) <= start) as HCC by (unfold start in *; lra).
  split; [exact HCC|]. split.
  { intros HI. unfold cost in HCC.
    destruct (C61_distance h I N d) as [v [_ [Ev Hv]]]; [apply HD|]. specialize (Hv ltac:(lra) HI HD). lra. }
  exists al', be'. rewrite Ea. split; [exact E1|exact E2].
Qed.
Print Assumptions C61_fit.

(** The runs stop as soon as the chi-squared test accepts the fit, or when [kmax] values are
    arbitrary. *)
Theorem C61_stop : forall x kmax h I Imin fuel N alpha beta a score N' d',
  never_worse x -> nbinom_sane_everywhere x -> (Z.of_nat kmax + 1 < gx_frequencies x)%Z ->
  allowed h alpha beta N a ->
  cost h I Imin N (kd_pmf (mk_kdist x alpha beta a)) < not_allowed h Imin ->
  chi2_distance h I N (mk_kdist x alpha beta a) = Ok score ->
  inflate x fuel kmax h I Imin N (mk_kdist x alpha beta a) score = Ok (N', d') ->
  exists score', chi2_distance h I N' d' = Ok score' /\
    (gx_chi2_cdf x score' (Z.of_nat (length h)) <= 95#100 \/ (kmax <= length (kd_a d'))%nat) /\
    (gx_chi2_cdf x score (Z.of_nat (length h)) <= 95#100 -> N' = N /\ d' = mk_kdist x alpha beta a).
Proof.
  intros x kmax h I Imin fuel N alpha beta a score N' d' NW SN HK HA HC HS HI.
  destruct (inflate_good x h I Imin kmax NW SN HK _ _ _ _ _ _ _ _ HA HC HS HI)
    as [al [be [a' [s' [E1 [E2 [E3 [E4 [E5 [E6 E7]]]]]]]]]].
  exists s'. split; [exact E4|]. split.
  - destruct E7 as [E7|E7]; [left; exact E7|right].
    rewrite E1, kd_a_allowed by apply E2. exact E7.
  - intros G. destruct fuel; cbn [inflate] in HI;
      destruct (Qltb_spec (95#100) (gx_chi2_cdf x score (Z.of_nat (length h)))) as [C|_]; try lra;
      cbn [andb] in HI; injection HI as <- <-; auto.
Qed.
Print Assumptions C61_stop.

(** Allowing more inflation values never makes the fit worse. *)
Theorem C61_more_inflation : forall x fuel kmax kmax' p I r k2 kp spends u Imin N d N' d',
  never_worse x -> nbinom_sane_everywhere x -> (kmax <= kmax')%nat -> (Z.of_nat kmax' + 1 < gx_frequencies x)%Z ->
  mk_reach_point Qops [I] (r :: k2 :: kp) spends u = Ok p -> 0 < r ->
  r + 1 <= fitted_at I Imin -> (101#100) * r <= fitted_at I Imin -> fitted_at I Imin <= 6000 * r ->
  fit_point x fuel kmax p Imin = Ok (N, d) -> fit_point x fuel kmax' p Imin = Ok (N', d') ->
  let h := bucket_counts (r :: k2 :: kp) in
  exists N0 beta0, fit_exponential_poisson fuel p Imin = Ok (N0, beta0) /\
    (cost h I Imin N0 (kd_pmf (mk_kdist x 1 beta0 [])) < not_allowed h Imin ->
     cost h I Imin N' (kd_pmf d') <= cost h I Imin N (kd_pmf d)).
Proof.
  intros x fuel kmax kmax' p I r k2 kp spends u Imin N d N' d' NW SN HK HK' HP Hr H1 H2 H3 HF HF' h.
  destruct (start_allowed fuel p I r k2 kp spends u Imin HP Hr H1 H2 H3) as [N0 [beta0 [E0 A0]]].
  fold h in A0. exists N0, beta0. split; [exact E0|]. intros HC.
  destruct (fit_point_long x fuel p I r k2 kp spends u HP kmax Imin N0 beta0 N d E0 HF)
    as [N1 [d1 [s1 [F1 F2]]]]. fold h in F1, F2.
  destruct (fit_point_long x fuel p I r k2 kp spends u HP kmax' Imin N0 beta0 N' d' E0 HF')
    as [N2 [d2 [s2 [G1 G2]]]]. fold h in G1, G2.
  rewrite F1 in G1. injection G1 as <- <- <-.
  destruct (fixed_allowed x h I Imin _ _ _ _ _ _ _ NW F1 A0 HC) as [al [be [a1 [-> [L1 [A1 [C1 S1]]]]]]].
  apply (inflate_more x h I Imin kmax kmax' NW SN HK HK' _ _ _ _ _ _ _ _ _ _ A1 ltac:(lra) S1 F2 G2).
Qed.
Print Assumptions C61_more_inflation.

(** ** Examples *)

(** A scipy for which the examples compute: three impressions per user at most, a test that
    never accepts, a minimiser that stays where it is. *)
Definition staying_scipy : gamma_externals :=
  {| gx_nbinom := fun k _ p => Qred (p * qpow (1 - p) (Z.to_nat k))%Q; gx_chi2_cdf := fun _ _ => 1%Q;
     gx_minimize := fun _ l => Ok l; gx_frequencies := 4%Z |}.
Lemma staying_never_worse : never_worse staying_scipy.
Proof. intros obj start r H. injection H as <-. split; [reflexivity|]. intros v w E F. rewrite E in F. injection F as <-. lra. Qed.
Lemma staying_sane : nbinom_sane_everywhere staying_scipy.
Proof.
  intros alpha beta _ Hb.
  destruct (geometric_sane {| gx_nbinom := fun k _ p => (p * qpow (1 - p) (Z.to_nat k))%Q; gx_chi2_cdf := fun _ _ => 0%Q;
     gx_minimize := fun _ l => Ok l; gx_frequencies := 4%Z |} beta) as [S1 S2].
  - intros k p _ _. cbn [gx_nbinom]. rewrite Nat2Z.id. reflexivity.
  - lra.
  - cbn [gx_nbinom] in S1, S2. split.
    + intros k. cbn [staying_scipy gx_nbinom]. rewrite Qred_correct. apply S1.
    + intros m. rewrite (total_ext m _ (fun k => 1 / (1 + beta) * qpow (1 - 1 / (1 + beta)) (Z.to_nat (Z.of_nat k)))).
      * apply S2.
      * intros k _. cbn [staying_scipy gx_nbinom]. apply Qred_correct.
Qed.

Definition qpoint_of (I : Q) (kp : list Q) : qpoint :=
  match mk_reach_point Qops [I] kp None None with
  | Ok p => p
  | Err _ => {| rp_impressions := []; rp_kplus := []; rp_frequencies := []; rp_spends := None; rp_universe := None |}
  end.

Example C61_example : exists p N d N0 beta0,
  mk_reach_point Qops [16] [8; 4] None None = Ok p /\
  fit_point staying_scipy 2 1 p 16 = Ok (N, d) /\ length (kd_a d) = 1%nat /\
  fit_exponential_poisson 2 p 16 = Ok (N0, beta0) /\
  cost (bucket_counts [8; 4]) 16 16 N0 (kd_pmf (mk_kdist staying_scipy 1 beta0 [])) < not_allowed (bucket_counts [8; 4]) 16.
Proof.
  assert (match fit_point staying_scipy 2 1 (qpoint_of 16 [8; 4]) 16, fit_exponential_poisson 2 (qpoint_of 16 [8; 4]) 16 with
          | Ok (_, d), Ok (n, b) => length (kd_a d) = 1%nat /\
             Qltb (cost (bucket_counts [8; 4]) 16 16 n (kd_pmf (mk_kdist staying_scipy 1 b [])))
                  (not_allowed (bucket_counts [8; 4]) 16) = true
          | _, _ => False end) as H by (vm_compute; split; reflexivity).
  exists (qpoint_of 16 [8; 4]).
  destruct (fit_point staying_scipy 2 1 (qpoint_of 16 [8; 4]) 16) as [[N d]|e]; [|destruct H].
  destruct (fit_exponential_poisson 2 (qpoint_of 16 [8; 4]) 16) as [[n b]|e]; [|destruct H].
  destruct H as [H1 H2]. exists N, d, n, b. split; [reflexivity|]. split; [reflexivity|]. split; [exact H1|].
  split; [reflexivity|]. destruct (Qltb_spec (cost (bucket_counts [8; 4]) 16 16 n (kd_pmf (mk_kdist staying_scipy 1 b [])))
    (not_allowed (bucket_counts [8; 4]) 16)) as [G|G]; [exact G|discriminate H2].
Qed.

(** What is promised for the inventory is not kept: the fitted model may hold fewer
    impressions than asked for. *)
Theorem C61_inventory_refuted : exists x p Imin N d, never_worse x /\ nbinom_sane_everywhere x /\
  mk_reach_point Qops [16] [8; 4] None None = Ok p /\
  fit_point x 2 1 p Imin = Ok (N, d) /\ N * mean (kd_pmf d) < Imin.
Proof.
  assert (match fit_point staying_scipy 2 1 (qpoint_of 16 [8; 4]) 100 with
          | Ok (n, d) => Qltb (n * mean (kd_pmf d)) 100 = true
          | _ => False end) as H by (vm_compute; reflexivity).
  exists staying_scipy, (qpoint_of 16 [8; 4]), 100.
  destruct (fit_point staying_scipy 2 1 (qpoint_of 16 [8; 4]) 100) as [[N d]|e]; [|destruct H].
  exists N, d. split; [apply staying_never_worse|]. split; [apply staying_sane|].
  split; [reflexivity|]. split; [reflexivity|].
  destruct (Qltb_spec (N * mean (kd_pmf d)) 100) as [G|G]; [exact G|discriminate H].
Qed.
Print Assumptions C61_inventory_refuted.

(** Nor are the bounds kept when the exponential-Poisson fit is outside them: everything
    around it costs the same penalty. Here people are reached 1.001 times on average. *)
Theorem C61_outside_refuted : exists x p N d, never_worse x /\ nbinom_sane_everywhere x /\
  mk_reach_point Qops [1000] [999; 1] None None = Ok p /\
  fit_point x 2 0 p 1000 = Ok (N, d) /\ 300 * 999 < N /\
  (forall dN da db, - (1#10) <= dN -> dN <= 1#10 ->
     exists v, fixed_length_objective x (bucket_counts [999; 1]) 1000 1000 0 [kd_alpha d + da; kd_beta d + db; N * (1 + dN)] = Ok v /\
       v == not_allowed (bucket_counts [999; 1]) 1000).
Proof.
  assert (match fit_point staying_scipy 2 0 (qpoint_of 1000 [999; 1]) 1000 with
          | Ok (n, d) => Qltb (300 * 999) n = true
          | _ => False end) as H by (vm_compute; reflexivity).
  exists staying_scipy, (qpoint_of 1000 [999; 1]).
  destruct (fit_point staying_scipy 2 0 (qpoint_of 1000 [999; 1]) 1000) as [[N d]|e]; [|destruct H].
  exists N, d. split; [apply staying_never_worse|]. split; [apply staying_sane|].
  split; [reflexivity|]. split; [reflexivity|].
  destruct (Qltb_spec (300 * 999) N) as [G|G]; [|discriminate H]. split; [exact G|]. clear H.
  intros dN da db H1 H2.
  destruct (C61_objective staying_scipy (bucket_counts [999; 1]) 1000 1000 (kd_alpha d + da) (kd_beta d + db) (N * (1 + dN)) [])
    as [v [E [_ F]]].
  exists v. split; [exact E|]. apply F. intros [_ [_ [_ [_ [_ [C _]]]]]].
  rewrite bucket_counts_sum in C. nra.
Qed.
Print Assumptions C61_outside_refuted.
