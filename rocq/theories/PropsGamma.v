(** C33-C35: the exponential-Poisson fit, the k-inflated distribution and the history of
    queries of the k-inflated Gamma-Poisson model. *)
From Coq Require Import Lqa Qfield Qround.
From Verif Require Import Prelude ModelReachPoint ModelCurves SpecSurface ModelSurface SurfaceLemmas
  SurfaceLemmas2 HaloLemmas ReachPointLemmas ModelGamma SpecGamma GammaLemmas GammaLemmas2 GammaLemmas3.
Open Scope Z_scope.
Local Open Scope Q_scope.

(** ** C33: exponential-Poisson fits *)

(** The closed formula is the sum of the documented series: the reach predicted from users
    with at most [m] impressions exceeds it by at most [N * z^m]. *)
Theorem C33_series I N beta m : 0 < N -> 0 <= beta -> 0 <= I -> I < (beta + 1) * N ->
  let q := I / ((beta + 1) * N) in
  exponential_poisson_reach I N beta <= N * (1 - unreached beta q m) /\
  N * (1 - unreached beta q m) <=
    exponential_poisson_reach I N beta + N * qpow (beta / (beta + 1) * (1 - q)) m.
Proof. intros. apply series_bounds; auto. Qed.
Print Assumptions C33_series.

(** All the inventory bought: everybody is reached. *)
Theorem C33_saturated I N beta : (beta + 1) * N <= I -> exponential_poisson_reach I N beta = N.
Proof. intros H. unfold exponential_poisson_reach. destruct (Qleb_spec ((beta + 1) * N) I); auto; lra. Qed.
Print Assumptions C33_saturated.

(** The beta computed from N solves the reach equation whenever it has a solution. *)
Theorem C33_beta I N R : 0 < I -> 0 < N -> R <= I -> N * (I - R) < I * R -> R <= N ->
  exponential_poisson_reach I N (exponential_poisson_beta I N R) == R /\
  I <= N * (exponential_poisson_beta I N R + 1).
Proof. intros. split; [apply beta_solves|apply beta_capacity]; lra. Qed.
Print Assumptions C33_beta.

(** If it has none, the fixed value 1000 is used and the reach is missed. *)
Theorem C33_beta_refuted : exists I N R, 0 < R /\ R <= I /\ R <= N /\
  ~ exponential_poisson_reach I N (exponential_poisson_beta I N R) == R.
Proof. exists 1000, 1000, 100. repeat split; try lra. vm_compute. discriminate. Qed.
Print Assumptions C33_beta_refuted.

(** The N computed from beta solves the reach equation; beta + 1, the mean number of
    impressions of a user, must be at least the frequency I / R. *)
Theorem C33_universe_from_beta I R beta : 0 < R -> R + (1#1000) <= I -> 0 < beta -> I / R <= beta + 1 ->
  let N := exponential_poisson_N_from_beta I R beta in
  R <= N /\ exponential_poisson_reach I N beta == R /\ I <= N * (beta + 1).
Proof.
  intros HR HI Hb Hc N. apply N_from_beta_facts; auto.
  assert (I == R * (I / R)) as E by (field; lra). nra.
Qed.
Print Assumptions C33_universe_from_beta.

(** Without beta: N is chosen such that the mean is [s] times the frequency. *)
Theorem C33_universe I R s : 0 < R -> R + (1#1000) <= I -> 1 <= s ->
  exists N, exponential_poisson_N I R s = Ok N /\ R <= N /\
    exponential_poisson_beta I N R + 1 == s * (I / R) /\
    exponential_poisson_reach I N (exponential_poisson_beta I N R) == R /\
    I <= N * (exponential_poisson_beta I N R + 1).
Proof.
  intros HR HI Hs. destruct (N_facts I R s HR HI Hs) as [N [E [F1 [_ [F3 F4]]]]].
  exists N. split; auto. split; auto. split; [lra|auto].
Qed.
Print Assumptions C33_universe.

Theorem C33_scale_below_one I R s : s < 1 -> exponential_poisson_N I R s = Err ValueError.
Proof. intros H. unfold exponential_poisson_N. destruct (Qltb_spec s 1); auto; lra. Qed.
Print Assumptions C33_scale_below_one.

(** The documentation says that beta is s * (I / R - 1); it is not. *)
Theorem C33_scale_meaning_refuted : exists I R s N, 0 < R /\ R + (1#1000) <= I /\ 1 <= s /\
  exponential_poisson_N I R s = Ok N /\ ~ exponential_poisson_beta I N R == s * (I / R - 1).
Proof.
  exists 2000, 1000, (3#2). eexists. split; [lra|]. split; [lra|]. split; [lra|]. split; [vm_compute; reflexivity|].
  vm_compute. discriminate.
Qed.
Print Assumptions C33_scale_meaning_refuted.

(** The enlarging loop always ends; afterwards the inventory has room for the impressions,
    the universe has not shrunk, and beta still belongs to N. *)
Theorem C33_loop I R N beta : 0 <= R -> R <= I ->
  exists N' beta', I <= N' * (beta' + 1) /\ N <= N' /\
    ((N', beta') = (N, beta) \/ beta' = exponential_poisson_beta I N' R) /\
    exists enough, forall fuel, (enough <= fuel)%nat -> enlarge fuel I R N beta = Ok (N', beta').
Proof.
  intros H0 H1. destruct (enlarge_ends I R N beta H0 H1) as [n [[N' beta'] E]].
  exists N', beta'. destruct (enlarge_result n I R N beta N' beta' E) as [A [B C]].
  split; auto. split; auto. split; auto. exists n. intros fuel Hf. apply (enlarge_more n); auto.
Qed.
Print Assumptions C33_loop.

(** The fit to a point reproduces its reach at the impressions the model is fitted to, with
    room for them, and the universe is at least the reach. *)
Theorem C33_fit fuel p I r kp spends u Imin :
  mk_reach_point Qops [I] (r :: kp) spends u = Ok p ->
  0 < r -> r + (1#1000) <= fitted_at I Imin -> ((2 <= length kp)%nat -> 1 < fitted_at I Imin) ->
  exists N beta, fit_exponential_poisson fuel p Imin = Ok (N, beta) /\ r <= N /\ 0 < beta /\
    exponential_poisson_reach (fitted_at I Imin) N beta == r /\
    fitted_at I Imin <= N * (beta + 1).
Proof. apply fit_nondegenerate. Qed.
Print Assumptions C33_fit.

(** The impressions the model is fitted to are the training impressions unless more are
    asked for. *)
Theorem C33_fitted_at I Imin :
  (Imin <= I -> fitted_at I Imin = I) /\ (I < Imin -> fitted_at I Imin = Imin).
Proof. unfold fitted_at. split; intros H; destruct (Qltb_spec I Imin); auto; lra. Qed.
Print Assumptions C33_fitted_at.

(** What the fitted model answers at those impressions for a point that has only a 1+ reach.
    The table of the distribution stops at M - 1 impressions per user (M = 1000 in the
    code); the answer misses the reach by no more than that costs. *)
Theorem C33_model_answer x fuel kmax p I r spends u Imin cpi :
  nbinom_geometric x -> (2 <= gx_frequencies x)%Z ->
  mk_reach_point Qops [I] [r] spends u = Ok p ->
  0 < r -> r + (1#1000) <= fitted_at I Imin ->
  let J := fitted_at I Imin in
  exists N d answer v err,
    fit_point x fuel kmax p Imin = Ok (N, d) /\ km_predict N d cpi J 1 = Ok answer /\
    reach answer 1 = Ok v /\
    err == qpow (1 - 1 / ((3#2) * (J / r))) (Z.to_nat (gx_frequencies x - 1)) /\
    r - N * err <= v /\ v <= r + J * err.
Proof.
  intros G HM HP Hr HJ J.
  destruct (fit_nondegenerate fuel p I r [] spends u Imin HP Hr HJ ltac:(simpl; lia)) as [N [beta [E [F1 [F2 [F3 F4]]]]]].
  destruct (fit_short_value fuel p I r [] spends u Imin HP ltac:(simpl; lia) Hr HJ) as [N' [beta' [E' [_ [Eb _]]]]].
  rewrite E in E'. assert (beta = beta') as <- by (inversion E'; auto). clear E' N'.
  fold J in F3, F4, Eb, HJ. clearbody J. exists N, (mk_kdist x 1 beta []).
  rewrite (fit_point_single x fuel kmax p I r spends u Imin HP), E. cbn [bind].
  assert (is_distribution (kd_pmf (mk_kdist x 1 beta []))) as HD
    by (apply mk_kdist_dist; [intros v []|apply geometric_sane; auto; lra]).
  assert (nth 0 (kd_pmf (mk_kdist x 1 beta [])) 0 = 0) as H0 by (apply mk_kdist_0; left; lia).
  destruct (predict_value N (mk_kdist x 1 beta []) cpi J 1 ltac:(lra) HD ltac:(rewrite H0; reflexivity) ltac:(lia))
    as [answer [EA [_ [_ [_ HK]]]]].
  destruct (HK 1%Z ltac:(lia)) as [v [Ev Hv]].
  exists answer, v, (qpow (beta / (beta + 1)) (Z.to_nat (gx_frequencies x - 1))).
  split; auto. split; auto. split; auto. split.
  - assert (1 <= J / r) by (apply Qle_shift_div_l; lra).
    assert (beta / (beta + 1) == 1 - 1 / ((3#2) * (J / r))) as ->; [|reflexivity].
    setoid_replace beta with ((3#2) * (J / r) - 1) by exact Eb. field. split; lra.
  - pose proof (exponential_answer x N beta J G HM ltac:(lra) F2 ltac:(lra) F4) as [A1 A2].
    rewrite F3 in A1, A2. rewrite Hv. split; auto.
Qed.
Print Assumptions C33_model_answer.

(** The documented guarantee "to match the 1+ reach of the input point" fails
    - when there are as many reached users as impressions, *)
Theorem C33_match_refuted : exists p, mk_reach_point Qops [11] [11; 1; 0] None None = Ok p /\
  forall fuel, exists N beta, fit_exponential_poisson fuel p 11 = Ok (N, beta) /\
    ~ exponential_poisson_reach 11 N beta == 11.
Proof.
  eexists. split; [reflexivity|]. intros fuel. eexists _, _. split; [destruct fuel; vm_compute; reflexivity|].
  vm_compute. discriminate.
Qed.
Print Assumptions C33_match_refuted.

(** - when nobody was reached, *)
Theorem C33_zero_reach_refuted : exists p, mk_reach_point Qops [1000] [0] None None = Ok p /\
  forall fuel, (1 <= fuel)%nat -> exists N beta, fit_exponential_poisson fuel p 1000 = Ok (N, beta) /\
    ~ exponential_poisson_reach 1000 N beta == 0.
Proof.
  eexists. split; [reflexivity|]. intros [|fuel] Hf; [lia|]. eexists _, _. split; [destruct fuel; vm_compute; reflexivity|].
  vm_compute. discriminate.
Qed.
Print Assumptions C33_zero_reach_refuted.

(** - when room for more impressions is asked for: the reach of the training point is then
      predicted for that larger number, *)
Theorem C33_training_reach_refuted : exists p, mk_reach_point Qops [1000] [500] None None = Ok p /\
  forall fuel, exists N beta, fit_exponential_poisson fuel p 1000000 = Ok (N, beta) /\
    exponential_poisson_reach 1000 N beta < 340.
Proof.
  eexists. split; [reflexivity|]. intros fuel. eexists _, _. split; [destruct fuel; vm_compute; reflexivity|].
  vm_compute. reflexivity.
Qed.
Print Assumptions C33_training_reach_refuted.

(** - and a point of one impression with three or more k+ reaches cannot be fitted. *)
Theorem C33_one_impression_refuted r k2 k3 kp spends u p fuel Imin :
  0 <= r -> Imin <= 1 -> mk_reach_point Qops [1] (r :: k2 :: k3 :: kp) spends u = Ok p ->
  fit_exponential_poisson fuel p Imin = Err ZeroDivisionError.
Proof.
  intros Hr Hi HP. destruct (point_fields _ _ _ _ _ HP) as [EI [EK EF]].
  pose proof (point_reach_1 p _ _ EK) as ER.
  unfold fit_exponential_poisson, fitted_impressions, exponential_poisson_start.
  rewrite EI. change (py_index [1] 0) with (Ok 1). cbn [bind].
  destruct (Qltb_spec 1 Imin) as [H|H]; [lra|]. rewrite ER. cbn [bind]. rewrite EF, diffs_length. cbn [length].
  replace (1 <? S (S (S (length kp))) - 1)%nat with true by (symmetry; apply Nat.ltb_lt; lia).
  unfold py_div, Qeqb.
  assert (Qeq_bool (Qmin r (1 - 1)) 0 = true) as ->; [|reflexivity].
  apply Qeq_bool_iff. destruct (Qmin_cases r (1 - 1)) as [[? ->]|[? ->]]; lra.
Qed.
Print Assumptions C33_one_impression_refuted.

(** The returned model need not have room for the impressions asked for: its table holds at
    most 999 impressions per user. *)
Theorem C33_capacity_refuted : exists p, mk_reach_point Qops [1000000] [10] None None = Ok p /\
  forall x fuel kmax, nbinom_geometric x -> gx_frequencies x = 1000%Z ->
  exists N d, fit_point x fuel kmax p 1000000 = Ok (N, d) /\ N * expected_value d < 1000000.
Proof.
  eexists. split; [reflexivity|]. intros x fuel kmax G HM. set (p := Build_reach_point _ _ _ _ _ _ _).
  assert (mk_reach_point Qops [1000000] [10] None None = Ok p) as HP by reflexivity.
  destruct (fit_short_value fuel p 1000000 10 [] None None 1000000 HP ltac:(simpl; lia) ltac:(lra)) as [N [beta [E [EN [Eb _]]]]].
  { unfold fitted_at. simpl. lra. }
  exists N, (mk_kdist x 1 beta []). rewrite (fit_point_single x fuel kmax p _ _ _ _ _ HP), E. split; [reflexivity|].
  unfold fitted_at in *. change (Qltb 1000000 1000000) with false in *. cbv iota in *.
  assert (0 <= beta) as Hb by (rewrite Eb; vm_compute; discriminate).
  destruct (exponential_table x beta G Hb ltac:(lia)) as [HL [H0 _]]. rewrite HM in HL.
  pose proof (mk_kdist_dist x 1 beta [] ltac:(intros v []) (geometric_sane x beta G Hb)) as HD.
  destruct (mean_bounds _ HD ltac:(rewrite H0; reflexivity)) as [M1 M2]. rewrite HL in M2.
  rewrite expected_value_mean. set (mm := mean _) in *. rewrite Z2Nat.id in M2 by lia.
  change (inject_Z (1000 - 1)) with 999 in M2.
  assert (0 <= N /\ N <= 11) as [B1 B2] by (split; rewrite EN; vm_compute; discriminate).
  nra.
Qed.
Print Assumptions C33_capacity_refuted.

(** 1000 impressions reached 500 of 2000/3 users. *)
Example C33_example : exists p N beta, mk_reach_point Qops [1000] [500] None None = Ok p /\
  fit_exponential_poisson 0 p 10 = Ok (N, beta) /\ N == 2000 # 3 /\ beta == 2 /\
  exponential_poisson_reach 1000 N beta == 500.
Proof. eexists _, _, _. split; [reflexivity|]. split; [vm_compute; reflexivity|]. vm_compute. auto. Qed.
Example C33_example_long : exists p N beta, mk_reach_point Qops [1000] [500; 200; 100] None None = Ok p /\
  fit_exponential_poisson 0 p 10 = Ok (N, beta) /\
  exponential_poisson_reach 1000 N beta == 500.
Proof. eexists _, _, _. split; [reflexivity|]. split; [vm_compute; reflexivity|]. vm_compute. auto. Qed.
Example C33_example_loop : exists N beta, enlarge 3 100 50 40 1 = Ok (N, beta) /\ 100 <= N * (beta + 1) /\ 40 < N.
Proof. eexists _, _. split; [vm_compute; reflexivity|]. split; vm_compute; [discriminate|reflexivity]. Qed.

(** ** C34: the k-inflated distribution *)

(** The table always sums to one; it is a probability distribution for every vector of
    non-negative inflation values, also one that sums to more than one. *)
Theorem C34_distribution x alpha beta a :
  Qsum (kd_pmf (mk_kdist x alpha beta a)) == 1 /\
  ((forall v, In v a -> 0 <= v) -> nbinom_sane x alpha beta ->
   is_distribution (kd_pmf (mk_kdist x alpha beta a))).
Proof. split; [apply mk_kdist_sum|apply mk_kdist_dist]. Qed.
Print Assumptions C34_distribution.

(** Its entries: nobody has no impressions, then come the inflation values (divided by their
    sum if that exceeds one), then the Gamma-Poisson mass scaled to what is left. *)
Theorem C34_entries x alpha beta a : (Z.of_nat (length a) < gx_frequencies x - 1)%Z ->
  let l := kd_pmf (mk_kdist x alpha beta a) in
  let gp := fun n => gx_nbinom x (Z.of_nat n - 1) alpha (1 / (1 + beta)) in
  let scale := if Qleb (Qsum a) 1 then 1 else Qsum a in
  let t := total (length a) (fun i => gp (S i)) in
  length l = Z.to_nat (gx_frequencies x) /\ nth 0 l 0 == 0 /\
  (forall i, (i < length a)%nat -> nth (S i) l 0 == nth i a 0 / scale) /\
  (forall n, (length a < n)%nat -> (Z.of_nat n < gx_frequencies x - 1)%Z -> t < 1 ->
     nth n l 0 == (1 - Qsum a / scale) / (1 - t) * gp n).
Proof.
  intros HL l gp scale t.
  assert (length l = Z.to_nat (gx_frequencies x)) as HLen by (apply mk_kdist_length; lia).
  split; auto. split; [unfold l; rewrite mk_kdist_0 by (left; lia); reflexivity|].
  unfold l, mk_kdist. cbn [kd_pmf].
  set (a' := if Qltb 1 (Qsum a) then map (fun v => v / Qsum a) a else a).
  assert (length a' = length a) as La by (unfold a'; destruct (Qltb _ _); [apply map_length|auto]).
  assert (forall i, (i < length a)%nat -> nth i a' 0 == nth i a 0 / scale) as Ha.
  { intros i Hi. unfold a', scale. destruct (Qltb_spec 1 (Qsum a)); destruct (Qleb_spec (Qsum a) 1); try lra.
    - rewrite (nth_indep _ 0 (0 / Qsum a)) by (rewrite map_length; auto).
      rewrite (map_nth (fun v => v / Qsum a)). reflexivity.
    - field. }
  assert (Qsum a' == Qsum a / scale) as Hs.
  { unfold a', scale. destruct (Qltb_spec 1 (Qsum a)); destruct (Qleb_spec (Qsum a) 1); try lra; [apply Qsum_scale|field]. }
  set (tt := Qsum (map _ (py_range 1 _))). set (u := map _ (py_range _ (gx_frequencies x))).
  assert (tt == t) as Et.
  { unfold tt, t. pose proof (pmf_range x alpha beta 0 (length a')) as P. cbn [Z.of_nat] in P.
    replace (0 + 1 + Z.of_nat (length a'))%Z with (Z.of_nat (length a') + 1)%Z in P by lia. rewrite P, La.
    apply total_ext. intros k _. unfold gp. replace (Z.of_nat (S k) - 1)%Z with (Z.of_nat (0 + k)) by lia. reflexivity. }
  set (tail := if Qleb 1 tt then _ else _).
  assert (length tail = Z.to_nat (gx_frequencies x - (Z.of_nat (length a) + 1))) as Lt.
  { unfold tail, u. destruct (Qleb 1 tt); rewrite !map_length; unfold py_range; rewrite map_length, seq_length, La; reflexivity. }
  split.
  - intros i Hi. rewrite force_sum_nth by (cbn [app length]; rewrite app_length; lia).
    cbn [app nth]. rewrite app_nth1 by lia. apply Ha; auto.
  - intros n H1 H2 Ht. rewrite force_sum_nth by (cbn [app length]; rewrite app_length; lia).
    destruct n as [|n]; [lia|]. cbn [app nth]. rewrite app_nth2 by lia.
    unfold tail. destruct (Qleb_spec 1 tt); [lra|]. unfold u, py_range. rewrite !map_map.
    rewrite nth_map_seq by lia. rewrite Hs, Et. unfold gamma_poisson_pmf, gp.
    replace (Z.of_nat (length a') + 1 + Z.of_nat (n - length a') - 1)%Z with (Z.of_nat (S n) - 1)%Z by lia.
    reflexivity.
Qed.
Print Assumptions C34_entries.

(** Nothing checks the sign of the inflation values. *)
Theorem C34_negative_inflation_refuted : forall x beta, (2 < gx_frequencies x)%Z ->
  ~ is_distribution (kd_pmf (mk_kdist x 1 beta [-(1#2)])).
Proof.
  intros x beta HM [H _].
  destruct (C34_entries x 1 beta [-(1#2)]) as [HL [_ [HE _]]]; [cbn [length]; lia|].
  specialize (HE O ltac:(simpl; lia)). cbn [nth] in HE.
  assert (In (nth 1 (kd_pmf (mk_kdist x 1 beta [-(1#2)])) 0) (kd_pmf (mk_kdist x 1 beta [-(1#2)]))) as HI
    by (apply nth_In; rewrite HL; lia).
  specialize (H _ HI). rewrite HE in H. vm_compute in H. apply H. reflexivity.
Qed.
Print Assumptions C34_negative_inflation_refuted.

(** The k+ reach probability is the probability that a user, whose number of impressions has
    this distribution, is shown at least [k] of them, each with probability [p]. *)
Theorem C34_kplus (d : kdist) k p : Qsum (kd_pmf d) == 1 ->
  exists v, kplusreach d k p = Ok v /\ v == shown_at_least (kd_pmf d) k p.
Proof. apply kplusreach_value. Qed.
Print Assumptions C34_kplus.

(** Exactly [k], for consecutive frequencies. *)
Theorem C34_exactly (d : kdist) k n p : exists l, kreach d (seq k n) p = Ok l /\ length l = n /\
  forall i, (i < n)%nat ->
    nth i l 0 == shown_at_least (kd_pmf d) (k + i) p - shown_at_least (kd_pmf d) (S (k + i)) p.
Proof.
  destruct (kreach_seq d k n p) as [l [E [Hl Hn]]]. exists l. split; auto. split; auto.
  intros i Hi. rewrite Hn by auto. apply shown_exactly_diff.
Qed.
Print Assumptions C34_exactly.

(** Frequencies that are not consecutive are refused. *)
Theorem C34_gap_fails (d : kdist) k k' r p : k' <> k -> k' <> S k ->
  kreach d (k :: k' :: r) p = Err RuntimeError.
Proof.
  intros H1 H2. unfold kreach.
  assert (consecutive (k :: k' :: r) = false) as ->; [|reflexivity].
  unfold consecutive. set (m := (S _ - k)%nat).
  destruct (list_eq_dec Nat.eq_dec (k :: k' :: r) (seq k m)) as [E|E].
  - destruct m as [|[|m]]; inversion E. congruence.
  - cbn [forallb]. destruct (Nat.eqb_spec k k'); [congruence|]. rewrite andb_false_l, !andb_false_r. reflexivity.
Qed.
Print Assumptions C34_gap_fails.

(** For a distribution the k+ reach probabilities lie between 0 and 1, decrease in k and
    increase with the share of impressions shown; with none shown nobody is reached, with
    all shown everybody. *)
Theorem C34_shape (d : kdist) k p q : is_distribution (kd_pmf d) -> 0 <= p -> p <= q -> q <= 1 ->
  exists v w u, kplusreach d k p = Ok v /\ kplusreach d (S k) p = Ok w /\ kplusreach d k q = Ok u /\
    0 <= w /\ w <= v /\ v <= u /\ u <= 1.
Proof.
  intros D H0 H1 H2.
  destruct (kplusreach_value d k p (proj2 D)) as [v [Ev Hv]].
  destruct (kplusreach_value d (S k) p (proj2 D)) as [w [Ew Hw]].
  destruct (kplusreach_value d k q (proj2 D)) as [u [Eu Hu]].
  exists v, w, u. split; auto. split; auto. split; auto. rewrite Hv, Hw, Hu.
  split; [apply shown_bounds; auto; lra|]. split; [apply shown_k; auto; lra|].
  split; [apply shown_p; auto|]. apply shown_bounds; auto; lra.
Qed.
Print Assumptions C34_shape.
Theorem C34_extremes (d : kdist) k : is_distribution (kd_pmf d) -> nth 0 (kd_pmf d) 0 == 0 ->
  exists v w, kplusreach d (S k) 0 = Ok v /\ v == 0 /\ kplusreach d 1 1 = Ok w /\ w == 1.
Proof.
  intros D H0.
  destruct (kplusreach_value d (S k) 0 (proj2 D)) as [v [Ev Hv]].
  destruct (kplusreach_value d 1 1 (proj2 D)) as [w [Ew Hw]].
  exists v, w. split; auto. split.
  - rewrite Hv. apply total_0. intros n _. rewrite at_least_zero. ring.
  - split; auto. rewrite Hw. apply shown_full; auto.
Qed.
Print Assumptions C34_extremes.

(** The answer of a fitted model to [imp] impressions: its k+ reach is N times the chance of
    being shown at least k impressions; it costs what the impressions cost. *)
Theorem C34_answer N d cpi imp f : 0 < N -> is_distribution (kd_pmf d) -> nth 0 (kd_pmf d) 0 == 0 ->
  (1 <= f)%nat ->
  exists p, km_predict N d cpi imp f = Ok p /\ rp_impressions p = [imp] /\
    max_frequency p = Z.of_nat f /\
    rp_spends p = match cpi with
                  | Some c => if Qeqb c 0 then None else Some [imp * c]
                  | None => None end /\
    forall k, (1 <= k <= Z.of_nat f)%Z -> exists r, reach p k = Ok r /\
      r == N * shown_at_least (kd_pmf d) (Z.to_nat k) (shown_chance N (kd_pmf d) imp).
Proof.
  intros HN HD H0 Hf. destruct (predict_value N d cpi imp f HN HD H0 Hf) as [p [E [E1 [E2 [E3 E4]]]]].
  exists p. split; auto. split; auto. split; [unfold max_frequency; rewrite E2; reflexivity|].
  split; auto. rewrite E3. unfold truthy_cost. destruct cpi as [c|]; auto. destruct (Qeqb c 0); auto.
Qed.
Print Assumptions C34_answer.

(** More impressions never give less reach at any frequency, the reach never exceeds the
    universe of the model and is all of it once its inventory is used up, and higher
    frequencies reach fewer people. *)
Theorem C34_answer_shape N d cpi imp imp' f p p' k r r' :
  0 < N -> is_distribution (kd_pmf d) -> nth 0 (kd_pmf d) 0 == 0 -> (1 <= f)%nat ->
  0 <= imp -> imp <= imp' ->
  km_predict N d cpi imp f = Ok p -> km_predict N d cpi imp' f = Ok p' ->
  reach p k = Ok r -> reach p' k = Ok r' ->
  0 <= r /\ r <= r' /\ r' <= N /\
  (k = 1%Z -> N * expected_value d <= imp -> r == N) /\
  (forall r2, reach p (k + 1) = Ok r2 -> r2 <= r).
Proof.
  intros HN HD H0 Hf Hi Hii E E' ER ER'.
  destruct (predict_value N d cpi imp f HN HD H0 Hf) as [p1 [E1 [_ [L1 [_ K1]]]]].
  rewrite E in E1. assert (p = p1) as <- by (inversion E1; auto). clear E1.
  destruct (predict_value N d cpi imp' f HN HD H0 Hf) as [p2 [E2 [_ [L2 [_ K2]]]]].
  rewrite E' in E2. assert (p' = p2) as <- by (inversion E2; auto). clear E2.
  destruct (mean_bounds _ HD H0) as [M1 _].
  assert (1 <= k <= Z.of_nat f)%Z as Hk.
  { unfold reach, max_frequency in ER. rewrite L1 in ER. destruct (Z.ltb_spec 0 k); destruct (Z.leb_spec k (Z.of_nat f)); cbn [andb] in ER; try discriminate; lia. }
  destruct (K1 k Hk) as [v [Ev Hv]]. rewrite ER in Ev. assert (r = v) as <- by (inversion Ev; auto). clear Ev.
  destruct (K2 k Hk) as [v' [Ev Hv']]. rewrite ER' in Ev. assert (r' = v') as <- by (inversion Ev; auto). clear Ev.
  destruct (shown_chance_bounds N (kd_pmf d) imp HN M1 Hi) as [S0 S1].
  destruct (shown_chance_bounds N (kd_pmf d) imp' HN M1 ltac:(lra)) as [S0' S1'].
  pose proof (shown_chance_mono N (kd_pmf d) imp imp' HN M1 Hii) as SM.
  destruct (shown_bounds _ (Z.to_nat k) _ HD S0 S1) as [B0 B1].
  destruct (shown_bounds _ (Z.to_nat k) _ HD S0' S1') as [B0' B1'].
  pose proof (shown_p _ (Z.to_nat k) _ _ HD S0 SM S1') as BP.
  rewrite Hv, Hv'. split; [nra|]. split; [nra|]. split; [nra|]. split.
  - intros -> Hcap. assert (shown_chance N (kd_pmf d) imp == 1) as EC.
    { rewrite expected_value_mean in Hcap. unfold shown_chance.
      assert (1 <= imp / (N * mean (kd_pmf d))) by (apply Qle_shift_div_l; [nra|lra]).
      destruct (Qmin_cases (imp / (N * mean (kd_pmf d))) 1) as [[? ->]|[? ->]]; lra. }
    rewrite EC. change (Z.to_nat 1) with 1%nat. rewrite shown_full by auto. ring.
  - intros r2 E2.
    assert (1 <= k + 1 <= Z.of_nat f)%Z as Hk2.
    { unfold reach, max_frequency in E2. rewrite L1 in E2. destruct (Z.ltb_spec 0 (k + 1)); destruct (Z.leb_spec (k + 1) (Z.of_nat f)); cbn [andb] in E2; try discriminate; lia. }
    destruct (K1 _ Hk2) as [w [Ew Hw]]. rewrite E2 in Ew. assert (r2 = w) as <- by (inversion Ew; auto).
    rewrite Hw. replace (Z.to_nat (k + 1)) with (S (Z.to_nat k)) by lia.
    pose proof (shown_k _ (Z.to_nat k) _ HD S0 S1). nra.
Qed.
Print Assumptions C34_answer_shape.

(** Impressions are conserved: up to the inventory, the answer for all frequencies accounts
    for exactly the impressions bought. *)
Theorem C34_conserved N d cpi imp f p : 0 < N -> is_distribution (kd_pmf d) -> nth 0 (kd_pmf d) 0 == 0 ->
  (1 <= f)%nat -> (length (kd_pmf d) <= S f)%nat -> imp <= N * expected_value d ->
  km_predict N d cpi imp f = Ok p -> Qsum (rp_kplus p) == imp.
Proof.
  intros HN HD H0 Hf HL Hc E. destruct (predict_value N d cpi imp f HN HD H0 Hf) as [p1 [E1 [_ [L1 [_ K1]]]]].
  rewrite E in E1. assert (p = p1) as <- by (inversion E1; auto). clear E1.
  destruct (mean_bounds _ HD H0) as [M1 _].
  rewrite (Qsum_nth (rp_kplus p) f (fun j => N * shown_at_least (kd_pmf d) (S j) (shown_chance N (kd_pmf d) imp)) L1).
  - rewrite total_scal, shown_mean by auto. rewrite expected_value_mean in Hc. unfold shown_chance.
    assert (imp / (N * mean (kd_pmf d)) <= 1) by (apply Qle_shift_div_r; [nra|lra]).
    assert (Qmin (imp / (N * mean (kd_pmf d))) 1 == imp / (N * mean (kd_pmf d))) as ->
      by (destruct (Qmin_cases (imp / (N * mean (kd_pmf d))) 1) as [[? ->]|[? ->]]; lra).
    field. split; lra.
  - intros i Hi. destruct (K1 (Z.of_nat (S i)) ltac:(lia)) as [r [Er Hr]].
    rewrite point_reach_nth in Er by (rewrite L1; lia).
    replace (Z.to_nat (Z.of_nat (S i) - 1)) with i in Er by lia. inversion Er as [Er']. rewrite Er', Hr, Nat2Z.id.
    reflexivity.
Qed.
Print Assumptions C34_conserved.

(** The inflation loop ends after at most [kmax] rounds with at most [kmax] inflation values
    and a table that sums to one, whatever the minimiser returns. *)
Theorem C34_inflation x kmax h I Imin fuel N d score :
  (forall obj l, gx_minimize x obj l <> Err OtherError) ->
  (forall obj l l', gx_minimize x obj l = Ok l' -> length l' = length l) ->
  Qsum (kd_pmf d) == 1 -> (length (kd_a d) <= kmax)%nat -> (kmax <= length (kd_a d) + fuel)%nat ->
  match inflate x fuel kmax h I Imin N d score with
  | Ok (_, d') => (length (kd_a d) <= length (kd_a d') <= kmax)%nat /\ Qsum (kd_pmf d') == 1
  | Err e => e <> OtherError
  end.
Proof. intros H1 H2. apply inflate_facts; auto. Qed.
Print Assumptions C34_inflation.

(** A scipy for which the examples compute: five impressions per user at most. *)
Definition small_scipy : gamma_externals :=
  {| gx_nbinom := fun k _ p => (p * qpow (1 - p) (Z.to_nat k))%Q; gx_chi2_cdf := fun _ _ => 0%Q;
     gx_minimize := fun _ l => Ok l; gx_frequencies := 6%Z |}.
Lemma small_scipy_geometric : nbinom_geometric small_scipy.
Proof. intros k p _ _. simpl. rewrite Nat2Z.id. reflexivity. Qed.
Example C34_example : is_distribution (kd_pmf (mk_kdist small_scipy 1 2 [1#2; 1#4])) /\
  map Qred (kd_pmf (mk_kdist small_scipy 1 2 [1#2; 1#4])) = [0; 1#2; 1#4; 1#12; 1#18; 1#9].
Proof.
  split; [|vm_compute; reflexivity]. apply C34_distribution.
  - intros v [<-|[<-|[]]]; lra.
  - apply geometric_sane; [apply small_scipy_geometric|lra].
Qed.
Example C34_example_answer : exists p,
  km_predict 100 (mk_kdist small_scipy 1 2 [1#2; 1#4]) (Some (1#10)) 80 5 = Ok p /\
  Qsum (rp_kplus p) == 80 /\ rp_spends p = Some [80 * (1#10)].
Proof.
  destruct C34_example as [D E]. set (d := mk_kdist small_scipy 1 2 [1#2; 1#4]) in *.
  assert (nth 0 (kd_pmf d) 0 == 0) as H0
    by (unfold d; rewrite mk_kdist_0 by (right; discriminate); reflexivity).
  assert (length (kd_pmf d) = 6%nat) as HL by (apply mk_kdist_length; simpl; lia).
  destruct (mean_bounds _ D H0) as [M _].
  destruct (C34_answer 100 d (Some (1#10)) 80 5 ltac:(lra) D H0 ltac:(lia)) as [p [EP [_ [_ [ES _]]]]].
  exists p. split; [exact EP|]. split; [|exact ES].
  assert (80 <= 100 * expected_value d) by (rewrite expected_value_mean; lra).
  apply (C34_conserved 100 d (Some (1#10)) 80 5 p); auto; try lra; lia.
Qed.

(** ** C35: histories of queries *)

(** Once a query has fitted the model, every later answer is determined by that fit: it does
    not matter what else was asked. *)
Theorem C35_after_first_fit x fuel m first f rest imps f' :
  km_fit m = None -> km_fit (snd (km_by_impressions x fuel m first f)) <> None ->
  km_by_impressions x fuel (after_queries x fuel m ((first, f) :: rest)) imps f' =
  km_by_impressions x fuel (after_queries x fuel m [(first, f)]) imps f'.
Proof.
  intros H0 H1. cbn [after_queries].
  destruct (km_fit (snd (km_by_impressions x fuel m first f))) as [[N d]|] eqn:E; [|congruence].
  rewrite (after_fitted x fuel _ N d rest E). reflexivity.
Qed.
Print Assumptions C35_after_first_fit.

(** A query that fails to fit the model leaves no trace. *)
Theorem C35_failed_query x fuel m first f rest :
  km_fit m = None -> km_fit (snd (km_by_impressions x fuel m first f)) = None ->
  after_queries x fuel m ((first, f) :: rest) = after_queries x fuel m rest.
Proof.
  intros H0 H1. cbn [after_queries]. destruct (query_unfitted x fuel m first f H0) as [->|[N [d E]]]; congruence.
Qed.
Print Assumptions C35_failed_query.

(** A model of a point with only a 1+ reach answers a query below its training impressions in
    the same way after any history of such queries. *)
Theorem C35_within_training x fuel p I r spends u kmax mult m qs imp f :
  mk_reach_point Qops [I] [r] spends u = Ok p -> mk_kmodel [p] kmax mult = Ok m ->
  (forall imps f', In (imps, f') qs -> exists i, imps = [i] /\ i + 1 <= I) -> imp + 1 <= I ->
  fst (km_by_impressions x fuel (after_queries x fuel m qs) [imp] f) =
  fst (km_by_impressions x fuel m [imp] f).
Proof.
  intros HP HM Hq Himp. destruct (point_fields _ _ _ _ _ HP) as [EI [EK EF]].
  assert (km_fit m = None /\ km_point m = p) as [F0 FP].
  { unfold mk_kmodel in HM. rewrite EI in HM. change (py_index [I] 0) with (Ok I) in HM. cbn [bind] in HM.
    destruct (Qltb I (1#1000)); [discriminate|]. rewrite (point_reach_1 p r [] EK) in HM. cbn [bind] in HM.
    destruct (Qltb I r); [discriminate|].
    destruct (match rp_spends p with Some l => _ | None => _ end) as [c|]; [|discriminate].
    cbn [bind] in HM. inversion HM. auto. }
  assert (forall i, i + 1 <= I -> fit_point x fuel (km_kmax m) p (i + 1) = fit_point x fuel (km_kmax m) p I) as FE.
  { intros i Hi. rewrite !(fit_point_single x fuel _ p I r spends u _ HP).
    unfold fit_exponential_poisson, fitted_impressions. rewrite EI. change (py_index [I] 0) with (Ok I). cbn [bind].
    destruct (Qltb_spec I (i + 1)); [lra|]. destruct (Qltb_spec I I); [lra|]. reflexivity. }
  assert (forall i, i + 1 <= I -> km_fitted x fuel m (Some (i + 1)) = km_fitted x fuel m (Some I)) as KE.
  { intros i Hi. unfold km_fitted. rewrite F0, FP, FE by auto. reflexivity. }
  destruct (km_fitted x fuel m (Some I)) as [m'|e] eqn:E.
  - assert (exists N d, km_fit m' = Some (N, d)) as [N [d Ef]].
    { unfold km_fitted in E. rewrite F0 in E. destruct (fit_point x fuel (km_kmax m) (km_point m) I) as [[N d]|]; cbn [bind] in E; [|discriminate E].
      cbn [bind] in E. inversion E. cbn. eauto. }
    assert (after_queries x fuel m qs = m \/ after_queries x fuel m qs = m') as [H|H].
    { destruct qs as [|[imps f'] qs]; [auto|]. right. destruct (Hq imps f' (or_introl eq_refl)) as [i [-> Hi]].
      cbn [after_queries]. unfold km_by_impressions at 1. rewrite (KE i Hi), Ef. cbn [snd].
      apply (after_fitted x fuel m' N d). exact Ef. }
    + rewrite H. reflexivity.
    + rewrite H. unfold km_by_impressions. rewrite (KE imp Himp), Ef. cbn [fst].
      unfold km_fitted at 1. rewrite Ef, Ef. reflexivity.
  - assert (after_queries x fuel m qs = m) as H; [|rewrite H; reflexivity].
    clear - Hq KE. induction qs as [|[imps f'] qs IH]; [reflexivity|].
    destruct (Hq imps f' (or_introl eq_refl)) as [i [-> Hi]]. cbn [after_queries].
    unfold km_by_impressions at 1. rewrite (KE i Hi). cbn [snd]. apply IH. intros. eapply Hq. right. eauto.
Qed.
Print Assumptions C35_within_training.

(** In general the history matters: the model is fitted with room for the first query. Asked
    for 10^9 impressions, a fresh model of 1000 impressions and reach 500 predicts a reach of
    about 500; after a query for one impression it predicts 2000/3. *)
Theorem C35_history_refuted : exists p m,
  mk_reach_point Qops [1000] [500] None None = Ok p /\ mk_kmodel [p] 10 2 = Ok m /\
  forall x fuel, nbinom_geometric x -> gx_frequencies x = 1000%Z ->
  exists fresh later v w,
    fst (km_by_impressions x fuel m [1000000000] 1) = Ok fresh /\ reach fresh 1 = Ok v /\ v < 501 /\
    fst (km_by_impressions x fuel (after_queries x fuel m [([1], 1%nat)]) [1000000000] 1) = Ok later /\
    reach later 1 = Ok w /\ w == 2000 # 3.
Proof.
  eexists _, _. split; [reflexivity|]. split; [vm_compute; reflexivity|].
  set (p := Build_reach_point _ _ _ _ _ _ _). set (m := Build_kmodel _ _ _ _ _).
  assert (mk_reach_point Qops [1000] [500] None None = Ok p) as HP by reflexivity.
  intros x fuel G HM.
  assert (forall Imin, exists N beta, fit_point x fuel 10 p Imin = Ok (N, mk_kdist x 1 beta []) /\ 0 <= beta /\
    N == 500 * ((3#2) * fitted_at 1000 Imin - 500) / ((3#2) * (fitted_at 1000 Imin - 500)) /\ 500 <= N) as FIT.
  { intros Imin.
    assert (1000 <= fitted_at 1000 Imin) as HJ by (unfold fitted_at; destruct (Qltb_spec 1000 Imin); lra).
    destruct (fit_short_value fuel p 1000 500 [] None None Imin HP ltac:(simpl; lia) ltac:(lra) ltac:(lra)) as [N [beta [E [EN [Eb HN]]]]].
    exists N, beta. rewrite (fit_point_single x fuel 10 p _ _ _ _ _ HP), E. split; [reflexivity|].
    split; [|auto]. rewrite Eb. assert (2 <= fitted_at 1000 Imin / 500) by (apply Qle_shift_div_l; lra). lra. }
  assert (forall N beta, 0 <= beta -> 500 <= N -> N <= 1000 ->
    exists ans v, km_predict N (mk_kdist x 1 beta []) None 1000000000 1 = Ok ans /\ reach ans 1 = Ok v /\ v == N) as ANS.
  { intros N beta Hb H1 H2.
    destruct (exponential_table x beta G Hb ltac:(lia)) as [HL [H0 _]]. rewrite HM in HL.
    pose proof (mk_kdist_dist x 1 beta [] ltac:(intros v []) (geometric_sane x beta G Hb)) as HD.
    assert (nth 0 (kd_pmf (mk_kdist x 1 beta [])) 0 == 0) as H0' by (rewrite H0; reflexivity).
    destruct (mean_bounds _ HD H0') as [M1 M2]. rewrite HL in M2. rewrite Z2Nat.id in M2 by lia.
    change (inject_Z (1000 - 1)) with 999 in M2.
    destruct (C34_answer N _ None 1000000000 1 ltac:(lra) HD H0' ltac:(lia)) as [ans [EA [_ [_ [_ HK]]]]].
    destruct (HK 1%Z ltac:(lia)) as [v [Ev Hv]].
    exists ans, v. split; auto. split; auto.
    apply (C34_answer_shape N _ None 1000000000 1000000000 1 ans ans 1 v v ltac:(lra) HD H0' ltac:(lia)
      ltac:(lra) ltac:(lra) EA EA Ev Ev); auto.
    rewrite expected_value_mean. set (mm := mean _) in *. nra. }
  destruct (FIT (1000000000 + 1)) as [N1 [b1 [E1 [B1 [V1 L1]]]]].
  destruct (FIT (1 + 1)) as [N2 [b2 [E2 [B2 [V2 L2]]]]].
  unfold fitted_at in V1, V2. change (Qltb 1000 (1000000000 + 1)) with true in V1. change (Qltb 1000 (1 + 1)) with false in V2.
  cbv iota in V1, V2.
  assert (N1 < 501) as U1 by (rewrite V1; vm_compute; reflexivity).
  assert (N2 == 2000 # 3) as U2 by (rewrite V2; vm_compute; reflexivity).
  destruct (ANS N1 b1 B1 L1 ltac:(lra)) as [a1 [v1 [EA1 [ER1 EV1]]]].
  destruct (ANS N2 b2 B2 L2 ltac:(lra)) as [a2 [v2 [EA2 [ER2 EV2]]]].
  exists a1, a2, v1, v2.
  assert (km_by_impressions x fuel m [1000000000] 1 = (Ok a1, Build_kmodel p 10 (km_extrapolation m) None (Some (N1, mk_kdist x 1 b1 [])))) as ->.
  { unfold km_by_impressions, km_fitted. change (km_fit m) with (@None (Q * kdist)). cbv iota.
    change (km_kmax m) with 10%nat. change (km_point m) with p. rewrite E1. cbn [bind km_fit km_cpi]. change (km_cpi m) with (@None Q). rewrite EA1. reflexivity. }
  assert (after_queries x fuel m [([1], 1%nat)] = Build_kmodel p 10 (km_extrapolation m) None (Some (N2, mk_kdist x 1 b2 []))) as ->.
  { cbn [after_queries]. unfold km_by_impressions, km_fitted. change (km_fit m) with (@None (Q * kdist)). cbv iota.
    change (km_kmax m) with 10%nat. change (km_point m) with p. rewrite E2. cbn [bind km_fit]. reflexivity. }
  split; [reflexivity|]. split; [auto|]. split; [rewrite EV1; auto|].
  split; [|split; [exact ER2|rewrite EV2; exact U2]].
  unfold km_by_impressions, km_fitted. cbn [km_fit km_cpi]. rewrite EA2. reflexivity.
Qed.
Print Assumptions C35_history_refuted.

Example C35_example : exists p m, mk_reach_point Qops [1000] [500] None None = Ok p /\
  mk_kmodel [p] 10 2 = Ok m /\ km_fit m = None /\
  km_fit (snd (km_by_impressions small_scipy 0 m [10] 1)) <> None.
Proof.
  eexists _, _. split; [reflexivity|]. split; [vm_compute; reflexivity|]. split; [reflexivity|].
  intros H. vm_compute in H. discriminate H.
Qed.
