(** Lemmas on the exponential-Poisson fit and on the answers of the k-inflated model. *)
From Coq Require Import Lqa Qfield Qround.
From Verif Require Import Prelude ModelReachPoint ModelCurves SpecSurface ModelSurface SurfaceLemmas
  SurfaceLemmas2 HaloLemmas ReachPointLemmas ModelGamma SpecGamma GammaLemmas.
Open Scope Z_scope.

Lemma Qleb_spec a b : BoolSpec (a <= b)%Q (b < a)%Q (Qleb a b).
Proof.
  unfold Qleb. destruct (Qle_bool a b) eqn:E; constructor.
  - apply Qle_bool_iff; auto.
  - apply Qnot_le_lt. intros C. apply Qle_bool_iff in C. congruence.
Qed.
Lemma Qltb_spec a b : BoolSpec (a < b)%Q (b <= a)%Q (Qltb a b).
Proof. unfold Qltb. destruct (Qleb_spec b a) as [H|H]; unfold Qleb in *; destruct (Qle_bool b a) eqn:E; constructor; auto;
  try (apply Qle_bool_iff in E; lra); apply Qnot_le_lt; intros C; apply Qle_bool_iff in C; congruence.
Qed.

Local Open Scope Q_scope.

(** ** Division *)

Lemma Qdiv_pos a b : 0 < a -> 0 < b -> 0 < a / b.
Proof. intros. apply Qlt_shift_div_l; lra. Qed.
Lemma Qdiv_nonneg a b : 0 <= a -> 0 < b -> 0 <= a / b.
Proof. intros. apply Qle_shift_div_l; lra. Qed.
Lemma Qdiv_eq a b c : 0 < b -> a == c * b -> a / b == c.
Proof. intros H E. rewrite E. field. lra. Qed.

(** ** The closed form *)

Lemma unreached_closed beta q m : 0 <= beta -> 0 <= q -> q <= 1 ->
  (1 - beta / (beta + 1) * (1 - q)) * unreached beta q m ==
  (1 - q) * (1 / (beta + 1)) * (1 - qpow (beta / (beta + 1) * (1 - q)) m).
Proof.
  intros Hb H0 H1. unfold unreached, inventory_mass.
  rewrite (total_ext m _ (fun i => (1 - q) * (1 / (beta + 1)) * qpow (beta / (beta + 1) * (1 - q)) i)).
  - rewrite total_scal.
    assert ((1 - beta / (beta + 1) * (1 - q)) * total m (fun i => qpow (beta / (beta + 1) * (1 - q)) i)
            == 1 - qpow (beta / (beta + 1) * (1 - q)) m) as E.
    { set (z := beta / (beta + 1) * (1 - q)). induction m as [|m IH]; cbn [total qpow]; [ring|].
      rewrite Qmult_plus_distr_r, IH. ring. }
    setoid_replace (1 - qpow (beta / (beta + 1) * (1 - q)) m) with ((1 - beta / (beta + 1) * (1 - q)) * total m (fun i => qpow (beta / (beta + 1) * (1 - q)) i)) by (symmetry; exact E).
    set (T := total m _). ring.
  - intros i _. replace (S i - 1)%nat with i by lia. cbn [qpow].
    assert (qpow (beta / (beta + 1) * (1 - q)) i == qpow (beta / (beta + 1)) i * qpow (1 - q) i) as ->.
    { induction i as [|i IH]; cbn [qpow]; [ring|]. rewrite IH. ring. }
    ring.
Qed.

Lemma reach_closed I N beta : 0 < N -> 0 <= beta -> 0 <= I -> I < (beta + 1) * N ->
  exponential_poisson_reach I N beta == N * I * (beta + 1) / (N + beta * (N + I)).
Proof.
  intros. unfold exponential_poisson_reach. destruct (Qleb_spec ((beta + 1) * N) I); [lra|reflexivity].
Qed.

Lemma series_bounds I N beta m : 0 < N -> 0 <= beta -> 0 <= I -> I < (beta + 1) * N ->
  exponential_poisson_reach I N beta <= N * (1 - unreached beta (I / ((beta + 1) * N)) m) /\
  N * (1 - unreached beta (I / ((beta + 1) * N)) m) <=
  exponential_poisson_reach I N beta + N * qpow (beta / (beta + 1) * (1 - I / ((beta + 1) * N))) m.
Proof.
  intros HN Hb HI HC. set (q := I / ((beta + 1) * N)).
  assert (0 < (beta + 1) * N) as HP by nra.
  assert (0 <= q) as H0 by (apply Qdiv_nonneg; auto).
  assert (q < 1) as H1 by (apply Qlt_shift_div_r; lra).
  set (p := beta / (beta + 1)).
  assert (0 <= p) as P0 by (apply Qdiv_nonneg; lra).
  assert (p < 1) as P1 by (apply Qlt_shift_div_r; lra).
  pose proof (unreached_closed beta q m Hb H0 ltac:(lra)) as U.
  set (u := unreached beta q m) in *. set (w := qpow _ m) in *.
  set (z := p * (1 - q)).
  assert (0 <= z) as Z0 by (unfold z; nra). assert (z < 1) as Z1 by (unfold z; nra).
  assert (0 <= w) as W0 by (apply qpow_nonneg; exact Z0).
  assert (w <= 1) as W1 by (apply qpow_le_1; [exact Z0|apply Qlt_le_weak, Z1]).
  change (beta / (beta + 1) * (1 - q)) with z in U.
  assert (exponential_poisson_reach I N beta == N * (1 - (1 - q) * (1 / (beta + 1)) / (1 - z))) as E.
  { rewrite reach_closed by auto.
    assert (I == q * ((beta + 1) * N)) as EI by (unfold q; field; nra).
    assert (z == beta * (1 - q) / (beta + 1)) as Ez by (unfold z, p; field; lra).
    assert (~ (1 - z == 0)) by lra. 
    assert (1 - z == (1 + beta * q) / (beta + 1)) as E1 by (rewrite Ez; field; lra).
    assert (0 < 1 + beta * q) by nra.
    rewrite E1, EI. field. repeat split; try nra. }
  rewrite E. set (L := (1 - q) * (1 / (beta + 1)) / (1 - z)).
  assert (u == L * (1 - w)) as Eu.
  { assert (~ (1 - z == 0)) as NZ by lra. apply (Qmult_inj_l _ _ (1 - z) NZ). rewrite U. unfold L. field. split; lra. }
  assert (0 < 1 / (beta + 1)) by (apply Qdiv_pos; lra).
  assert (0 <= L) as L0 by (apply Qdiv_nonneg; nra).
  assert (L <= 1) as L1.
  { apply Qle_shift_div_r; [lra|]. assert (1 / (beta + 1) == 1 - p) as -> by (unfold p; field; lra). unfold z. nra. }
  rewrite Eu. split; [|].
  - rewrite !(Qmult_comm N). apply Qmult_le_compat_r; [|lra]. nra.
  - assert (N * (1 - L * (1 - w)) == N * (1 - L) + N * (L * w)) as -> by ring.
    assert (L * w <= w) by nra. nra.
Qed.

(** ** Solving for beta and for N *)

Lemma beta_plus_1 I N R : 0 < I * R - N * (I - R) ->
  exponential_poisson_beta I N R + 1 == I * R / (I * R - N * (I - R)).
Proof.
  intros H. unfold exponential_poisson_beta. destruct (Qleb_spec (I * R - N * (I - R)) 0); [lra|].
  field. lra.
Qed.

Lemma beta_capacity I N R : 0 < I -> 0 < I * R - N * (I - R) -> R <= N ->
  I <= N * (exponential_poisson_beta I N R + 1).
Proof.
  intros HI HD HR. rewrite beta_plus_1 by auto.
  assert (N * (I * R / (I * R - N * (I - R))) == N * (I * R) / (I * R - N * (I - R))) as -> by (field; lra).
  apply Qle_shift_div_l; auto. nra.
Qed.

Lemma beta_solves I N R : 0 < I -> 0 < N -> R <= I -> 0 < I * R - N * (I - R) -> R <= N ->
  exponential_poisson_reach I N (exponential_poisson_beta I N R) == R.
Proof.
  intros HI HN HRI HD HR.
  pose proof (beta_capacity I N R HI HD HR) as HC.
  pose proof (beta_plus_1 I N R HD) as E1.
  unfold exponential_poisson_reach. destruct (Qleb_spec ((exponential_poisson_beta I N R + 1) * N) I) as [H|H].
  - assert (I * (I * R - N * (I - R)) == N * (I * R)) as Q.
    { assert (I == N * (I * R / (I * R - N * (I - R)))) as QQ by (rewrite <- E1; lra).
      rewrite QQ at 1. field. lra. }
    assert (I * (I * N) == I * (I * R)) as G by (ring_simplify; ring_simplify in Q; lra).
    do 2 (apply Qmult_inj_l in G; [|lra]). exact G.
  - unfold exponential_poisson_beta in *. destruct (Qleb_spec (I * R - N * (I - R)) 0); [lra|].
    set (D := I * R - N * (I - R)) in *.
    set (b := N * (I - R) / D) in *.
    assert (b + 1 == I * R / D) as E by (unfold b, D in *; field; auto; lra).
    assert (0 <= b) by (apply Qdiv_nonneg; nra).
    assert (0 < N + b * (N + I)) by nra.
    apply Qdiv_eq; auto.
    assert (b * D == N * (I - R)) as Eb by (unfold b; field; lra).
    assert (D * (N * I * (b + 1)) == D * (R * (N + b * (N + I)))) as G.
    { transitivity (N * I * (b * D + D)); [ring|]. transitivity (R * (N * D + (b * D) * (N + I))); [|ring].
      rewrite Eb. unfold D. ring. }
    apply Qmult_inj_l in G; auto. lra.
Qed.

Lemma N_from_beta_facts I R beta : 0 < R -> R + (1#1000) <= I -> 0 < beta -> I <= R * (beta + 1) ->
  R <= exponential_poisson_N_from_beta I R beta /\
  exponential_poisson_reach I (exponential_poisson_N_from_beta I R beta) beta == R /\
  I <= exponential_poisson_N_from_beta I R beta * (beta + 1).
Proof.
  intros HR HI Hb Hc. unfold exponential_poisson_N_from_beta.
  destruct (Qltb_spec I (R + (1#1000))); [lra|].
  assert (- (I * beta * R) / ((beta + 1) * (R - I)) == I * beta * R / ((beta + 1) * (I - R))) as E.
  { field. split; lra. }
  set (N := - (I * beta * R) / ((beta + 1) * (R - I))) in *.
  assert (0 < (beta + 1) * (I - R)) as HP by nra.
  assert (N * ((beta + 1) * (I - R)) == I * beta * R) as EN by (rewrite E; field; lra).
  assert (R <= N) as HN. { rewrite E. apply Qle_shift_div_l; auto. nra. }
  split; auto.
  assert (I <= N * (beta + 1)) as HC.
  { apply (Qmult_le_r _ _ (I - R)); [lra|]. 
    assert (N * (beta + 1) * (I - R) == I * beta * R) as -> by (rewrite <- EN; ring). nra. }
  split; auto.
  unfold exponential_poisson_reach. destruct (Qleb_spec ((beta + 1) * N) I) as [HH|HH].
  - assert (N * (beta + 1) == I) as EI by lra.
    assert (I * (I - R) == I * (beta * R)) as G.
    { transitivity (N * ((beta + 1) * (I - R))); [rewrite <- EI at 1; ring|]. rewrite EN. ring. }
    apply Qmult_inj_l in G; [|lra].
    assert (N * (beta + 1) == R * (beta + 1)) as G2 by (rewrite EI; lra).
    apply Qmult_inj_r in G2; lra.
  - apply Qdiv_eq; [nra|].
    assert ((I - R) * (N * I * (beta + 1)) == (I - R) * (R * (N + beta * (N + I)))) as G.
    { transitivity (I * (N * ((beta + 1) * (I - R)))); [ring|].
      transitivity (R * (N * ((beta + 1) * (I - R)) + beta * I * (I - R))); [|ring].
      rewrite EN. ring. }
    apply Qmult_inj_l in G; lra.
Qed.

Lemma N_facts I R s : 0 < R -> R + (1#1000) <= I -> 1 <= s ->
  exists N, exponential_poisson_N I R s = Ok N /\ R <= N /\
    N == R * (s * I - R) / (s * (I - R)) /\
    exponential_poisson_beta I N R == s * (I / R) - 1 /\
    exponential_poisson_reach I N (exponential_poisson_beta I N R) == R /\
    I <= N * (exponential_poisson_beta I N R + 1).
Proof.
  intros HR HI Hs. unfold exponential_poisson_N.
  destruct (Qltb_spec s 1); [lra|]. destruct (Qltb_spec I (R + (1#1000))); [lra|].
  eexists. split; [reflexivity|]. set (N := R * (s * I - R) / (s * (I - R))).
  assert (0 < s * (I - R)) by nra.
  assert (N * (s * (I - R)) == R * (s * I - R)) as EN by (unfold N; field; split; lra).
  assert (R <= N) as HN by (apply Qle_shift_div_l; nra).
  split; auto. split; [reflexivity|].
  assert (I * R - N * (I - R) == R * R / s) as ED.
  { assert (~ (s == 0)) as NS by lra. apply (Qmult_inj_l _ _ s NS).
    transitivity (s * I * R - N * (s * (I - R))); [ring|]. rewrite EN. field. auto. }
  assert (0 < R * R / s) as HD by (apply Qdiv_pos; nra).
  split.
  - assert (exponential_poisson_beta I N R + 1 == s * (I / R)) as Eb.
    { rewrite beta_plus_1 by lra. rewrite ED. field. split; lra. }
    lra.
  - split; [apply beta_solves; lra|apply beta_capacity; lra].
Qed.

(** ** The loop *)

Lemma Qmax_ge_l a b : a <= Qmax a b.
Proof. apply Qmax_le_l. Qed.
Lemma Qmax_ge_r a b : b <= Qmax a b.
Proof. apply Qmax_le_r. Qed.
Lemma Qmin_cases a b : (a <= b /\ Qmin a b = a) \/ (b < a /\ Qmin a b = b).
Proof. unfold Qmin. destruct (Qleb_spec a b); auto. Qed.

Lemma loop_stops I R N : 0 <= R -> R <= I -> 1 <= N -> I <= N ->
  I <= N * (exponential_poisson_beta I N R + 1).
Proof.
  intros H0 H1 H2 H3. destruct (Qlt_le_dec 0 (I * R - N * (I - R))) as [D|D].
  - apply beta_capacity; auto; [|lra]. destruct (Qlt_le_dec 0 I); auto. assert (I == 0) as E by lra.
    assert (R == 0) by lra. nra.
  - unfold exponential_poisson_beta. destruct (Qleb_spec (I * R - N * (I - R)) 0); lra.
Qed.

Lemma enlarge_result fuel I R : forall N beta N' beta',
  enlarge fuel I R N beta = Ok (N', beta') ->
  I <= N' * (beta' + 1) /\ N <= N' /\
  ((N', beta') = (N, beta) \/ beta' = exponential_poisson_beta I N' R).
Proof.
  induction fuel as [|f IH]; intros N beta N' beta' E; cbn [enlarge] in E;
    destruct (Qltb_spec (N * (beta + 1)) I) as [H|H]; try discriminate.
  - inversion E; subst. split; [auto|]. split; [lra|]. auto.
  - apply IH in E. destruct E as [E1 [E2 E3]]. split; [auto|]. split.
    + eapply Qle_trans; [|exact E2]. pose proof (Qmax_ge_l 1 ((11#10) * N)). pose proof (Qmax_ge_r 1 ((11#10) * N)).
      destruct (Qlt_le_dec N 0); lra.
    + right. destruct E3 as [E3|E3]; auto. inversion E3; subst. reflexivity.
  - inversion E; subst. split; [auto|]. split; [lra|]. auto.
Qed.

Lemma enlarge_more fuel I R : forall fuel' N beta r, (fuel <= fuel')%nat ->
  enlarge fuel I R N beta = Ok r -> enlarge fuel' I R N beta = Ok r.
Proof.
  induction fuel as [|f IH]; intros fuel' N beta r Hf E; destruct fuel'; try lia; cbn [enlarge] in *;
    destruct (Qltb _ _); auto; try discriminate. apply IH; auto. lia.
Qed.

Lemma enlarge_ends_from fuel I R : forall N beta, 0 <= R -> R <= I -> 1 <= N ->
  beta = exponential_poisson_beta I N R -> I <= N + inject_Z (Z.of_nat fuel) * (1#10) ->
  exists r, enlarge fuel I R N beta = Ok r.
Proof.
  induction fuel as [|f IH]; intros N beta H0 H1 HN -> HI; cbn [enlarge].
  - destruct (Qltb_spec (N * (exponential_poisson_beta I N R + 1)) I) as [H|H]; [|eauto].
    exfalso. pose proof (loop_stops I R N H0 H1 HN) as L. change (inject_Z (Z.of_nat 0)) with 0 in HI.
    assert (I <= N) as X by lra. specialize (L X). lra.
  - destruct (Qltb_spec (N * (exponential_poisson_beta I N R + 1)) I) as [H|H]; [|eauto].
    pose proof (Qmax_ge_l 1 ((11#10) * N)). pose proof (Qmax_ge_r 1 ((11#10) * N)).
    apply IH; auto.
    rewrite Nat2Z.inj_succ in HI. unfold Z.succ in HI. rewrite inject_Z_plus in HI.
    change (inject_Z 1) with 1 in HI. lra.
Qed.

Lemma nat_above (q : Q) : exists n : nat, q <= inject_Z (Z.of_nat n).
Proof.
  exists (Z.to_nat (Qceiling q)). apply Qle_trans with (inject_Z (Qceiling q)); [apply Qle_ceiling|].
  rewrite <- Zle_Qle. lia.
Qed.

Lemma enlarge_ends I R N beta : 0 <= R -> R <= I ->
  exists fuel r, enlarge fuel I R N beta = Ok r.
Proof.
  intros H0 H1. destruct (nat_above (10 * I)) as [n Hn]. exists (S n). cbn [enlarge].
  destruct (Qltb_spec (N * (beta + 1)) I); [|eauto].
  apply enlarge_ends_from; auto; [apply Qmax_ge_l|]. pose proof (Qmax_ge_l 1 ((11#10) * N)). lra.
Qed.

(** ** The fit *)

Lemma point_fields {I} (imps : list I) (kp : list Q) sp u p : mk_reach_point Qops imps kp sp u = Ok p ->
  rp_impressions p = imps /\ rp_kplus p = kp /\ rp_frequencies p = diffs Qops kp.
Proof.
  unfold mk_reach_point. destruct (match sp with Some [] => None | s => s end) as [l|];
    [destruct (negb _); [discriminate|]|]; intros H; inversion H; auto.
Qed.

Lemma point_reach_1 {I} (p : reach_point I Q) r kp : rp_kplus p = r :: kp -> reach p 1 = Ok r.
Proof.
  intros H. unfold reach, max_frequency. rewrite H. cbn [length].
  replace ((0 <? 1)%Z && (1 <=? Z.of_nat (S (length kp)))%Z) with true
    by (symmetry; apply andb_true_iff; split; [reflexivity|apply Z.leb_le; lia]).
  reflexivity.
Qed.

Lemma enlarge_idle fuel I R N beta : I <= N * (beta + 1) -> enlarge fuel I R N beta = Ok (N, beta).
Proof. intros H. destruct fuel; cbn [enlarge]; destruct (Qltb_spec (N * (beta + 1)) I); auto; lra. Qed.

Lemma fit_nondegenerate fuel p I r kp sp u Imin :
  mk_reach_point Qops [I] (r :: kp) sp u = Ok p ->
  0 < r -> r + (1#1000) <= fitted_at I Imin ->
  ((2 <= length kp)%nat -> 1 < fitted_at I Imin) ->
  exists N beta, fit_exponential_poisson fuel p Imin = Ok (N, beta) /\ r <= N /\ 0 < beta /\
    exponential_poisson_reach (fitted_at I Imin) N beta == r /\
    fitted_at I Imin <= N * (beta + 1).
Proof.
  intros HP Hr HJ Hlong. destruct (point_fields _ _ _ _ _ HP) as [EI [EK EF]].
  pose proof (point_reach_1 p r kp EK) as ER.
  unfold fit_exponential_poisson, fitted_impressions, exponential_poisson_start.
  rewrite EI. change (py_index [I] 0) with (Ok I). cbn [bind]. fold (fitted_at I Imin).
  set (J := fitted_at I Imin) in *. rewrite ER. cbn [bind]. rewrite EF, diffs_length. cbn [length].
  replace (S (length kp) - 1)%nat with (length kp) by lia.
  destruct (Nat.ltb_spec 1 (length kp)) as [HL|HL].
  - specialize (Hlong ltac:(lia)). unfold py_div, Qeqb.
    assert (0 < Qmin r (J - 1)) as Hmin by (destruct (Qmin_cases r (J - 1)) as [[_ ->]|[_ ->]]; lra).
    destruct (Qeq_bool (Qmin r (J - 1)) 0) eqn:E0; [apply Qeq_bool_iff in E0; lra|]. cbn [bind].
    set (beta := (J / Qmin r (J - 1) - 1) * (12#10)).
    assert (Qmin r (J - 1) < J) as HlJ by (destruct (Qmin_cases r (J - 1)) as [[_ ->]|[_ ->]]; lra).
    assert (1 < J / Qmin r (J - 1)) as H1 by (apply Qlt_shift_div_l; lra).
    assert (0 < beta) as Hb by (unfold beta; lra).
    assert (J <= r * (beta + 1)) as Hc.
    { destruct (Qmin_cases r (J - 1)) as [[C E]|[C E]]; unfold beta in *; rewrite E in *.
      - assert (J == r * (J / r)) as EJ by (field; lra). nra.
      - assert (J / (J - 1) == 1 + 1 / (J - 1)) as EJ by (field; lra). rewrite EJ in *.
        assert (0 < 1 / (J - 1)) as Hpos by (apply Qdiv_pos; lra).
        assert ((J - 1) * (1 / (J - 1)) == 1) as Em by (field; lra).
        set (w := 1 / (J - 1)) in *. nra. }
    destruct (N_from_beta_facts J r beta Hr HJ Hb Hc) as [F1 [F2 F3]].
    exists (exponential_poisson_N_from_beta J r beta), beta. rewrite enlarge_idle by auto. auto.
  - destruct (N_facts J r (3#2) Hr HJ ltac:(lra)) as [N [E [F1 [_ [Fb [F2 F3]]]]]]. rewrite E. cbn [bind].
    exists N, (exponential_poisson_beta J N r). rewrite enlarge_idle by auto.
    assert (1 < J / r) by (apply Qlt_shift_div_l; lra).
    split; auto. split; auto. split; [lra|]. auto.
Qed.

(** The numbers chosen for a point with at most two k+ reaches. *)
Lemma fit_short_value fuel p I r kp sp u Imin :
  mk_reach_point Qops [I] (r :: kp) sp u = Ok p -> (length kp <= 1)%nat ->
  0 < r -> r + (1#1000) <= fitted_at I Imin ->
  exists N beta, fit_exponential_poisson fuel p Imin = Ok (N, beta) /\
    N == r * ((3#2) * fitted_at I Imin - r) / ((3#2) * (fitted_at I Imin - r)) /\
    beta == (3#2) * (fitted_at I Imin / r) - 1 /\ r <= N.
Proof.
  intros HP HL Hr HJ. destruct (point_fields _ _ _ _ _ HP) as [EI [EK EF]].
  pose proof (point_reach_1 p r kp EK) as ER.
  unfold fit_exponential_poisson, fitted_impressions, exponential_poisson_start.
  rewrite EI. change (py_index [I] 0) with (Ok I). cbn [bind]. fold (fitted_at I Imin).
  set (J := fitted_at I Imin) in *. rewrite ER. cbn [bind]. rewrite EF, diffs_length. cbn [length].
  replace (S (length kp) - 1)%nat with (length kp) by lia.
  destruct (Nat.ltb_spec 1 (length kp)) as [HL'|_]; [lia|].
  destruct (N_facts J r (3#2) Hr HJ ltac:(lra)) as [N [E [F1 [EN [Fb [F2 F3]]]]]]. rewrite E. cbn [bind].
  exists N, (exponential_poisson_beta J N r). rewrite enlarge_idle by auto. auto.
Qed.

(** ** Means *)

Lemma mean_bounds l : is_distribution l -> nth 0 l 0 == 0 ->
  1 <= mean l /\ mean l <= inject_Z (Z.of_nat (length l) - 1).
Proof.
  intros D H0. unfold mean. split.
  - apply Qle_trans with (total (length l) (fun n => nth n l 0)).
    + rewrite <- Qsum_total. destruct D as [_ ->]. lra.
    + apply total_le. intros [|n] _.
      * rewrite H0. change (inject_Z (Z.of_nat 0)) with 0. lra.
      * pose proof (dist_nth l (S n) D) as P. 
        assert (1 <= inject_Z (Z.of_nat (S n))) by (change 1 with (inject_Z 1); rewrite <- Zle_Qle; lia).
        nra.
  - apply Qle_trans with (total (length l) (fun n => inject_Z (Z.of_nat (length l) - 1) * nth n l 0)).
    + apply total_le. intros n Hn. apply Qmult_le_compat_r; [rewrite <- Zle_Qle; lia|apply dist_nth; auto].
    + rewrite total_scal, <- Qsum_total. destruct D as [_ ->]. lra.
Qed.

Lemma mk_kdist_0 x alpha beta a0 : (1 < gx_frequencies x)%Z \/ a0 <> [] ->
  nth 0 (kd_pmf (mk_kdist x alpha beta a0)) 0 = 0.
Proof.
  intros H. unfold mk_kdist. cbn [kd_pmf app].
  set (a := if Qltb 1 (Qsum a0) then _ else a0).
  assert (length a = length a0) as La by (unfold a; destruct (Qltb _ _); [apply map_length|auto]).
  rewrite force_sum_nth; [reflexivity|]. cbn [length]. rewrite app_length.
  assert (0 < length a + Z.to_nat (gx_frequencies x - (Z.of_nat (length a) + 1)))%nat as G.
  { destruct H as [H|H]; [|destruct a0; [congruence|simpl in La; lia]]. lia. }
  destruct (Qleb 1 _); rewrite !map_length; unfold py_range; rewrite map_length, seq_length; lia.
Qed.

Lemma mk_kdist_length x alpha beta a0 : (1 <= gx_frequencies x)%Z -> (Z.of_nat (length a0) < gx_frequencies x)%Z ->
  length (kd_pmf (mk_kdist x alpha beta a0)) = Z.to_nat (gx_frequencies x).
Proof.
  intros H1 H2. unfold mk_kdist. cbn [kd_pmf].
  set (a := if Qltb 1 (Qsum a0) then _ else a0).
  assert (length a = length a0) as La by (unfold a; destruct (Qltb _ _); [apply map_length|auto]).
  rewrite force_sum_length by discriminate. cbn [app length]. rewrite app_length.
  destruct (Qleb 1 _); rewrite !map_length; unfold py_range; rewrite map_length, seq_length; lia.
Qed.

(** ** Answers *)

Lemma suffix_telescope (l : list Q) (z : Q) : forall g,
  (forall i, (i < length l)%nat -> nth i l 0 == g i - g (S i)) -> z == g (length l) ->
  length (suffix_sums (l ++ [z])) = S (length l) /\
  Qsum (l ++ [z]) == g O /\
  forall i, (i <= length l)%nat -> nth i (suffix_sums (l ++ [z])) 0 == g i.
Proof.
  induction l as [|v l IH]; intros g Hl Hz.
  - cbn [app suffix_sums length Qsum] in *. split; [reflexivity|]. split; [rewrite Hz; ring|].
    intros i Hi. replace i with O by lia. cbn [nth]. rewrite Hz. ring.
  - cbn [app suffix_sums length] in *. destruct (IH (fun i => g (S i))) as [IL [IS IN]].
    + intros i Hi. apply (Hl (S i)). lia.
    + exact Hz.
    + split; [f_equal; exact IL|]. cbn [Qsum]. rewrite IS. pose proof (Hl O ltac:(lia)) as H0. cbn [nth] in H0.
      split; [rewrite H0; ring|]. intros [|i] Hi; cbn [nth].
      * rewrite IS, H0. ring.
      * apply IN. lia.
Qed.

Lemma shown_chance_bounds N l imp : 0 < N -> 1 <= mean l -> 0 <= imp ->
  0 <= shown_chance N l imp /\ shown_chance N l imp <= 1.
Proof.
  intros H1 H2 H3. unfold shown_chance. assert (0 < N * mean l) by nra.
  pose proof (Qdiv_nonneg imp (N * mean l) H3 H). destruct (Qmin_cases (imp / (N * mean l)) 1) as [[? ->]|[? ->]]; lra.
Qed.

Lemma shown_chance_mono N l imp imp' : 0 < N -> 1 <= mean l -> imp <= imp' ->
  shown_chance N l imp <= shown_chance N l imp'.
Proof.
  intros H1 H2 H3. unfold shown_chance. assert (0 < N * mean l) by nra.
  assert (imp / (N * mean l) <= imp' / (N * mean l)).
  { apply Qle_shift_div_l; auto. assert (imp / (N * mean l) * (N * mean l) == imp) as -> by (field; nra). auto. }
  destruct (Qmin_cases (imp / (N * mean l)) 1) as [[? ->]|[? ->]];
  destruct (Qmin_cases (imp' / (N * mean l)) 1) as [[? ->]|[? ->]]; lra.
Qed.

Lemma point_reach_nth {I} (p : reach_point I Q) k : (1 <= k <= Z.of_nat (length (rp_kplus p)))%Z ->
  reach p k = Ok (nth (Z.to_nat (k - 1)) (rp_kplus p) 0).
Proof.
  intros H. unfold reach, max_frequency.
  replace ((0 <? k)%Z && (k <=? _)%Z) with true
    by (symmetry; apply andb_true_iff; split; [apply Z.ltb_lt|apply Z.leb_le]; lia).
  unfold py_index. destruct (Z.ltb_spec (k - 1) 0); [lia|].
  replace ((0 <=? k - 1)%Z && (k - 1 <? _)%Z) with true
    by (symmetry; apply andb_true_iff; split; [apply Z.leb_le|apply Z.ltb_lt]; lia).
  rewrite (nth_error_nth' (rp_kplus p) 0) by lia. reflexivity.
Qed.

Lemma predict_value N d cpi imp f : 0 < N -> is_distribution (kd_pmf d) -> nth 0 (kd_pmf d) 0 == 0 ->
  (1 <= f)%nat ->
  exists p, km_predict N d cpi imp f = Ok p /\ rp_impressions p = [imp] /\ length (rp_kplus p) = f /\
    rp_spends p = match truthy_cost cpi with Some c => Some [(imp * c)%Q] | None => None end /\
    forall k, (1 <= k <= Z.of_nat f)%Z -> exists r, reach p k = Ok r /\
      r == N * shown_at_least (kd_pmf d) (Z.to_nat k) (shown_chance N (kd_pmf d) imp).
Proof.
  intros HN HD H0 Hf. destruct (mean_bounds _ HD H0) as [M1 _].
  unfold km_predict, py_div, Qeqb.
  destruct (Qeq_bool (N * expected_value d) 0) eqn:E0.
  { apply Qeq_bool_iff in E0. rewrite expected_value_mean in E0. nra. }
  cbn [bind]. set (q := Qmin (imp / (N * expected_value d)) 1).
  assert (q == shown_chance N (kd_pmf d) imp) as Eq.
  { unfold q, shown_chance. pose proof (expected_value_mean d) as EM.
    destruct (Qmin_cases (imp / (N * expected_value d)) 1) as [[A ->]|[A ->]];
    destruct (Qmin_cases (imp / (N * mean (kd_pmf d))) 1) as [[B ->]|[B ->]]; rewrite ?EM in *; lra. }
  destruct (kreach_seq d 1 (f - 1) q) as [l [El [Ll Hl]]]. rewrite El. cbn [bind].
  destruct (kplusreach_value d f q (proj2 HD)) as [v [Ev Hv]]. rewrite Ev. cbn [bind].
  destruct (suffix_telescope (map (Qmult N) l) (N * v)
     (fun i => N * shown_at_least (kd_pmf d) (S i) q)) as [T1 [_ T3]].
  - rewrite map_length, Ll. intros i Hi.
    rewrite (nth_indep _ 0 (N * 0)) by (rewrite map_length; lia). rewrite map_nth, Hl by lia.
    rewrite shown_exactly_diff. change (1 + i)%nat with (S i). ring.
  - rewrite map_length, Ll, Hv. replace (S (f - 1)) with f by lia. reflexivity.
  - rewrite map_length, Ll in T1, T3. replace (S (f - 1)) with f in T1 by lia.
    set (kp := suffix_sums _) in *.
    assert (exists p, mk_reach_point Qops [imp] kp (match truthy_cost cpi with Some c => Some [(imp * c)%Q] | None => None end) None = Ok p
        /\ rp_spends p = match truthy_cost cpi with Some c => Some [(imp * c)%Q] | None => None end) as [p [Ep Es]].
    { unfold mk_reach_point. destruct (truthy_cost cpi); cbn; eauto. }
    exists p. rewrite Ep. split; [reflexivity|]. destruct (point_fields _ _ _ _ _ Ep) as [E1 [E2 _]].
    rewrite E1, E2. split; [reflexivity|]. split; [exact T1|]. split; [exact Es|].
    intros k Hk. rewrite point_reach_nth by (rewrite E2, T1; lia). eexists. split; [reflexivity|].
    rewrite E2, T3 by lia. replace (S (Z.to_nat (k - 1))) with (Z.to_nat k) by lia. rewrite Eq. reflexivity.
Qed.
