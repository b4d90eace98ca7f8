(** Lemmas on the truncated geometric table, on fitting points with one k+ reach and on
    histories of queries. *)
From Coq Require Import Lqa Qfield Qround.
From Verif Require Import Prelude ModelReachPoint ModelCurves SpecSurface ModelSurface SurfaceLemmas
  SurfaceLemmas2 HaloLemmas ReachPointLemmas ModelGamma SpecGamma GammaLemmas GammaLemmas2.
Open Scope Z_scope.
Local Open Scope Q_scope.

(** ** The geometric distribution *)

Lemma geometric_sane x beta : nbinom_geometric x -> 0 <= beta -> nbinom_sane x 1 beta.
Proof.
  intros G Hb. unfold nbinom_geometric in G. assert (0 < 1 / (1 + beta)) as P0 by (apply Qdiv_pos; lra).
  assert (1 / (1 + beta) <= 1) as P1 by (apply Qle_shift_div_r; lra).
  set (p := 1 / (1 + beta)) in *. split.
  - intros k. fold p. rewrite G by lra. pose proof (qpow_nonneg (1 - p) k ltac:(lra)). nra.
  - intros m. fold p. rewrite (total_ext m _ (fun k => p * qpow (1 - p) k)) by (intros; apply G; lra).
    rewrite total_scal.
    assert (p * total m (fun k => qpow (1 - p) k) == 1 - qpow (1 - p) m) as ->.
    { induction m as [|m IH]; cbn [total qpow]; [ring|]. rewrite Qmult_plus_distr_r, IH. ring. }
    pose proof (qpow_nonneg (1 - p) m ltac:(lra)). lra.
Qed.

(** The table of an exponential-Poisson distribution. *)
Lemma exponential_table x beta : nbinom_geometric x -> 0 <= beta -> (2 <= gx_frequencies x)%Z ->
  let d := mk_kdist x 1 beta [] in
  length (kd_pmf d) = Z.to_nat (gx_frequencies x) /\ nth 0 (kd_pmf d) 0 = 0 /\
  (forall n, (1 <= n)%nat -> (Z.of_nat n < gx_frequencies x - 1)%Z ->
     nth n (kd_pmf d) 0 == inventory_mass beta n) /\
  nth (Z.to_nat (gx_frequencies x - 1)) (kd_pmf d) 0 == qpow (beta / (beta + 1)) (Z.to_nat (gx_frequencies x - 2)).
Proof.
  intros G Hb HM d. unfold nbinom_geometric in G.
  assert (length (kd_pmf d) = Z.to_nat (gx_frequencies x)) as HL by (apply mk_kdist_length; simpl; lia).
  assert (nth 0 (kd_pmf d) 0 = 0) as H0 by (apply mk_kdist_0; left; lia).
  assert (forall n, (1 <= n)%nat -> (Z.of_nat n < gx_frequencies x - 1)%Z ->
     nth n (kd_pmf d) 0 == inventory_mass beta n) as HN.
  { intros n H1 H2. unfold d, mk_kdist. cbn [kd_pmf].
    change (Qsum []) with 0. change (Qltb 1 0) with false. cbn [length app Z.of_nat].
    change (py_range 1 (0 + 1)) with (@nil Z). cbn [map Qsum]. change (Qleb 1 0) with false. cbn [app].
    rewrite force_sum_nth.
    - destruct n as [|n]; [lia|]. cbn [nth]. rewrite map_map. unfold py_range. rewrite map_map.
      rewrite nth_map_seq by lia. unfold gamma_poisson_pmf.
      replace (0 + 1 + Z.of_nat n - 1)%Z with (Z.of_nat n) by lia.
      rewrite G; [|apply Qdiv_nonneg; lra|apply Qle_shift_div_r; lra].
      unfold inventory_mass. replace (S n - 1)%nat with n by lia.
      assert (1 - 1 / (1 + beta) == beta / (beta + 1)) as -> by (field; lra). field. lra.
    - cbn [length]. rewrite !map_length. unfold py_range. rewrite map_length, seq_length. lia. }
  split; [exact HL|]. split; [exact H0|]. split; [exact HN|].
  assert (Qsum (kd_pmf d) == 1) as HS by (apply force_sum_1).
  rewrite Qsum_total, HL in HS. set (K := Z.to_nat (gx_frequencies x - 2)).
  replace (Z.to_nat (gx_frequencies x)) with (S (S K)) in HS by (unfold K; lia).
  replace (Z.to_nat (gx_frequencies x - 1)) with (S K) by (unfold K; lia).
  cbn [total] in HS. 
  assert (total (S K) (fun i => nth i (kd_pmf d) 0) == 1 - qpow (beta / (beta + 1)) K) as E.
  { rewrite total_split, H0.
    rewrite (total_ext K _ (fun i => inventory_mass beta (S i))) by (intros i Hi; apply HN; unfold K in Hi; lia).
    unfold inventory_mass. rewrite total_scal.
    assert (forall z, (1 - z) * total K (fun i => qpow z (S i - 1)) == 1 - qpow z K) as T.
    { intros z. clear. induction K as [|K IH]; cbn [total qpow]; [ring|].
      rewrite Qmult_plus_distr_r, IH. replace (S K - 1)%nat with K by lia. ring. }
    rewrite <- T. assert (1 / (beta + 1) == 1 - beta / (beta + 1)) as -> by (field; lra). ring. }
  cbn [total] in E. lra.
Qed.

Lemma at_least_1 n q : at_least n 1 q == 1 - qpow (1 - q) n.
Proof.
  induction n as [|n IH]; cbn [at_least qpow]; [ring|].
  assert (at_least n 0 q = 1) as -> by (destruct n; reflexivity). rewrite IH. ring.
Qed.

(** The chance of not being shown, and the mean, of a geometric variable cut at [K]. *)
Lemma cut_unreached z w K : 0 <= z -> z < 1 -> 0 <= w -> w <= 1 ->
  (1 - z * w) * (total K (fun i => (1 - z) * qpow z i * qpow w (S i)) + qpow z K * qpow w (S K)) ==
  (1 - z) * w + qpow (z * w) (S K) * (1 - w).
Proof.
  intros Hz Hz1 Hw Hw1. induction K as [|K IH]; cbn [total qpow]; [ring|].
  cbn [qpow] in IH.
  assert (qpow (z * w) K == qpow z K * qpow w K) as E.
  { clear. induction K as [|K IH]; cbn [qpow]; [ring|]. rewrite IH. ring. }
  rewrite E in *.
  set (T := total K _) in *. set (a := qpow z K) in *. set (b := qpow w K) in *.
  assert ((1 - z * w) * T == (1 - z) * w + z * w * (a * b) * (1 - w) - (1 - z * w) * (a * (w * b))) as ET by lra.
  transitivity ((1 - z * w) * T + (1 - z * w) * ((1 - z) * a * (w * b) + z * a * (w * (w * b)))); [ring|].
  rewrite ET. ring.
Qed.

Lemma cut_mean z K : 
  (1 - z) * (total K (fun i => inject_Z (Z.of_nat (S i)) * ((1 - z) * qpow z i)) + inject_Z (Z.of_nat (S K)) * qpow z K)
  == 1 - qpow z (S K).
Proof.
  induction K as [|K IH]; cbn [total].
  - cbn [qpow]. change (inject_Z (Z.of_nat 1)) with 1. ring.
  - set (T := total K _) in *. cbn [qpow] in *. set (a := qpow z K) in *.
    assert (inject_Z (Z.of_nat (S (S K))) == inject_Z (Z.of_nat (S K)) + 1) as ->.
    { rewrite (Nat2Z.inj_succ (S K)). unfold Z.succ. rewrite inject_Z_plus. reflexivity. }
    set (s := inject_Z (Z.of_nat (S K))) in *.
    assert ((1 - z) * T == 1 - z * a - (1 - z) * (s * a)) as ET by lra.
    transitivity ((1 - z) * T + (1 - z) * (s * ((1 - z) * a) + (s + 1) * (z * a))); [ring|].
    rewrite ET. ring.
Qed.

Lemma qpow_lipschitz a b n : 0 <= a -> a <= b -> b <= 1 ->
  qpow b n - qpow a n <= inject_Z (Z.of_nat n) * (b - a).
Proof.
  intros H0 H1 H2. induction n as [|n IH]; cbn [qpow].
  - change (inject_Z (Z.of_nat 0)) with 0. lra.
  - rewrite Nat2Z.inj_succ. unfold Z.succ. rewrite inject_Z_plus. change (inject_Z 1) with 1.
    set (s := inject_Z (Z.of_nat n)) in *.
    pose proof (qpow_le_1 a n H0 ltac:(lra)). pose proof (qpow_nonneg a n H0).
    assert (0 <= s) by (unfold s; change 0 with (inject_Z 0); rewrite <- Zle_Qle; lia).
    assert (b * (qpow b n - qpow a n) <= b * (s * (b - a))) by nra.
    assert (0 <= s * (b - a)) by nra.
    assert (b * (s * (b - a)) <= s * (b - a)) by nra.
    assert (qpow a n * (b - a) <= b - a) by nra.
    assert (b * qpow b n - a * qpow a n == b * (qpow b n - qpow a n) + qpow a n * (b - a)) as -> by ring.
    lra.
Qed.

(** ** How close the table comes to the closed formula *)

Lemma exponential_answer x N beta J : nbinom_geometric x -> (2 <= gx_frequencies x)%Z ->
  0 < N -> 0 < beta -> 0 <= J -> J <= N * (beta + 1) ->
  let d := mk_kdist x 1 beta [] in
  let err := qpow (beta / (beta + 1)) (Z.to_nat (gx_frequencies x - 1)) in
  let answer := N * shown_at_least (kd_pmf d) 1 (shown_chance N (kd_pmf d) J) in
  exponential_poisson_reach J N beta - N * err <= answer /\
  answer <= exponential_poisson_reach J N beta + J * err.
Proof.
  intros G HM HN Hb HJ HC d err answer.
  destruct (exponential_table x beta G ltac:(lra) HM) as [HL [H0 [Hn Hlast]]].
  pose proof (mk_kdist_dist x 1 beta [] ltac:(intros v []) (geometric_sane x beta G ltac:(lra))) as HD.
  fold d in HL, H0, Hn, Hlast, HD.
  destruct (mean_bounds _ HD ltac:(rewrite H0; reflexivity)) as [M1 _].
  set (K := Z.to_nat (gx_frequencies x - 2)) in *.
  assert (err = qpow (beta / (beta + 1)) (S K)) as Eerr by (unfold err; f_equal; unfold K; lia).
  clearbody err.
  replace (Z.to_nat (gx_frequencies x - 1)) with (S K) in * by (unfold K; lia).
  replace (Z.to_nat (gx_frequencies x)) with (S (S K)) in * by (unfold K; lia).
  set (z := beta / (beta + 1)) in *.
  assert (0 <= z) as Z0 by (apply Qdiv_nonneg; lra).
  assert (z < 1) as Z1 by (apply Qlt_shift_div_r; lra).
  assert (1 - z == 1 / (beta + 1)) as Ez by (unfold z; field; lra).
  assert (forall n, (1 <= n <= K)%nat -> nth n (kd_pmf d) 0 == (1 - z) * qpow z (n - 1)) as Hn'.
  { intros n Hk. rewrite Hn by lia. unfold inventory_mass. rewrite Ez. reflexivity. }
  assert (forall (g : nat -> Q), total (length (kd_pmf d)) (fun n => nth n (kd_pmf d) 0 * g n) ==
     total K (fun i => (1 - z) * qpow z i * g (S i)) + qpow z K * g (S K)) as HT.
  { intros g. rewrite HL. cbn [total]. change (total (S K) (fun n => nth n (kd_pmf d) 0 * g n) + nth (S K) (kd_pmf d) 0 * g (S K) == total K (fun i => (1 - z) * qpow z i * g (S i)) + qpow z K * g (S K)).
    rewrite total_split, H0, Hlast.
    rewrite (total_ext K (fun i => nth (S i) (kd_pmf d) 0 * g (S i)) (fun i => (1 - z) * qpow z i * g (S i))).
    - ring.
    - intros i Hi. rewrite Hn' by lia. replace (S i - 1)%nat with i by lia. reflexivity. }
  assert (mean (kd_pmf d) == (beta + 1) * (1 - err)) as HMean.
  { unfold mean. rewrite (total_ext _ _ (fun n => nth n (kd_pmf d) 0 * inject_Z (Z.of_nat n))) by (intros; ring).
    rewrite HT. pose proof (cut_mean z K) as C.
    rewrite (total_ext K (fun i => (1 - z) * qpow z i * inject_Z (Z.of_nat (S i)))
       (fun i => inject_Z (Z.of_nat (S i)) * ((1 - z) * qpow z i))) by (intros; ring).
    set (T := total K _) in *. rewrite Ez in C. rewrite <- Eerr in C.
    assert (~ (1 / (beta + 1) == 0)) as NZ by (apply Qnot_eq_sym, Qlt_not_eq, Qdiv_pos; lra).
    apply (Qmult_inj_l _ _ (1 / (beta + 1)) NZ).
    transitivity (1 / (beta + 1) * (T + inject_Z (Z.of_nat (S K)) * qpow z K)); [ring|].
    rewrite C. field. lra. }
  set (t := J / (N * mean (kd_pmf d))).
  assert (0 < N * mean (kd_pmf d)) as HP by nra.
  assert (0 <= t) as T0 by (apply Qdiv_nonneg; auto).
  set (q := J / ((beta + 1) * N)).
  assert (0 < (beta + 1) * N) as HP2 by nra.
  assert (0 <= q) as Q0 by (apply Qdiv_nonneg; auto).
  assert (q <= 1) as Q1 by (apply Qle_shift_div_r; lra).
  assert (0 <= err) as E0 by (rewrite Eerr; apply qpow_nonneg; auto).
  assert (N * (mean (kd_pmf d) * q) == J * (1 - err)) as Emq.
  { rewrite HMean. unfold q. field. split; lra. }
  assert (N * (mean (kd_pmf d) * t) == J) as Emt by (unfold t; field; split; lra).
  assert (q <= t) as Qt.
  { apply Qle_shift_div_l; auto. assert (q * (N * mean (kd_pmf d)) == J * (1 - err)) as -> by (rewrite <- Emq; ring). nra. }
  assert (forall c, shown_at_least (kd_pmf d) 1 c ==
     1 - (total K (fun i => (1 - z) * qpow z i * qpow (1 - c) (S i)) + qpow z K * qpow (1 - c) (S K))) as HS.
  { intros c. unfold shown_at_least.
    rewrite (total_ext _ _ (fun n => nth n (kd_pmf d) 0 - nth n (kd_pmf d) 0 * qpow (1 - c) n)) by (intros; rewrite at_least_1; ring).
    rewrite total_minus, <- Qsum_total, HT. destruct HD as [_ ->]. reflexivity. }
  (* the closed formula against the table, at chance q *)
  assert (exponential_poisson_reach J N beta - N * err <= N * shown_at_least (kd_pmf d) 1 q /\
          N * shown_at_least (kd_pmf d) 1 q <= exponential_poisson_reach J N beta) as [B1 B2].
  { rewrite HS. pose proof (cut_unreached z (1 - q) K Z0 Z1 ltac:(lra) ltac:(lra)) as C.
    set (U := total K _ + _) in *. set (y := z * (1 - q)) in *.
    assert (0 <= y) as Y0 by (unfold y; nra). assert (y < 1) as Y1 by (unfold y; nra).
    assert (y <= z) as Yz by (unfold y; nra).
    assert (exponential_poisson_reach J N beta == N * (1 - (1 - z) * (1 - q) / (1 - y))) as ->.
    { unfold exponential_poisson_reach. destruct (Qleb_spec ((beta + 1) * N) J) as [L|L].
      - assert (q == 1) as Eq by (unfold q; apply Qdiv_eq; lra).
        unfold y. rewrite Eq. field.
      - assert (J == q * ((beta + 1) * N)) as EJ by (unfold q; field; split; lra).
        assert (1 - y == (1 + beta * q) / (beta + 1)) as E1 by (unfold y, z; field; lra).
        assert (0 < 1 + beta * q) by nra.
        rewrite E1, Ez, EJ. field. repeat split; try nra. }
    assert (qpow y (S K) <= err) as Wy.
    { rewrite Eerr. clear - Y0 Yz. generalize (S K). intros n. induction n as [|n IH]; cbn [qpow]; [lra|].
      pose proof (qpow_nonneg y n Y0). nra. }
    pose proof (qpow_nonneg y (S K) Y0) as Wy0.
    set (W := qpow y (S K)) in *. set (L := (1 - z) * (1 - q) / (1 - y)).
    assert (U == L + W * (q / (1 - y))) as EU.
    { assert (~ (1 - y == 0)) as NZ by lra. apply (Qmult_inj_l _ _ (1 - y) NZ). rewrite C. unfold L. field. lra. }
    assert (0 <= q / (1 - y)) as F0 by (apply Qdiv_nonneg; lra).
    assert (q / (1 - y) <= 1) as F1 by (apply Qle_shift_div_r; [lra|unfold y; nra]).
    rewrite EU. split; [|].
    - assert (W * (q / (1 - y)) <= err) by nra. nra.
    - assert (0 <= W * (q / (1 - y))) by nra. nra. }
  (* from chance q to the chance used *)
  set (c := shown_chance N (kd_pmf d) J) in *.
  assert (q <= c /\ c <= t /\ c <= 1) as [C1 [C2 C3]].
  { unfold c, shown_chance. fold t. destruct (Qmin_cases t 1) as [[? ->]|[? ->]]; repeat split; lra. }
  pose proof (shown_p (kd_pmf d) 1 q c HD Q0 C1 C3) as MP.
  assert (shown_at_least (kd_pmf d) 1 c <= shown_at_least (kd_pmf d) 1 q + mean (kd_pmf d) * (c - q)) as Lip.
  { unfold shown_at_least, mean.
    rewrite <- total_scal_r, <- total_plus. apply total_le. intros n _. rewrite !at_least_1.
    pose proof (qpow_lipschitz (1 - c) (1 - q) n ltac:(lra) ltac:(lra) ltac:(lra)) as LL.
    pose proof (dist_nth (kd_pmf d) n HD). set (s := inject_Z (Z.of_nat n)) in *.
    assert (s * (1 - q - (1 - c)) == s * (c - q)) as EE by ring.
    nra. }
  unfold answer. split.
  - nra.
  - assert (N * (mean (kd_pmf d) * (c - q)) <= J * err) by nra. nra.
Qed.

(** ** Fitting a point with one k+ reach *)

Lemma chi2_ok h I N d : Qsum (kd_pmf d) == 1 -> exists v, chi2_distance h I N d = Ok v.
Proof.
  intros HS. unfold chi2_distance. destruct (Qleb _ _); [eauto|].
  destruct (kreach_seq d 1 (length h - 1) (I / (N * expected_value d))) as [l [-> _]]. cbn [bind].
  destruct (kplusreach_value d (length h) (I / (N * expected_value d)) HS) as [v [-> _]]. cbn [bind]. eauto.
Qed.

Lemma mk_kdist_sum x alpha beta a0 : Qsum (kd_pmf (mk_kdist x alpha beta a0)) == 1.
Proof. apply force_sum_1. Qed.

Lemma fit_point_single x fuel kmax p I r sp u Imin :
  mk_reach_point Qops [I] [r] sp u = Ok p ->
  fit_point x fuel kmax p Imin =
  ('(N, beta) <- fit_exponential_poisson fuel p Imin ;; Ok (N, mk_kdist x 1 beta [])).
Proof.
  intros HP. destruct (point_fields _ _ _ _ _ HP) as [EI [EK EF]]. unfold fit_point.
  destruct (fit_exponential_poisson fuel p Imin) as [[N beta]|e]; [|reflexivity]. cbn [bind].
  unfold frequencies_with_kplus_bucket. rewrite EK. change (py_index [r] (-1)) with (Ok r). cbn [bind].
  rewrite EI. change (py_index [I] 0) with (Ok I). cbn [bind].
  destruct (chi2_ok (rp_frequencies p ++ [r]) I N (mk_kdist x 1 beta []) (mk_kdist_sum _ _ _ _)) as [v ->]. cbn [bind].
  unfold max_frequency. rewrite EK. reflexivity.
Qed.

(** ** Histories *)

Lemma query_fitted x fuel m N d imps f : km_fit m = Some (N, d) -> snd (km_by_impressions x fuel m imps f) = m.
Proof.
  intros H. unfold km_by_impressions. destruct imps as [|i [|? ?]]; auto.
  unfold km_fitted. rewrite H, H. reflexivity.
Qed.

Lemma after_fitted x fuel m N d qs : km_fit m = Some (N, d) -> after_queries x fuel m qs = m.
Proof.
  intros H. induction qs as [|[imps f] qs IH]; cbn [after_queries]; auto.
  rewrite (query_fitted x fuel m N d imps f H). exact IH.
Qed.

Lemma query_unfitted x fuel m imps f : km_fit m = None ->
  snd (km_by_impressions x fuel m imps f) = m \/
  exists N d, km_fit (snd (km_by_impressions x fuel m imps f)) = Some (N, d).
Proof.
  intros H. unfold km_by_impressions. destruct imps as [|i [|? ?]]; auto.
  unfold km_fitted. rewrite H.
  destruct (fit_point x fuel (km_kmax m) (km_point m) (i + 1)) as [[N d]|e] eqn:E; cbn [bind]; auto.
  cbn [km_fit]. right. exists N, d. reflexivity.
Qed.

(** ** The inflation loop *)

Lemma mk_kdist_a x alpha beta a0 : length (kd_a (mk_kdist x alpha beta a0)) = length a0.
Proof. unfold mk_kdist. cbn [kd_a]. destruct (Qltb _ _); [apply map_length|reflexivity]. Qed.

Lemma py_index_not_other {A} (l : list A) i : py_index l i <> Err OtherError.
Proof. unfold py_index. destruct (_ && _); [destruct (nth_error _ _)|]; discriminate. Qed.

Lemma inflate_facts x kmax h I Imin :
  (forall obj l, gx_minimize x obj l <> Err OtherError) ->
  (forall obj l l', gx_minimize x obj l = Ok l' -> length l' = length l) ->
  forall fuel N d score, Qsum (kd_pmf d) == 1 ->
  (length (kd_a d) <= kmax)%nat -> (kmax <= length (kd_a d) + fuel)%nat ->
  match inflate x fuel kmax h I Imin N d score with
  | Ok (_, d') => (length (kd_a d) <= length (kd_a d') <= kmax)%nat /\ Qsum (kd_pmf d') == 1
  | Err e => e <> OtherError
  end.
Proof.
  intros HE HL. induction fuel as [|f IH]; intros N d score HS H1 H2; cbn [inflate].
  - destruct (Nat.ltb_spec (length (kd_a d)) kmax); [lia|]. rewrite andb_false_r. auto.
  - destruct (Qltb _ _ && (length (kd_a d) <? kmax)%nat) eqn:B; [|auto].
    apply andb_true_iff in B. destruct B as [_ B]. apply Nat.ltb_lt in B.
    destruct (py_index (kd_pmf d) _) as [an|e] eqn:E1; cbn [bind].
    2:{ intros ->. apply (py_index_not_other _ _ E1). }
    unfold fit_fixed_length.
    destruct (gx_minimize x _ _) as [params|e] eqn:E2; cbn [bind].
    2:{ intros ->. apply (HE _ _ E2). }
    apply HL in E2. cbn [length] in E2. rewrite app_length in E2. cbn [length] in E2.
    destruct params as [|alpha [|beta [|N' a]]]; try (cbn [length] in E2; lia). cbn [length] in E2.
    destruct (chi2_ok h I N' (mk_kdist x alpha beta a) (mk_kdist_sum _ _ _ _)) as [sc ->]. cbn [bind].
    specialize (IH N' (mk_kdist x alpha beta a) sc (mk_kdist_sum _ _ _ _)).
    rewrite mk_kdist_a in IH. specialize (IH ltac:(lia) ltac:(lia)).
    destruct (inflate x f kmax h I Imin N' (mk_kdist x alpha beta a) sc) as [[N'' d']|e]; auto.
    destruct IH as [[IH1 IH2] IH3]. split; [lia|auto].
Qed.
