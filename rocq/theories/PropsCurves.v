(** C26-C28: reach quantiles and the Goerg model. *)
From Coq Require Import Lqa Qpower.
From Verif Require Import Prelude ModelReachPoint ReachPointLemmas DataLemmas ModelCurves SpecCurves CurvesLemmas.
Open Scope Z_scope.

(** * C26: the quantile search *)

(** Whatever the curve (monotone or not), an answer x is an integer >= 0 at which the target
    is not exceeded while it is exceeded at x + 1; reach(0) is never looked at. *)
Theorem C26_answer_brackets_target : forall max_reach f q x,
  defined_from_1 f -> by_quantile max_reach f q = Ok x ->
  0 <= x < 2 ^ 60 /\ (x = 0 \/ at_most f (q * max_reach) x) /\ exceeds f (q * max_reach) (x + 1).
Proof.
  intros max f q x Hf H.
  destruct (by_quantile_spec max f q Hf) as [[_ E]|[[_ [E _]]|[_ [y [k [E [Hy [Hk [_ [H1 H2]]]]]]]]]];
    rewrite H in E; try discriminate.
  inversion E; subst y.
  assert (2 ^ k <= 2 ^ 60) by (apply Z.pow_le_mono_r; lia).
  assert (forall a, (a <= max * q <-> a <= q * max)%Q) as A1 by (intros a; rewrite (Qmult_comm max q); tauto).
  assert (forall a, (max * q < a <-> q * max < a)%Q) as A2 by (intros a; rewrite (Qmult_comm max q); tauto).
  split; [lia|]. split.
  - destruct H1 as [H1|[r [E1 E2]]]; [left; auto|right; exists r; split; auto; apply A1; auto].
  - destruct H2 as [r [E1 E2]]. exists r. split; auto. apply A2; auto.
Qed.
Print Assumptions C26_answer_brackets_target.

(** For a monotone curve that starts at or below the target: reach(x) <= target < reach(x+1),
    so x is the largest integer whose reach does not exceed the target. *)
Theorem C26_quantile_inverts : forall max_reach f q x,
  defined_from_1 f -> monotone_curve f -> at_most f (q * max_reach) 0 ->
  by_quantile max_reach f q = Ok x ->
  at_most f (q * max_reach) x /\ exceeds f (q * max_reach) (x + 1) /\
  (forall y, x < y -> exceeds f (q * max_reach) y) /\
  (forall y, 1 <= y <= x -> at_most f (q * max_reach) y).
Proof.
  intros max f q x Hf Hm H0 H.
  destruct (C26_answer_brackets_target max f q x Hf H) as [Hx [H1 H2]].
  assert (at_most f (q * max) x) as H1' by (destruct H1 as [->|H1]; auto).
  split; auto. split; auto. split.
  - intros y Hy. destruct H2 as [r [E L]]. destruct (Hf y ltac:(lia)) as [b Eb].
    exists b. split; auto. pose proof (Hm (x + 1) y r b ltac:(lia) E Eb). lra.
  - intros y Hy. destruct H1' as [r [E L]]. destruct (Hf y ltac:(lia)) as [b Eb].
    exists b. split; auto. pose proof (Hm y x b r ltac:(lia) Eb E). lra.
Qed.
Print Assumptions C26_quantile_inverts.

(** The search always ends (within 61 doublings and 60 halvings) with an answer or one of two
    exceptions: ValueError exactly when q is outside (0,1), OverflowError exactly when the
    target is not exceeded at any of 1, 2, 4, ..., 2^60. *)
Theorem C26_search_ends : forall max_reach f q, defined_from_1 f ->
  match by_quantile max_reach f q with
  | Ok _ => (0 < q < 1)%Q /\ exists i, 0 <= i <= 60 /\ exceeds f (q * max_reach) (2 ^ i)
  | Err e => (e = ValueError /\ ~ (0 < q < 1)%Q) \/
             (e = OverflowError /\ (0 < q < 1)%Q /\
              forall i, 0 <= i <= 60 -> at_most f (q * max_reach) (2 ^ i))
  end.
Proof.
  intros max f q Hf.
  assert (forall a, (a <= max * q <-> a <= q * max)%Q) as A1 by (intros a; rewrite (Qmult_comm max q); tauto).
  assert (forall a, (max * q < a <-> q * max < a)%Q) as A2 by (intros a; rewrite (Qmult_comm max q); tauto).
  destruct (by_quantile_spec max f q Hf) as [[N E]|[[N [E H]]|[N [y [k [E [Hy [Hk [H0 [H1 H2]]]]]]]]]]; rewrite E.
  - auto.
  - right. split; auto. split; auto. intros i Hi. destruct (H i Hi) as [r [E1 E2]].
    exists r. split; auto. apply A1; auto.
  - split; auto. exists k. split; auto. destruct H0 as [r [E1 E2]]. exists r. split; auto. apply A2; auto.
Qed.
Print Assumptions C26_search_ends.

(** For a monotone curve, only the reach at 2^60 decides. *)
Theorem C26_raises_iff : forall max_reach f q,
  defined_from_1 f -> monotone_curve f ->
  ((exists e, by_quantile max_reach f q = Err e) <->
   ~ (0 < q < 1)%Q \/ at_most f (q * max_reach) (2 ^ 60)).
Proof.
  intros max f q Hf Hm. pose proof (C26_search_ends max f q Hf) as H.
  destruct (by_quantile max f q) as [x|e].
  - destruct H as [H1 [i [Hi [r [E L]]]]]. split; [intros [e H]; discriminate|].
    intros [H|[r' [E' L']]]; [contradiction|].
    pose proof (Hm (2 ^ i) (2 ^ 60) r r') as M.
    assert (1 <= 2 ^ i) by (apply (Z.pow_le_mono_r 2 0 i); lia).
    assert (2 ^ i <= 2 ^ 60) by (apply Z.pow_le_mono_r; lia).
    specialize (M ltac:(lia) E E'). lra.
  - split; [|eauto]. intros _. destruct H as [[_ H]|[_ [_ H]]]; auto. right. apply H. lia.
Qed.
Print Assumptions C26_raises_iff.

(** A curve that reaches [x] people at [x] impressions, up to 1000. *)
Definition ex_curve (x : Z) : result Q := Ok (inject_Z (Z.min x 1000)).
Example ex_curve_meets : defined_from_1 ex_curve /\ monotone_curve ex_curve /\
  at_most ex_curve ((1#3) * 1000) 0 /\ by_quantile 1000 ex_curve (1#3) = Ok 333 /\
  by_quantile 5000 ex_curve (1#3) = Err OverflowError /\ by_quantile 1000 ex_curve 1 = Err ValueError.
Proof.
  split; [intros x _; unfold ex_curve; eauto|]. split.
  - intros x y a b Hxy Ha Hb. unfold ex_curve in *. inversion Ha; inversion Hb; subst.
    rewrite <- Zle_Qle. lia.
  - split; [exists 0%Q; split; [reflexivity|vm_compute; discriminate]|]. vm_compute. auto.
Qed.

(** * C27: Goerg *)

Lemma trained_facts g imp r sp : goerg_trained_at g imp r sp ->
  ((1#1000) <= imp)%Q /\ (r < imp)%Q /\ (go_rho g == imp * r / (imp - r))%Q /\
  go_beta g = go_rho g /\ go_max_reach g = go_rho g /\
  match sp with
  | Some (s :: _) => go_cpi g = Some (s / imp)%Q
  | _ => go_cpi g = None
  end.
Proof.
  intros [p [kp [u [Hp [Hr Hg]]]]].
  apply mk_goerg_inv in Hg.
  destruct Hg as [p' [imp' [r' [E1 [E2 [E3 [E4 [E5 [E6 [E7 [E8 E9]]]]]]]]]]].
  injection E1 as <-. apply mk_reach_point_ok in Hp. destruct Hp as [P1 [P2 [P3 [P4 P5]]]].
  rewrite P1 in E2. injection E2 as <-. rewrite Hr in E3. injection E3 as <-.
  split; auto. split; auto. split; [rewrite E6; reflexivity|]. split; auto. split; auto.
  rewrite P5 in E9. destruct sp as [[|s l]|]; auto.
  destruct E9 as [s' [E9 ->]]. injection E9 as ->. reflexivity.
Qed.

Lemma answers_fun q x k a b : answers q x k a -> answers q x k b -> (a == b)%Q.
Proof.
  intros [H1 A] [_ B]. destruct (A k ltac:(lia)) as [p [r [E1 [E2 E3]]]].
  destruct (B k ltac:(lia)) as [p' [r' [E1' [E2' E3']]]].
  rewrite E1 in E1'. injection E1' as <-. rewrite E2 in E2'. injection E2' as <-.
  rewrite <- E3. auto.
Qed.

Lemma rho_sign g imp r sp : goerg_trained_at g imp r sp -> (0 < r)%Q ->
  (r < go_rho g)%Q.
Proof.
  intros H Hr. destruct (trained_facts _ _ _ _ H) as [H1 [H2 [E _]]].
  rewrite E. apply Qlt_shift_div_l; nra.
Qed.

Lemma goerg_answers g imp r sp x k : goerg_trained_at g imp r sp ->
  ~ (x + go_rho g == 0)%Q -> 1 <= k ->
  answers (goerg_by_impressions g) x k (go_rho g * qpow (x / (x + go_rho g)) (Z.to_nat k)).
Proof.
  intros H Hx Hk. split; auto. intros m Hm.
  destruct (trained_facts _ _ _ _ H) as [_ [_ [_ [Hb _]]]].
  destruct (goerg_by_impressions_ok g x m) as [p [E1 [_ [_ [_ E2]]]]]; [rewrite Hb; auto|].
  exists p, (go_rho g * (x / (x + go_beta g)) ^ k)%Q.
  split; auto. split; [apply E2; lia|]. rewrite Hb.
  rewrite <- (Z2Nat.id k) at 1 by lia. rewrite Qpower_qpow. reflexivity.
Qed.

(** Exactly the valid training sets are accepted; everything else raises ValueError. *)
Theorem C27_accepts_exactly_valid_points : forall data, Forall constructed data ->
  match mk_goerg data with
  | Ok _ => goerg_fittable data
  | Err e => e = ValueError /\ ~ goerg_fittable data
  end.
Proof.
  intros data HC. destruct (mk_goerg data) as [g|e] eqn:E.
  - apply mk_goerg_inv in E. destruct E as [p [imp [r [E1 [E2 [E3 [E4 [E5 _]]]]]]]].
    exists p, imp, r. auto.
  - assert (~ goerg_fittable data) as N.
    { intros [p [imp [r [-> [E2 [E3 [E4 E5]]]]]]]. revert E. unfold mk_goerg, curve_init, surface_init.
      cbn [forallb]. rewrite Nat.eqb_refl. cbn [andb bind length]. cbn. rewrite E2. cbn.
      apply Qltb_ge in E4. rewrite E4, E3. cbn. apply Qleb_gt in E5. rewrite E5.
      inversion HC as [|? ? Hc _]; subst. destruct Hc as [imps [kp [sp [u Hc]]]].
      apply mk_reach_point_ok in Hc. destruct Hc as [_ [_ [_ [_ ->]]]].
      destruct sp as [[|s sp]|]; cbn; try discriminate. }
    split; auto. revert E. unfold mk_goerg, curve_init, surface_init.
    destruct data as [|p data]; [cbn; congruence|].
    inversion HC as [|? ? Hc _]; subst.
    destruct (forallb _ _); [|cbn; congruence]. cbn [bind].
    replace (py_index (p :: data) 0) with (Ok p) by reflexivity. cbn [bind].
    destruct (rp_impressions p) as [|i [|i' l]] eqn:Ei; cbn [length Nat.eqb bind]; try congruence.
    destruct data; cbn [length Nat.eqb negb bind]; [|congruence].
    cbn. destruct (Qltb i (1#1000)); [congruence|].
    destruct (reach p 1) as [r|e'] eqn:Er.
    + cbn. destruct (Qleb i r); [congruence|].
      destruct Hc as [imps [kp [sp [u Hc]]]].
      apply mk_reach_point_ok in Hc. destruct Hc as [_ [_ [_ [_ ->]]]].
      destruct sp as [[|s sp]|]; cbn; try discriminate.
    + cbn. intros H. injection H as ->. revert Er. unfold reach.
      destruct (_ && _) eqn:B; [|congruence].
      intros Er. exfalso. apply andb_prop in B. destruct B as [_ B]. apply Z.leb_le in B. unfold max_frequency in B.
      pose proof (proj2 (py_index_ok_iff (rp_kplus p) (1 - 1)) ltac:(lia)) as O. rewrite Er in O. discriminate.
Qed.
Print Assumptions C27_accepts_exactly_valid_points.

(** The curve passes exactly through the point it was trained on. *)
Theorem C27_interpolates : forall g imp r sp, goerg_trained_at g imp r sp ->
  answers (goerg_by_impressions g) imp 1 r.
Proof.
  intros g imp r sp H. destruct (trained_facts _ _ _ _ H) as [H1 [H2 [Hrho [Hb _]]]].
  assert (imp + go_rho g == imp * imp / (imp - r))%Q as Es by (rewrite Hrho; field; lra).
  assert (~ (imp * imp / (imp - r) == 0)%Q) as N.
  { assert (0 < imp * imp / (imp - r))%Q; [|lra]. apply Qlt_shift_div_l; nra. }
  pose proof (goerg_answers g imp r sp imp 1 H) as [_ A]; [rewrite Es; auto|lia|].
  split; [lia|]. intros m Hm. destruct (A m Hm) as [p [r' [E1 [E2 E3]]]].
  exists p, r'. split; auto. split; auto. rewrite E3. change (Z.to_nat 1) with 1%nat. cbn [qpow].
  rewrite Es, Hrho. field. split; lra.
Qed.
Print Assumptions C27_interpolates.

(** Every non-negative query is answered for every frequency when the training reach is
    positive, and more impressions give strictly more k+ reach. *)
Theorem C27_strictly_increasing : forall g imp r sp k x y,
  goerg_trained_at g imp r sp -> (0 < r)%Q -> 1 <= k -> (0 <= x)%Q -> (x < y)%Q ->
  exists a b, answers (goerg_by_impressions g) x k a /\ answers (goerg_by_impressions g) y k b /\ (a < b)%Q.
Proof.
  intros g imp r sp k x y H Hr Hk Hx Hxy. pose proof (rho_sign _ _ _ _ H Hr).
  eexists. eexists. split; [apply (goerg_answers _ _ _ _ x k H); [lra|auto]|].
  split; [apply (goerg_answers _ _ _ _ y k H); [lra|auto]|].
  pose proof (ratio_bounds x (go_rho g) Hx ltac:(lra)) as B.
  pose proof (ratio_lt x y (go_rho g) Hx Hxy ltac:(lra)) as R.
  replace (Z.to_nat k) with (S (Z.to_nat (k - 1))) by lia.
  pose proof (qpow_lt _ _ (Z.to_nat (k - 1)) (proj1 B) R) as Q.
  rewrite !(Qmult_comm (go_rho g)). apply Qmult_lt_compat_r; lra.
Qed.
Print Assumptions C27_strictly_increasing.

(** Reach is non-negative and strictly below max_reach, however many impressions. *)
Theorem C27_below_max_reach : forall g imp r sp k x a,
  goerg_trained_at g imp r sp -> (0 < r)%Q -> (0 <= x)%Q ->
  answers (goerg_by_impressions g) x k a -> (0 <= a < go_max_reach g)%Q.
Proof.
  intros g imp r sp k x a H Hr Hx Ha. pose proof (rho_sign _ _ _ _ H Hr).
  destruct (trained_facts _ _ _ _ H) as [_ [_ [_ [_ [Hm _]]]]]. rewrite Hm.
  assert (1 <= k) as Hk by apply Ha.
  pose proof (answers_fun _ _ _ _ _ Ha (goerg_answers _ _ _ _ x k H ltac:(lra) Hk)) as E. rewrite E.
  pose proof (ratio_bounds x (go_rho g) Hx ltac:(lra)) as B.
  replace (Z.to_nat k) with (S (Z.to_nat (k - 1))) by lia.
  pose proof (qpow_lt_1 _ (Z.to_nat (k - 1)) B). pose proof (qpow_nonneg _ (S (Z.to_nat (k - 1))) (proj1 B)).
  split; [apply Qmult_le_0_compat; lra|].
  rewrite <- (Qmult_1_l (go_rho g)) at 3. rewrite Qmult_comm. apply Qmult_lt_compat_r; lra.
Qed.
Print Assumptions C27_below_max_reach.

(** max_reach is the least upper bound: any smaller value is exceeded somewhere. *)
Theorem C27_max_reach_is_limit : forall g imp r sp t,
  goerg_trained_at g imp r sp -> (0 < r)%Q -> (t < go_max_reach g)%Q ->
  exists x a, (0 <= x)%Q /\ answers (goerg_by_impressions g) x 1 a /\ (t < a)%Q.
Proof.
  intros g imp r sp t H Hr Ht. pose proof (rho_sign _ _ _ _ H Hr).
  destruct (trained_facts _ _ _ _ H) as [_ [_ [_ [_ [Hm _]]]]]. rewrite Hm in Ht. set (R := go_rho g) in *.
  destruct (Qlt_le_dec t 0) as [Hn|Hn].
  - exists 0%Q. eexists. split; [lra|]. split; [apply (goerg_answers _ _ _ _ 0 1 H); fold R; [lra|lia]|].
    fold R. change (Z.to_nat 1) with 1%nat. cbn [qpow].
    assert (R * (0 / (0 + R) * 1) == 0)%Q as -> by (field; lra). auto.
  - set (x := (t * R / (R - t) + 1)%Q).
    assert (0 <= t * R / (R - t))%Q as Hx.
    { apply Qle_shift_div_l; [lra|]. rewrite Qmult_0_l. apply Qmult_le_0_compat; lra. }
    exists x. eexists. split; [unfold x; lra|].
    split; [apply (goerg_answers _ _ _ _ x 1 H); fold R; [unfold x; lra|lia]|].
    fold R. change (Z.to_nat 1) with 1%nat. cbn [qpow].
    assert (R * (x / (x + R) * 1) == R * x / (x + R))%Q as -> by (field; unfold x; lra).
    apply Qlt_shift_div_l; [unfold x; lra|].
    assert (t * R == (t * R / (R - t)) * (R - t))%Q as E by (field; lra).
    unfold x. set (w := (t * R / (R - t))%Q) in *. nra.
Qed.
Print Assumptions C27_max_reach_is_limit.

(** k+ reach does not increase with k. *)
Theorem C27_kplus_nonincreasing : forall g imp r sp k l x a b,
  goerg_trained_at g imp r sp -> (0 < r)%Q -> (0 <= x)%Q -> k <= l ->
  answers (goerg_by_impressions g) x k a -> answers (goerg_by_impressions g) x l b -> (b <= a)%Q.
Proof.
  intros g imp r sp k l x a b H Hr Hx Hkl Ha Hb. pose proof (rho_sign _ _ _ _ H Hr).
  assert (1 <= k) as Hk by apply Ha.
  rewrite (answers_fun _ _ _ _ _ Ha (goerg_answers _ _ _ _ x k H ltac:(lra) Hk)).
  rewrite (answers_fun _ _ _ _ _ Hb (goerg_answers _ _ _ _ x l H ltac:(lra) ltac:(lia))).
  pose proof (ratio_bounds x (go_rho g) Hx ltac:(lra)) as B.
  pose proof (qpow_antitone _ (Z.to_nat k) (Z.to_nat l) (conj (proj1 B) (Qlt_le_weak _ _ (proj2 B))) ltac:(lia)).
  rewrite !(Qmult_comm (go_rho g)). apply Qmult_le_compat_r; lra.
Qed.
Print Assumptions C27_kplus_nonincreasing.

(** Zero impressions reach nobody. *)
Theorem C27_zero_at_zero : forall g imp r sp k,
  goerg_trained_at g imp r sp -> (0 < r)%Q -> 1 <= k -> answers (goerg_by_impressions g) 0 k 0.
Proof.
  intros g imp r sp k H Hr Hk. pose proof (rho_sign _ _ _ _ H Hr).
  pose proof (goerg_answers g imp r sp 0 k H ltac:(lra) Hk) as [_ A]. split; auto.
  intros m Hm. destruct (A m Hm) as [p [r' [E1 [E2 E3]]]]. exists p, r'. split; auto. split; auto.
  rewrite E3. replace (Z.to_nat k) with (S (Z.to_nat (k - 1))) by lia. cbn [qpow].
  field. lra.
Qed.
Print Assumptions C27_zero_at_zero.

(** Diminishing returns: 1+ reach is concave in impressions. *)
Theorem C27_concave : forall g imp r sp x y t a b c,
  goerg_trained_at g imp r sp -> (0 < r)%Q -> (0 <= x)%Q -> (0 <= y)%Q -> (0 <= t <= 1)%Q ->
  answers (goerg_by_impressions g) x 1 a -> answers (goerg_by_impressions g) y 1 b ->
  answers (goerg_by_impressions g) (t * x + (1 - t) * y) 1 c ->
  (t * a + (1 - t) * b <= c)%Q.
Proof.
  intros g imp r sp x y t a b c H Hr Hx Hy Ht Ha Hb Hc. pose proof (rho_sign _ _ _ _ H Hr).
  assert (0 <= t * x + (1 - t) * y)%Q as Hz.
  { assert (0 <= t * x)%Q by (apply Qmult_le_0_compat; lra).
    assert (0 <= (1 - t) * y)%Q by (apply Qmult_le_0_compat; lra). lra. }
  rewrite (answers_fun _ _ _ _ _ Ha (goerg_answers _ _ _ _ x 1 H ltac:(lra) ltac:(lia))).
  rewrite (answers_fun _ _ _ _ _ Hb (goerg_answers _ _ _ _ y 1 H ltac:(lra) ltac:(lia))).
  rewrite (answers_fun _ _ _ _ _ Hc (goerg_answers _ _ _ _ (t * x + (1 - t) * y) 1 H ltac:(lra) ltac:(lia))).
  set (R := go_rho g) in *. set (z := (t * x + (1 - t) * y)%Q) in *.
  change (Z.to_nat 1) with 1%nat. cbn [qpow].
  assert (R * (z / (z + R) * 1) == R * z / (z + R))%Q as -> by (field; lra).
  apply Qle_shift_div_l; [lra|].
  assert ((t * (R * (x / (x + R) * 1)) + (1 - t) * (R * (y / (y + R) * 1))) * (z + R) ==
          R * (z + R) * (t * x * (y + R) + (1 - t) * y * (x + R)) / ((x + R) * (y + R)))%Q as -> by (field; lra).
  apply Qle_shift_div_r; [nra|].
  assert (R * z * ((x + R) * (y + R)) - R * (z + R) * (t * x * (y + R) + (1 - t) * y * (x + R)) ==
          R * R * (t * (1 - t)) * ((x - y) * (x - y)))%Q as E by (unfold z; ring).
  assert (0 <= R * R * (t * (1 - t)) * ((x - y) * (x - y)))%Q; [|lra].
  apply Qmult_le_0_compat; [apply Qmult_le_0_compat; [nra|apply Qmult_le_0_compat; lra]|].
  destruct (Qlt_le_dec x y); [setoid_replace ((x - y) * (x - y))%Q with ((y - x) * (y - x))%Q by ring|];
    apply Qmult_le_0_compat; lra.
Qed.
Print Assumptions C27_concave.

(** With a training reach of zero the model is accepted, but the query at zero impressions
    raises ZeroDivisionError instead of answering 0 (other queries answer 0). *)
Theorem C27_zero_training_reach_refuted :
  exists g, goerg_trained_at g 100 0 None /\
    (forall m, 1 <= m -> goerg_by_impressions g [0%Q] m = Err ZeroDivisionError) /\
    (forall x k, (0 < x)%Q -> 1 <= k -> answers (goerg_by_impressions g) x k 0).
Proof.
  destruct (mk_goerg [{| rp_impressions := [100%Q]; rp_kplus := [0%Q]; rp_frequencies := [];
    rp_spends := None; rp_universe := None |}]) as [g|] eqn:E; [|vm_compute in E; discriminate].
  assert (goerg_trained_at g 100 0 None) as T.
  { eexists. exists [0%Q], None. split; [reflexivity|]. split; [reflexivity|]. exact E. }
  vm_compute in E. injection E as <-.
  eexists. split; [exact T|]. split.
  - intros m Hm. cbn [goerg_by_impressions go_beta go_rho]. unfold py_range.
    replace (Z.to_nat (m + 1 - 1)) with (S (Z.to_nat (m - 1))) by lia. reflexivity.
  - intros x k Hx Hk. pose proof (goerg_answers _ _ _ _ x k T) as [_ A]; auto.
    + cbn [go_rho]. lra.
    + split; auto. intros m Hm. destruct (A m Hm) as [p [r' [E1 [E2 E3]]]].
      exists p, r'. split; auto. split; auto. rewrite E3. cbn [go_rho].
      match goal with |- (?c * ?w == 0)%Q => generalize w; intros w' end. ring.
Qed.
Print Assumptions C27_zero_training_reach_refuted.

(** * C28: spend queries *)

(** A spend query is the impression query at the impressions that spend buys; both raise the
    same exception when the price is not known. *)
Theorem C28_spend_is_impressions : forall g s m,
  goerg_by_spend g [s] m =
  match goerg_impressions_for_spend g s with
  | Ok x => goerg_by_impressions g [x] m
  | Err e => Err e
  end.
Proof.
  intros g s m. unfold goerg_by_spend, goerg_impressions_for_spend. destruct (go_cost g); reflexivity.
Qed.
Print Assumptions C28_spend_is_impressions.

(** The price is the training price: spend S buys the training impressions, in proportion. *)
Theorem C28_constant_price : forall g imp r s0 s,
  goerg_trained_at g imp r (Some [s0]) -> ~ (s0 == 0)%Q ->
  exists x, goerg_impressions_for_spend g s = Ok x /\ (x * s0 == s * imp)%Q.
Proof.
  intros g imp r s0 s H Hs. destruct (trained_facts _ _ _ _ H) as [H1 [_ [_ [_ [_ Hc]]]]].
  unfold goerg_impressions_for_spend.
  assert (go_cost g = Some (s0 / imp)%Q) as ->.
  { apply go_cost_spec. split; auto. intros E. apply Hs.
    assert (s0 == s0 / imp * imp)%Q as -> by (field; lra). rewrite E. ring. }
  eexists. split; [reflexivity|]. field. split; [lra|auto].
Qed.
Print Assumptions C28_constant_price.

(** At the training spend the model returns the training reach, and reports that spend. *)
Theorem C28_training_spend : forall g imp r s0,
  goerg_trained_at g imp r (Some [s0]) -> ~ (s0 == 0)%Q ->
  answers (goerg_by_spend g) s0 1 r.
Proof.
  intros g imp r s0 H Hs. destruct (trained_facts _ _ _ _ H) as [H1 [H2 [Hrho [Hb [_ Hc]]]]].
  destruct (C28_constant_price g imp r s0 s0 H Hs) as [x [Ex Ep]].
  assert (x == imp)%Q as Exi.
  { assert (x == x * s0 / s0)%Q as -> by (field; auto). rewrite Ep. field; auto. }
  assert (imp + go_rho g == imp * imp / (imp - r))%Q as Es by (rewrite Hrho; field; lra).
  assert (~ (imp * imp / (imp - r) == 0)%Q) as N.
  { assert (0 < imp * imp / (imp - r))%Q; [|lra]. apply Qlt_shift_div_l; nra. }
  pose proof (goerg_answers g imp r _ x 1 H) as [_ A]; [rewrite Exi, Es; auto|lia|].
  split; [lia|]. intros m Hm. destruct (A m Hm) as [p [r' [E1 [E2 E3]]]].
  exists p, r'. rewrite C28_spend_is_impressions, Ex. split; auto. split; auto. rewrite E3.
  change (Z.to_nat 1) with 1%nat. cbn [qpow].
  rewrite Exi, Es, Hrho. field. split; lra.
Qed.
Print Assumptions C28_training_spend.

(** The point returned for spend s carries a spend equal to s. *)
Theorem C28_reports_its_spend : forall g imp r s0 s m p,
  goerg_trained_at g imp r (Some [s0]) -> goerg_by_spend g [s] m = Ok p ->
  exists s', rp_spends p = Some [s'] /\ (s' == s)%Q.
Proof.
  intros g imp r s0 s m p H Hp. unfold goerg_by_spend in Hp.
  destruct (go_cost g) as [c|] eqn:Ec; [|discriminate].
  unfold goerg_by_impressions in Hp. destruct (mapM _ _); [|discriminate]. cbn [bind] in Hp.
  rewrite Ec in Hp. apply mk_reach_point_ok in Hp. destruct Hp as [_ [_ [_ [_ ->]]]].
  eexists. split; [reflexivity|]. apply go_cost_spec in Ec. field. apply Ec.
Qed.
Print Assumptions C28_reports_its_spend.

(** Trained without a spend, or with a spend of zero, every spend query raises ValueError. *)
Theorem C28_unknown_price_rejected : forall g imp r sp,
  goerg_trained_at g imp r sp ->
  (sp = None \/ sp = Some [] \/ exists s0, sp = Some [s0] /\ (s0 == 0)%Q) ->
  forall spends m s, goerg_by_spend g spends m = Err ValueError /\
                     goerg_impressions_for_spend g s = Err ValueError.
Proof.
  intros g imp r sp H Hsp spends m s. destruct (trained_facts _ _ _ _ H) as [H1 [_ [_ [_ [_ Hc]]]]].
  assert (go_cost g = None) as E.
  { unfold go_cost. destruct Hsp as [->|[->|[s0 [-> E]]]]; rewrite Hc; auto.
    unfold Qeqb. rewrite (proj2 (Qeq_bool_iff _ _)); auto. rewrite E. field. lra. }
  unfold goerg_by_spend, goerg_impressions_for_spend. rewrite E. auto.
Qed.
Print Assumptions C28_unknown_price_rejected.

(** A model trained on 1000 impressions, reach 500, spend 20. *)
Example ex_goerg : exists g, goerg_trained_at g 1000 500 (Some [20%Q]) /\
  (go_max_reach g == 1000)%Q /\ goerg_impressions_at_reach_quantile g (1#2) = Ok 1000 /\
  goerg_spend_at_reach_quantile g (2#3) = Ok 40.
Proof.
  eexists. split; [eexists; exists [500%Q], None; split; [reflexivity|]; split; reflexivity|].
  vm_compute. auto.
Qed.

(** * C26 for the Goerg model: no hypothesis on the curve remains. *)
Theorem C26_goerg_impressions : forall g imp r sp q,
  goerg_trained_at g imp r sp -> (0 < r)%Q -> (0 < q < 1)%Q ->
  match goerg_impressions_at_reach_quantile g q with
  | Ok x => exists a b, answers (goerg_by_impressions g) (inject_Z x) 1 a /\
                        answers (goerg_by_impressions g) (inject_Z (x + 1)) 1 b /\
                        (a <= q * go_max_reach g < b)%Q
  | Err e => e = OverflowError /\ (inject_Z (2 ^ 60) * (1 - q) <= q * go_max_reach g)%Q
  end.
Proof.
  intros g imp r sp q H Hr Hq. pose proof (rho_sign _ _ _ _ H Hr) as HR.
  destruct (trained_facts _ _ _ _ H) as [_ [_ [_ [Hb [Hm _]]]]].
  assert (forall x, 0 <= x -> (0 <= inject_Z x)%Q) as Hi by (intros x Hx; rewrite (Zle_Qle 0 x) in Hx; auto).
  assert (forall x, 0 <= x -> exists a, goerg_reach g x = Ok a /\
     answers (goerg_by_impressions g) (inject_Z x) 1 a) as HA.
  { intros x Hx. specialize (Hi x Hx). pose proof (goerg_answers g imp r sp (inject_Z x) 1 H ltac:(lra) ltac:(lia)) as A.
    destruct A as [A0 A]. destruct (A 1 ltac:(lia)) as [p [a [E1 [E2 E3]]]]. exists a. split.
    - unfold goerg_reach. rewrite E1. cbn [bind]. exact E2.
    - split; auto. intros m Hk. destruct (A m Hk) as [p' [a' [E1' [E2' E3']]]].
      exists p', a'. split; auto. split; auto. rewrite E3'. symmetry. exact E3. }
  assert (defined_from_1 (goerg_reach g)) as Hd.
  { intros x Hx. destruct (HA x ltac:(lia)) as [a [E _]]. eauto. }
  unfold goerg_impressions_at_reach_quantile.
  pose proof (C26_search_ends (go_max_reach g) (goerg_reach g) q Hd) as HS.
  destruct (by_quantile (go_max_reach g) (goerg_reach g) q) as [x|e] eqn:E.
  - destruct (C26_answer_brackets_target _ _ _ _ Hd E) as [Hx [H1 H2]].
    destruct H2 as [b [Eb Lb]]. destruct (HA x ltac:(lia)) as [a [Ea Aa]].
    destruct (HA (x + 1) ltac:(lia)) as [b' [Eb' Ab]]. rewrite Eb in Eb'. injection Eb' as <-.
    exists a, b. split; auto. split; auto. split; auto.
    destruct H1 as [->|[a' [Ea' La]]].
    + assert (a == 0)%Q as ->.
      { exact (answers_fun _ _ _ _ _ Aa (C27_zero_at_zero g imp r sp 1 H Hr ltac:(lia))). }
      rewrite Hm. apply Qmult_le_0_compat; lra.
    + rewrite Ea in Ea'. injection Ea' as <-. auto.
  - destruct HS as [[_ N]|[-> [_ HS]]]; [contradiction|]. split; auto.
    destruct (HS 60 ltac:(lia)) as [a [Ea La]].
    destruct (HA (2 ^ 60) ltac:(lia)) as [a' [Ea' Aa]]. rewrite Ea in Ea'. injection Ea' as <-.
    set (X := inject_Z (2 ^ 60)) in *. assert (0 < X)%Q as HX by reflexivity.
    rewrite (answers_fun _ _ _ _ _ Aa (goerg_answers _ _ _ _ X 1 H ltac:(lra) ltac:(lia))) in La.
    change (Z.to_nat 1) with 1%nat in La. cbn [qpow] in La. rewrite Hm in *. set (R := go_rho g) in *.
    assert (R * (X / (X + R) * 1) == R * X / (X + R))%Q as E2 by (field; lra). rewrite E2 in La.
    assert (R * X <= q * R * (X + R))%Q as L2.
    { assert (R * X == R * X / (X + R) * (X + R))%Q as -> by (field; lra). apply Qmult_le_compat_r; lra. }
    assert (X <= q * (X + R))%Q as L3; [|lra].
    apply (Qmult_le_l _ _ R); [lra|]. lra.
Qed.
Print Assumptions C26_goerg_impressions.
