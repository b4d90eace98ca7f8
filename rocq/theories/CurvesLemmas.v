From Coq Require Import Lqa Qpower.
From Verif Require Import Prelude ModelReachPoint ReachPointLemmas DataLemmas ModelCurves.
Open Scope Z_scope.

Definition total_from_1 (f : Z -> result Q) : Prop := forall x, 1 <= x -> exists r, f x = Ok r.

(** [f x] is a value at most [t] / above [t]. *)
Definition below (f : Z -> result Q) (t : Q) (x : Z) : Prop := exists r, f x = Ok r /\ (r <= t)%Q.
Definition above (f : Z -> result Q) (t : Q) (x : Z) : Prop := exists r, f x = Ok r /\ (t < r)%Q.

Lemma quantile_double_spec n : forall f t lower upper, total_from_1 f ->
  1 <= upper -> (lower = 0 \/ below f t lower) -> upper - lower <= upper ->
  (forall j, 0 <= j -> upper = 2 ^ j -> (lower = 0 /\ upper = 1 \/ upper = 2 * lower) ->
   match quantile_double n f t lower upper with
   | Ok (l, u) => (l = 0 \/ below f t l) /\ above f t u /\ 0 <= l /\
       exists k, j <= k <= j + Z.of_nat n /\ u = 2 ^ k /\ (l = 0 /\ u = 1 \/ u = 2 * l)
   | Err e => e = OverflowError /\ forall i, 0 <= i <= Z.of_nat n -> below f t (2 ^ (j + i))
   end).
Proof.
  induction n as [|n IH]; intros f t lower upper Hf Hu Hl Hw j Hj Ej Hlu.
  - cbn [quantile_double]. destruct (Hf upper Hu) as [r Er]. rewrite Er. cbn [bind].
    destruct (Qleb r t) eqn:E.
    + apply Qleb_le in E. split; auto. intros i Hi. replace i with 0 by lia. rewrite Z.add_0_r, <- Ej.
      exists r. auto.
    + apply Qleb_gt in E. split; auto. split; [exists r; auto|]. split; [lia|]. exists j. split; [lia|auto].
  - cbn [quantile_double]. destruct (Hf upper Hu) as [r Er]. rewrite Er. cbn [bind].
    destruct (Qleb r t) eqn:E.
    + apply Qleb_le in E.
      specialize (IH f t upper (2 * upper) Hf ltac:(lia) (or_intror (ex_intro _ r (conj Er E))) ltac:(lia)
        (j + 1) ltac:(lia)).
      assert (2 * upper = 2 ^ (j + 1)) as E2 by (rewrite Z.pow_add_r by lia; lia).
      specialize (IH E2 (or_intror eq_refl)).
      destruct (quantile_double n f t upper (2 * upper)) as [[l u]|e].
      * destruct IH as [H1 [H2 [H3 [k [H4 H5]]]]]. split; auto. split; auto. split; auto.
        exists k. split; [lia|auto].
      * destruct IH as [H1 H2]. split; auto. intros i Hi.
        destruct (Z.eq_dec i 0) as [->|].
        { rewrite Z.add_0_r, <- Ej. exists r. auto. }
        specialize (H2 (i - 1) ltac:(lia)). replace (j + 1 + (i - 1)) with (j + i) in H2 by lia. auto.
    + apply Qleb_gt in E. split; auto. split; [exists r; auto|]. split; [lia|]. exists j. split; [lia|auto].
Qed.

Lemma quantile_bisect_spec fuel : forall f t lower upper, total_from_1 f ->
  0 <= lower < upper -> upper - lower <= 2 ^ Z.of_nat fuel ->
  (lower = 0 \/ below f t lower) -> above f t upper ->
  exists x, quantile_bisect fuel f t lower upper = Ok x /\ lower <= x < upper /\
    (x = 0 \/ below f t x) /\ above f t (x + 1).
Proof.
  induction fuel as [|fuel IH]; intros f t lower upper Hf Hlu Hw Hl Hu; cbn [quantile_bisect].
  - simpl in Hw. destruct (Z.ltb_spec 1 (upper - lower)); [lia|]. exists lower.
    replace (lower + 1) with upper by lia. repeat split; auto; lia.
  - destruct (Z.ltb_spec 1 (upper - lower)).
    + set (mid := (upper + lower) / 2).
      assert (lower < mid < upper) as Hm.
      { unfold mid. split; [|apply Z.div_lt_upper_bound; lia].
        assert (lower + 1 <= (upper + lower) / 2); [|lia]. apply Z.div_le_lower_bound; lia. }
      assert (upper - mid <= 2 ^ Z.of_nat fuel /\ mid - lower <= 2 ^ Z.of_nat fuel) as [W1 W2].
      { rewrite Nat2Z.inj_succ, Z.pow_succ_r in Hw by lia.
        pose proof (Z.div_mod (upper + lower) 2 ltac:(lia)) as D.
        pose proof (Z.mod_pos_bound (upper + lower) 2 ltac:(lia)). fold mid in D. lia. }
      destruct (Hf mid ltac:(lia)) as [r Er]. rewrite Er. cbn [bind].
      destruct (Qleb r t) eqn:E.
      * apply Qleb_le in E.
        destruct (IH f t mid upper Hf ltac:(lia) W1 (or_intror (ex_intro _ r (conj Er E))) Hu) as [x [E1 [E2 E3]]].
        exists x. split; auto. split; auto. lia.
      * apply Qleb_gt in E.
        destruct (IH f t lower mid Hf ltac:(lia) W2 Hl (ex_intro _ r (conj Er E))) as [x [E1 [E2 E3]]].
        exists x. split; auto. split; auto. lia.
    + exists lower. replace (lower + 1) with upper by lia. repeat split; auto; lia.
Qed.

(** Complete description for every reach function defined from 1 on. *)
Lemma by_quantile_spec max f q : total_from_1 f ->
  (~ (0 < q < 1)%Q /\ by_quantile max f q = Err ValueError) \/
  ((0 < q < 1)%Q /\ by_quantile max f q = Err OverflowError /\
     forall i, 0 <= i <= 60 -> below f (max * q) (2 ^ i)) \/
  ((0 < q < 1)%Q /\ exists x k, by_quantile max f q = Ok x /\ 0 <= x < 2 ^ k /\ 0 <= k <= 60 /\
     above f (max * q) (2 ^ k) /\ (x = 0 \/ below f (max * q) x) /\ above f (max * q) (x + 1)).
Proof.
  intros Hf. unfold by_quantile.
  destruct (Qltb 0 q) eqn:E1; cbn [andb].
  2:{ apply Qltb_ge in E1. left. split; auto. lra. }
  destruct (Qltb q 1) eqn:E2.
  2:{ apply Qltb_ge in E2. left. split; auto. lra. }
  apply Qltb_lt in E1, E2. right.
  pose proof (quantile_double_spec 60 f (max * q) 0 1 Hf ltac:(lia) (or_introl eq_refl) ltac:(lia)
    0 ltac:(lia) eq_refl (or_introl (conj eq_refl eq_refl))) as H.
  change (Z.of_nat 60) with 60 in H.
  destruct (quantile_double 60 f (max * q) 0 1) as [[l u]|e].
  - destruct H as [H1 [H2 [H3 [k [H4 [H5 H6]]]]]]. cbn [bind].
    destruct (quantile_bisect_spec 60 f (max * q) l u Hf) as [x [Ex [Hx [H7 H8]]]]; auto.
    { lia. }
    { subst u. assert (2 ^ k <= 2 ^ Z.of_nat 60); [apply Z.pow_le_mono_r; lia|lia]. }
    right. split; auto. exists x, k. split; [exact Ex|]. split; [lia|].
    split; [lia|]. split; [subst u; exact H2|]. split; assumption.
  - destruct H as [-> H]. left. auto.
Qed.

(** ** Goerg *)

Lemma mk_goerg_inv data g : mk_goerg data = Ok g ->
  exists p imp r, data = [p] /\ rp_impressions p = [imp] /\ reach p 1 = Ok r /\
    ((1#1000) <= imp)%Q /\ (r < imp)%Q /\
    go_rho g = ((imp * r) / (imp - r))%Q /\ go_beta g = go_rho g /\ go_max_reach g = go_rho g /\
    match rp_spends p with
    | Some l => exists s, py_index l 0 = Ok s /\ go_cpi g = Some (s / imp)%Q
    | None => go_cpi g = None
    end.
Proof.
  unfold mk_goerg, curve_init, surface_init. intros H.
  destruct data as [|p [|p' data]]; [discriminate| |].
  2:{ destruct (forallb _ _); [|discriminate]. cbn [bind] in H.
      destruct (py_index (p :: p' :: data) 0) as [p0|]; [|discriminate]. cbn [bind] in H.
      destruct (Nat.eqb (length (rp_impressions p0)) 1); discriminate. }
  simpl in H. rewrite Nat.eqb_refl in H. simpl in H.
  destruct (rp_impressions p) as [|imp [|? ?]] eqn:Ei; simpl in H; try discriminate.
  destruct (Qltb imp (1#1000)) eqn:E1; [discriminate|]. apply Qltb_ge in E1.
  destruct (reach p 1) as [r|] eqn:Er; [|discriminate]. simpl in H.
  destruct (Qleb imp r) eqn:E2; [discriminate|]. apply Qleb_gt in E2.
  exists p, imp, r. split; auto. split; auto. split; auto. split; auto. split; auto.
  destruct (rp_spends p) as [l|].
  - destruct (py_index l 0) as [s|]; [|discriminate]. simpl in H. inversion H; subst; simpl. eauto 8.
  - simpl in H. inversion H; subst; simpl. auto.
Qed.

Lemma reach_first {I} (imps : list I) (x : Q) l sp u p :
  mk_reach_point Qops imps (x :: l) sp u = Ok p -> reach p 1 = Ok x.
Proof. intros H. apply mk_reach_point_ok in H. destruct H as [_ [E _]]. unfold reach, max_frequency. rewrite E. cbn [length].
  destruct (Z.leb_spec 1 (Z.of_nat (S (length l)))); [reflexivity|lia].
Qed.

(** ** Powers *)

Fixpoint qpow (x : Q) (n : nat) : Q := match n with O => 1%Q | S n' => (x * qpow x n')%Q end.

Lemma Qpower_qpow x n : (x ^ Z.of_nat n == qpow x n)%Q.
Proof.
  induction n as [|n IH]; [reflexivity|]. cbn [qpow].
  rewrite <- IH. rewrite Nat2Z.inj_succ. destruct n as [|n].
  - simpl. ring.
  - change (Z.of_nat (S n)) with (Zpos (Pos.of_succ_nat n)).
    change (Z.succ (Zpos (Pos.of_succ_nat n))) with (Zpos (Pos.of_succ_nat n + 1)).
    cbn [Qpower]. rewrite Qpower_plus_positive. simpl (Qpower_positive x 1). ring.
Qed.

Lemma qpow_nonneg x n : (0 <= x)%Q -> (0 <= qpow x n)%Q.
Proof.
  intros H. induction n; cbn [qpow]; [lra|]. apply Qmult_le_0_compat; auto.
Qed.

Lemma qpow_pos x n : (0 < x)%Q -> (0 < qpow x n)%Q.
Proof.
  intros H. induction n; cbn [qpow]; [lra|].
  rewrite <- (Qmult_0_l (qpow x n)). apply Qmult_lt_compat_r; auto.
Qed.

Lemma qpow_le x y n : (0 <= x <= y)%Q -> (qpow x n <= qpow y n)%Q.
Proof.
  intros H. induction n; cbn [qpow]; [lra|].
  apply Qmult_le_compat_nonneg; [lra|]. split; auto. apply qpow_nonneg; lra.
Qed.

Lemma qpow_lt x y n : (0 <= x)%Q -> (x < y)%Q -> (qpow x (S n) < qpow y (S n))%Q.
Proof.
  intros H H'. induction n as [|n IH]; [cbn [qpow]; lra|].
  cbn [qpow] in *. set (a := (x * qpow x n)%Q) in *. set (b := (y * qpow y n)%Q) in *.
  apply Qle_lt_trans with (x * b)%Q.
  - rewrite (Qmult_comm x a), (Qmult_comm x b). apply Qmult_le_compat_r; lra.
  - apply Qmult_lt_compat_r; auto.
    assert (0 <= a)%Q by (apply Qmult_le_0_compat; [lra|apply qpow_nonneg; lra]). lra.
Qed.

Lemma qpow_le_1 x n : (0 <= x <= 1)%Q -> (qpow x (S n) <= qpow x n)%Q.
Proof.
  intros H. cbn [qpow]. pose proof (qpow_nonneg x n ltac:(lra)).
  rewrite <- (Qmult_1_l (qpow x n)) at 2. apply Qmult_le_compat_r; lra.
Qed.

Lemma qpow_lt_1 x n : (0 <= x < 1)%Q -> (qpow x (S n) < 1)%Q.
Proof.
  intros H. induction n as [|n IH]; [cbn [qpow]; lra|].
  apply Qle_lt_trans with (qpow x (S n)); auto. apply qpow_le_1. lra.
Qed.

Lemma qpow_antitone x n m : (0 <= x <= 1)%Q -> (n <= m)%nat -> (qpow x m <= qpow x n)%Q.
Proof.
  intros H L. induction L; [lra|]. eapply Qle_trans; [apply qpow_le_1; lra|auto].
Qed.

Lemma qpow_0 n : (qpow 0 (S n) == 0)%Q.
Proof. cbn [qpow]. ring. Qed.

(** The saturation ratio x / (x + b). *)
Lemma ratio_bounds x b : (0 <= x)%Q -> (0 < b)%Q -> (0 <= x / (x + b) < 1)%Q.
Proof.
  intros Hx Hb. split.
  - apply Qle_shift_div_l; lra.
  - apply Qlt_shift_div_r; lra.
Qed.

Lemma ratio_lt x y b : (0 <= x)%Q -> (x < y)%Q -> (0 < b)%Q -> (x / (x + b) < y / (y + b))%Q.
Proof.
  intros Hx Hxy Hb. apply Qlt_shift_div_l; [lra|].
  assert (x / (x + b) * (y + b) == x * (y + b) / (x + b))%Q as -> by (field; lra).
  apply Qlt_shift_div_r; [lra|]. nra.
Qed.

Lemma ratio_le x y b : (0 <= x)%Q -> (x <= y)%Q -> (0 < b)%Q -> (x / (x + b) <= y / (y + b))%Q.
Proof.
  intros Hx Hxy Hb. apply Qle_shift_div_l; [lra|].
  assert (x / (x + b) * (y + b) == x * (y + b) / (x + b))%Q as -> by (field; lra).
  apply Qle_shift_div_r; [lra|]. nra.
Qed.

Lemma go_cost_spec g c : go_cost g = Some c <-> go_cpi g = Some c /\ ~ (c == 0)%Q.
Proof.
  unfold go_cost, Qeqb. destruct (go_cpi g) as [c'|]; [|split; [discriminate|intros [? _]; discriminate]].
  destruct (Qeq_bool c' 0) eqn:E.
  - apply Qeq_bool_iff in E. split; [discriminate|]. intros [H1 H2]. inversion H1; subst. contradiction.
  - apply Qeq_bool_neq in E. split.
    + intros H; inversion H; subst; auto.
    + intros [H _]; auto.
Qed.

(** Closed form of a Goerg answer, when the denominator is not zero. *)
Lemma goerg_by_impressions_ok g x m : ~ (x + go_beta g == 0)%Q ->
  exists p, goerg_by_impressions g [x] m = Ok p /\ rp_impressions p = [x] /\
    rp_spends p = (match go_cost g with Some c => Some [(x * c)%Q] | None => None end) /\
    (max_frequency p = Z.max 0 m) /\
    forall k, 1 <= k <= m -> reach p k = Ok (go_rho g * (x / (x + go_beta g)) ^ k)%Q.
Proof.
  intros H. unfold goerg_by_impressions.
  rewrite (mapM_ok_all _ (fun k => (go_rho g * (x / (x + go_beta g)) ^ k)%Q)).
  2:{ intros k _. unfold Qeqb. destruct (Qeq_bool _ 0) eqn:E; auto. apply Qeq_bool_iff in E. contradiction. }
  cbn [bind]. set (kp := map _ (py_range 1 (m + 1))).
  assert (exists p, mk_reach_point Qops [x] kp
    (match go_cost g with Some c => Some [(x * c)%Q] | None => None end) None = Ok p) as [p Ep].
  { destruct (go_cost g); [apply mk_reach_point_same_length; reflexivity|rewrite mk_reach_point_none; eauto]. }
  exists p. split; auto. apply mk_reach_point_ok in Ep. destruct Ep as [E1 [E2 [_ [_ E5]]]].
  split; auto. split; [rewrite E5; destruct (go_cost g); auto|].
  assert (length kp = Z.to_nat m) as HL.
  { unfold kp, py_range. rewrite !map_length, seq_length. lia. }
  split; [unfold max_frequency; rewrite E2, HL; lia|].
  intros k Hk. apply reach_spec. unfold max_frequency. rewrite E2, HL. split; [lia|].
  unfold kp, py_range. rewrite map_map. 
  rewrite (map_nth_error _ (Z.to_nat (k - 1)) _ (d := Z.to_nat (k-1))).
  - replace (1 + Z.of_nat (Z.to_nat (k - 1))) with k by lia. reflexivity.
  - rewrite nth_error_nth' with (d := O) by (rewrite seq_length; lia). rewrite seq_nth by lia. reflexivity.
Qed.
