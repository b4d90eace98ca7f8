(** C49: the Gamma-Poisson model: which points it accepts, what a fitted model answers, the
    distance it minimises, the search for starting points and the choice among the attempts. *)
From Coq Require Import Lqa Qfield Qround.
From Verif Require Import Prelude ModelReachPoint ModelCurves SpecSurface ModelSurface SurfaceLemmas
  SurfaceLemmas2 HaloLemmas ReachPointLemmas ModelGamma SpecGamma GammaLemmas GammaLemmas2 GammaLemmas3
  ModelGammaPoisson SpecGammaPoisson GammaPoissonLemmas GammaPoissonLemmas2.
Open Scope Z_scope.
Local Open Scope Q_scope.

(** A point with one k+ reach at least, as the constructor of ReachPoint makes it. *)
Definition made_point (p : qpoint) (imps : list Q) (r : Q) (kp : list Q) (spends : option (list Q)) : Prop :=
  exists u, mk_reach_point Qops imps (r :: kp) spends u = Ok p.

Lemma made_fields p imps r kp spends : made_point p imps r kp spends ->
  rp_impressions p = imps /\ rp_kplus p = r :: kp /\ rp_frequencies p = diffs Qops (r :: kp) /\
  rp_spends p = match spends with Some [] => None | s => s end /\
  (forall l, rp_spends p = Some l -> length l = length imps /\ l <> []).
Proof.
  intros [u H]. destruct (point_fields _ _ _ _ _ H) as [A [B C]]. split; auto. split; auto. split; auto.
  unfold mk_reach_point in H. cbv zeta in H.
  destruct (match match spends with Some [] => None | s => s end with Some s => negb (Nat.eqb (length imps) (length s)) | None => false end) eqn:E;
    [discriminate|].
  assert (ES : rp_spends p = match spends with Some [] => None | s => s end).
  { assert (X := f_equal (fun a => match a with Ok q => rp_spends q | Err _ => None end) H). cbn in X. auto. }
  split; auto. intros l El. rewrite El in ES. rewrite <- ES in E. cbn in E. apply negb_false_iff, Nat.eqb_eq in E.
  split; auto. destruct spends as [[|]|]; congruence.
Qed.

(** ** Construction *)

(** A model is made from exactly one point with one publisher, at least 1/1000 impressions
    and no more reached users than impressions; all else is refused with a ValueError. *)
Theorem C49_accepted : forall p imps r kp spends max_reach mult, made_point p imps r kp spends ->
  ((exists m, mk_gpmodel [p] max_reach mult = Ok m) <->
   exists I, imps = [I] /\ 1#1000 <= I /\ r <= I) /\
  ((~ exists I, imps = [I] /\ 1#1000 <= I /\ r <= I) -> mk_gpmodel [p] max_reach mult = Err ValueError).
Proof.
  intros p imps r kp spends max_reach mult HP.
  destruct (made_fields _ _ _ _ _ HP) as [EI [EK [EF [ES HS]]]].
  assert (R : mk_gpmodel [p] max_reach mult = Err ValueError /\ (~ exists I, imps = [I] /\ 1#1000 <= I /\ r <= I) \/
              (exists m, mk_gpmodel [p] max_reach mult = Ok m) /\ exists I, imps = [I] /\ 1#1000 <= I /\ r <= I).
  { unfold mk_gpmodel, curve_init, surface_init. cbn [forallb]. rewrite Nat.eqb_refl. cbn [andb bind].
    change (py_index [p] 0) with (Ok p). cbn [bind]. rewrite EI.
    destruct imps as [|I [|I2 imps]]; cbn [length Nat.eqb bind].
    - left. split; [reflexivity|]. intros [J [X _]]. discriminate.
    - change (py_index [I] 0) with (Ok I). cbn [bind]. rewrite (point_reach_1 p r kp EK).
      destruct (Qltb_spec I (1#1000)) as [L|L].
      + left. split; [reflexivity|]. intros [J [X [Y _]]]. assert (J = I) by congruence. subst. lra.
      + cbn [bind]. destruct (Qltb_spec I r) as [L2|L2].
        * left. split; [reflexivity|]. intros [J [X [_ Y]]]. assert (J = I) by congruence. subst. lra.
        * right. split; [|exists I; auto].
          destruct (rp_spends p) as [[|s l]|] eqn:El; cbn [bind]; [destruct (HS [] eq_refl); congruence| |eauto].
          change (py_index (s :: l) 0) with (Ok s). cbn [bind]. eauto.
    - left. split; [reflexivity|]. intros [J [X _]]. discriminate. }
  destruct R as [[E H]|[[m E] H]]; split.
  - split; [intros [m X]; congruence|intros X; contradiction].
  - auto.
  - split; eauto.
  - intros X. contradiction.
Qed.
Print Assumptions C49_accepted.

Theorem C49_one_point : forall data max_reach mult, length data <> 1%nat ->
  mk_gpmodel data max_reach mult = Err ValueError.
Proof.
  intros data max_reach mult H. unfold mk_gpmodel. destruct (curve_init data) as [u|e] eqn:E; cbn [bind].
  - destruct data as [|p [|q l]]; try reflexivity. cbn in H. lia.
  - unfold curve_init, surface_init in E. destruct data as [|p0 l]; [cbn in E; congruence|].
    destruct (forallb _ _); cbn [bind] in E; [|congruence].
    change (py_index (p0 :: l) 0) with (Ok p0) in E. cbn [bind] in E.
    destruct (Nat.eqb _ 1); congruence.
Qed.
Print Assumptions C49_one_point.

(** ** What a fitted model answers *)

(** A model that has been fitted: it holds the universe N, the inventory Imax and alpha, beta. *)
Definition fitted (m : gpmodel) (N Imax alpha beta : Q) : Prop :=
  gm_fit m = Some (Imax, alpha, beta) /\ gm_max_reach m = Some N.

(** The k+ reach is N times the chance that a user is shown k impressions or more, where each
    impression of the inventory is shown with chance min(I, Imax - 1) / Imax. As many
    frequencies are reported as were asked for, up to the size of the table; the spend is
    reported if the training point had one. *)
Theorem C49_answer : forall x m N Imax alpha beta imp f, fitted m N Imax alpha beta -> gp_sane x alpha beta ->
  (0 <= f)%Z ->
  exists p, gm_by_impressions x m [imp] f = Ok p /\ rp_impressions p = [imp] /\
    max_frequency p = Z.min f (Z.of_nat (gp_frequencies x)) /\ rp_universe p = None /\
    rp_spends p = match gm_cpi m with
                  | Some c => if Qeqb c 0 then None else Some [imp * c]
                  | None => None end /\
    forall k, (1 <= k <= Z.min f (Z.of_nat (gp_frequencies x)))%Z -> exists v, reach p k = Ok v /\
      v == N * seen_at_least x alpha beta (Z.to_nat k) (Qmin imp (Imax - 1) / Imax).
Proof. intros x m N Imax alpha beta imp f [EF EN] S0 Hf. apply gm_answer; auto. Qed.
Print Assumptions C49_answer.

(** The number of impressions must be a single one; before the fit there is no answer. *)
Theorem C49_refused : forall x m imps f,
  (length imps <> 1%nat -> gm_by_impressions x m imps f = Err ValueError) /\
  (gm_fit m = None -> forall p, gm_by_impressions x m imps f <> Ok p).
Proof.
  intros x m imps f. unfold gm_by_impressions. split.
  - intros H. destruct imps as [|a [|b l]]; try reflexivity. cbn in H. lia.
  - intros H p. rewrite H. destruct imps as [|a [|b l]]; discriminate.
Qed.
Print Assumptions C49_refused.

Lemma capped_chance imp Imax : 0 <= imp -> 1 <= Imax ->
  0 <= Qmin imp (Imax - 1) / Imax /\ Qmin imp (Imax - 1) / Imax < 1.
Proof.
  intros H0 H1. split.
  - apply Qdiv_nonneg; [|lra]. destruct (Qmin_cases imp (Imax - 1)) as [[? ->]|[? ->]]; lra.
  - apply Qlt_shift_div_r; [lra|]. destruct (Qmin_cases imp (Imax - 1)) as [[? ->]|[? ->]]; lra.
Qed.

(** Between 0 and N, nobody for no impressions, fewer for a higher frequency, no fewer for more
    impressions; and the whole universe is never reached. *)
Theorem C49_shape : forall x m N Imax alpha beta imp imp' f p p' k r r',
  fitted m N Imax alpha beta -> gp_sane x alpha beta -> 0 < N -> 1 <= Imax -> 0 <= imp -> imp <= imp' ->
  (0 <= f)%Z -> gm_by_impressions x m [imp] f = Ok p -> gm_by_impressions x m [imp'] f = Ok p' ->
  reach p k = Ok r -> reach p' k = Ok r' ->
  0 <= r /\ r < N /\ r <= r' /\ (imp == 0 -> r == 0) /\
  (forall r2, reach p (k + 1) = Ok r2 -> r2 <= r) /\ (Imax - 1 <= imp -> r' == r).
Proof.
  intros x m N Imax alpha beta imp imp' f p p' k r r' HF S0 HN H1 H0 HL Hf EP EP' ER ER'.
  destruct (C49_answer x m N Imax alpha beta imp f HF S0 Hf) as [q [E1 [_ [E2 [_ [_ E3]]]]]].
  assert (q = p) by congruence. subst q.
  destruct (C49_answer x m N Imax alpha beta imp' f HF S0 Hf) as [q [E1' [_ [E2' [_ [_ E3']]]]]].
  assert (q = p') by congruence. subst q.
  assert (RK : forall (q : qpoint) j v, reach q j = Ok v -> (1 <= j <= max_frequency q)%Z).
  { intros q j v Hq. unfold reach in Hq. destruct ((0 <? j)%Z && (j <=? max_frequency q)%Z) eqn:B; [|discriminate].
    apply andb_true_iff in B. destruct B as [B1 B2]. apply Z.ltb_lt in B1. apply Z.leb_le in B2. lia. }
  pose proof (RK _ _ _ ER) as HK. rewrite E2 in HK.
  destruct (E3 k HK) as [v [V1 V2]]. assert (v = r) by congruence. subst v.
  destruct (E3' k HK) as [v [V1' V2']]. assert (v = r') by congruence. subst v.
  destruct (capped_chance imp Imax H0 H1) as [P0 P1].
  destruct (capped_chance imp' Imax ltac:(lra) H1) as [P0' P1'].
  set (P := Qmin imp (Imax - 1) / Imax) in *. set (P' := Qmin imp' (Imax - 1) / Imax) in *.
  assert (PP : P <= P').
  { unfold P, P', Qdiv. apply Qmult_le_compat_r; [|apply Qinv_le_0_compat; lra].
    destruct (Qmin_cases imp (Imax - 1)) as [[? ->]|[? ->]]; destruct (Qmin_cases imp' (Imax - 1)) as [[? ->]|[? ->]]; lra. }
  destruct (seen_bounds x alpha beta (Z.to_nat k) P S0 P0 ltac:(lra)) as [B0 B1].
  assert (BK : forall j, (1 <= j)%nat -> seen_at_least x alpha beta j P <= seen_at_least x alpha beta 1 P).
  { induction j as [|j IH]; [lia|]. intros _. destruct j as [|j]; [lra|].
    pose proof (seen_k x alpha beta (S j) P S0 P0 ltac:(lra)). specialize (IH ltac:(lia)). lra. }
  pose proof (BK (Z.to_nat k) ltac:(lia)) as BK1. pose proof (seen_some_missed x alpha beta P S0 P0 P1) as BL.
  pose proof (seen_p x alpha beta (Z.to_nat k) P P' S0 P0 PP ltac:(lra)) as BP.
  split; [rewrite V2; apply Qmult_le_0_compat; lra|].
  split; [rewrite V2; nra|]. split; [rewrite V2, V2'; nra|]. split.
  - intros Z. rewrite V2. assert (PZ : P == 0).
    { unfold P. destruct (Qmin_cases imp (Imax - 1)) as [[? ->]|[? ->]]; [rewrite Z; field; lra|].
      assert (Imax - 1 == 0) as -> by lra. field. lra. }
    rewrite (seen_comp x alpha beta (Z.to_nat k) P 0 PZ). destruct (Z.to_nat k) as [|k'] eqn:Ek; [lia|].
    rewrite seen_zero. ring.
  - split.
    + intros r2 ER2. pose proof (RK _ _ _ ER2) as HK2. rewrite E2 in HK2.
      destruct (E3 (k + 1)%Z HK2) as [v [W1 W2]]. assert (v = r2) by congruence. subst v.
      replace (Z.to_nat (k + 1)) with (S (Z.to_nat k)) in W2 by lia.
      pose proof (seen_k x alpha beta (Z.to_nat k) P S0 P0 ltac:(lra)). rewrite W2, V2. nra.
    + intros HC. rewrite V2, V2'. assert (P' == P) as EPP.
      { unfold P, P'. destruct (Qmin_cases imp (Imax - 1)) as [[? ->]|[? ->]];
          destruct (Qmin_cases imp' (Imax - 1)) as [[? ->]|[? ->]]; try reflexivity.
        - assert (imp' == imp) as -> by lra. reflexivity.
        - assert (imp == Imax - 1) as -> by lra. reflexivity.
        - lra. }
      rewrite (seen_comp x alpha beta (Z.to_nat k) P' P EPP). reflexivity.
Qed.
Print Assumptions C49_shape.

(** A query by spend is the query for the impressions that the spend buys at the price of the
    training point; without a price it is refused. *)
Theorem C49_by_spend : forall x p I r kp s0 max_reach mult m m' fuel s f,
  made_point p [I] r kp (Some [s0]) -> mk_gpmodel [p] max_reach mult = Ok m -> gm_fitted x fuel m = Ok m' -> ~ s0 == 0 ->
  exists imp, imp == s * I / s0 /\ gm_by_spend x m' [s] f = gm_by_impressions x m' [imp] f.
Proof.
  intros x p I r kp s0 max_reach mult m m' fuel s f HP HM HF Hs.
  destruct (made_fields _ _ _ _ _ HP) as [EI [EK [EF [ES HS]]]].
  pose proof (proj1 (C49_accepted p [I] r kp (Some [s0]) max_reach mult HP)) as [A _].
  destruct (A (ex_intro _ m HM)) as [J [EJ [HJ HR]]]. assert (J = I) by congruence. subst J. clear A EJ.
  assert (EC : gm_cpi m = Some (s0 / I)).
  { unfold mk_gpmodel in HM. destruct (curve_init [p]); cbn [bind] in HM; [|discriminate].
    rewrite EI in HM. change (py_index [I] 0) with (Ok I) in HM. cbn [bind] in HM.
    destruct (Qltb I (1#1000)); [discriminate|]. rewrite (point_reach_1 p r kp EK) in HM. cbn [bind] in HM.
    destruct (Qltb I r); [discriminate|]. rewrite ES in HM. change (py_index [s0] 0) with (Ok s0) in HM. cbn [bind] in HM.
    assert (X := f_equal (fun a => match a with Ok q => gm_cpi q | Err _ => None end) HM). cbn [gm_cpi] in X. auto. }
  assert (EC' : gm_cpi m' = Some (s0 / I)).
  { unfold gm_fitted in HF. destruct (gm_max_reach m).
    - destruct (fit_fixed_N x fuel _ _ _ 1) as [[[? ?] ?]|]; cbn [bind] in HF; [|discriminate].
      assert (X := f_equal (fun a => match a with Ok q => gm_cpi q | Err _ => None end) HF). cbn [gm_cpi] in X. congruence.
    - destruct (fit_chi2 x fuel _ _ 1 10) as [[[[? ?] ?] ?]|]; cbn [bind] in HF; [|discriminate].
      assert (X := f_equal (fun a => match a with Ok q => gm_cpi q | Err _ => None end) HF). cbn [gm_cpi] in X. congruence. }
  assert (Nz : ~ s0 / I == 0).
  { intros X. apply Hs. setoid_replace s0 with (s0 / I * I) by (field; lra). rewrite X. ring. }
  exists (s / (s0 / I)). split; [field; split; [exact Hs|lra]|].
  unfold gm_by_spend, gm_impressions_for_spend, truthy_cost. rewrite EC'.
  destruct (Qeqb (s0 / I) 0) eqn:B; [apply Qeq_bool_iff in B; contradiction|]. reflexivity.
Qed.
Print Assumptions C49_by_spend.

Theorem C49_no_spend : forall x p imps r kp max_reach mult m s f, made_point p imps r kp None ->
  mk_gpmodel [p] max_reach mult = Ok m -> gm_by_spend x m [s] f = Err ValueError.
Proof.
  intros x p imps r kp max_reach mult m s f HP HM. destruct (made_fields _ _ _ _ _ HP) as [EI [EK [EF [ES HS]]]].
  assert (EC : gm_cpi m = None).
  { unfold mk_gpmodel in HM. destruct (curve_init [p]); cbn [bind] in HM; [|discriminate].
    destruct (py_index (rp_impressions p) 0) as [I|]; cbn [bind] in HM; [|discriminate].
    destruct (Qltb I (1#1000)); [discriminate|]. rewrite (point_reach_1 p r kp EK) in HM. cbn [bind] in HM.
    destruct (Qltb I r); [discriminate|]. rewrite ES in HM. cbn [bind] in HM.
    assert (X := f_equal (fun a => match a with Ok q => gm_cpi q | Err _ => None end) HM). cbn [gm_cpi] in X. auto. }
  unfold gm_by_spend, gm_impressions_for_spend. rewrite EC. reflexivity.
Qed.
Print Assumptions C49_no_spend.

(** ** The distance that is minimised *)

(** For admissible parameters it is the documented one; for the others the sum of the squares
    of the histogram. *)
Theorem C49_distance : forall x ev h I N alpha beta w, gp_sane x alpha beta -> h <> [] ->
  0 < alpha -> 0 < beta -> 0 < N ->
  (I < inventory N alpha beta ->
   gp_distance x ev h I N alpha beta w == documented_distance x ev h I N alpha beta w) /\
  (inventory N alpha beta <= I ->
   gp_distance x ev h I N alpha beta w == total (length h) (fun i => nth i h 0 * nth i h 0)).
Proof.
  intros x ev h I N alpha beta w S0 Hh Ha Hb HN. split; intros HI.
  - apply gp_distance_value; auto.
  - apply gp_distance_infeasible. auto.
Qed.
Print Assumptions C49_distance.

Theorem C49_distance_outside : forall x ev h I N alpha beta w, alpha <= 0 \/ beta <= 0 \/ N <= 0 ->
  gp_distance x ev h I N alpha beta w == total (length h) (fun i => nth i h 0 * nth i h 0).
Proof. intros x ev h I N alpha beta w H. apply gp_distance_infeasible. destruct H as [H|[H|H]]; auto. Qed.
Print Assumptions C49_distance_outside.

(** It is never negative, and zero exactly if the predicted histogram is the observed one and
    the inventory is as large as asked for. *)
Theorem C49_distance_zero : forall x ev h I N alpha beta w, gp_sane x alpha beta -> h <> [] -> 0 <= w ->
  0 < alpha -> 0 < beta -> 0 < N -> 0 <= I -> I < inventory N alpha beta ->
  0 <= gp_distance x ev h I N alpha beta w /\
  (gp_distance x ev h I N alpha beta w == 0 <->
   ev <= inventory N alpha beta /\
   forall i, (i < length h)%nat -> nth i h 0 == predicted x N alpha beta (I / inventory N alpha beta) (length h) (S i)).
Proof.
  intros x ev h I N alpha beta w S0 Hh Hw Ha Hb HN H0 HI.
  assert (E : gp_distance x ev h I N alpha beta w == documented_distance x ev h I N alpha beta w)
    by (apply gp_distance_value; auto).
  rewrite E. split.
  - apply documented_nonneg; auto.
  - apply documented_zero; auto.
Qed.
Print Assumptions C49_distance_zero.

(** The histogram of a point: differences of its k+ reaches, and the last k+ reach. *)
Theorem C49_histogram : forall p imps r kp spends, made_point p imps r kp spends ->
  exists h, histogram_with_kplus_bucket p = Ok h /\ length h = S (length kp) /\
    (forall i, (i < length kp)%nat -> nth i h 0 == nth i (r :: kp) 0 - nth i kp 0) /\
    nth (length kp) h 0 == nth (length kp) (r :: kp) 0.
Proof.
  intros p imps r kp spends HP. destruct (made_fields _ _ _ _ _ HP) as [EI [EK [EF [ES HS]]]].
  destruct (histogram_value p) as [h [E [L H]]].
  - rewrite EK. discriminate.
  - rewrite EK, EF. reflexivity.
  - rewrite EK in L, H. exists h. split; auto. split; auto. rewrite L in H. cbn [length] in H. split.
    + intros i Hi. rewrite (H i) by lia. reflexivity.
    + rewrite (H (length kp)) by lia. rewrite (nth_overflow (r :: kp) (n := S (length kp))) by (cbn; lia). ring.
Qed.
Print Assumptions C49_histogram.

(** If the distance is zero, then the model's answer at the training impressions falls short of
    each k+ reach of the training point by the users that the table has no room for. *)
Theorem C49_exact_fit : forall x ev p I r kp spends N alpha beta m Imax h,
  made_point p [I] r kp spends -> histogram_with_kplus_bucket p = Ok h ->
  fitted m N Imax alpha beta -> Imax == inventory N alpha beta ->
  gp_sane x alpha beta -> 0 < alpha -> 0 < beta -> 0 < N -> 0 <= I -> I + 1 <= inventory N alpha beta ->
  gp_distance x ev h I N alpha beta 1 == 0 ->
  (Z.of_nat (length (r :: kp)) <= Z.of_nat (gp_frequencies x))%Z ->
  exists q, gm_by_impressions x m [I] (max_frequency p) = Ok q /\ max_frequency q = max_frequency p /\
    forall k, (1 <= k <= max_frequency p)%Z -> exists v v', reach p k = Ok v /\ reach q k = Ok v' /\
      v' == v - N * beyond_table x alpha beta.
Proof.
  intros x ev p I r kp spends N alpha beta m Imax h HP HH HF HJ S0 Ha Hb HN H0 HI HD HT.
  destruct (made_fields _ _ _ _ _ HP) as [EI [EK [EF [ES HS]]]].
  destruct (histogram_value p) as [h' [E [L H]]];
    [rewrite EK; discriminate|rewrite EK, EF; reflexivity|].
  assert (h' = h) by congruence. subst h'. rewrite EK in L, H.
  assert (h <> []) as Hne by (intros ->; discriminate).
  destruct (C49_distance_zero x ev h I N alpha beta 1 S0 Hne ltac:(lra) Ha Hb HN H0 ltac:(lra)) as [_ [Z _]].
  destruct (Z HD) as [_ HZ]. clear Z.
  set (P := I / inventory N alpha beta) in *. set (n := length (r :: kp)) in *.
  assert (G : forall d i, (i + d = n - 1)%nat -> nth i (r :: kp) 0 ==
             N * (seen_at_least x alpha beta (S i) P + beyond_table x alpha beta)).
  { assert (Hn : (0 < n)%nat) by (unfold n; cbn; lia).
    induction d as [|d IH]; intros i Hi.
    - pose proof (HZ i ltac:(lia)) as Z. rewrite (H i) in Z by lia. unfold predicted in Z.
      rewrite (nth_overflow (r :: kp) (n := S i)) in Z by (fold n; lia).
      destruct (Nat.ltb_spec (S i) (length h)); [lia|]. rewrite L in Z. replace (S i) with n by lia. lra.
    - pose proof (HZ i ltac:(lia)) as Z. rewrite (H i) in Z by lia. unfold predicted in Z.
      destruct (Nat.ltb_spec (S i) (length h)); [|lia].
      pose proof (IH (S i) ltac:(lia)) as IH'. rewrite IH' in Z. unfold seen_exactly in Z. lra. }
  assert (MF : max_frequency p = Z.of_nat n) by (unfold max_frequency; rewrite EK; reflexivity).
  destruct (C49_answer x m N Imax alpha beta I (max_frequency p) HF S0 ltac:(lia)) as [q [E1 [_ [E2 [_ [_ E3]]]]]].
  exists q. split; auto. split; [rewrite E2, MF; lia|]. intros k Hk.
  destruct (E3 k ltac:(lia)) as [v' [V1 V2]].
  exists (nth (Z.to_nat (k - 1)) (rp_kplus p) 0), v'. split; [apply point_reach_nth; rewrite EK; fold n; lia|].
  split; auto. rewrite V2, EK, (G (n - 1 - Z.to_nat (k - 1))%nat (Z.to_nat (k - 1))) by lia.
  replace (S (Z.to_nat (k - 1))) with (Z.to_nat k) by lia.
  assert (EP : Qmin I (Imax - 1) / Imax == P).
  { unfold P. destruct (Qmin_cases I (Imax - 1)) as [[? ->]|[? ->]]; [rewrite HJ; reflexivity|lra]. }
  rewrite (seen_comp x alpha beta (Z.to_nat k) _ _ EP). ring.
Qed.
Print Assumptions C49_exact_fit.

(** ** The search for a starting point *)

(** It ends where no diagonal neighbour at distance 1/80 is better; unless it never left its
    start (in which case no neighbour scores below 1e99) the point is better than 1e99 and no
    worse than the four neighbours of the start at distance 1/20. More fuel does not change
    the result. *)
Theorem C49_start : forall x fuel ev h I N w a b,
  starting_point x fuel ev h I N w = Ok (a, b) ->
  let score := fun a b => gp_distance x ev h I N a b w in
  let start := if Qltb N I then (11#10) * gp_sqrt x (I / N - 1) + (5#100) else 1#10 in
  exists s d, d == 1#80 /\
    (forall a2 b2, In a2 [a - d; a + d] -> In b2 [b - d; b + d] -> s <= score a2 b2) /\
    (forall a2 b2, In a2 [start - (5#100); start + (5#100)] -> In b2 [start - (5#100); start + (5#100)] -> s <= score a2 b2) /\
    (a = start /\ b = start /\ s = inject_Z (10 ^ 99) \/ s = score a b /\ s < inject_Z (10 ^ 99)) /\
    forall fuel', (fuel <= fuel')%nat -> starting_point x fuel' ev h I N w = Ok (a, b).
Proof.
  intros x fuel ev h I N w a b E score start. unfold starting_point in E. fold score start in E.
  destruct (downhill_facts score fuel _ _ _ _ _ _ E ltac:(lra)) as [s [d [j [W1 [W2 [W3 [W4 [W5 [W6 W7]]]]]]]]].
  exists s, d. split; [apply (width_80 d j); auto|].
  assert (NB : forall a b d a2 b2, In a2 [a - d; a + d] -> In b2 [b - d; b + d] -> In (a2, b2) (neighbours a b d)).
  { clear. intros a b d a2 b2 Ha Hb. unfold neighbours. cbn in Ha, Hb. cbn.
    destruct Ha as [<-|[<-|[]]]; destruct Hb as [<-|[<-|[]]]; auto. }
  split; [intros; apply W4, NB; auto|]. split; [intros; apply W7, NB; auto|]. split; [exact W6|].
  intros fuel' Hf. unfold starting_point. fold score start. apply (downhill_more score fuel); auto.
Qed.
Print Assumptions C49_start.

(** ** The fit *)

(** The fit of a model whose universe is not given: attempts are made with the audience sizes
    11 r / 1, 11 r / 2, ... in turn until the best score is below the 98% quantile of
    chi-squared, at most ten; the parameters are those of the first attempt with the smallest
    score. *)
Theorem C49_best : forall x fuel ev p I r kp spends Imax N alpha beta h,
  gp_minimizes x -> made_point p [I] r kp spends -> histogram_with_kplus_bucket p = Ok h ->
  fit_chi2 x fuel ev p 1 10 = Ok (Imax, N, alpha, beta) ->
  let stop := gp_chi2_ppf x (98#100) (Z.of_nat (length h)) in
  exists tried : list ((Q * Q * Q) * Q), (1 <= length tried <= 10)%nat /\
    (forall i ans s, nth_error tried i = Some (ans, s) -> attempt x fuel ev p I r h (S i) ans s) /\
    (exists i s, nth_error tried i = Some ((alpha, beta, N), s) /\ s < inject_Z (10 ^ 99) /\
       (forall j ans t, nth_error tried j = Some (ans, t) -> s <= t /\ ((j < i)%nat -> s < t)) /\
       ((length tried < 10)%nat -> s < stop)) /\
    (forall i ans s, nth_error tried i = Some (ans, s) -> (S i < length tried)%nat -> stop <= s) /\
    Imax == inventory N alpha beta.
Proof.
  intros x fuel ev p I r kp spends Imax N alpha beta h HM HP HH E stop.
  destruct (made_fields _ _ _ _ _ HP) as [EI [EK [EF [ES HS]]]].
  unfold fit_chi2 in E. rewrite (point_reach_1 p r kp EK) in E. cbn [bind] in E. rewrite EI in E.
  change (py_index [I] 0) with (Ok I) in E. cbn [bind] in E. rewrite HH in E. cbn [bind] in E. fold stop in E.
  destruct (try_sizes x fuel ev p h I r 1 stop None huge (audience_sizes r 10)) as [best|] eqn:ET; cbn [bind] in E; [|discriminate].
  destruct (try_sizes_facts x fuel ev p h I r stop HM _ _ _ _ ET) as [tried [F1 [F2 [F3 F4]]]].
  assert (LA : length (audience_sizes r 10) = 10%nat) by reflexivity.
  assert (LT : (length tried <= 10)%nat).
  { assert (X : length (firstn (length tried) (audience_sizes r 10)) = length tried) by (clear - F1; induction F1; cbn; auto).
    rewrite firstn_length, LA in X. lia. }
  destruct best as [[[al be] Nn]|]; [|discriminate].
  assert (Imax = expected_impressions Nn al be) as EX by congruence.
  assert (Nn = N) by congruence. assert (al = alpha) by congruence. assert (be = beta) by congruence. subst Nn al be.
  exists tried. split.
  { split; auto. destruct tried; [exfalso; apply F2; [discriminate|reflexivity]|cbn; lia]. }
  assert (AT : forall i ans s, nth_error tried i = Some (ans, s) -> exists size, made x fuel ev p h I r size (ans, s) /\
              size = nth i (audience_sizes r 10) 0 /\ (i < 10)%nat).
  { intros i ans s Hn. assert (Hi : (i < length tried)%nat) by (apply nth_error_Some; congruence).
    exists (nth i (audience_sizes r 10) 0). split; [|split; [reflexivity|lia]].
    assert (FN : forall l1 l2, Forall2 (made x fuel ev p h I r) l1 l2 -> forall i t, nth_error l2 i = Some t ->
               made x fuel ev p h I r (nth i l1 0) t).
    { clear. induction 1 as [|a b l1 l2 Hab HF IH]; intros [|i] t Ht; try discriminate.
      - cbn in *. congruence.
      - cbn in *. auto. }
    pose proof (FN _ _ F1 _ _ Hn) as X. rewrite <- (firstn_skipn (length tried) (audience_sizes r 10)).
    rewrite app_nth1; [exact X|]. rewrite firstn_length, LA. lia. }
  split.
  { intros i ans s Hn. destruct (AT i ans s Hn) as [size [[a0 [b0 [J0 [a1 [b1 [n1 [M1 [M2 M3]]]]]]]] [E2 Hi]]].
    exists size, a0, b0, J0, a1, b1, n1. split; [exact M1|]. split; [|split; [exact M2|exact M3]].
    rewrite E2, audience_nth by auto. reflexivity. }
  destruct F3 as [[F3 _]|[i [ans [s [G1 [G2 [G3 [G4 [G5 G6]]]]]]]]]; [discriminate|].
  assert (ans = (alpha, beta, N)) by congruence. subst ans.
  split.
  { exists i, s. split; auto. split; auto. split.
    - intros j an t Hj. split; [apply (G4 (an, t)); eapply nth_error_In; eauto|]. intros Hji. apply (G5 j (an, t)); auto.
    - intros Hl. destruct G6 as [G6|G6]; [rewrite LA in G6; lia|exact G6]. }
  split.
  { intros j an t Hj Hl. apply (F4 j (an, t)); auto. }
  destruct (AT i _ s G1) as [size [[a0 [b0 [J0 [a1 [b1 [n1 [M1 [M2 M3]]]]]]]] _]].
  destruct (HM _ _ _ _ _ M3) as [B _]. cbn [fst] in M1.
  assert (a1 = alpha) by congruence. assert (b1 = beta) by congruence. assert (n1 = N) by congruence. subst.
  inversion B as [|? ? ? ? _ B2]; subst. inversion B2 as [|? ? ? ? [B3 _] _]; subst. cbn [fst] in B3.
  apply inventory_eq. lra.
Qed.
Print Assumptions C49_best.

(** After the fit: if the universe was given it is kept; otherwise it lies between the training
    reach and a hundred times that. Alpha and beta lie between 1e-6 and 100, and the inventory is
    that of N users with a mean of 1 + alpha beta impressions. The training point is kept. *)
Theorem C49_fitted : forall x fuel p I r kp spends max_reach mult m m',
  gp_minimizes x -> made_point p [I] r kp spends -> mk_gpmodel [p] max_reach mult = Ok m ->
  gm_fitted x fuel m = Ok m' ->
  exists N Imax alpha beta, fitted m' N Imax alpha beta /\
    (1#1000000 <= alpha <= 100) /\ (1#1000000 <= beta <= 100) /\ Imax == inventory N alpha beta /\
    match max_reach with Some n => N = n | None => r <= N <= 100 * r end /\
    gm_point m' = p /\ gm_cpi m' = gm_cpi m /\ gm_extrapolation m' == mult * I.
Proof.
  intros x fuel p I r kp spends max_reach mult m m' HM HP HC HF.
  destruct (made_fields _ _ _ _ _ HP) as [EI [EK [EF [ES HS]]]].
  assert (FM : gm_point m = p /\ gm_max_reach m = max_reach /\ gm_extrapolation m = mult * I).
  { unfold mk_gpmodel in HC. destruct (curve_init [p]); cbn [bind] in HC; [|discriminate].
    rewrite EI in HC. change (py_index [I] 0) with (Ok I) in HC. cbn [bind] in HC.
    destruct (Qltb I (1#1000)); [discriminate|]. destruct (reach p 1) as [r1|]; cbn [bind] in HC; [|discriminate].
    destruct (Qltb I r1); [discriminate|].
    destruct (match rp_spends p with Some l => _ | None => Ok None end); cbn [bind] in HC; [|discriminate].
    assert (X := f_equal (fun a => match a with Ok q => gm_point q | Err _ => gm_point m end) HC).
    assert (Y := f_equal (fun a => match a with Ok q => gm_max_reach q | Err _ => None end) HC).
    assert (W := f_equal (fun a => match a with Ok q => gm_extrapolation q | Err _ => 0 end) HC).
    cbn in X, Y, W. auto. }
  destruct FM as [FM1 [FM2 FM3]]. unfold gm_fitted in HF. rewrite FM1, FM2 in HF.
  destruct max_reach as [n|].
  - destruct (fit_fixed_N x fuel (gm_extrapolation m) p n 1) as [[[J a] b]|] eqn:EX; cbn [bind] in HF; [|discriminate].
    destruct (fit_fixed_N_facts x _ _ _ _ _ _ _ _ HM EX) as [A [B C]].
    assert (m' = {| gm_point := p; gm_max_reach := Some n; gm_extrapolation := gm_extrapolation m;
            gm_cpi := gm_cpi m; gm_fit := Some (J, a, b) |}) as -> by congruence.
    exists n, J, a, b. split; [split; reflexivity|]. split; auto. split; auto. split; auto. cbn. rewrite FM3.
    repeat split; auto; lra.
  - destruct (fit_chi2 x fuel (gm_extrapolation m) p 1 10) as [[[[J n] a] b]|] eqn:EX; cbn [bind] in HF; [|discriminate].
    destruct (C49_histogram p [I] r kp spends HP) as [h [EH _]].
    destruct (C49_best x fuel _ p I r kp spends J n a b h HM HP EH EX) as [tried [_ [T1 [[i [s [T2 _]]] [_ T3]]]]].
    destruct (T1 i _ s T2) as [size [a0 [b0 [J0 [a1 [b1 [n1 [M1 [_ [M2 M3]]]]]]]]]].
    assert (a1 = a) by congruence. assert (b1 = b) by congruence. assert (n1 = n) by congruence. subst a1 b1 n1.
    destruct (HM _ _ _ _ _ M3) as [B _].
    inversion B as [|? ? ? ? B1 B2]; subst. inversion B2 as [|? ? ? ? B3 B4]; subst. inversion B4 as [|? ? ? ? B5 B6]; subst.
    assert (m' = {| gm_point := gm_point m; gm_max_reach := Some n; gm_extrapolation := gm_extrapolation m;
            gm_cpi := gm_cpi m; gm_fit := Some (J, a, b) |}) as -> by congruence.
    exists n, J, a, b. split; [split; reflexivity|]. cbn [fst snd] in *. split; auto. split; auto. split; auto. split; auto.
    cbn. rewrite FM3. repeat split; auto; lra.
Qed.
Print Assumptions C49_fitted.

(** With a given universe N, alpha and beta come from minimising the distance for that N, with
    the full penalty, from the point that the search for a start ends at, within the bounds. *)
Theorem C49_fixed : forall x fuel p I r kp spends N mult m m' h,
  made_point p [I] r kp spends -> mk_gpmodel [p] (Some N) mult = Ok m -> histogram_with_kplus_bucket p = Ok h ->
  gm_fitted x fuel m = Ok m' ->
  exists Imax alpha beta a0 b0 s objective, fitted m' N Imax alpha beta /\
    starting_point x fuel (mult * I) h I N 1 = Ok (a0, b0) /\
    gp_minimize x objective [a0; b0] [(1#1000000, 100); (1#1000000, 100)] = Ok ([alpha; beta], s) /\
    forall a b, objective [a; b] = gp_distance x (mult * I) h I N a b 1.
Proof.
  intros x fuel p I r kp spends N mult m m' h HP HC HH HF.
  destruct (made_fields _ _ _ _ _ HP) as [EI _].
  assert (FM : gm_point m = p /\ gm_max_reach m = Some N /\ gm_extrapolation m = mult * I).
  { unfold mk_gpmodel in HC. destruct (curve_init [p]); cbn [bind] in HC; [|discriminate].
    rewrite EI in HC. change (py_index [I] 0) with (Ok I) in HC. cbn [bind] in HC.
    destruct (Qltb I (1#1000)); [discriminate|]. destruct (reach p 1) as [r1|]; cbn [bind] in HC; [|discriminate].
    destruct (Qltb I r1); [discriminate|].
    destruct (match rp_spends p with Some l => _ | None => Ok None end); cbn [bind] in HC; [|discriminate].
    assert (X := f_equal (fun a => match a with Ok q => gm_point q | Err _ => gm_point m end) HC).
    assert (Y := f_equal (fun a => match a with Ok q => gm_max_reach q | Err _ => None end) HC).
    assert (W := f_equal (fun a => match a with Ok q => gm_extrapolation q | Err _ => 0 end) HC).
    cbn in X, Y, W. auto. }
  destruct FM as [FM1 [FM2 FM3]]. unfold gm_fitted in HF. rewrite FM1, FM2, FM3 in HF.
  unfold fit_fixed_N in HF. rewrite EI in HF. change (py_index [I] 0) with (Ok I) in HF. cbn [bind] in HF.
  rewrite HH in HF. cbn [bind] in HF.
  destruct (starting_point x fuel (mult * I) h I N 1) as [[a0 b0]|] eqn:ES; cbn [bind] in HF; [|discriminate].
  match type of HF with context [gp_minimize x ?f _ _] => set (obj := f) in HF end.
  destruct (gp_minimize x obj _ _) as [[v s]|] eqn:EM; cbn [bind fst] in HF; [|discriminate].
  destruct v as [|a [|b [|c v]]]; try discriminate. cbn [bind] in HF.
  exists (expected_impressions N a b), a, b, a0, b0, s, obj. split; [|split; [reflexivity|split; [exact EM|reflexivity]]].
  assert (X := f_equal (fun q => match q with Ok q => (gm_fit q, gm_max_reach q) | Err _ => (None, None) end) HF).
  cbn in X. split; congruence.
Qed.
Print Assumptions C49_fixed.

(** Fitting again: with a given universe nothing changes. *)
Theorem C49_refit : forall x fuel p max_reach mult m m', mk_gpmodel [p] (Some max_reach) mult = Ok m ->
  gm_fitted x fuel m = Ok m' -> gm_fitted x fuel m' = Ok m'.
Proof.
  intros x fuel p max_reach mult m m' HC HF.
  assert (E : gm_max_reach m = Some max_reach).
  { unfold mk_gpmodel in HC. destruct (curve_init [p]); cbn [bind] in HC; [|discriminate].
    destruct (py_index (rp_impressions p) 0) as [I0|]; cbn [bind] in HC; [|discriminate].
    destruct (Qltb I0 (1#1000)); [discriminate|]. destruct (reach p 1) as [r1|]; cbn [bind] in HC; [|discriminate].
    destruct (Qltb I0 r1); [discriminate|].
    destruct (match rp_spends p with Some l => _ | None => Ok None end); cbn [bind] in HC; [|discriminate].
    assert (Y := f_equal (fun a => match a with Ok q => gm_max_reach q | Err _ => None end) HC). cbn in Y. auto. }
  unfold gm_fitted in HF. rewrite E in HF.
  destruct (fit_fixed_N x fuel (gm_extrapolation m) (gm_point m) max_reach 1) as [[[J a] b]|] eqn:EX; cbn [bind] in HF; [|discriminate].
  assert (m' = {| gm_point := gm_point m; gm_max_reach := Some max_reach; gm_extrapolation := gm_extrapolation m;
            gm_cpi := gm_cpi m; gm_fit := Some (J, a, b) |}) as -> by congruence.
  unfold gm_fitted. cbn. rewrite EX. reflexivity.
Qed.
Print Assumptions C49_refit.

(** ** Examples *)

(** Instances of the external functions: half of the users have one impression, a quarter two,
    a quarter more than the table of two entries can hold; the minimiser moves the start into
    the bounds. *)
Definition clip (v : Q) (b : Q * Q) : Q :=
  if Qltb v (fst b) then fst b else if Qltb (snd b) v then snd b else v.
Definition toy_mass (k : Z) : Q := if (k =? 0)%Z then 1#2 else if (k =? 1)%Z then 1#4 else 0.
Definition no_mass (k : Z) : Q := 0.
Definition toy (F : nat) (mass : Z -> Q) (choose : list Q -> list (Q * Q) -> list Q) : gp_externals :=
  {| gp_nbinom := fun k _ _ => mass k; gp_chi2_ppf := fun _ _ => inject_Z (10 ^ 98); gp_sqrt := fun v => v;
     gp_minimize := fun f start bounds =>
       if Nat.eqb (length start) (length bounds) && forallb (fun b => Qleb (fst b) (snd b)) bounds
       then Ok (choose start bounds, f (choose start bounds)) else Err OtherError;
     gp_frequencies := F |}.
Definition into_bounds (start : list Q) (bounds : list (Q * Q)) : list Q :=
  map (fun vb => clip (fst vb) (snd vb)) (combine start bounds).
(** Another minimiser: the lower bounds for two parameters, the upper ones for three. *)
Definition at_bounds (start : list Q) (bounds : list (Q * Q)) : list Q :=
  if Nat.eqb (length bounds) 2 then map fst bounds else map snd bounds.

Lemma no_mass_sane F choose alpha beta : gp_sane (toy F no_mass choose) alpha beta.
Proof.
  split; [reflexivity|]. split; [intros k; cbn; unfold no_mass; lra|]. intros m. cbn.
  rewrite total_0; [lra|reflexivity].
Qed.
Lemma toy_sane choose alpha beta : gp_sane (toy 2 toy_mass choose) alpha beta.
Proof.
  split; [reflexivity|]. split.
  - intros [|[|k]]; cbn [gp_nbinom toy]; unfold toy_mass; [cbn; lra|cbn; lra|].
    destruct (Z.eqb_spec (Z.of_nat (S (S k))) 0); [lia|]. destruct (Z.eqb_spec (Z.of_nat (S (S k))) 1); [lia|]. lra.
  - intros m. cbn [gp_nbinom toy].
    assert (G : forall n, total (S (S n)) (fun k => toy_mass (Z.of_nat k)) == 3#4).
    { induction n as [|n IH]; [reflexivity|]. change (total (S (S n)) (fun k => toy_mass (Z.of_nat k)) + toy_mass (Z.of_nat (S (S n))) == 3#4).
      rewrite IH. unfold toy_mass. destruct (Z.eqb_spec (Z.of_nat (S (S n))) 0); [lia|].
      destruct (Z.eqb_spec (Z.of_nat (S (S n))) 1); [lia|]. reflexivity. }
    destruct m as [|[|m]]; [cbn; lra|cbn; unfold toy_mass; cbn; lra|]. rewrite (G m). lra.
Qed.
Lemma toy_into_bounds F mass : gp_minimizes (toy F mass into_bounds).
Proof.
  intros f start bounds v s E. cbn [gp_minimize toy] in E.
  destruct (Nat.eqb (length start) (length bounds) && forallb (fun b => Qleb (fst b) (snd b)) bounds) eqn:B; [|discriminate].
  apply andb_true_iff in B. destruct B as [B1 B2]. apply Nat.eqb_eq in B1.
  assert (v = into_bounds start bounds) as -> by congruence. split; [|congruence].
  clear E. revert start B1 B2. unfold into_bounds.
  induction bounds as [|[lo hi] bounds IH]; intros [|a start] B1 B2; try discriminate; cbn [combine map]; constructor.
  - cbn [forallb fst snd] in B2. apply andb_true_iff in B2. destruct B2 as [B2 _]. apply Qle_bool_iff in B2.
    cbn [fst snd]. unfold clip. cbn [fst snd]. destruct (Qltb_spec a lo); [lra|]. destruct (Qltb_spec hi a); lra.
  - apply IH; [cbn in B1; lia|]. cbn [forallb] in B2. apply andb_true_iff in B2. apply B2.
Qed.
Lemma toy_at_bounds F mass : gp_minimizes (toy F mass at_bounds).
Proof.
  intros f start bounds v s E. cbn [gp_minimize toy] in E.
  destruct (Nat.eqb (length start) (length bounds) && forallb (fun b => Qleb (fst b) (snd b)) bounds) eqn:B; [|discriminate].
  apply andb_true_iff in B. destruct B as [_ B2].
  assert (v = at_bounds start bounds) as -> by congruence. split; [|congruence].
  assert (G : forall f : Q * Q -> Q, (forall b, fst b <= snd b -> fst b <= f b <= snd b) ->
             Forall2 (fun a b => fst b <= a <= snd b) (map f bounds) bounds).
  { clear E. induction bounds as [|b bounds IH]; intros g Hg; cbn [map]; constructor.
    - apply Hg. cbn [forallb] in B2. apply andb_true_iff in B2. apply Qle_bool_iff. apply B2.
    - apply IH; auto. cbn [forallb] in B2. apply andb_true_iff in B2. apply B2. }
  unfold at_bounds. destruct (Nat.eqb (length bounds) 2); apply G; intros; lra.
Qed.

(** A point with costs, its model, its fit and an answer. *)
Definition example_point : qpoint :=
  {| rp_impressions := [16]; rp_kplus := [11; 5]; rp_frequencies := [11 - 5]; rp_spends := Some [4]; rp_universe := None |}.
Lemma example_made : made_point example_point [16] 11 [5] (Some [4]).
Proof. exists None. reflexivity. Qed.
Example C49_accepted_example : exists m, mk_gpmodel [example_point] None 1 = Ok m /\ gm_cpi m = Some (4 / 16).
Proof. eexists. split; reflexivity. Qed.
Definition example_model : gpmodel :=
  {| gm_point := example_point; gm_max_reach := Some 16; gm_extrapolation := 16; gm_cpi := Some (4 / 16); gm_fit := Some (32, 1, 1) |}.
Example C49_shape_example : exists p p' r r', fitted example_model 16 32 1 1 /\
  gm_by_impressions (toy 2 toy_mass into_bounds) example_model [8] 2 = Ok p /\
  gm_by_impressions (toy 2 toy_mass into_bounds) example_model [100] 2 = Ok p' /\
  reach p 2 = Ok r /\ reach p' 2 = Ok r' /\ r == 1#4 /\ r' == 961#256.
Proof.
  eexists _, _, _, _. split; [split; reflexivity|]. split; [vm_compute; reflexivity|]. split; [vm_compute; reflexivity|].
  split; [vm_compute; reflexivity|]. split; [vm_compute; reflexivity|]. split; vm_compute; reflexivity.
Qed.
Definition example_point_1 : qpoint :=
  {| rp_impressions := [16]; rp_kplus := [11]; rp_frequencies := []; rp_spends := None; rp_universe := None |}.
Lemma example_made_1 : made_point example_point_1 [16] 11 [] None.
Proof. exists None. reflexivity. Qed.
Example C49_fitted_example : exists m m', mk_gpmodel [example_point_1] None 1 = Ok m /\
  gm_fitted (toy 0 no_mass into_bounds) 12 m = Ok m'.
Proof. eexists _, _. split; [reflexivity|]. vm_compute; reflexivity. Qed.
Example C49_given_universe_example : exists m m', mk_gpmodel [example_point_1] (Some 16) 1 = Ok m /\
  gm_fitted (toy 0 no_mass into_bounds) 12 m = Ok m'.
Proof. eexists _, _. split; [reflexivity|]. vm_compute; reflexivity. Qed.

(** Fitting again a model whose universe was not given: the universe that was found is now
    taken as given, and the parameters can change. *)
Theorem C49_refit_refuted : exists x p m m' m'', gp_minimizes x /\ (forall alpha beta, gp_sane x alpha beta) /\
  mk_gpmodel [p] None 1 = Ok m /\ gm_fitted x 12 m = Ok m' /\ gm_fitted x 12 m' = Ok m'' /\ gm_fit m' <> gm_fit m''.
Proof.
  exists (toy 0 no_mass at_bounds), example_point_1. eexists _, _, _. split; [apply toy_at_bounds|]. split; [apply no_mass_sane|].
  split; [reflexivity|]. split; [vm_compute; reflexivity|]. split; [vm_compute; reflexivity|]. vm_compute. discriminate.
Qed.
Print Assumptions C49_refit_refuted.

(** Parameters with a distance of zero, which miss both k+ reaches of the training point: a
    quarter of the users has more impressions than the table holds. *)
Theorem C49_training_reach_refuted : exists x p h m q, (forall alpha beta, gp_sane x alpha beta) /\
  made_point p [16] 11 [5] (Some [4]) /\ histogram_with_kplus_bucket p = Ok h /\
  gp_distance x 16 h 16 16 1 1 1 == 0 /\ fitted m 16 32 1 1 /\
  gm_by_impressions x m [16] 2 = Ok q /\
  exists v v', reach q 1 = Ok v /\ v == 7 /\ reach q 2 = Ok v' /\ v' == 1.
Proof.
  exists (toy 2 toy_mass into_bounds), example_point. eexists. exists example_model.
  eexists. split; [apply toy_sane|]. split; [apply example_made|]. split; [reflexivity|]. split; [vm_compute; reflexivity|].
  split; [split; reflexivity|]. split; [vm_compute; reflexivity|]. eexists _, _. split; [vm_compute; reflexivity|].
  split; [vm_compute; reflexivity|]. split; [vm_compute; reflexivity|vm_compute; reflexivity].
Qed.
Print Assumptions C49_training_reach_refuted.

(** The penalty for a small inventory is not applied to an inventory below the impressions
    served: 50 impressions are preferred to 150 although 200 were asked for. *)
Theorem C49_penalty_refuted : exists x h, (forall alpha beta, gp_sane x alpha beta) /\
  inventory 25 1 1 == 50 /\ inventory 75 1 1 == 150 /\
  gp_distance x 200 h 100 25 1 1 1 < gp_distance x 200 h 100 75 1 1 1.
Proof.
  exists (toy 2 toy_mass into_bounds), [1]. split; [apply toy_sane|]. split; [reflexivity|]. split; [reflexivity|]. vm_compute. reflexivity.
Qed.
Print Assumptions C49_penalty_refuted.
