(** Lemmas on the Dirac mixture model: the answers of a fitted model and histories of queries. *)
From Coq Require Import Lqa Qfield Qround Sorted.
From Verif Require Import Prelude ModelReachPoint ModelHalo ModelCurves SpecSurface ModelSurface SurfaceLemmas
  SurfaceLemmas2 HaloLemmas ReachPointLemmas ModelGamma GammaLemmas GammaLemmas2 ModelDirac SpecDirac DiracLemmas
  DiracLemmas2 TestPointsLemmas.
Open Scope Z_scope.
Local Open Scope Q_scope.

Section Answers.
Context (x : dirac_externals).

Lemma with_optimizer_id m o : dm_optimizer m = o -> with_optimizer m (dm_ncomponents m) (dm_fit_computed m) o = m.
Proof. intros <-. destruct m. reflexivity. Qed.

Definition reported_spend (m : dirac_model) (I : Q) : option (list Q) :=
  match dm_cpi m with Some c => if Qeqb c 0 then None else Some [I * c] | None => None end.

Lemma fitted_answer m o ws I0 rest U I F :
  poisson_sane x -> int32_sane x -> (0 <= U < 2 ^ 31)%Z -> 0 < I0 -> 0 <= I ->
  dm_fit_computed m = true -> dm_optimizer m = Some o -> op_weights o = Some (Some ws) ->
  Forall (fun c => 0 <= c) (op_components o) -> op_components o <> [] -> weights (length (op_components o)) ws ->
  rp_impressions (dm_point m) = I0 :: rest -> rp_universe (dm_point m) = Some U ->
  exists q, dm_by_impressions x m [I] (Z.of_nat F) = (Ok q, m) /\ rp_impressions q = [I] /\
    max_frequency q = Z.of_nat F /\ rp_universe q = None /\ rp_spends q = reported_spend m I /\
    forall k, (1 <= k <= Z.of_nat F)%Z -> exists z, reach q k = Ok z /\
      nearest (inject_Z U * mixture_at_least x (op_components o) ws (I / I0) (Z.to_nat k)) z.
Proof.
  intros P I32 HU H0 HI EC EO EW HC HN HW EI EU.
  assert (S0 : 0 <= I / I0) by (apply Qle_shift_div_l; lra).
  destruct (prediction_tails x (op_components o) ws (I / I0) F P HC S0 (proj1 HW) HN) as [pmfs [h [E1 [E2 [L1 [L2 [_ T]]]]]]].
  assert (EF : optimizer_fit x o = Ok o) by (unfold optimizer_fit; rewrite EW; reflexivity).
  unfold dm_by_impressions, dm_fitted. rewrite EC, EO, EI. change (py_index (I0 :: rest) 0) with (Ok I0). cbv iota.
  unfold optimizer_predict. rewrite EF, EW, E1. cbn [bind]. rewrite E2. cbn [bind].
  unfold universe_size. rewrite EU. cbn [bind]. unfold kplus_from_prediction. cbn [bind].
  set (kp := map _ (tl (suffix_sums h))).
  rewrite (with_optimizer_id m (Some o) EO).
  assert (LK : length kp = F) by (unfold kp; rewrite map_length; destruct (suffix_sums h); cbn in *; lia).
  assert (NK : forall k, (1 <= k <= F)%nat -> nearest (inject_Z U * mixture_at_least x (op_components o) ws (I / I0) k) (nth (k - 1) kp 0%Z)).
  { intros k Hk. destruct (suffix_sums h) as [|s0 ss] eqn:ES; [cbn in L2; lia|]. cbn [tl length] in *.
    assert (ET : nth (k - 1) ss 0 == mixture_at_least x (op_components o) ws (I / I0) k).
    { rewrite <- (T k) by lia. destruct k as [|k]; [lia|]. cbn [nth]. replace (S k - 1)%nat with k by lia. reflexivity. }
    unfold kp. rewrite (nth_map_any _ 0) by lia.
    destruct (mixture_bounds x (op_components o) ws (I / I0) k P HC S0 HW) as [B0 B1].
    set (v := mixture_at_least x (op_components o) ws (I / I0) k) in *.
    assert (U0 : 0 <= inject_Z U) by (change 0 with (inject_Z 0); rewrite <- Zle_Qle; lia).
    rewrite (py_round_eq (inject_Z U * nth (k - 1) ss 0) (inject_Z U * v)) by (rewrite ET; reflexivity).
    rewrite I32.
    - apply py_round_nearest.
    - assert (0 <= py_round (inject_Z U * v))%Z by (apply py_round_nonneg; apply Qmult_le_0_compat; auto).
      assert (py_round (inject_Z U * v) <= U)%Z; [|lia].
      rewrite <- (py_round_Z (inject_Z U) U) at 2 by reflexivity. apply py_round_mono.
      rewrite <- (Qmult_1_r (inject_Z U)) at 2. rewrite !(Qmult_comm (inject_Z U)). apply Qmult_le_compat_r; auto. }
  assert (HM : exists q, mk_reach_point Zops [I] kp
      (match truthy_cost (dm_cpi m) with Some c => Some [I * c] | None => None end) None = Ok q /\ rp_impressions q = [I] /\
      rp_kplus q = kp /\ rp_universe q = None /\ rp_spends q = reported_spend m I).
  { unfold truthy_cost, reported_spend. destruct (dm_cpi m) as [c|]; [destruct (Qeqb c 0)|]; eexists; (split; [reflexivity|]); repeat split. }
  destruct HM as [q [Q1 [Q2 [Q3 [Q4 Q5]]]]]. exists q. rewrite Q1. split; [reflexivity|]. split; [exact Q2|].
  assert (QM : max_frequency q = Z.of_nat F) by (unfold max_frequency; rewrite Q3, LK; reflexivity).
  split; [exact QM|]. split; [exact Q4|]. split; [exact Q5|].
  intros k Hk. exists (nth (Z.to_nat k - 1) kp 0%Z). split; [|apply NK; lia].
  unfold reach. rewrite QM. replace ((0 <? k)%Z && (k <=? Z.of_nat F)%Z) with true.
  - rewrite Q3. rewrite (py_index_in kp (k - 1) 0%Z) by lia. f_equal. f_equal. lia.
  - symmetry. apply andb_true_iff. split; [apply Z.ltb_lt|apply Z.leb_le]; lia.
Qed.

Lemma mapM_first_err {A B} (f : A -> result B) e a l : f a = Err e -> mapM f (a :: l) = Err e.
Proof. intros H. cbn. rewrite H. reflexivity. Qed.

(** A negative number of frequencies. *)
Lemma fitted_negative m o I0 rest U I F :
  (F < 0)%Z -> dm_fit_computed m = true -> dm_optimizer m = Some o -> optimizer_fit x o = Ok o ->
  op_components o <> [] ->
  rp_impressions (dm_point m) = I0 :: rest -> rp_universe (dm_point m) = Some U ->
  dm_by_impressions x m [I] F = (Err IndexError, m).
Proof.
  intros HF EC EO EF HN EI EU. unfold dm_by_impressions, dm_fitted. rewrite EC, EO, EI.
  change (py_index (I0 :: rest) 0) with (Ok I0). cbv iota. unfold optimizer_predict. rewrite EF.
  destruct (op_components o) as [|c cs] eqn:E; [congruence|].
  rewrite (mapM_first_err _ IndexError) by (apply truncated_negative; exact HF). cbn [bind].
  rewrite (with_optimizer_id m (Some o) EO). reflexivity.
Qed.

(** The solver ended without a solution. *)
Lemma unsolved_answer m o I0 rest U I F :
  dm_fit_computed m = true -> dm_optimizer m = Some o -> op_weights o = Some None ->
  rp_impressions (dm_point m) = I0 :: rest -> rp_universe (dm_point m) = Some U ->
  dm_by_impressions x m [I] (Z.of_nat F) = (Err TypeError, m).
Proof.
  intros EC EO EW EI EU. unfold dm_by_impressions, dm_fitted. rewrite EC, EO, EI.
  change (py_index (I0 :: rest) 0) with (Ok I0). cbv iota. unfold optimizer_predict, optimizer_fit. rewrite EW.
  destruct (truncated_all x (op_components o) (fun c => c * (I / I0)) F) as [arrs [EA _]]. rewrite EA. cbn [bind].
  rewrite EW. cbn [bind]. rewrite (with_optimizer_id m (Some o) EO). reflexivity.
Qed.

(** No fit succeeded. *)
Lemma unfitted_answer m o e I0 rest I F :
  dm_fit_computed m = true -> dm_optimizer m = Some o -> optimizer_fit x o = Err e ->
  rp_impressions (dm_point m) = I0 :: rest ->
  dm_by_impressions x m [I] F = (Err e, m).
Proof.
  intros EC EO EF EI. unfold dm_by_impressions, dm_fitted. rewrite EC, EO, EI.
  change (py_index (I0 :: rest) 0) with (Ok I0). cbv iota. unfold optimizer_predict. rewrite EF. cbn [bind].
  rewrite (with_optimizer_id m (Some o) EO). reflexivity.
Qed.

(** ** Histories *)

Definition calm (o : option optimizer) : Prop :=
  match o with None => True | Some o => optimizer_fit x o = Ok o \/ exists e, optimizer_fit x o = Err e end.

(** Either the fit fails and changes nothing, or it ends in a state that later queries keep. *)
Lemma fitted_cases m : log_sane x -> dm_fit_computed m = false -> dm_optimizer m = None ->
  dm_fitted x m = (Err ValueError, m) \/
  exists m1, dm_fitted x m = (Ok tt, m1) /\ dm_fit_computed m1 = true /\ calm (dm_optimizer m1) /\ dm_cpi m1 = dm_cpi m /\
    dm_point m1 = dm_point m.
Proof.
  intros LS E1 E2. unfold dm_fitted. rewrite E1. destruct (Z_le_gt_dec (dm_ncomponents m) 0) as [N|N].
  - right. exists (with_optimizer m (dm_ncomponents m) true (dm_optimizer m)).
    assert (X : fit_loop x (Z.to_nat (dm_ncomponents m)) m = (Ok tt, with_optimizer m (dm_ncomponents m) true (dm_optimizer m))).
    { replace (Z.to_nat (dm_ncomponents m)) with O by lia. cbn [fit_loop]. destruct (Z.ltb_spec 0 (dm_ncomponents m)); [lia|reflexivity]. }
    rewrite X, E2. cbn. auto.
  - destruct (validate_frequency_histogram (dm_hist m)) as [[]|e] eqn:V.
    + right. destruct (fit_loop_value x m (dm_hist m) LS eq_refl V (Z.to_nat (dm_ncomponents m)) m eq_refl) as [A|A]; try lia.
      * apply with_optimizer_id. reflexivity.
      * destruct A as [i [o [o' [_ [_ [_ [A4 A5]]]]]]]. rewrite A5. eexists. split; [reflexivity|]. cbn.
        split; [reflexivity|]. split; [|auto]. left. apply (optimizer_refit x o). exact A4.
      * destruct A as [_ [o [e [A3 [A4 A5]]]]]. rewrite A5. eexists. split; [reflexivity|]. cbn.
        split; [reflexivity|]. split; [|auto]. right. eauto.
    + left. assert (X : validate_frequency_histogram (dm_hist m) = Err ValueError) by (apply validate_err; congruence).
      destruct (Z.to_nat (dm_ncomponents m)) as [|fuel] eqn:F; [lia|]. cbn [fit_loop].
      replace (0 <? dm_ncomponents m)%Z with true by (symmetry; apply Z.ltb_lt; lia).
      unfold mk_optimizer. rewrite X. reflexivity.
Qed.

Definition fixed_state (m : dirac_model) : Prop := dm_fit_computed m = true /\ calm (dm_optimizer m).

Lemma fixed_kept m imps F : fixed_state m -> snd (dm_by_impressions x m imps F) = m.
Proof.
  intros [E1 E2]. unfold dm_by_impressions, dm_fitted. destruct imps as [|I [|J l]]; try reflexivity. rewrite E1.
  destruct (dm_optimizer m) as [o|] eqn:EO; [|reflexivity]. destruct (py_index (rp_impressions (dm_point m)) 0); [|reflexivity].
  unfold optimizer_predict. destruct E2 as [E2|[e E2]]; rewrite E2; cbn [snd]; apply with_optimizer_id; exact EO.
Qed.

Lemma first_query m imps F : log_sane x -> dm_fit_computed m = false -> dm_optimizer m = None ->
  let m' := snd (dm_by_impressions x m imps F) in
  m' = m \/ (fixed_state m' /\ dm_cpi m' = dm_cpi m /\ dm_fitted x m = (Ok tt, m')).
Proof.
  intros LS E1 E2. cbv zeta. unfold dm_by_impressions. destruct imps as [|I [|J l]]; auto.
  destruct (fitted_cases m LS E1 E2) as [A|[m1 [A [B1 [B2 [B3 B4]]]]]]; rewrite A; auto.
  right. assert (K : fixed_state m1) by (split; auto).
  pose proof (fixed_kept m1 [I] F K) as X. unfold dm_by_impressions, dm_fitted in X. rewrite B1 in X. rewrite X. auto.
Qed.

Lemma answer_kept m m1 imps F : dm_fit_computed m = false -> dm_fitted x m = (Ok tt, m1) -> dm_fit_computed m1 = true ->
  fst (dm_by_impressions x m1 imps F) = fst (dm_by_impressions x m imps F).
Proof.
  intros E1 E2 E3. unfold dm_by_impressions. destruct imps as [|I [|J l]]; auto. assert (E4 : dm_fitted x m1 = (Ok tt, m1)) by (unfold dm_fitted; rewrite E3; reflexivity).
  rewrite E2, E4. reflexivity.
Qed.

End Answers.
