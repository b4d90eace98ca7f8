(** C50: the Dirac mixture model of a single publisher: which points it accepts, which grid of
    components it uses, which weights it chooses, what it answers, and that the answers do not
    depend on the queries made before. *)
From Coq Require Import Lqa Qfield Qround Sorted.
From Verif Require Import Prelude ModelReachPoint ModelHalo ModelCurves SpecSurface ModelSurface SurfaceLemmas
  SurfaceLemmas2 HaloLemmas ReachPointLemmas ModelGamma GammaLemmas GammaLemmas2 GammaPoissonLemmas2 ModelDirac SpecDirac
  DiracLemmas DiracLemmas2 DiracLemmas3.
Open Scope Z_scope.
Local Open Scope Q_scope.

(** A point as the constructor of ReachPoint makes it. *)
Definition made (p : qpoint) (imps rs : list Q) (spends : option (list Q)) (u : option Z) : Prop :=
  mk_reach_point Qops imps rs spends u = Ok p.

Lemma made_all p imps rs spends u : made p imps rs spends u ->
  rp_impressions p = imps /\ rp_kplus p = rs /\ rp_frequencies p = diffs Qops rs /\ rp_universe p = u /\
  rp_spends p = match spends with Some [] => None | s => s end.
Proof.
  unfold made, mk_reach_point. intros H. destruct (match match spends with Some [] => None | s => s end with Some s => _ | None => _ end); [discriminate|].
  assert (X := f_equal (fun a => match a with Ok q => q | Err _ => p end) H). cbn in X. subst p. cbn. auto 10.
Qed.

(** ** Construction *)

(** A model is made from exactly one point with a known universe, whose first number of
    impressions is at least 1/1000 and at least the reach; else the constructor raises an error,
    which is a ValueError if the point has impressions. *)
Theorem C50_accepted : forall p I imps r kp spends u n, made p (I :: imps) (r :: kp) spends u ->
  ((exists m, mk_dirac [p] n = Ok m) <-> 1#1000 <= I /\ r <= I /\ u <> None) /\
  (~ (1#1000 <= I /\ r <= I /\ u <> None) -> mk_dirac [p] n = Err ValueError).
Proof.
  intros p I imps r kp spends u n HP. destruct (made_all _ _ _ _ _ HP) as [EI [EK [EF [EU ES]]]].
  assert (R : mk_dirac [p] n = Err ValueError /\ ~ (1#1000 <= I /\ r <= I /\ u <> None) \/
              (exists m, mk_dirac [p] n = Ok m) /\ (1#1000 <= I /\ r <= I /\ u <> None)).
  { unfold mk_dirac. rewrite EI. change (py_index (I :: imps) 0) with (Ok I). cbn [bind].
    destruct (Qltb_spec I (1#1000)) as [L|L]; [left; split; [reflexivity|]; intros [X _]; lra|].
    rewrite (point_reach_1 p r kp EK). cbn [bind].
    destruct (Qltb_spec I r) as [L2|L2]; [left; split; [reflexivity|]; intros [_ [X _]]; lra|].
    unfold zero_included_histogram_Q, universe_size. rewrite EU. destruct u as [U|].
    - right. split; [|repeat split; auto; congruence].
      rewrite (point_reach_1 p r kp EK). cbn [bind]. unfold frequencies_with_kplus_bucket. rewrite EK.
      assert (X : py_index (r :: kp) (-1) = Ok (last (r :: kp) 0)).
      { rewrite (app_removelast_last 0) at 1 by discriminate. apply py_index_last. }
      rewrite X. cbn [bind]. rewrite ES. destruct spends as [[|s sp]|]; cbn [bind]; eauto.
      change (py_index (s :: sp) 0) with (Ok s). cbn [bind]. eauto.
    - left. split; [reflexivity|]. intros [_ [_ X]]. congruence. }
  destruct R as [[E H]|[E H]]; split.
  - split; [intros [m X]; congruence|intros X; contradiction].
  - auto.
  - split; auto.
  - intros X; contradiction.
Qed.
Print Assumptions C50_accepted.

Theorem C50_one_point : forall data n, length data <> 1%nat -> mk_dirac data n = Err ValueError.
Proof. intros data n H. destruct data as [|p [|q l]]; try reflexivity. cbn in H. lia. Qed.
Print Assumptions C50_one_point.

Lemma Qsum_diffs_last l : forall a, Qsum (diffs Qops (a :: l) ++ [last (a :: l) 0]) == a.
Proof.
  induction l as [|b l IH]; intros a; [cbn; ring|].
  change (diffs Qops (a :: b :: l)) with ((a - b) :: diffs Qops (b :: l)).
  change (last (a :: b :: l) 0) with (last (b :: l) 0). cbn [app Qsum]. rewrite IH. ring.
Qed.

Lemma hist_nth l f : l <> [] -> (f < length l)%nat ->
  nth f (diffs Qops l ++ [last l 0]) 0 == nth f l 0 - nth (S f) l 0.
Proof.
  intros N Hf. pose proof (diffs_length Qops l) as DL. destruct (Nat.eq_dec (S f) (length l)) as [E|E].
  - rewrite app_nth2 by lia. replace (f - length (diffs Qops l))%nat with O by lia. cbn [nth].
    rewrite (nth_overflow l (n := S f)) by lia.
    assert (last l 0 = nth f l 0) as ->; [|ring]. clear DL N. revert f Hf E. induction l as [|a l IH]; intros f Hf E; [cbn in Hf; lia|].
    destruct l as [|b l]; [destruct f; [reflexivity|cbn in *; lia]|]. destruct f as [|f]; [cbn in E; lia|].
    change (last (a :: b :: l) 0) with (last (b :: l) 0). cbn [nth]. apply IH; cbn in *; lia.
  - rewrite app_nth1 by lia. rewrite diffs_value by lia. reflexivity.
Qed.

(** What the constructor stores. *)
Lemma dirac_made p imps r kp spends u n m : made p imps (r :: kp) spends u -> mk_dirac [p] n = Ok m ->
  exists I0 rest U, imps = I0 :: rest /\ u = Some U /\ 1#1000 <= I0 /\ dm_point m = p /\ dm_ncomponents m = n /\
    dm_fit_computed m = false /\ dm_optimizer m = None /\
    dm_hist m = diffs Qops (inject_Z U :: r :: kp) ++ [last (inject_Z U :: r :: kp) 0] /\
    dm_cpi m = match spends with Some (s :: _) => Some (s / I0) | _ => None end.
Proof.
  intros HP E. destruct (made_all _ _ _ _ _ HP) as [EI [EK [EF [EU ES]]]].
  unfold mk_dirac in E. rewrite EI in E. destruct imps as [|I0 rest]; [discriminate|].
  change (py_index (I0 :: rest) 0) with (Ok I0) in E. cbn [bind] in E.
  destruct (Qltb_spec I0 (1#1000)) as [L|L]; [discriminate|]. rewrite (point_reach_1 p r kp EK) in E. cbn [bind] in E.
  destruct (Qltb I0 r); [discriminate|]. unfold zero_included_histogram_Q, universe_size in E. rewrite EU in E.
  destruct u as [U|]; [|discriminate]. rewrite (point_reach_1 p r kp EK) in E. cbn [bind] in E.
  unfold frequencies_with_kplus_bucket in E. rewrite EK, EF in E.
  assert (X : py_index (r :: kp) (-1) = Ok (last (r :: kp) 0)).
  { rewrite (app_removelast_last 0) at 1 by discriminate. apply py_index_last. }
  rewrite X in E. cbn [bind] in E. exists I0, rest, U. split; [reflexivity|]. split; [reflexivity|]. split; [exact L|].
  rewrite ES in E. destruct spends as [[|s sp]|]; cbn [bind] in E.
  - assert (Y := f_equal (fun a => match a with Ok q => q | Err _ => m end) E). cbn in Y. subst m. repeat split.
  - change (py_index (s :: sp) 0) with (Ok s) in E. cbn [bind] in E.
    assert (Y := f_equal (fun a => match a with Ok q => q | Err _ => m end) E). cbn in Y. subst m. repeat split.
  - assert (Y := f_equal (fun a => match a with Ok q => q | Err _ => m end) E). cbn in Y. subst m. repeat split.
Qed.

Lemma hist_length (U : Q) (rs : list Q) : length (diffs Qops (U :: rs) ++ [last (U :: rs) 0]) = S (length rs).
Proof. rewrite app_length, diffs_length. cbn [length]. lia. Qed.

Lemma plausible_iff U r kp : plausible U (r :: kp) <->
  validate_frequency_histogram (diffs Qops (inject_Z U :: r :: kp) ++ [last (inject_Z U :: r :: kp) 0]) = Ok tt.
Proof.
  rewrite validate_iff, hist_length, Qsum_diffs_last. unfold plausible.
  assert (EU : 0 < inject_Z U <-> (0 < U)%Z) by (rewrite (Zlt_Qlt 0 U); reflexivity).
  rewrite EU, Forall_forall. split.
  - intros [HU H]. split; [cbn; lia|]. split; [|exact HU]. intros v Hv. apply (In_nth _ _ 0) in Hv. destruct Hv as [f [Hf <-]].
    rewrite hist_length in Hf. rewrite hist_nth by (discriminate || (cbn in *; lia)). specialize (H f ltac:(lia)). lra.
  - intros [_ [H HU]]. split; [exact HU|]. intros f Hf.
    assert (L : (f < length (inject_Z U :: r :: kp))%nat) by (cbn in *; lia).
    pose proof (hist_nth (inject_Z U :: r :: kp) f ltac:(discriminate) L) as E.
    specialize (H (nth f (diffs Qops (inject_Z U :: r :: kp) ++ [last (inject_Z U :: r :: kp) 0]) 0)).
    assert (0 <= nth f (diffs Qops (inject_Z U :: r :: kp) ++ [last (inject_Z U :: r :: kp) 0]) 0); [|lra].
    apply H. apply nth_In. rewrite hist_length. lia.
Qed.

Lemma observed_shares U r kp : plausible U (r :: kp) ->
  shares_of U (r :: kp) (observed_of (diffs Qops (inject_Z U :: r :: kp) ++ [last (inject_Z U :: r :: kp) 0])).
Proof.
  intros P. apply plausible_iff in P. destruct (observed_facts _ P) as [L _]. split; [rewrite L; apply hist_length|].
  intros f Hf. unfold observed_of. rewrite (nth_map_any _ 0) by (rewrite hist_length; lia).
  unfold training_share. apply Qdiv_comp; [apply hist_nth; [discriminate|cbn in *; lia]|]. apply Qsum_diffs_last.
Qed.

(** ** The components *)

Lemma nearest_comp q q' z : q == q' -> nearest q z -> nearest q' z.
Proof. intros E [[A B] C]. split; [split; lra|]. intros H. apply C. destruct H as [H|H]; [left|right]; lra. Qed.

Lemma nearest_shares c pmf ns : Forall2 (fun p n => nearest (inject_Z c * p) n) pmf ns -> ns = map (share c) pmf.
Proof.
  induction 1 as [|p n pmf ns H F IH]; cbn; auto. f_equal; auto.
  apply (nearest_fun (inject_Z c * p) (inject_Z c * p)); [exact H|apply py_round_nearest|reflexivity].
Qed.

Lemma grid_of_comp c pmf pmf' cs : Forall2 Qeq pmf pmf' -> grid_of c pmf cs -> grid_of c pmf' cs.
Proof.
  intros H [ns [A B]]. exists ns. rewrite <- (DataLemmas.Forall2_len _ _ _ H). split; [|exact B].
  clear B. revert ns A. induction H as [|p p' l l' E H IH]; intros ns A; inversion A; subst; constructor; auto.
  apply (nearest_comp (inject_Z c * p)); [rewrite E; reflexivity|assumption].
Qed.

Lemma Forall2_Qeq_map {A} (f g : A -> Q) l : (forall a, f a == g a) -> Forall2 Qeq (map f l) (map g l).
Proof. intros H. induction l; cbn; constructor; auto. Qed.

(** Each frequency gets its rounded share of the components, evenly spread from there to the next
    frequency, until as many as wanted have been drawn; with dilution the shares are those of a
    mixture with the uniform distribution. *)
Theorem C50_grid : forall c pmf d, (0 <= c)%Z -> Forall (fun p => 0 <= p) pmf -> 0 <= d <= 1 -> pmf <> [] ->
  exists cs, in_bound_grid c pmf d = Ok cs /\
    grid_of c (map (fun p => (1 - d) * p + d / inject_Z (Z.of_nat (length pmf))) pmf) cs.
Proof.
  intros c pmf d Hc F Hd N. unfold in_bound_grid. destruct (Qltb_spec 0 d) as [D|D].
  - destruct pmf as [|p0 pmf0] eqn:EP; [congruence|]. rewrite <- EP in *. clear EP p0 pmf0.
    cbn [bind]. set (L := inject_Z (Z.of_nat (length pmf))).
    assert (L0 : 0 < L).
    { unfold L. change 0 with (inject_Z 0). rewrite <- Zlt_Qlt. destruct pmf; [congruence|cbn; lia]. }
    assert (F' : Forall (fun p => 0 <= p) (map (fun p => p * (1 - d) + d / L) pmf)).
    { apply Forall_forall. intros v Hv. apply in_map_iff in Hv. destruct Hv as [p [<- Hp]]. rewrite Forall_forall in F. specialize (F p Hp).
      assert (0 <= p * (1 - d)) by (apply Qmult_le_0_compat; lra). assert (0 <= d / L) by (apply Qle_shift_div_l; lra). lra. }
    destruct (grid_ok c _ Hc F') as [cs [E G]]. exists cs. split.
    + unfold in_bound_purely_weighted_grid, in_bound_grid in E. change (Qltb 0 0) with false in E. cbv iota in E. cbn [bind] in E. exact E.
    + revert G. apply grid_of_comp. apply Forall2_Qeq_map. intros a. ring.
  - destruct (grid_ok c _ Hc F) as [cs [E G]]. exists cs. split.
    + unfold in_bound_purely_weighted_grid, in_bound_grid in E. change (Qltb 0 0) with false in E. cbv iota in E. cbn [bind] in *. exact E.
    + revert G. apply grid_of_comp. rewrite <- (map_id pmf) at 1. apply Forall2_Qeq_map. intros a.
      assert (d == 0) as -> by lra. unfold Qdiv. ring.
Qed.
Print Assumptions C50_grid.

(** The two grids in use: shares of the distribution itself, and equal shares. *)
Theorem C50_grids : forall c pmf, (0 <= c)%Z -> Forall (fun p => 0 <= p) pmf -> pmf <> [] ->
  (exists cs, in_bound_purely_weighted_grid c pmf = Ok cs /\ grid_of c pmf cs) /\
  (exists cs, in_bound_uniform_grid c pmf = Ok cs /\
     grid_of c (repeat (1 / inject_Z (Z.of_nat (length pmf))) (length pmf)) cs).
Proof.
  intros c pmf Hc F N. split; [apply grid_ok; auto|].
  destruct (C50_grid c pmf 1 Hc F ltac:(lra) N) as [cs [E G]]. exists cs. split; [exact E|].
  revert G. apply grid_of_comp. generalize (1 / inject_Z (Z.of_nat (length pmf))). intros v.
  clear. induction pmf as [|p l IH]; cbn; constructor; auto. ring.
Qed.
Print Assumptions C50_grids.

(** The components increase strictly, are not negative, and lie below the number of frequencies
    plus one; there are at least as many as wanted, and too many by at most half a component per
    frequency. *)
Theorem C50_grid_shape : forall c pmf cs, (0 < c)%Z -> Forall (fun p => 0 <= p) pmf -> Qsum pmf == 1 -> grid_of c pmf cs ->
  StronglySorted Qlt cs /\
  (forall a, In a cs -> 0 <= a /\ a < inject_Z (Z.of_nat (length pmf)) + 1) /\
  (c <= Z.of_nat (length cs))%Z /\ (2 * Z.of_nat (length cs) <= 2 * c + Z.of_nat (length pmf))%Z.
Proof.
  intros c pmf cs Hc F S1 [ns [A B]]. pose proof (nearest_shares c pmf ns A) as ->. clear A.
  pose proof (shares_nonneg c pmf ltac:(lia) F) as SN.
  split; [apply (Forall2_Qeq_sorted _ _ B); apply (blocks_sorted (drawn c (map (share c) pmf)))|]. split.
  - intros a Ha. destruct (Forall2_Qeq_in _ _ _ B Ha) as [b [E Hb]]. apply (blocks_in (drawn c (map (share c) pmf))) in Hb.
    rewrite E. replace (Z.of_nat (S (length pmf))) with (Z.of_nat (length pmf) + 1)%Z in Hb by lia.
    rewrite inject_Z_plus in Hb. exact Hb.
  - pose proof (blocks_length _ SN c 0) as BL. rewrite map_length in BL.
    assert (length cs = drawn_total c (map (share c) pmf)) as -> by (rewrite <- BL; apply DataLemmas.Forall2_len with (R := Qeq); exact B).
    pose proof (drawn_total_bounds _ SN c Hc) as DB. split; [lia|].
    pose proof (shares_sum c pmf ltac:(lia)) as SS.
    assert (SS' : (2 * Zsum (map (share c) pmf) <= 2 * c + Z.of_nat (length pmf))%Z); [|lia].
    rewrite Zle_Qle. rewrite (inject_Z_plus (2 * c)), (inject_Z_mult 2 c). change (inject_Z 2) with 2.
    rewrite S1, Qmult_1_r in SS. exact SS.
Qed.
Print Assumptions C50_grid_shape.

Example C50_grid_example : exists cs,
  in_bound_purely_weighted_grid 10 [1#2; 3#10; 0; 1#5] = Ok cs /\
  Forall2 Qeq cs [0; 1#5; 2#5; 3#5; 4#5; 1; 4#3; 5#3; 3; 7#2].
Proof. eexists. split; [reflexivity|]. repeat constructor. Qed.

(** The documentation promises that no component is drawn beyond the maximum frequency; but the
    interval of the maximum frequency itself is used, and if the rounded shares fall short of the
    number wanted, so is the interval after it. *)
Theorem C50_in_bound_refuted : exists c pmf cs a, (0 < c)%Z /\ Forall (fun p => 0 <= p) pmf /\ Qsum pmf == 1 /\
  in_bound_purely_weighted_grid c pmf = Ok cs /\ In a cs /\ inject_Z (Z.of_nat (length pmf) - 1) + 1 <= a.
Proof.
  exists 1%Z, [1#3; 1#3; 1#3]. eexists _, _. split; [lia|]. split; [repeat constructor; discriminate|]. split; [reflexivity|].
  split; [reflexivity|]. split; [left; reflexivity|]. vm_compute. discriminate.
Qed.
Print Assumptions C50_in_bound_refuted.

(** ** The fit and the answers *)

Section Answers.
Context (x : dirac_externals).
Context (P : poisson_sane x) (LS : log_sane x) (I32 : int32_sane x)
        (S1 : solver_right (dx_ecos x)) (S2 : solver_right (dx_scs x)).

(** The answer to a query with [I] impressions and [F] frequencies, of a model with universe [U]
    trained with [I0] impressions, whose components [cs] have the weights [ws]. *)
Definition mixture_answer (cs ws : list Q) (U : Z) (I0 : Q) (cost : option Q) (I : Q) (F : nat)
    (q : reach_point Q Z) : Prop :=
  rp_impressions q = [I] /\ max_frequency q = Z.of_nat F /\ rp_universe q = None /\
  rp_spends q = match cost with Some c => if Qeqb c 0 then None else Some [I * c] | None => None end /\
  forall k, (1 <= k <= Z.of_nat F)%Z -> exists z, reach q k = Ok z /\
    nearest (inject_Z U * mixture_at_least x cs ws (I / I0) (Z.to_nat k)) z.

(** A plausible training point: grids of n, n/2, n/4, ... components are tried until the
    solvers find weights. If they do, the weights are the best for the grid, and each k+ reach is
    the universe times the chance that a user of the mixture, scaled to the impressions, sees at
    least k impressions, rounded. If the solvers end without a solution, every query raises a
    TypeError; if they never end well, every query raises the error of the last attempt. *)
Theorem C50_answer : forall p I0 rest r kp spends U n m,
  made p (I0 :: rest) (r :: kp) spends (Some U) -> mk_dirac [p] n = Ok m ->
  plausible U (r :: kp) -> (U < 2 ^ 31)%Z -> (0 < n)%Z ->
  exists shares, shares_of U (r :: kp) shares /\
  ((exists i cs w, (0 < halved n i)%Z /\ (forall i', (i' < i)%nat -> fit_fails x shares (halved n i')) /\
     grid_of (halved n i) shares cs /\ solved x shares cs w /\
     match w with
     | Some ws =>
         weights (length cs) ws /\
         (forall ws', weights (length cs) ws' -> minus_log_likelihood x shares cs ws <= minus_log_likelihood x shares cs ws') /\
         (forall I F, 0 <= I -> exists q, fst (dm_by_impressions x m [I] (Z.of_nat F)) = Ok q /\
            mixture_answer cs ws U I0 (match spends with Some (s :: _) => Some (s / I0) | _ => None end) I F q) /\
         (forall I F, (F < 0)%Z -> fst (dm_by_impressions x m [I] F) = Err IndexError)
     | None => forall I F, fst (dm_by_impressions x m [I] (Z.of_nat F)) = Err TypeError
     end) \/
   ((forall i, (0 < halved n i)%Z -> fit_fails x shares (halved n i)) /\
    exists e, forall I F, fst (dm_by_impressions x m [I] F) = Err e)).
Proof.
  intros p I0 rest r kp spends U n m HP HC HV HU Hn.
  destruct (made_all _ _ _ _ _ HP) as [EI [EK [EF [EU ES]]]].
  destruct (dirac_made p (I0 :: rest) r kp spends (Some U) n m HP HC) as [J0 [rest' [U' [E1 [E2 [E3 [E4 [E5 [E6 [E7 [E8 E9]]]]]]]]]]].
  assert (J0 = I0) by congruence. assert (rest' = rest) by congruence. assert (U' = U) by congruence. subst J0 rest' U'.
  set (h := diffs Qops (inject_Z U :: r :: kp) ++ [last (inject_Z U :: r :: kp) 0]) in *.
  assert (V : validate_frequency_histogram h = Ok tt) by (apply plausible_iff; exact HV).
  exists (observed_of h). split; [apply observed_shares; exact HV|].
  assert (Q0 : forall imps F, fst (dm_by_impressions x m imps F) = fst (dm_by_impressions x (snd (dm_fitted x m)) imps F) \/
             fst (dm_fitted x m) <> Ok tt).
  { intros imps F. destruct (dm_fitted x m) as [[[]|e] m1] eqn:EFit; [left|right; cbn; congruence]. symmetry.
    apply (answer_kept x m m1); auto.
    destruct (fitted_cases x m LS E6 E7) as [X|[m2 [X [Y _]]]]; [congruence|]. assert (m2 = m1) by congruence. subst. exact Y. }
  destruct (fit_loop_value x m h LS E8 V (Z.to_nat (dm_ncomponents m)) m E8) as [A|A]; try (rewrite E5; lia).
  { apply with_optimizer_id. reflexivity. }
  - left. rewrite E5 in A. destruct A as [i [o [o' [A1 [A2 [A3 [A4 A5]]]]]]].
    destruct (optimizer_fit_cases x h (halved n i) o LS V A1 A3) as [G [C0 [CN [[w [o2 [W1 [W2 [W3 W4]]]]]|[[e X] _]]]]]; [|congruence].
    assert (o2 = o') by congruence. subst o2.
    exists i, (op_components o), w. split; [exact A1|]. split; [exact A2|]. split; [exact G|]. split; [exact W1|].
    set (m1 := with_optimizer m (halved n i) true (Some o')) in *.
    assert (EFit : dm_fitted x m = (Ok tt, m1)) by (unfold dm_fitted; rewrite E6, E5; exact A5).
    assert (EQ : forall imps F, fst (dm_by_impressions x m imps F) = fst (dm_by_impressions x m1 imps F)).
    { intros imps F. destruct (Q0 imps F) as [X|X]; rewrite EFit in X; [exact X|cbn in X; congruence]. }
    assert (P1 : rp_impressions (dm_point m1) = I0 :: rest) by (cbn; rewrite E4; exact EI).
    assert (P2 : rp_universe (dm_point m1) = Some U) by (cbn; rewrite E4; exact EU).
    destruct w as [ws|].
    + destruct (solved_best x _ _ ws LS S1 S2 W1) as [B1 B2]. split; [exact B1|]. split; [exact B2|]. split.
      * intros I F HI.
        destruct (fitted_answer x m1 o' ws I0 rest U I F P I32) as [q [Q1 [Q2 [Q3 [Q4 [Q5 Q6]]]]]]; auto; try (rewrite W3; auto).
        { destruct HV. lia. } { lra. }
        exists q. rewrite EQ, Q1. split; [reflexivity|]. rewrite W3 in Q6. unfold mixture_answer.
        split; [exact Q2|]. split; [exact Q3|]. split; [exact Q4|]. split; [|exact Q6].
        rewrite Q5. unfold reported_spend. cbn [m1 with_optimizer dm_cpi]. rewrite E9. reflexivity.
      * intros I F HF. rewrite EQ. erewrite (fitted_negative x m1 o' I0 rest U I F); auto.
        { apply (optimizer_refit x o). exact A4. } { rewrite W3. exact CN. }
    + intros I F. rewrite EQ. erewrite (unsolved_answer x m1 o' I0 rest U I F); auto.
  - right. rewrite E5 in A. destruct A as [A1 [o [e [A2 [A3 A4]]]]]. split; [exact A1|]. exists e. intros I F.
    set (m1 := with_optimizer m 0 true (Some o)) in *.
    assert (EFit : dm_fitted x m = (Ok tt, m1)) by (unfold dm_fitted; rewrite E6, E5; exact A4).
    destruct (Q0 [I] F) as [X|X]; rewrite EFit in X; [|cbn in X; congruence]. rewrite X. cbn [snd].
    erewrite (unfitted_answer x m1 o e I0 rest I F); auto. cbn. rewrite E4. exact EI.
Qed.

(** Training points that are not plausible, no component, or not one number of impressions: every
    query raises an error. *)
Theorem C50_refused : forall p imps r kp spends U n m I F,
  made p imps (r :: kp) spends (Some U) -> mk_dirac [p] n = Ok m ->
  (~ plausible U (r :: kp) -> (0 < n)%Z -> fst (dm_by_impressions x m [I] F) = Err ValueError) /\
  ((n <= 0)%Z -> exists e, fst (dm_by_impressions x m [I] F) = Err e) /\
  (forall l, length l <> 1%nat -> fst (dm_by_impressions x m l F) = Err ValueError).
Proof.
  intros p imps r kp spends U n m I F HP HC.
  destruct (dirac_made _ _ _ _ _ _ _ _ HP HC) as [J0 [rest' [U' [E1 [E2 [E3 [E4 [E5 [E6 [E7 [E8 E9]]]]]]]]]]].
  assert (U' = U) by congruence. subst U'. split; [|split].
  - intros NP Hn. unfold dm_by_impressions, dm_fitted. rewrite E6, E5.
    assert (V : validate_frequency_histogram (dm_hist m) = Err ValueError).
    { apply validate_err. rewrite E8. intros X. apply NP. apply plausible_iff. exact X. }
    destruct (Z.to_nat n) as [|fuel] eqn:EN; [lia|]. cbn [fit_loop]. rewrite E5.
    replace (0 <? n)%Z with true by (symmetry; apply Z.ltb_lt; lia). unfold mk_optimizer. rewrite V. reflexivity.
  - intros Hn. unfold dm_by_impressions, dm_fitted. rewrite E6, E5. replace (Z.to_nat n) with O by lia. cbn [fit_loop].
    rewrite E5. replace (0 <? n)%Z with false by (symmetry; apply Z.ltb_ge; lia). cbn [with_optimizer dm_optimizer]. rewrite E7.
    eexists. reflexivity.
  - intros l Hl. unfold dm_by_impressions. destruct l as [|a [|b l]]; try reflexivity. cbn in Hl. lia.
Qed.

(** Whenever there are answers: between zero and the universe, no fewer for more impressions,
    whatever the numbers of frequencies, no more for a higher frequency, none for no impressions. *)
Theorem C50_shape : forall p I0 rest r kp spends U n m I I' F F' q q' k z z',
  made p (I0 :: rest) (r :: kp) spends (Some U) -> mk_dirac [p] n = Ok m -> (U < 2 ^ 31)%Z ->
  0 <= I -> I <= I' ->
  fst (dm_by_impressions x m [I] F) = Ok q -> fst (dm_by_impressions x m [I'] F') = Ok q' ->
  reach q k = Ok z -> reach q' k = Ok z' ->
  (0 <= z <= U)%Z /\ (z <= z')%Z /\ (I == 0 -> z = 0%Z) /\ (I == I' -> z = z') /\
  forall k2 z2, (k <= k2)%Z -> reach q k2 = Ok z2 -> (z2 <= z)%Z.
Proof.
  intros p I0 rest r kp spends U n m I I' F F' q q' k z z' HP HC HU H0 HI EQ EQ' ER ER'.
  assert (Hn : (0 < n)%Z).
  { destruct (Z_le_gt_dec n 0) as [Hn|Hn]; [|lia]. destruct (C50_refused p _ r kp spends U n m I F HP HC) as [_ [X _]].
    destruct (X Hn) as [e Y]. congruence. }
  assert (HV : plausible U (r :: kp)).
  { apply plausible_iff. destruct (validate_frequency_histogram _) as [[]|] eqn:V; [reflexivity|exfalso].
    destruct (C50_refused p _ r kp spends U n m I F HP HC) as [X _]. rewrite X in EQ; [discriminate| |exact Hn].
    intros Y. apply plausible_iff in Y. congruence. }
  assert (HI0 : 0 < I0).
  { destruct (dirac_made _ _ _ _ _ _ _ _ HP HC) as [J0 [rest' [U' [E1 [E2 [E3 _]]]]]]. assert (J0 = I0) by congruence. subst. lra. }
  destruct (C50_answer p I0 rest r kp spends U n m HP HC HV HU Hn) as [shares [_ [[i [cs [w [Hi [_ [G [_ A]]]]]]]|[_ [e A]]]]].
  2: { specialize (A I F). congruence. }
  assert (RK : forall (q : reach_point Q Z) j v, reach q j = Ok v -> (1 <= j <= max_frequency q)%Z).
  { intros q0 j v Hq. unfold reach in Hq. destruct ((0 <? j)%Z && (j <=? max_frequency q0)%Z) eqn:B; [|discriminate].
    apply andb_true_iff in B. destruct B as [B1 B2]. apply Z.ltb_lt in B1. apply Z.leb_le in B2. lia. }
  destruct w as [ws|].
  2: { destruct (Z_lt_le_dec F 0) as [N|N].
       - pose proof (RK _ _ _ ER). exfalso.
         specialize (A I 0%nat). clear - A EQ N P. cbn in A.
         unfold dm_by_impressions in *. destruct (dm_fitted x m) as [[[]|] m1]; [|discriminate].
         destruct (dm_optimizer m1) as [o|]; [|discriminate]. destruct (py_index _ 0) as [j0|]; [|discriminate].
         unfold optimizer_predict in *. destruct (optimizer_fit x o) as [o'|]; [|discriminate].
         destruct (op_components o') as [|c cs'].
         + cbn [mapM bind fst] in *. destruct (op_weights o') as [[w|]|]; cbn [bind] in *; try discriminate.
           destruct w; cbn in EQ; destruct (universe_size (dm_point m1)); discriminate.
         + rewrite (mapM_first_err _ IndexError) in EQ by (apply truncated_negative; exact N). discriminate.
       - specialize (A I (Z.to_nat F)). rewrite Z2Nat.id in A by exact N. congruence. }
  destruct A as [W [_ [A AN]]].
  assert (CC : Forall (fun c => 0 <= c) cs).
  { destruct G as [ns [_ G]]. apply Forall_forall. intros a Ha. destruct (Forall2_Qeq_in _ _ _ G Ha) as [b [E Hb]].
    apply blocks_in in Hb. rewrite E. tauto. }
  assert (B : forall I F q, 0 <= I -> fst (dm_by_impressions x m [I] F) = Ok q -> forall k z, reach q k = Ok z -> (1 <= k)%Z /\
            nearest (inject_Z U * mixture_at_least x cs ws (I / I0) (Z.to_nat k)) z).
  { clear - A AN RK. intros I F q HI E k z ER. destruct (Z_lt_le_dec F 0) as [N|N]; [rewrite AN in E by exact N; discriminate|].
    destruct (A I (Z.to_nat F) HI) as [q2 [E2 M]]. rewrite Z2Nat.id in E2 by exact N. assert (q2 = q) by congruence. subst q2.
    pose proof (RK _ _ _ ER) as RKz. destruct M as [_ [M1 [_ [_ M2]]]]. rewrite M1 in RKz.
    destruct (M2 k RKz) as [z2 [R2 N2]]. assert (z2 = z) by congruence. subst. split; [lia|exact N2]. }
  assert (U0 : 0 <= inject_Z U). { destruct HV as [HV _]. change 0 with (inject_Z 0). rewrite <- Zle_Qle. lia. }
  assert (SC : 0 <= I / I0) by (apply Qle_shift_div_l; lra).
  assert (SC' : I / I0 <= I' / I0).
  { unfold Qdiv. apply Qmult_le_compat_r; auto. apply Qinv_le_0_compat. lra. }
  assert (Mul : forall a b, a <= b -> inject_Z U * a <= inject_Z U * b).
  { intros a b Hab. rewrite !(Qmult_comm (inject_Z U)). apply Qmult_le_compat_r; auto. }
  destruct (B I F q H0 EQ k z ER) as [Hk N1]. destruct (B I' F' q' ltac:(lra) EQ' k z' ER') as [_ N2].
  destruct (mixture_bounds x cs ws (I / I0) (Z.to_nat k) P CC SC W) as [M0 M1].
  split; [split|split; [|split; [|split]]].
  - apply (nearest_mono 0 (inject_Z U * mixture_at_least x cs ws (I / I0) (Z.to_nat k))); [apply (nearest_int 0)|exact N1|].
    apply Qmult_le_0_compat; auto.
  - apply (nearest_mono (inject_Z U * mixture_at_least x cs ws (I / I0) (Z.to_nat k)) (inject_Z U)); [exact N1|apply nearest_int|].
    apply Qle_trans with (inject_Z U * 1); [apply Mul; exact M1|rewrite Qmult_1_r; apply Qle_refl].
  - eapply nearest_mono; [exact N1|exact N2|]. apply Mul. apply mixture_mono_s; auto.
  - intros Z0. apply (nearest_fun (inject_Z U * mixture_at_least x cs ws (I / I0) (Z.to_nat k)) 0); [exact N1|apply (nearest_int 0)|].
    rewrite mixture_zero; [ring|exact P|exact CC| |lia]. rewrite Z0. unfold Qdiv. ring.
  - intros EI'. apply Z.le_antisymm; [eapply nearest_mono; [exact N1|exact N2|]; apply Mul; apply mixture_mono_s; auto|].
    eapply nearest_mono; [exact N2|exact N1|]. apply Mul. apply mixture_mono_s; auto; [lra|].
    unfold Qdiv. apply Qmult_le_compat_r; [lra|]. apply Qinv_le_0_compat. lra.
  - intros k2 z2 Hk2 ER2. destruct (B I F q H0 EQ k2 z2 ER2) as [_ N3].
    eapply nearest_mono; [exact N3|exact N1|]. apply Mul.
    assert (X : forall j, mixture_at_least x cs ws (I / I0) (Z.to_nat k + j) <= mixture_at_least x cs ws (I / I0) (Z.to_nat k)).
    { induction j as [|j IH]; [rewrite Nat.add_0_r; apply Qle_refl|]. rewrite Nat.add_succ_r.
      eapply Qle_trans; [apply mixture_mono_k; auto|exact IH]. }
    replace (Z.to_nat k2) with (Z.to_nat k + (Z.to_nat k2 - Z.to_nat k))%nat by lia. apply X.
Qed.

End Answers.
Print Assumptions C50_answer.
Print Assumptions C50_refused.
Print Assumptions C50_shape.

(** ** Spends *)

(** A query by spend is the query by the impressions that the spend buys at the cost per impression
    of the training point; if that cost is missing or zero it raises a ValueError. *)
Theorem C50_spend : forall x p I0 rest r kp spends U n m s F,
  made p (I0 :: rest) (r :: kp) spends (Some U) -> mk_dirac [p] n = Ok m ->
  match spends with
  | Some (s0 :: _) =>
      (s0 == 0 -> fst (dm_by_spend x m [s] F) = Err ValueError) /\
      (~ s0 == 0 -> exists I, I == s * I0 / s0 /\ dm_by_spend x m [s] F = dm_by_impressions x m [I] F /\
         forall q, fst (dm_by_spend x m [s] F) = Ok q -> exists v, rp_spends q = Some [v] /\ v == s)
  | _ => fst (dm_by_spend x m [s] F) = Err ValueError
  end /\
  forall l, length l <> 1%nat -> fst (dm_by_spend x m l F) = Err ValueError.
Proof.
  intros x p I0 rest r kp spends U n m s F HP HC.
  destruct (dirac_made _ _ _ _ _ _ _ _ HP HC) as [J0 [rest' [U' [E1 [E2 [E3 [E4 [E5 [E6 [E7 [E8 E9]]]]]]]]]]].
  assert (J0 = I0) by congruence. subst J0. split.
  - unfold dm_by_spend, dm_impressions_for_spend, truthy_cost. rewrite E9.
    destruct spends as [[|s0 sp]|]; try reflexivity.
    assert (QB : forall v, Qeqb v 0 = true <-> v == 0) by (intros v; unfold Qeqb; apply Qeq_bool_iff).
    split.
    + intros Z. assert (Qeqb (s0 / I0) 0 = true) as -> by (apply QB; rewrite Z; unfold Qdiv; ring). reflexivity.
    + intros NZ. assert (C : ~ s0 / I0 == 0).
      { intros X. apply NZ. assert (s0 == (s0 / I0) * I0) as -> by (field; lra). rewrite X. ring. }
      assert (EC : Qeqb (s0 / I0) 0 = false) by (destruct (Qeqb (s0 / I0) 0) eqn:B; [apply QB in B; contradiction|reflexivity]).
      rewrite EC. exists (s / (s0 / I0)). split; [field; split; lra || exact NZ|]. split; [reflexivity|].
      intros q EQ. exists (s / (s0 / I0) * (s0 / I0)). split; [|field; split; lra || exact NZ].
      unfold dm_by_impressions in EQ.
      assert (CP : forall m1, snd (dm_fitted x m) = m1 -> dm_cpi m1 = Some (s0 / I0)).
      { intros m1 <-. rewrite <- E9. clear. unfold dm_fitted. destruct (dm_fit_computed m); [reflexivity|].
        generalize (Z.to_nat (dm_ncomponents m)). intros fuel. revert m. induction fuel as [|fuel IH]; intros m; cbn [fit_loop].
        - destruct (0 <? dm_ncomponents m)%Z; reflexivity.
        - destruct (0 <? dm_ncomponents m)%Z; [|reflexivity]. destruct (mk_optimizer _ _); [|reflexivity].
          destruct (optimizer_fit x _); [reflexivity|]. rewrite IH. reflexivity. }
      destruct (dm_fitted x m) as [[[]|] m1]; [|discriminate]. specialize (CP m1 eq_refl).
      destruct (dm_optimizer m1) as [o|]; [|discriminate]. destruct (py_index _ 0) as [j0|]; [|discriminate].
      destruct (optimizer_predict x o _ _) as [pred o']. cbn [fst] in EQ. destruct pred as [hist|]; cbn [bind] in EQ; [|discriminate].
      destruct (universe_size _) as [u|]; cbn [bind] in EQ; [|discriminate].
      destruct (kplus_from_prediction x u hist) as [kl|]; cbn [bind] in EQ; [|discriminate].
      unfold truthy_cost in EQ. rewrite CP, EC in EQ.
      assert (X := f_equal (fun a => match a with Ok q => rp_spends q | Err _ => None end) EQ). cbn in X. symmetry. exact X.
  - intros l Hl. unfold dm_by_spend. destruct l as [|a [|b l]]; try reflexivity. cbn in Hl. lia.
Qed.
Print Assumptions C50_spend.

(** ** Histories of queries *)

Inductive query : Type :=
| ByImpressions (imps : list Q) (max_freq : Z)
| BySpend (spends : list Q) (max_freq : Z).
Definition ask (x : dirac_externals) (m : dirac_model) (a : query) : result (reach_point Q Z) * dirac_model :=
  match a with
  | ByImpressions imps f => dm_by_impressions x m imps f
  | BySpend spends f => dm_by_spend x m spends f
  end.
Definition after (x : dirac_externals) (m : dirac_model) (queries : list query) : dirac_model :=
  fold_left (fun m a => snd (ask x m a)) queries m.

(** The answer to a query does not depend on the queries before it. *)
Theorem C50_history : forall x p imps r kp spends u n m queries a, log_sane x ->
  made p imps (r :: kp) spends u -> mk_dirac [p] n = Ok m ->
  fst (ask x (after x m queries) a) = fst (ask x m a).
Proof.
  intros x p imps r kp spends u n m queries a LS HP HC.
  destruct (dirac_made _ _ _ _ _ _ _ _ HP HC) as [J0 [rest' [U' [E1 [E2 [E3 [E4 [E5 [E6 [E7 [E8 E9]]]]]]]]]]].
  assert (R : forall m', (m' = m \/ fixed_state x m' /\ dm_cpi m' = dm_cpi m /\ dm_fitted x m = (Ok tt, m')) ->
             fst (ask x m' a) = fst (ask x m a)).
  { intros m' [->|[[F1 F2] [F3 F4]]]; [reflexivity|]. destruct a as [im f|sp f]; cbn [ask].
    - apply (answer_kept x m m'); auto.
    - unfold dm_by_spend. destruct sp as [|s [|]]; try reflexivity. unfold dm_impressions_for_spend. rewrite F3.
      destruct (truthy_cost (dm_cpi m)); [|reflexivity]. apply (answer_kept x m m'); auto. }
  assert (K : forall q m', (m' = m \/ fixed_state x m' /\ dm_cpi m' = dm_cpi m /\ dm_fitted x m = (Ok tt, m')) ->
     let m2 := snd (ask x m' q) in m2 = m \/ fixed_state x m2 /\ dm_cpi m2 = dm_cpi m /\ dm_fitted x m = (Ok tt, m2)).
  { intros q m' H. assert (KI : forall im f, let m2 := snd (dm_by_impressions x m' im f) in
       m2 = m \/ fixed_state x m2 /\ dm_cpi m2 = dm_cpi m /\ dm_fitted x m = (Ok tt, m2)).
    { intros im f. destruct H as [->|[F1 F2]].
      - destruct (first_query x m im f LS E6 E7) as [X|X]; auto.
      - cbv zeta. rewrite (fixed_kept x m' im f F1). auto. }
    destruct q as [im f|sp f]; cbn [ask]; [apply KI|]. unfold dm_by_spend. destruct sp as [|s [|]]; auto.
    destruct (dm_impressions_for_spend m' s); [apply KI|]. auto. }
  apply R. unfold after. assert (G : forall m', (m' = m \/ fixed_state x m' /\ dm_cpi m' = dm_cpi m /\ dm_fitted x m = (Ok tt, m')) ->
    let m2 := fold_left (fun m a => snd (ask x m a)) queries m' in
    m2 = m \/ fixed_state x m2 /\ dm_cpi m2 = dm_cpi m /\ dm_fitted x m = (Ok tt, m2)).
  { induction queries as [|q qs IH]; intros m' H; cbv zeta; cbn [fold_left]; [exact H|]. apply IH. apply K. exact H. }
  apply G. auto.
Qed.
Print Assumptions C50_history.

(** ** The training point *)

(** If the mixture reproduces the training distribution, then the answer at the training
    impressions is the training point, rounded. *)
Lemma mixture_tail x cs ws s k : weights (length cs) ws ->
  mixture_at_least x cs ws s k == 1 - total k (fun f => mixture_exactly x cs ws s f).
Proof.
  intros [_ [_ W]]. unfold mixture_at_least, mixture_exactly. induction k as [|k IH].
  - cbn [total]. rewrite <- W. rewrite (total_ext _ (fun j => nth j ws 0 * (1 - 0)) (fun j => nth j ws 0)) by (intros; ring). ring.
  - cbn [total].
    rewrite (total_ext _ _ (fun j => nth j ws 0 * (1 - total k (fun f => dx_pmf x (Z.of_nat f) (nth j cs 0 * s))) +
                                     (- (1)) * (nth j ws 0 * dx_pmf x (Z.of_nat k) (nth j cs 0 * s)))) by (intros; ring).
    rewrite total_plus, total_scal, IH. ring.
Qed.

Lemma shares_tail U rs k : (0 < U)%Z -> (k <= length rs)%nat ->
  inject_Z U * (1 - total k (fun f => training_share U rs f)) == nth k (inject_Z U :: rs) 0.
Proof.
  intros HU. assert (U0 : ~ inject_Z U == 0).
  { intros X. change 0 with (inject_Z 0) in X. rewrite inject_Z_injective in X. lia. }
  induction k as [|k IH]; intros Hk; [cbn [total nth]; ring|].
  cbn [total]. specialize (IH ltac:(lia)).
  assert (inject_Z U * (1 - (total k (fun f => training_share U rs f) + training_share U rs k)) ==
          inject_Z U * (1 - total k (fun f => training_share U rs f)) - inject_Z U * training_share U rs k) as -> by ring.
  rewrite IH. unfold training_share. field. exact U0.
Qed.

Theorem C50_training : forall x cs ws U rs I0 cost q F, weights (length cs) ws -> (0 < U)%Z -> 0 < I0 -> poisson_sane x ->
  Forall (fun c => 0 <= c) cs ->
  mixture_answer x cs ws U I0 cost I0 F q ->
  (forall f, (f < length rs)%nat -> mixture_exactly x cs ws 1 f == training_share U rs f) ->
  forall k z, (1 <= k <= length rs)%nat -> reach q (Z.of_nat k) = Ok z -> nearest (nth (k - 1) rs 0) z.
Proof.
  intros x cs ws U rs I0 cost q F W HU H0 P HC [_ [M1 [_ [_ M2]]]] HX k z Hk ER.
  assert (RK : (1 <= Z.of_nat k <= Z.of_nat F)%Z).
  { unfold reach in ER. destruct ((0 <? Z.of_nat k)%Z && (Z.of_nat k <=? max_frequency q)%Z) eqn:B; [|discriminate].
    apply andb_true_iff in B. destruct B as [B1 B2]. apply Z.leb_le in B2. rewrite M1 in B2. lia. }
  destruct (M2 _ RK) as [z2 [R2 N2]]. assert (z2 = z) by congruence. subst z2. rewrite Nat2Z.id in N2.
  revert N2. apply nearest_comp. rewrite mixture_tail by exact W.
  rewrite (total_ext k _ (fun f => training_share U rs f)).
  - rewrite shares_tail by lia. destruct k as [|k]; [lia|]. cbn [nth]. replace (S k - 1)%nat with k by lia. reflexivity.
  - intros f Hf. rewrite <- HX by lia. unfold mixture_exactly. apply total_ext. intros j Hj.
    assert (C0 : 0 <= nth j cs 0) by (rewrite Forall_forall in HC; apply HC; apply nth_In; exact Hj).
    assert (E1 : I0 / I0 == 1) by (field; lra).
    assert (C1 : 0 <= nth j cs 0 * (I0 / I0)) by (rewrite E1, Qmult_1_r; exact C0).
    destruct (P _ C1) as [_ [_ [_ [_ [_ P6]]]]]. rewrite (P6 (Z.of_nat f) (nth j cs 0 * 1)) by (rewrite E1; reflexivity). reflexivity.
Qed.
Print Assumptions C50_training.

(** ** A single component *)

(** If the fit gets down to one component, and more than half of the universe was not reached, then
    nobody is ever reached. *)
Theorem C50_one_component : forall x p I0 rest r kp spends U m I F q k z,
  poisson_sane x -> log_sane x -> int32_sane x -> solver_right (dx_ecos x) -> solver_right (dx_scs x) ->
  made p (I0 :: rest) (r :: kp) spends (Some U) -> mk_dirac [p] 1 = Ok m -> plausible U (r :: kp) -> (U < 2 ^ 31)%Z ->
  2 * r < inject_Z U -> 0 <= I ->
  fst (dm_by_impressions x m [I] (Z.of_nat F)) = Ok q -> reach q k = Ok z -> z = 0%Z.
Proof.
  intros x p I0 rest r kp spends U m I F q k z P LS I32 S1 S2 HP HC HV HU HR HI EQ ER.
  destruct (C50_answer x P LS I32 S1 S2 p I0 rest r kp spends U 1 m HP HC HV HU ltac:(lia))
    as [shares [[SL SH] [[i [cs [w [Hi [_ [G [_ A]]]]]]]|[_ [e A]]]]]; [|rewrite A in EQ; discriminate].
  destruct w as [ws|]; [|rewrite A in EQ; discriminate]. destruct A as [W [_ [A _]]].
  destruct (A I F HI) as [q2 [E2 M]]. assert (q2 = q) by congruence. subst q2.
  assert (halved 1 i = 1%Z) as H1.
  { destruct i as [|i]; [apply halved_0|]. exfalso. unfold halved in Hi. rewrite Z.div_small in Hi; [lia|].
    split; [lia|]. apply Z.pow_gt_1; lia. }
  rewrite H1 in G. destruct G as [ns [N B]].
  destruct shares as [|s0 shares]; [discriminate|]. inversion N as [|? n0 ? ns' N0 N' X1 X2]; subst. 
  assert (U0 : 0 < inject_Z U) by (destruct HV as [HV _]; rewrite Zlt_Qlt in HV; exact HV).
  assert (B0 : (1#2) < s0 /\ s0 <= 1).
  { specialize (SH O ltac:(lia)). cbn [nth] in SH. unfold training_share in SH. cbn [nth] in SH.
    destruct HV as [_ HV].
    assert (R0 : 0 <= r).
    { assert (X : forall j, (j <= length (r :: kp))%nat -> nth (length (r :: kp) + 1) (inject_Z U :: r :: kp) 0 <=
                 nth (length (r :: kp) + 1 - j) (inject_Z U :: r :: kp) 0).
      { induction j as [|j IH]; intros Hj; [rewrite Nat.sub_0_r; apply Qle_refl|].
        eapply Qle_trans; [apply IH; lia|].
        replace (length (r :: kp) + 1 - j)%nat with (S (length (r :: kp) + 1 - S j)) by lia. apply HV. lia. }
      specialize (X (length (r :: kp)) ltac:(lia)). rewrite nth_overflow in X by (cbn; lia).
      replace (length (r :: kp) + 1 - length (r :: kp))%nat with 1%nat in X by lia. exact X. }
    rewrite SH. split; [apply Qlt_shift_div_l; lra|apply Qle_shift_div_r; lra]. }
  assert (n0 = 1%Z).
  { destruct N0 as [[Na Nb] Nc]. change (inject_Z 1) with 1 in *. rewrite Qmult_1_l in Na, Nb.
    assert (inject_Z 0 < inject_Z n0) as L1 by (change (inject_Z 0) with 0; lra). rewrite <- Zlt_Qlt in L1.
    assert (inject_Z n0 < inject_Z 2) as L2 by (change (inject_Z 2) with 2; lra). rewrite <- Zlt_Qlt in L2. lia. }
  subst n0. pose proof (nearest_shares _ _ _ N') as EN. subst ns'.
  assert (Z0 : forall c, In c cs -> c == 0).
  { intros c Hc. destruct (Forall2_Qeq_in _ _ _ B Hc) as [b [E Hb]]. rewrite E. apply in_flat_map in Hb. destruct Hb as [j [_ Hb]].
    destruct j as [|j].
    - change (drawn 1 (1%Z :: map (share 1) shares) 0) with 1%nat in Hb. destruct Hb as [<-|[]]. reflexivity.
    - rewrite drawn_S in Hb. rewrite drawn_done in Hb; [destruct Hb| |lia].
      apply Forall_forall. intros v Hv. apply (In_nth _ _ 0%Z) in Hv. destruct Hv as [f [Hf <-]]. rewrite map_length in Hf.
      rewrite (nth_map_any _ 0) by exact Hf. apply py_round_nonneg. change (inject_Z 1) with 1. rewrite Qmult_1_l.
      specialize (SH (S f)). cbn [length] in SL, SH. rewrite <- (Qmult_1_l (nth f shares 0)), Qmult_1_l.
      change (nth f shares 0) with (nth (S f) (s0 :: shares) 0). rewrite SH by lia. unfold training_share.
      destruct HV as [_ HV]. specialize (HV (S f) ltac:(cbn [length]; lia)). apply Qle_shift_div_l; [exact U0|]. lra. }
  destruct M as [_ [M1 [_ [_ M2]]]].
  assert (RK : (1 <= k <= Z.of_nat F)%Z).
  { unfold reach in ER. destruct ((0 <? k)%Z && (k <=? max_frequency q)%Z) eqn:BB; [|discriminate].
    apply andb_true_iff in BB. destruct BB as [B1 B2]. apply Z.ltb_lt in B1. apply Z.leb_le in B2. rewrite M1 in B2. lia. }
  destruct (M2 k RK) as [z2 [R2 N2]]. assert (z2 = z) by congruence. subst z2.
  apply (nearest_fun (inject_Z U * mixture_at_least x cs ws (I / I0) (Z.to_nat k)) 0); [exact N2|apply (nearest_int 0)|].
  assert (E0 : mixture_at_least x cs ws (I / I0) (Z.to_nat k) == 0); [|rewrite E0; ring].
  assert (HI0 : 0 < I0).
  { destruct (dirac_made _ _ _ _ _ _ _ _ HP HC) as [J0 [rest' [U' [E1 [_ [E3 _]]]]]]. assert (J0 = I0) by congruence. subst. lra. }
  assert (SC : 0 <= I / I0) by (apply Qle_shift_div_l; lra).
  rewrite mixture_sf; [|exact P| |exact SC].
  - apply total_0. intros j Hj. assert (C0 : nth j cs 0 * (I / I0) == 0) by (rewrite (Z0 (nth j cs 0)) by (apply nth_In; exact Hj); ring).
    destruct (P (nth j cs 0 * (I / I0))) as [_ [_ [_ [_ [P5 _]]]]]; [rewrite C0; apply Qle_refl|]. rewrite P5; [ring|lia|exact C0].
  - apply Forall_forall. intros c Hc. rewrite (Z0 c Hc). apply Qle_refl.
Qed.
Print Assumptions C50_one_component.

(** ** Examples *)

(** Instances of the external functions: geometric distributions in place of Poisson's, and
    solvers that only handle one component. *)
Fixpoint qpow (q : Q) (n : nat) : Q := match n with O => 1 | S n => q * qpow q n end.
Definition toy_pmf (k : Z) (mean : Q) : Q := qpow (mean / (1 + mean)) (Z.to_nat k) / (1 + mean).
Definition toy_sf (k : Z) (mean : Q) : Q := qpow (mean / (1 + mean)) (Z.to_nat (k + 1)).
Definition toy_solver (n : nat) (f : list Q -> Q) : solve_outcome :=
  if Nat.eqb n 1 then Solved (Some [1]) else SolverError.
Definition toy_x : dirac_externals :=
  {| dx_pmf := toy_pmf; dx_sf := toy_sf; dx_log := fun q => q; dx_ecos := fun _ _ => SolverError; dx_scs := toy_solver;
     dx_int32 := fun z => z |}.

Lemma qpow_comp q q' n : q == q' -> qpow q n == qpow q' n.
Proof. intros E. induction n as [|n IH]; cbn [qpow]; [reflexivity|]. apply Qmult_comp; auto. Qed.
Lemma qpow_nonneg q n : 0 <= q -> 0 <= qpow q n.
Proof. intros H. induction n as [|n IH]; cbn [qpow]; [lra|]. apply Qmult_le_0_compat; auto. Qed.
Lemma qpow_mono q q' n : 0 <= q -> q <= q' -> qpow q n <= qpow q' n.
Proof.
  intros H0 H. induction n as [|n IH]; cbn [qpow]; [lra|]. pose proof (qpow_nonneg q n H0).
  apply Qle_trans with (q' * qpow q n); [apply Qmult_le_compat_r; auto|].
  rewrite !(Qmult_comm q'). apply Qmult_le_compat_r; auto. lra.
Qed.
Lemma ratio_nonneg m : 0 <= m -> 0 <= m / (1 + m).
Proof. intros H. apply Qle_shift_div_l; lra. Qed.

Lemma toy_poisson : poisson_sane toy_x.
Proof.
  intros mean H. cbn. pose proof (ratio_nonneg mean H) as R. split; [|split; [|split; [|split; [|split]]]].
  - intros k Hk. unfold toy_pmf. apply Qle_shift_div_l; [lra|]. rewrite Qmult_0_l. apply qpow_nonneg. exact R.
  - intros k. unfold toy_sf, toy_pmf. replace (Z.to_nat (Z.of_nat k - 1 + 1)) with k by lia.
    induction k as [|k IH]; [cbn; ring|]. cbn [total]. rewrite Nat2Z.id.
    assert (E : 1 - total k (fun f => qpow (mean / (1 + mean)) (Z.to_nat (Z.of_nat f)) / (1 + mean)) == qpow (mean / (1 + mean)) k) by (symmetry; exact IH).
    assert (1 - (total k (fun f => qpow (mean / (1 + mean)) (Z.to_nat (Z.of_nat f)) / (1 + mean)) + qpow (mean / (1 + mean)) k / (1 + mean)) ==
            (1 - total k (fun f => qpow (mean / (1 + mean)) (Z.to_nat (Z.of_nat f)) / (1 + mean))) - qpow (mean / (1 + mean)) k / (1 + mean)) as -> by ring.
    rewrite E. cbn [qpow]. field. lra.
  - intros k. unfold toy_sf. apply qpow_nonneg. exact R.
  - intros k mean' Hm. unfold toy_sf. apply qpow_mono; [exact R|].
    apply Qle_shift_div_l; [lra|]. apply Qle_trans with ((mean / (1 + mean)) * (1 + mean')); [apply Qle_refl|].
    setoid_replace (mean / (1 + mean) * (1 + mean')) with (mean * (1 + mean') / (1 + mean)) by (field; lra).
    apply Qle_shift_div_r; [lra|]. lra.
  - intros k Hk Z0. unfold toy_sf. replace (Z.to_nat (k + 1)) with (S (Z.to_nat k)) by lia. cbn [qpow]. rewrite Z0. unfold Qdiv. ring.
  - intros k mean' E. unfold toy_pmf. rewrite (qpow_comp _ (mean' / (1 + mean'))) by (rewrite E; reflexivity). rewrite E. reflexivity.
Qed.
Lemma toy_log : log_sane toy_x.
Proof. intros a b E. exact E. Qed.
Lemma toy_int : int32_sane toy_x.
Proof. intros z _. reflexivity. Qed.
Lemma toy_ecos_right : solver_right (dx_ecos toy_x).
Proof. intros n f ws _ E. discriminate. Qed.
Lemma toy_scs_right : solver_right (dx_scs toy_x).
Proof.
  intros n f ws C E. cbn in E. unfold toy_solver in E. destruct (Nat.eqb_spec n 1) as [->|]; [|discriminate].
  assert (ws = [1]) by congruence. subst ws. split; [split; [reflexivity|split; [repeat constructor; discriminate|reflexivity]]|].
  intros ws' [L [_ S]]. destruct ws' as [|w [|]]; try discriminate. cbn in S.
  rewrite (C [1] [w]); [apply Qle_refl|reflexivity|]. constructor; [|constructor]. lra.
Qed.

(** A point with reach 6 of 8 users and costs; three components are one too many for the solver,
    a single one with mean 1 is found. *)
Definition toy_point : qpoint :=
  {| rp_impressions := [10]; rp_kplus := [6]; rp_frequencies := []; rp_spends := Some [5]; rp_universe := Some 8%Z |}.
Lemma toy_made : made toy_point [10] [6] (Some [5]) (Some 8%Z).
Proof. reflexivity. Qed.
Lemma toy_plausible : plausible 8 [6].
Proof. split; [lia|]. intros [|[|f]] Hf; [vm_compute; discriminate|vm_compute; discriminate|cbn in Hf; lia]. Qed.
Example C50_accepted_example : exists m, mk_dirac [toy_point] 3 = Ok m /\ dm_cpi m = Some (5 / 10).
Proof. eexists. split; reflexivity. Qed.
Example C50_answer_example : exists m q, mk_dirac [toy_point] 3 = Ok m /\
  fst (dm_by_impressions toy_x m [10] 3) = Ok q /\ rp_kplus q = [4%Z; 2%Z; 1%Z] /\
  dm_ncomponents (snd (dm_by_impressions toy_x m [10] 3)) = 1%Z.
Proof. eexists _, _. split; [reflexivity|]. split; [vm_compute; reflexivity|]. split; reflexivity. Qed.
Example C50_shape_example : exists m q q', mk_dirac [toy_point] 3 = Ok m /\
  fst (dm_by_impressions toy_x m [10] 3) = Ok q /\ fst (dm_by_impressions toy_x m [30] 2) = Ok q' /\
  reach q 2 = Ok 2%Z /\ reach q' 2 = Ok 4%Z.
Proof. eexists _, _, _. split; [reflexivity|]. split; [vm_compute; reflexivity|]. split; [vm_compute; reflexivity|]. split; reflexivity. Qed.
Example C50_history_example : exists m q, mk_dirac [toy_point] 3 = Ok m /\
  fst (ask toy_x (after toy_x m [BySpend [15] 1; ByImpressions [] 1]) (ByImpressions [10] 1)) = Ok q /\ rp_kplus q = [4%Z].
Proof. eexists _, _. split; [reflexivity|]. split; [vm_compute; reflexivity|]. reflexivity. Qed.

(** A mixture that reproduces its training point. *)
Example C50_training_example : (forall f, (f < 1)%nat -> mixture_exactly toy_x [1] [1] 1 f == training_share 8 [4] f) /\ weights 1 [1].
Proof.
  split; [|split; [reflexivity|split; [repeat constructor; discriminate|reflexivity]]].
  intros [|f] Hf; [reflexivity|lia].
Qed.

(** The constructor accepts points whose queries then all fail: more reached users than the
    universe has. *)
Theorem C50_universe_refuted : exists p m, made p [10] [6] None (Some 5%Z) /\ mk_dirac [p] 200 = Ok m /\
  forall x I F, fst (dm_by_impressions x m [I] F) = Err ValueError.
Proof.
  eexists _, _. split; [reflexivity|]. split; [reflexivity|]. intros x I F.
  match goal with |- fst (dm_by_impressions _ ?m _ _) = _ => destruct (C50_refused x
    {| rp_impressions := [10]; rp_kplus := [6]; rp_frequencies := []; rp_spends := None; rp_universe := Some 5%Z |}
    [10] 6 [] None 5%Z 200%Z m I F eq_refl eq_refl) as [A _] end.
  apply A; [|lia]. intros [_ X]. specialize (X O ltac:(cbn; lia)). cbn in X. vm_compute in X. apply X. reflexivity.
Qed.
Print Assumptions C50_universe_refuted.

(** Training reaches are not reproduced in general: here four of ten users were reached, and the
    model answers zero. *)
Theorem C50_training_refuted : exists x p m q, poisson_sane x /\ log_sane x /\ int32_sane x /\
  solver_right (dx_ecos x) /\ solver_right (dx_scs x) /\ made p [4] [4] None (Some 10%Z) /\ plausible 10 [4] /\
  mk_dirac [p] 1 = Ok m /\ fst (dm_by_impressions x m [4] 1) = Ok q /\ reach q 1 = Ok 0%Z.
Proof.
  exists toy_x. eexists _, _, _. split; [apply toy_poisson|]. split; [apply toy_log|]. split; [apply toy_int|].
  split; [apply toy_ecos_right|]. split; [apply toy_scs_right|]. split; [reflexivity|].
  split; [split; [lia|]; intros [|[|f]] Hf; [vm_compute; discriminate|vm_compute; discriminate|cbn in Hf; lia]|].
  split; [reflexivity|]. split; [vm_compute; reflexivity|]. reflexivity.
Qed.
Print Assumptions C50_training_refuted.
