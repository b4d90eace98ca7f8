(** Lemmas on the fit of the k-inflated Gamma-Poisson model. *)
From Coq Require Import Lqa Qfield Qround.
From Verif Require Import Prelude ModelReachPoint ModelCurves SpecSurface ModelSurface SurfaceLemmas
  SurfaceLemmas2 HaloLemmas ReachPointLemmas ModelGamma SpecGamma GammaLemmas GammaLemmas2 GammaLemmas3
  SpecGammaFit.
Open Scope Z_scope.
Local Open Scope Q_scope.

(** ** Respect for equality of rationals *)

Lemma at_least_Qeq n : forall k p q, p == q -> at_least n k p == at_least n k q.
Proof.
  induction n as [|n IH]; intros [|k] p q H; cbn [at_least]; try reflexivity.
  rewrite (IH k p q H), (IH (S k) p q H), H. reflexivity.
Qed.
Lemma shown_Qeq l l' k p q : same_mass l l' -> p == q -> shown_at_least l k p == shown_at_least l' k q.
Proof.
  intros [HL HE] H. unfold shown_at_least. rewrite <- HL. apply total_ext. intros n _.
  rewrite HE, (at_least_Qeq n k p q H). reflexivity.
Qed.
Lemma mean_Qeq l l' : same_mass l l' -> mean l == mean l'.
Proof. intros [HL HE]. unfold mean. rewrite <- HL. apply total_ext. intros n _. rewrite HE. reflexivity. Qed.
Lemma same_mass_refl l : same_mass l l.
Proof. split; intros; reflexivity. Qed.
Lemma expected_count_Qeq h N l l' p q i : same_mass l l' -> p == q ->
  expected_count h N l p i == expected_count h N l' q i.
Proof.
  intros S H. unfold expected_count.
  destruct (_ <? _)%nat; rewrite !(shown_Qeq l l' _ p q S H); reflexivity.
Qed.
Lemma misfit_Qeq h I N l l' : same_mass l l' -> misfit h I N l == misfit h I N l'.
Proof.
  intros HS. unfold misfit. pose proof (mean_Qeq l l' HS) as M.
  destruct (Qleb_spec (N * mean l) I) as [H|H]; destruct (Qleb_spec (N * mean l') I) as [H'|H'];
    try reflexivity; try (exfalso; rewrite M in H; lra).
  apply total_ext. intros i _. cbv zeta. unfold square.
  rewrite (expected_count_Qeq h N l l' (I / (N * mean l)) (I / (N * mean l')) i HS) by (rewrite M; reflexivity).
  reflexivity.
Qed.
Lemma Qmax_Qeq a b c : b == c -> Qmax a b == Qmax a c.
Proof.
  intros H. unfold Qmax. destruct (Qleb_spec a b); destruct (Qleb_spec a c); try lra.
Qed.
Lemma shortfall_Qeq Imin N l l' : same_mass l l' -> shortfall Imin N l == shortfall Imin N l'.
Proof. intros H. unfold shortfall. apply Qmax_Qeq. rewrite (mean_Qeq l l' H). reflexivity. Qed.
Lemma cost_Qeq h I Imin N l l' : same_mass l l' -> cost h I Imin N l == cost h I Imin N l'.
Proof. intros H. unfold cost, square. rewrite (misfit_Qeq h I N l l' H), (shortfall_Qeq Imin N l l' H). reflexivity. Qed.

(** ** The distance *)

Lemma sum_squares_total h : sum_squares h == squares h.
Proof.
  unfold sum_squares, squares. rewrite Qsum_total, map_length. apply total_ext. intros i Hi.
  rewrite (nth_indep _ 0 (0 * 0)) by (rewrite map_length; auto).
  rewrite (map_nth (fun v => v * v)). reflexivity.
Qed.

Lemma chi2_value h I N d : Qsum (kd_pmf d) == 1 -> exists v, chi2_distance h I N d = Ok v /\
  v == misfit h I N (kd_pmf d).
Proof.
  intros HS. unfold chi2_distance, misfit. pose proof (expected_value_mean d) as M.
  destruct (Qleb_spec (N * expected_value d) I) as [H|H];
  destruct (Qleb_spec (N * mean (kd_pmf d)) I) as [H'|H']; try (exfalso; rewrite M in H; lra).
  - eexists. split; [reflexivity|apply sum_squares_total].
  - set (p := I / (N * expected_value d)).
    assert (p == I / (N * mean (kd_pmf d))) as Hp by (unfold p; rewrite M; reflexivity).
    destruct (kreach_seq d 1 (length h - 1) p) as [l [E [HL Hl]]]. rewrite E. cbn [bind].
    destruct (kplusreach_value d (length h) p HS) as [w [E' Hw]]. rewrite E'. cbn [bind].
    eexists. split; [reflexivity|]. rewrite Qsum_total, map_length, combine_length, app_length, map_length, HL.
    destruct (length h) as [|m] eqn:EL.
    { rewrite Nat.min_0_r. reflexivity. }
    replace (Nat.min (S m - 1 + length [(N * w)%Q]) (S m)) with (S m) by (cbn [length]; lia).
    apply total_ext. intros i Hi.
    set (g := fun bh : Q * Q => (fst bh - snd bh) * (fst bh - snd bh) / (fst bh + (1#1000000))).
    rewrite (nth_indep _ 0 (g (0, 0)))
      by (rewrite map_length, combine_length, app_length, map_length, HL, EL; cbn [length]; lia).
    rewrite (map_nth g). rewrite combine_nth
      by (rewrite app_length, map_length, HL, EL; cbn [length]; lia).
    unfold g. cbn [fst snd]. unfold square.
    assert (nth i (map (Qmult N) l ++ [N * w]) 0 ==
            expected_count h N (kd_pmf d) (I / (N * mean (kd_pmf d))) i) as X.
    { unfold expected_count. rewrite EL. destruct (Nat.ltb_spec (S i) (S m)) as [G|G].
      - rewrite app_nth1 by (rewrite map_length, HL; lia).
        rewrite (nth_indep _ 0 (N * 0)) by (rewrite map_length, HL; lia).
        rewrite (map_nth (Qmult N)). rewrite Hl by lia. rewrite shown_exactly_diff.
        rewrite !(shown_Qeq (kd_pmf d) (kd_pmf d) _ p _ (same_mass_refl _) Hp). reflexivity.
      - replace i with m by lia. rewrite app_nth2 by (rewrite map_length, HL; lia).
        rewrite map_length, HL. replace (m - (S m - 1))%nat with O by lia. cbn [nth].
        rewrite Hw, (shown_Qeq (kd_pmf d) (kd_pmf d) _ p _ (same_mass_refl _) Hp). reflexivity. }
    rewrite X. reflexivity.
Qed.

(** ** The objective *)

Lemma outside_repeat lo hi (a : list Q) :
  existsb (fun pb : Q * (Q * Q) => Qltb (fst pb) (fst (snd pb)) || Qltb (snd (snd pb)) (fst pb))
    (combine a (repeat (lo, hi) (length a))) = false <-> (forall v, In v a -> lo <= v /\ v <= hi).
Proof.
  induction a as [|v a IH]; cbn [length repeat combine existsb In fst snd].
  - split; [intros _ v []|reflexivity].
  - rewrite orb_false_iff, orb_false_iff, IH.
    destruct (Qltb_spec v lo) as [H|H]; destruct (Qltb_spec hi v) as [H'|H']; split.
    all: try (intros [[? ?] ?]; discriminate).
    + intros G. specialize (G v (or_introl eq_refl)). exfalso; lra.
    + intros G. specialize (G v (or_introl eq_refl)). exfalso; lra.
    + intros G. specialize (G v (or_introl eq_refl)). exfalso; lra.
    + intros [_ G] w [<-|Hw]; [lra|apply G; auto].
    + intros G. split; auto.
Qed.

Lemma existsb_3 {A} (f : A -> bool) a b c l :
  existsb f (a :: b :: c :: l) = f a || f b || f c || existsb f l.
Proof. cbn [existsb]. rewrite !orb_assoc. reflexivity. Qed.

Section Fit.
Context (x : gamma_externals) (h : list Q) (I Imin : Q).

Lemma objective_value alpha beta N a : exists v,
  fixed_length_objective x h I Imin (length a) (alpha :: beta :: N :: a) = Ok v /\
  (allowed h alpha beta N a -> v == cost h I Imin N (kd_pmf (mk_kdist x alpha beta a))) /\
  (~ allowed h alpha beta N a -> v == not_allowed h Imin).
Proof.
  unfold fixed_length_objective, fit_bounds.
  set (test := fun pb : Q * (Q * Q) => Qltb (fst pb) (fst (snd pb)) || Qltb (snd (snd pb)) (fst pb)).
  cbn [app combine]. rewrite existsb_3.
  destruct (test (alpha, (1#10000, 1000)) || test (beta, (1#10000, 10000)) ||
            test (N, (Qsum h, 100 * Qsum h)) || existsb test (combine a (repeat (0, 1) (length a)))) eqn:T.
  - eexists. split; [reflexivity|]. split.
    + intros [A1 [A2 [A3 [A4 [A5 [A6 [A7 _]]]]]]]. exfalso.
      apply (outside_repeat 0 1 a) in A7. fold test in A7. rewrite A7 in T. revert T.
      unfold test. cbn [fst snd].
      destruct (Qltb_spec alpha (1#10000)); [lra|]. destruct (Qltb_spec 1000 alpha); [lra|].
      destruct (Qltb_spec beta (1#10000)); [lra|]. destruct (Qltb_spec 10000 beta); [lra|].
      destruct (Qltb_spec N (Qsum h)); [lra|]. destruct (Qltb_spec (100 * Qsum h) N); [lra|]. discriminate.
    + intros _. unfold not_allowed, square. rewrite sum_squares_total. reflexivity.
  - apply orb_false_iff in T. destruct T as [T T4]. apply orb_false_iff in T. destruct T as [T T3].
    apply orb_false_iff in T. destruct T as [T1 T2].
    unfold test in T4. pose proof (proj1 (outside_repeat 0 1 a) T4) as T5. clear T4. rename T5 into T4. unfold test in T1, T2, T3. cbn [fst snd] in T1, T2, T3.
    destruct (Qltb_spec alpha (1#10000)); [discriminate T1|]. destruct (Qltb_spec 1000 alpha); [discriminate T1|].
    destruct (Qltb_spec beta (1#10000)); [discriminate T2|]. destruct (Qltb_spec 10000 beta); [discriminate T2|].
    destruct (Qltb_spec N (Qsum h)); [discriminate T3|]. destruct (Qltb_spec (100 * Qsum h) N); [discriminate T3|].
    destruct (negb (Nat.eqb (length a) 0) && Qltb 1 (Qsum a)) eqn:S.
    + eexists. split; [reflexivity|]. apply andb_true_iff in S. destruct S as [_ S].
      destruct (Qltb_spec 1 (Qsum a)) as [G|G]; [|discriminate S]. split.
      * intros [_ [_ [_ [_ [_ [_ [_ A]]]]]]]. exfalso; lra.
      * intros _. unfold not_allowed, square. rewrite sum_squares_total. reflexivity.
    + assert (Qsum a <= 1) as HS.
      { destruct (Qltb_spec 1 (Qsum a)) as [G|G]; [|auto]. rewrite andb_true_r in S.
        destruct a; [cbn [Qsum]; lra|discriminate S]. }
      set (d := mk_kdist x alpha beta a).
      destruct (chi2_value h I N d (mk_kdist_sum _ _ _ _)) as [w [E Hw]]. rewrite E. cbn [bind].
      eexists. split; [reflexivity|]. split.
      * intros _. unfold cost, shortfall, Qmax, square. pose proof (expected_value_mean d) as M.
        destruct (Qltb_spec (N * expected_value d) Imin) as [G|G];
        destruct (Qleb_spec 0 (Imin - N * mean (kd_pmf d))) as [G'|G']; rewrite M in G.
        -- rewrite Hw, M. reflexivity.
        -- exfalso; lra.
        -- assert (Imin - N * mean (kd_pmf d) == 0) as Z by lra. rewrite Hw, Z. ring.
        -- rewrite Hw. ring.
      * intros C. exfalso. apply C. unfold allowed. repeat (split; [auto; fail|]). auto.
Qed.

Lemma allowed_dec alpha beta N a : {allowed h alpha beta N a} + {~ allowed h alpha beta N a}.
Proof.
  assert (forall u v : Q, {u <= v} + {~ u <= v}) as D.
  { intros u v. destruct (Qlt_le_dec v u) as [H|H]; [right|left; auto]. lra. }
  unfold allowed.
  assert ({forall v, In v a -> 0 <= v /\ v <= 1} + {~ forall v, In v a -> 0 <= v /\ v <= 1}) as DA.
  { clear -D. induction a as [|w a IH]; [left; intros v []|].
    destruct (D 0 w) as [H|H]; [|right; intros C; apply H, (C w (or_introl eq_refl))].
    destruct (D w 1) as [H'|H']; [|right; intros C; apply H', (C w (or_introl eq_refl))].
    destruct IH as [IH|IH]; [left|right].
    - intros v [<-|Hv]; auto.
    - intros C. apply IH. intros v Hv. apply C. right; auto. }
  destruct (D (1#10000) alpha), (D alpha 1000), (D (1#10000) beta), (D beta 10000), (D (Qsum h) N),
    (D N (100 * Qsum h)), DA, (D (Qsum a) 1); try (right; tauto). left; tauto.
Qed.

(** One run of the minimiser. *)
Lemma fixed_value N0 alpha0 beta0 a0 N d score : never_worse x ->
  fit_fixed_length x h I Imin N0 alpha0 beta0 a0 = Ok (N, d, score) ->
  exists alpha beta a, d = mk_kdist x alpha beta a /\ length a = length a0 /\
    score == misfit h I N (kd_pmf d) /\ chi2_distance h I N d = Ok score /\
    exists v v0, fixed_length_objective x h I Imin (length a0) (alpha0 :: beta0 :: N0 :: a0) = Ok v0 /\
      fixed_length_objective x h I Imin (length a0) (alpha :: beta :: N :: a) = Ok v /\ v <= v0.
Proof.
  intros NW. unfold fit_fixed_length.
  destruct (gx_minimize x _ _) as [params|e] eqn:E; [|discriminate]. cbn [bind].
  destruct (NW _ _ _ E) as [HL HW]. cbn [length] in HL.
  destruct params as [|alpha [|beta [|N' a]]]; try (cbn [length] in HL; lia). cbn [length] in HL.
  destruct (chi2_value h I N' (mk_kdist x alpha beta a) (mk_kdist_sum _ _ _ _)) as [w [Ew Hw]].
  rewrite Ew. cbn [bind]. intros H. injection H as <- <- <-.
  exists alpha, beta, a. split; [reflexivity|]. split; [lia|]. split; [exact Hw|]. split; [exact Ew|].
  destruct (objective_value alpha0 beta0 N0 a0) as [v0 [E0 _]].
  destruct (objective_value alpha beta N' a) as [v [Ev _]].
  replace (length a) with (length a0) in Ev by lia.
  exists v, v0. split; [exact E0|]. split; [exact Ev|]. apply HW; auto.
Qed.

Lemma fixed_allowed N0 alpha0 beta0 a0 N d score : never_worse x ->
  fit_fixed_length x h I Imin N0 alpha0 beta0 a0 = Ok (N, d, score) ->
  allowed h alpha0 beta0 N0 a0 ->
  cost h I Imin N0 (kd_pmf (mk_kdist x alpha0 beta0 a0)) < not_allowed h Imin ->
  exists alpha beta a, d = mk_kdist x alpha beta a /\ length a = length a0 /\
    allowed h alpha beta N a /\
    cost h I Imin N (kd_pmf d) <= cost h I Imin N0 (kd_pmf (mk_kdist x alpha0 beta0 a0)) /\
    chi2_distance h I N d = Ok score.
Proof.
  intros NW HF HA HC.
  destruct (fixed_value _ _ _ _ _ _ _ NW HF) as [alpha [beta [a [-> [HL [_ [Hs [v [v0 [E0 [E1 Hv]]]]]]]]]]].
  exists alpha, beta, a. split; [reflexivity|]. split; [exact HL|].
  destruct (objective_value alpha0 beta0 N0 a0) as [w0 [F0 [G0 _]]]. rewrite E0 in F0. injection F0 as <-.
  destruct (objective_value alpha beta N a) as [w [F1 [G1 G2]]]. rewrite HL, E1 in F1. injection F1 as <-.
  specialize (G0 HA).
  destruct (allowed_dec alpha beta N a) as [A|A].
  - split; [exact A|]. specialize (G1 A). split; [lra|exact Hs].
  - specialize (G2 A). exfalso. lra.
Qed.

(** ** Handing over to the next stage *)

Lemma handover alpha beta a : (Z.of_nat (length a) + 2 < gx_frequencies x)%Z ->
  (forall v, In v a -> 0 <= v) -> Qsum a <= 1 -> nbinom_sane x alpha beta ->
  let d := mk_kdist x alpha beta a in
  let next := nth (S (length a)) (kd_pmf d) 0 in
  0 <= next /\ Qsum (a ++ [next]) <= 1 /\
  same_mass (kd_pmf (mk_kdist x alpha beta (a ++ [next]))) (kd_pmf d).
Proof.
  intros HL Ha HS HN d next.
  set (gp := fun n => gx_nbinom x (Z.of_nat n) alpha (1 / (1 + beta))).
  set (n := length a). set (F := gx_frequencies x) in *.
  set (t := total n gp). destruct HN as [B0 B1]. fold gp in B0, B1.
  assert (forall b, Qsum b <= 1 -> (Z.of_nat (length b) + 1 <= F)%Z ->
    kd_pmf (mk_kdist x alpha beta b) =
    force_sum ([0] ++ b ++ map (fun j => if Qleb 1 (Qsum (map (fun i => gamma_poisson_pmf x i alpha beta) (py_range 1 (Z.of_nat (length b) + 1))))
       then 0 * gamma_poisson_pmf x (Z.of_nat (length b) + 1 + Z.of_nat j) alpha beta
       else (1 - Qsum b) / (1 - Qsum (map (fun i => gamma_poisson_pmf x i alpha beta) (py_range 1 (Z.of_nat (length b) + 1)))) *
            gamma_poisson_pmf x (Z.of_nat (length b) + 1 + Z.of_nat j) alpha beta)
       (seq 0 (Z.to_nat F - S (length b))))) as P.
  { intros b Hb HbF. unfold mk_kdist. cbn [kd_pmf].
    destruct (Qltb_spec 1 (Qsum b)); [lra|]. f_equal. f_equal. f_equal. unfold py_range at 2 4.
    replace (Z.to_nat (gx_frequencies x - (Z.of_nat (length b) + 1))) with (Z.to_nat F - S (length b))%nat by (fold F; lia).
    rewrite !map_map. destruct (Qleb 1 _); reflexivity. }
  assert (forall b : list Q, Qsum (map (fun i => gamma_poisson_pmf x i alpha beta) (py_range 1 (Z.of_nat (length b) + 1))) == total (length b) gp) as T.
  { intros b. pose proof (pmf_range x alpha beta 0 (length b)) as Q. cbn [Z.of_nat] in Q.
    replace (0 + 1 + Z.of_nat (length b))%Z with (Z.of_nat (length b) + 1)%Z in Q by lia. exact Q. }
  (* entries before the last *)
  assert (forall b i, Qsum b <= 1 -> (Z.of_nat (length b) + 1 <= F)%Z -> (S i < Z.to_nat F)%nat -> 
    nth i (kd_pmf (mk_kdist x alpha beta b)) 0 ==
    match i with O => 0 | S j => if (j <? length b)%nat then nth j b 0
      else if Qleb 1 (total (length b) gp) then 0 else (1 - Qsum b) / (1 - total (length b) gp) * gp j end) as V.
  { intros b i Hb HbF Hi. rewrite (P b Hb HbF).
    rewrite force_sum_nth by (rewrite !app_length, map_length, seq_length; cbn [length]; lia).
    destruct i as [|j]; [reflexivity|]. cbn [app nth].
    destruct (Nat.ltb_spec j (length b)) as [G|G].
    - rewrite app_nth1 by lia. reflexivity.
    - rewrite app_nth2 by lia. rewrite nth_map_seq by lia.
      pose proof (T b) as Tb. set (tb := Qsum (map _ (py_range 1 _))) in *.
      assert (gamma_poisson_pmf x (Z.of_nat (length b) + 1 + Z.of_nat (j - length b)) alpha beta = gp j) as X.
      { unfold gamma_poisson_pmf, gp. f_equal. lia. }
      cbn [Nat.add]. rewrite X.
      destruct (Qleb_spec 1 tb); destruct (Qleb_spec 1 (total (length b) gp)); try lra.
      rewrite Tb. reflexivity. }
  assert (t <= 1) as Ht by apply B1.
  assert (t + gp n <= 1) as Ht1 by (apply (B1 (S n))).
  assert (forall k, 0 <= gp k) as Bp by (intros k; apply B0).
  assert (next == if Qleb 1 t then 0 else (1 - Qsum a) / (1 - t) * gp n) as EN.
  { unfold next, d. fold n. rewrite (V a (S n) HS) by lia. fold n.
    destruct (Nat.ltb_spec n n); [lia|]. reflexivity. }
  assert (0 <= next) as N0.
  { rewrite EN. destruct (Qleb_spec 1 t); [lra|]. apply Qmult_le_0_compat; auto. apply Qle_shift_div_l; lra. }
  assert (Qsum a + next <= 1) as NS.
  { rewrite EN. destruct (Qleb_spec 1 t); [lra|].
    assert ((1 - Qsum a) / (1 - t) * gp n <= (1 - Qsum a) / (1 - t) * (1 - t)) as Y.
    { rewrite !(Qmult_comm ((1 - Qsum a) / (1 - t))). apply Qmult_le_compat_r; [lra|]. apply Qle_shift_div_l; lra. }
    assert ((1 - Qsum a) / (1 - t) * (1 - t) == 1 - Qsum a) by (field; lra). lra. }
  assert (Qsum (a ++ [next]) == Qsum a + next) as ES by (rewrite Qsum_app; cbn [Qsum]; ring).
  assert (Qsum (a ++ [next]) <= 1) as NS' by (rewrite ES; exact NS).
  split; [exact N0|]. split; [exact NS'|].
  assert (length (a ++ [next]) = S n) as LN by (rewrite app_length; cbn [length]; fold n; lia).
  assert (length (kd_pmf (mk_kdist x alpha beta (a ++ [next]))) = Z.to_nat F) as L1
    by (apply mk_kdist_length; fold F; lia).
  assert (length (kd_pmf d) = Z.to_nat F) as L2 by (apply mk_kdist_length; fold F; lia).
  assert (forall i, (S i < Z.to_nat F)%nat ->
    nth i (kd_pmf (mk_kdist x alpha beta (a ++ [next]))) 0 == nth i (kd_pmf d) 0) as W.
  { intros i Hi. unfold d. rewrite (V a i HS) by lia. rewrite (V (a ++ [next]) i NS') by lia.
    destruct i as [|j]; [reflexivity|]. rewrite LN. fold n. cbn [total]. fold t.
    destruct (Nat.ltb_spec j (S n)) as [G|G]; destruct (Nat.ltb_spec j n) as [G'|G']; try lia.
    - rewrite app_nth1 by (fold n; lia). reflexivity.
    - replace j with n by lia. rewrite app_nth2 by (fold n; lia). fold n. rewrite Nat.sub_diag. cbn [nth].
      rewrite EN. destruct (Qleb_spec 1 t); reflexivity.
    - destruct (Qleb_spec 1 t) as [K|K].
      + destruct (Qleb_spec 1 (t + gp n)) as [K'|K']; [reflexivity|]. specialize (Bp n). lra.
      + destruct (Qleb_spec 1 (t + gp n)) as [K'|K'].
        * assert (gp j == 0) as Z.
          { pose proof (B1 (S j)) as B. cbn [total] in B.
            assert (total (S n) gp <= total j gp) as C.
            { replace j with (S n + (j - S n))%nat by lia. rewrite total_app.
              assert (0 <= total (j - S n) (fun i => gp (S n + i)%nat)) by (apply total_nonneg; intros; apply Bp). lra. }
            cbn [total] in C. fold t in C. specialize (Bp j). lra. }
          rewrite Z. ring.
        * rewrite ES. revert EN. destruct (Qleb_spec 1 t) as [KK|KK]; [lra|]. intros EN. rewrite EN. field. split; lra. }
  split; [lia|]. intros i.
  destruct (le_lt_dec (Z.to_nat F) i) as [G|G]; [rewrite !nth_overflow by lia; reflexivity|].
  destruct (le_lt_dec (Z.to_nat F) (S i)) as [G'|G']; [|apply W; lia].
  assert (i = Z.to_nat F - 1)%nat as -> by lia.
  pose proof (mk_kdist_sum x alpha beta (a ++ [next])) as S1. pose proof (mk_kdist_sum x alpha beta a) as S2.
  fold d in S2. rewrite Qsum_total in S1, S2. rewrite L1 in S1. rewrite L2 in S2.
  replace (Z.to_nat F) with (S (Z.to_nat F - 1)) in S1, S2 by lia. cbn [total] in S1, S2.
  assert (total (Z.to_nat F - 1) (fun i => nth i (kd_pmf (mk_kdist x alpha beta (a ++ [next]))) 0) ==
          total (Z.to_nat F - 1) (fun i => nth i (kd_pmf d) 0)) as X
    by (apply total_ext; intros i Hi; apply W; lia).
  lra.
Qed.

(** ** The loop *)

Lemma kd_a_allowed alpha beta a : Qsum a <= 1 -> kd_a (mk_kdist x alpha beta a) = a.
Proof. intros H. unfold mk_kdist. cbn [kd_a]. destruct (Qltb_spec 1 (Qsum a)); [lra|reflexivity]. Qed.

Lemma index_next (l : list Q) n : (S n < length l)%nat -> py_index l (Z.of_nat n + 1) = Ok (nth (S n) l 0).
Proof.
  intros H. unfold py_index.
  destruct (Z.ltb_spec (Z.of_nat n + 1) 0); [lia|].
  destruct (Z.leb_spec 0 (Z.of_nat n + 1)); [|lia].
  destruct (Z.ltb_spec (Z.of_nat n + 1) (Z.of_nat (length l))); [|lia]. cbn [andb].
  replace (Z.to_nat (Z.of_nat n + 1)) with (S n) by lia.
  rewrite (nth_error_nth' l 0) by lia. reflexivity.
Qed.

(** One more stage, from an allowed fit. *)
Lemma stage N alpha beta a : never_worse x -> nbinom_sane_everywhere x ->
  (Z.of_nat (length a) + 2 < gx_frequencies x)%Z -> allowed h alpha beta N a ->
  cost h I Imin N (kd_pmf (mk_kdist x alpha beta a)) < not_allowed h Imin ->
  exists next, py_index (kd_pmf (mk_kdist x alpha beta a)) (Z.of_nat (length a) + 1) = Ok next /\
  forall N' d' score', fit_fixed_length x h I Imin N alpha beta (a ++ [next]) = Ok (N', d', score') ->
    exists alpha' beta' a', d' = mk_kdist x alpha' beta' a' /\ length a' = S (length a) /\
      allowed h alpha' beta' N' a' /\
      cost h I Imin N' (kd_pmf d') <= cost h I Imin N (kd_pmf (mk_kdist x alpha beta a)) /\
      chi2_distance h I N' d' = Ok score'.
Proof.
  intros NW SN HL HA HC. pose proof HA as [A1 [A2 [A3 [A4 [A5 [A6 [A7 A8]]]]]]].
  set (d := mk_kdist x alpha beta a) in *.
  assert (length (kd_pmf d) = Z.to_nat (gx_frequencies x)) as LD by (apply mk_kdist_length; lia).
  exists (nth (S (length a)) (kd_pmf d) 0). split; [apply index_next; lia|].
  intros N' d' score' HF.
  destruct (handover alpha beta a HL ltac:(intros v Hv; apply A7; auto) A8 ltac:(apply SN; lra)) as [H1 [H2 H3]].
  fold d in H1, H2, H3. set (next := nth (S (length a)) (kd_pmf d) 0) in *.
  pose proof (cost_Qeq h I Imin N _ _ H3) as EC.
  destruct (fixed_allowed _ _ _ _ _ _ _ NW HF) as [al [be [a' [E1 [E2 [E3 [E4 E5]]]]]]].
  - unfold allowed. repeat (split; [auto; fail|]). split; [|exact H2].
    intros v Hv. apply in_app_iff in Hv. destruct Hv as [Hv|[<-|[]]]; [apply A7; auto|].
    split; [exact H1|]. rewrite Qsum_app in H2. cbn [Qsum] in H2.
    assert (0 <= Qsum a) by (apply Qsum_nonneg; intros w Hw; apply A7; auto). lra.
  - rewrite EC. exact HC.
  - exists al, be, a'. split; [exact E1|]. split; [rewrite E2, app_length; cbn [length]; lia|].
    split; [exact E3|]. split; [rewrite <- EC; exact E4|exact E5].
Qed.

Lemma inflate_good kmax : never_worse x -> nbinom_sane_everywhere x ->
  (Z.of_nat kmax + 1 < gx_frequencies x)%Z ->
  forall fuel N alpha beta a score N' d',
  allowed h alpha beta N a ->
  cost h I Imin N (kd_pmf (mk_kdist x alpha beta a)) < not_allowed h Imin ->
  chi2_distance h I N (mk_kdist x alpha beta a) = Ok score ->
  inflate x fuel kmax h I Imin N (mk_kdist x alpha beta a) score = Ok (N', d') ->
  exists alpha' beta' a' score', d' = mk_kdist x alpha' beta' a' /\ allowed h alpha' beta' N' a' /\
    cost h I Imin N' (kd_pmf d') <= cost h I Imin N (kd_pmf (mk_kdist x alpha beta a)) /\
    chi2_distance h I N' d' = Ok score' /\ (length a <= length a')%nat /\
    (length a' <= Nat.max kmax (length a))%nat /\
    (gx_chi2_cdf x score' (Z.of_nat (length h)) <= 95#100 \/ (kmax <= length a')%nat).
Proof.
  intros NW SN HK. induction fuel as [|f IH]; intros N alpha beta a score N' d' HA HC HS HI;
    cbn [inflate] in HI; rewrite (kd_a_allowed alpha beta a) in HI by apply HA.
  - destruct (Qltb_spec (95#100) (gx_chi2_cdf x score (Z.of_nat (length h)))) as [G|G]; cbn [andb] in HI.
    + destruct (Nat.ltb_spec (length a) kmax) as [G'|G']; [discriminate HI|].
      injection HI as <- <-. exists alpha, beta, a, score. repeat (split; [auto; try lra; try lia; fail|]). right; lia.
    + injection HI as <- <-. exists alpha, beta, a, score. repeat (split; [auto; try lra; try lia; fail|]). left; exact G.
  - destruct (Qltb_spec (95#100) (gx_chi2_cdf x score (Z.of_nat (length h)))) as [G|G]; cbn [andb] in HI.
    2:{ injection HI as <- <-. exists alpha, beta, a, score. repeat (split; [auto; try lra; try lia; fail|]). left; exact G. }
    destruct (Nat.ltb_spec (length a) kmax) as [G'|G'].
    2:{ injection HI as <- <-. exists alpha, beta, a, score. repeat (split; [auto; try lra; try lia; fail|]). right; lia. }
    destruct (stage N alpha beta a NW SN ltac:(lia) HA HC) as [next [EN HN]]. rewrite EN in HI. cbn [bind] in HI.
    change (kd_alpha (mk_kdist x alpha beta a)) with alpha in HI.
    change (kd_beta (mk_kdist x alpha beta a)) with beta in HI.
    destruct (fit_fixed_length x h I Imin N alpha beta (a ++ [next])) as [[[N1 d1] s1]|e] eqn:EF; [|discriminate HI].
    cbn [bind] in HI. destruct (HN N1 d1 s1 eq_refl) as [al [be [a1 [-> [L1 [A1 [C1 S1]]]]]]].
    destruct (IH N1 al be a1 s1 N' d' A1 ltac:(lra) S1 HI) as [al' [be' [a' [s' [E1 [E2 [E3 [E4 [E5 [E6 E7]]]]]]]]]].
    exists al', be', a', s'. repeat (split; [auto; try lra; try lia; fail|]). exact E7.
Qed.

Lemma inflate_more kmax kmax' : never_worse x -> nbinom_sane_everywhere x ->
  (kmax <= kmax')%nat -> (Z.of_nat kmax' + 1 < gx_frequencies x)%Z ->
  forall fuel N alpha beta a score N1 d1 N2 d2,
  allowed h alpha beta N a ->
  cost h I Imin N (kd_pmf (mk_kdist x alpha beta a)) < not_allowed h Imin ->
  chi2_distance h I N (mk_kdist x alpha beta a) = Ok score ->
  inflate x fuel kmax h I Imin N (mk_kdist x alpha beta a) score = Ok (N1, d1) ->
  inflate x fuel kmax' h I Imin N (mk_kdist x alpha beta a) score = Ok (N2, d2) ->
  cost h I Imin N2 (kd_pmf d2) <= cost h I Imin N1 (kd_pmf d1).
Proof.
  intros NW SN HK HK'. induction fuel as [|f IH]; intros N alpha beta a score N1 d1 N2 d2 HA HC HS H1 H2.
  - assert (forall k r, inflate x 0 k h I Imin N (mk_kdist x alpha beta a) score = Ok r ->
      r = (N, mk_kdist x alpha beta a)) as Z.
    { intros k r. cbn [inflate]. destruct (_ && _); [discriminate|]. intros E; injection E as <-; reflexivity. }
    apply Z in H1, H2. injection H1 as -> ->. injection H2 as -> ->. lra.
  - destruct (Qltb_spec (95#100) (gx_chi2_cdf x score (Z.of_nat (length h)))) as [G|G];
    [destruct (le_lt_dec kmax (length a)) as [G'|G']|].
    + (* only the second loop may go on *)
      assert (inflate x (S f) kmax h I Imin N (mk_kdist x alpha beta a) score = Ok (N, mk_kdist x alpha beta a)) as Z.
      { cbn [inflate]. rewrite (kd_a_allowed alpha beta a) by apply HA.
        destruct (Nat.ltb_spec (length a) kmax); [lia|]. rewrite andb_false_r. reflexivity. }
      rewrite Z in H1. injection H1 as <- <-.
      destruct (inflate_good kmax' NW SN HK' _ _ _ _ _ _ _ _ HA HC HS H2) as [? [? [? [? [_ [_ [E _]]]]]]]. exact E.
    + cbn [inflate] in H1, H2. rewrite (kd_a_allowed alpha beta a) in H1, H2 by apply HA.
      destruct (Qltb_spec (95#100) (gx_chi2_cdf x score (Z.of_nat (length h)))) as [_|C]; [|lra].
      destruct (Nat.ltb_spec (length a) kmax) as [_|C]; [|lia].
      destruct (Nat.ltb_spec (length a) kmax') as [_|C]; [|lia]. cbn [andb] in H1, H2.
      destruct (stage N alpha beta a NW SN ltac:(lia) HA HC) as [next [EN HN]]. rewrite EN in H1, H2. cbn [bind] in H1, H2.
      change (kd_alpha (mk_kdist x alpha beta a)) with alpha in H1, H2.
      change (kd_beta (mk_kdist x alpha beta a)) with beta in H1, H2.
      destruct (fit_fixed_length x h I Imin N alpha beta (a ++ [next])) as [[[N3 d3] s3]|e] eqn:EF; [|discriminate H1].
      cbn [bind] in H1, H2. destruct (HN N3 d3 s3 eq_refl) as [al [be [a1 [-> [L1 [A1 [C1 S1]]]]]]].
      apply (IH N3 al be a1 s3 N1 d1 N2 d2 A1 ltac:(lra) S1 H1 H2).
    + assert (forall k, inflate x (S f) k h I Imin N (mk_kdist x alpha beta a) score = Ok (N, mk_kdist x alpha beta a)) as Z.
      { intros k. cbn [inflate].
        destruct (Qltb_spec (95#100) (gx_chi2_cdf x score (Z.of_nat (length h)))) as [C|_]; [lra|]. reflexivity. }
      rewrite Z in H1, H2. injection H1 as <- <-. injection H2 as <- <-. lra.
Qed.

End Fit.
