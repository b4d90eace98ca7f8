(** Lemmas on the Gamma-Poisson model: the table of frequencies and the answers. *)
From Coq Require Import Lqa Qfield Qround.
From Verif Require Import Prelude ModelReachPoint ModelCurves SpecSurface ModelSurface SurfaceLemmas
  SurfaceLemmas2 HaloLemmas ReachPointLemmas ModelGamma SpecGamma GammaLemmas GammaLemmas2 GammaLemmas3
  ModelGammaPoisson SpecGammaPoisson.
Open Scope Z_scope.
Local Open Scope Q_scope.

Section Lemmas.
Context (x : gp_externals).
Let F := gp_frequencies x.

Lemma mass_0 alpha beta : gp_sane x alpha beta -> gp_mass x alpha beta 0 == 0.
Proof. intros [H _]. unfold gp_mass. exact H. Qed.
Lemma has_nonneg alpha beta i : gp_sane x alpha beta -> 0 <= has_impressions x alpha beta (S i).
Proof.
  intros [_ [H _]]. unfold has_impressions. replace (Z.of_nat (S i) - 1)%Z with (Z.of_nat i) by lia. apply H.
Qed.
Lemma has_total alpha beta m : gp_sane x alpha beta -> total m (fun i => has_impressions x alpha beta (S i)) <= 1.
Proof.
  intros [_ [_ H]]. eapply Qle_trans; [|apply (H m)]. apply total_le. intros i _.
  unfold has_impressions. replace (Z.of_nat (S i) - 1)%Z with (Z.of_nat i) by lia. apply Qle_refl.
Qed.

Lemma seen_exactly_binom alpha beta k p : gp_sane x alpha beta ->
  seen_exactly x alpha beta k p == total (F + 1) (fun n => binom_pmf k n p * gp_mass x alpha beta n).
Proof.
  intros S0. unfold seen_exactly, seen_at_least. fold F. rewrite <- total_minus.
  rewrite Nat.add_1_r, total_split, (mass_0 _ _ S0).
  setoid_replace (binom_pmf k 0 p * 0 + total F (fun i => binom_pmf k (S i) p * gp_mass x alpha beta (S i)))
    with (total F (fun i => binom_pmf k (S i) p * gp_mass x alpha beta (S i))) by ring.
  apply total_ext. intros i _. rewrite !at_least_sum. cbn [total].
  unfold has_impressions, gp_mass. ring.
Qed.

Lemma gp_kreach_seq k n I Imax alpha beta : gp_sane x alpha beta ->
  exists l, gp_kreach x (seq k n) I Imax alpha beta = Ok l /\ length l = n /\
  forall i, (i < n)%nat -> nth i l 0 == seen_exactly x alpha beta (k + i) (I / Imax).
Proof.
  intros S0. destruct n as [|n].
  - exists []. split; [reflexivity|]. split; [reflexivity|]. intros; lia.
  - set (ks := seq k (S n)).
    assert (gp_kreach x ks I Imax alpha beta = Ok (map (fun ik =>
                   Qsum (map (fun jn => if (fst ik <=? fst jn)%nat
                                        then gp_knreach x alpha beta (I / Imax) (snd ik) (snd jn) else 0%Q)
                             (combine (seq 0 (F + 1 - k)) (seq k (F + 1 - k)))))
                (combine (seq 0 (S n)) ks))) as ->.
    { unfold gp_kreach. assert (ks = k :: seq (S k) n) as E by reflexivity.
      destruct ks as [|k0 ks'] eqn:Eks; [discriminate|]. rewrite <- Eks in *.
      assert (k0 = k) as -> by (rewrite Eks in E; inversion E; auto).
      unfold ks. rewrite consecutive_seq. cbn [negb]. rewrite min_seq by lia.
      rewrite !seq_length. reflexivity. }
    eexists. split; [reflexivity|]. unfold ks. rewrite (combine_seq (S n)). rewrite !map_length, seq_length.
    split; [reflexivity|]. intros i Hi.
    rewrite map_map. cbn [fst snd].
    rewrite nth_map_seq by auto.
    rewrite combine_seq, map_map. cbn [fst snd]. rewrite Qsum_map_seq, (seen_exactly_binom _ _ _ _ S0).
    unfold gp_knreach.
    destruct (le_lt_dec k (F + 1)) as [HL|HL].
    + rewrite (total_from k (F + 1)) by (auto; intros j Hj; rewrite binom_over by lia; ring).
      apply total_ext. intros j Hj. cbn [Nat.add]. destruct (Nat.leb_spec i j); [reflexivity|].
      rewrite binom_over by lia. ring.
    + replace (F + 1 - k)%nat with O by lia. simpl. symmetry. apply total_0. intros j Hj.
      rewrite binom_over by lia. ring.
Qed.

Lemma seen_0 alpha beta p : seen_at_least x alpha beta 0 p == 1 - beyond_table x alpha beta.
Proof.
  unfold seen_at_least, beyond_table.
  rewrite (total_ext _ _ (fun i => has_impressions x alpha beta (S i))).
  - ring.
  - intros i _. cbn [at_least]. ring.
Qed.
Lemma seen_over alpha beta k p : (F < k)%nat -> seen_at_least x alpha beta k p == 0.
Proof.
  intros H. apply total_0. intros i Hi. rewrite at_least_over by (unfold F in H; lia). ring.
Qed.
Lemma seen_bounds alpha beta k p : gp_sane x alpha beta -> 0 <= p -> p <= 1 ->
  0 <= seen_at_least x alpha beta k p /\ seen_at_least x alpha beta k p <= 1.
Proof.
  intros S0 H0 H1. split.
  - apply total_nonneg. intros i _. pose proof (has_nonneg alpha beta i S0).
    destruct (at_least_bounds (S i) k p H0 H1). apply Qmult_le_0_compat; auto.
  - eapply Qle_trans; [|apply (has_total alpha beta F S0)]. apply total_le. intros i _.
    pose proof (has_nonneg alpha beta i S0). destruct (at_least_bounds (S i) k p H0 H1). nra.
Qed.
Lemma seen_k alpha beta k p : gp_sane x alpha beta -> 0 <= p -> p <= 1 ->
  seen_at_least x alpha beta (S k) p <= seen_at_least x alpha beta k p.
Proof.
  intros S0 H0 H1. apply total_le. intros i _. pose proof (has_nonneg alpha beta i S0).
  pose proof (at_least_k (S i) k p H0 H1). nra.
Qed.
Lemma seen_p alpha beta k p q : gp_sane x alpha beta -> 0 <= p -> p <= q -> q <= 1 ->
  seen_at_least x alpha beta k p <= seen_at_least x alpha beta k q.
Proof.
  intros S0 H0 H1 H2. apply total_le. intros i _. pose proof (has_nonneg alpha beta i S0).
  pose proof (at_least_p (S i) k p q H0 H1 H2). nra.
Qed.
Lemma seen_comp alpha beta k p q : p == q -> seen_at_least x alpha beta k p == seen_at_least x alpha beta k q.
Proof.
  intros E. apply total_ext. intros i _.
  assert (at_least (S i) k p == at_least (S i) k q) as ->; [|reflexivity].
  rewrite !at_least_sum. apply Qplus_comp; [reflexivity|]. apply Qopp_comp. apply total_ext. intros j _.
  unfold binom_pmf. rewrite E. reflexivity.
Qed.
Lemma seen_zero alpha beta k : seen_at_least x alpha beta (S k) 0 == 0.
Proof. apply total_0. intros i _. rewrite at_least_zero. ring. Qed.
(** Some impressions are not shown, so somebody is missed. *)
Lemma total_lt n f g : (0 < n)%nat -> (forall i, (i < n)%nat -> f i <= g i) -> f O < g O -> total n f < total n g.
Proof.
  intros Hn H H0. destruct n as [|n]; [lia|]. rewrite !total_split.
  assert (total n (fun i => f (S i)) <= total n (fun i => g (S i))) by (apply total_le; intros i Hi; apply H; lia).
  lra.
Qed.
Lemma seen_some_missed alpha beta p : gp_sane x alpha beta -> 0 <= p -> p < 1 -> seen_at_least x alpha beta 1 p < 1.
Proof.
  intros S0 H0 H1. destruct (Qlt_le_dec (total F (fun i => has_impressions x alpha beta (S i))) 1) as [L|L].
  - eapply Qle_lt_trans; [|exact L]. apply total_le. intros i _. pose proof (has_nonneg alpha beta i S0).
    destruct (at_least_bounds (S i) 1 p H0 ltac:(lra)). nra.
  - assert (P : forall m, 0 < total m (fun i => has_impressions x alpha beta (S i)) ->
        total m (fun i => has_impressions x alpha beta (S i) * at_least (S i) 1 p)
        < total m (fun i => has_impressions x alpha beta (S i))).
    { induction m as [|m IH]; cbn [total]; [lra|]. intros Hm.
      pose proof (has_nonneg alpha beta m S0) as Hn.
      assert (at_least (S m) 1 p < 1) as Lt.
      { rewrite at_least_1. assert (0 < qpow (1 - p) (S m)) as Hq; [|lra].
        generalize (S m). clear - H1. induction n; cbn [qpow]; [lra|]. nra. }
      destruct (at_least_bounds (S m) 1 p H0 ltac:(lra)) as [B0 _].
      set (hm := has_impressions x alpha beta (S m)) in *. set (am := at_least (S m) 1 p) in *.
      assert (total m (fun i => has_impressions x alpha beta (S i) * at_least (S i) 1 p)
              <= total m (fun i => has_impressions x alpha beta (S i))) as Le.
      { apply total_le. intros i _. pose proof (has_nonneg alpha beta i S0).
        destruct (at_least_bounds (S i) 1 p H0 ltac:(lra)). nra. }
      destruct (Qlt_le_dec 0 hm) as [Hh|Hh].
      - assert (hm * am < hm) by nra. lra.
      - assert (hm == 0) as Z by lra.
        assert (0 < total m (fun i => has_impressions x alpha beta (S i))) as Ht by lra.
        specialize (IH Ht). rewrite Z. lra. }
    pose proof (P F ltac:(lra)) as Q1. pose proof (has_total alpha beta F S0). unfold seen_at_least. fold F. lra.
Qed.

(** ** The histogram and its suffix sums *)

Lemma expected_histogram_value I Imax N alpha beta m : gp_sane x alpha beta ->
  exists l, expected_histogram x I Imax N alpha beta m = Ok l /\ length l = m /\
    forall i, (i < m)%nat -> nth i l 0 == N * seen_exactly x alpha beta (S i) (I / Imax).
Proof.
  intros S0. destruct (gp_kreach_seq 1 m I Imax alpha beta S0) as [l [E [L H]]].
  exists (map (Qmult N) l). unfold expected_histogram. rewrite E. cbn [bind]. split; [reflexivity|].
  rewrite map_length. split; auto. intros i Hi.
  rewrite (nth_indep _ 0 (N * 0)) by (rewrite map_length; lia). rewrite map_nth.
  rewrite (H i Hi). reflexivity.
Qed.

Lemma suffix_value (l : list Q) (g : nat -> Q) m : length l = m ->
  (forall i, (i < m)%nat -> nth i l 0 == g i - g (S i)) ->
  length (suffix_sums l) = m /\
  forall i, (i < m)%nat -> nth i (suffix_sums l) 0 == g i - g m.
Proof.
  revert g m. induction l as [|v l IH]; intros g m L H; subst m.
  - split; [reflexivity|]. intros i Hi. cbn in Hi. lia.
  - cbn [suffix_sums length] in *. destruct (IH (fun i => g (S i)) (length l) eq_refl) as [A B].
    { intros i Hi. apply (H (S i)). lia. }
    split; [lia|]. intros [|i] Hi; cbn [nth].
    + assert (Qsum l == g 1%nat - g (S (length l))) as ->.
      { assert (G : forall l g, (forall i, (i < length l)%nat -> nth i l 0 == g i - g (S i)) ->
                   Qsum l == g O - g (length l)).
        { clear. induction l as [|v l IH]; intros g H; cbn [Qsum length]; [ring|].
          rewrite (IH (fun i => g (S i))) by (intros i Hi; apply (H (S i)); cbn; lia).
          pose proof (H O ltac:(cbn; lia)) as E0. cbn [nth] in E0. rewrite E0. ring. }
        apply (G l (fun i => g (S i))). intros i Hi'. apply (H (S i)). lia. }
      pose proof (H O ltac:(lia)) as E0. cbn [nth] in E0. rewrite E0. ring.
    + apply B. lia.
Qed.

Lemma slice_prefix {A} (l : list A) f (z : A) : (0 <= f)%Z ->
  length (py_slice_to l f) = Z.to_nat (Z.min f (Z.of_nat (length l))) /\
  forall i, (Z.of_nat i < f)%Z -> nth i (py_slice_to l f) z = nth i l z.
Proof.
  intros Hf. unfold py_slice_to. destruct (Z.ltb_spec f 0); [lia|]. split.
  - rewrite firstn_length. lia.
  - intros i Hi. rewrite <- (firstn_skipn (Z.to_nat f) l) at 2.
    destruct (le_lt_dec (length l) i).
    + rewrite !nth_overflow; auto; [|rewrite firstn_length; lia]. rewrite app_length, firstn_length, skipn_length. lia.
    + rewrite app_nth1 by (rewrite firstn_length; lia). reflexivity.
Qed.

(** The answer of a fitted model. *)
Lemma gm_answer m imp f N Imax alpha beta : gm_fit m = Some (Imax, alpha, beta) -> gm_max_reach m = Some N ->
  gp_sane x alpha beta -> (0 <= f)%Z ->
  exists p, gm_by_impressions x m [imp] f = Ok p /\ rp_impressions p = [imp] /\
    max_frequency p = Z.min f (Z.of_nat F) /\ rp_universe p = None /\
    rp_spends p = match gm_cpi m with
                  | Some c => if Qeqb c 0 then None else Some [imp * c]
                  | None => None end /\
    forall k, (1 <= k <= Z.min f (Z.of_nat F))%Z -> exists v, reach p k = Ok v /\
      v == N * seen_at_least x alpha beta (Z.to_nat k) (Qmin imp (Imax - 1) / Imax).
Proof.
  intros EF EN S0 Hf. unfold gm_by_impressions. rewrite EF, EN.
  destruct (expected_histogram_value (Qmin imp (Imax - 1)) Imax N alpha beta F S0) as [h [E [L H]]].
  unfold F in E at 1. rewrite E. cbn [bind].
  set (P := Qmin imp (Imax - 1) / Imax) in *.
  destruct (suffix_value h (fun i => N * seen_at_least x alpha beta (S i) P) F L) as [SL SH].
  { intros i Hi. rewrite (H i Hi). unfold seen_exactly. ring. }
  destruct (slice_prefix (suffix_sums h) f 0 Hf) as [PL PH].
  set (kp := py_slice_to (suffix_sums h) f) in *.
  assert (HK : forall p, rp_kplus p = kp -> max_frequency p = Z.min f (Z.of_nat F) /\
     forall k, (1 <= k <= Z.min f (Z.of_nat F))%Z -> exists v, reach (p : qpoint) k = Ok v /\
      v == N * seen_at_least x alpha beta (Z.to_nat k) P).
  { intros p Ep. split.
    - unfold max_frequency. rewrite Ep, PL, SL. lia.
    - intros k Hk. exists (nth (Z.to_nat (k - 1)) (rp_kplus p) 0). split.
      + apply point_reach_nth. rewrite Ep, PL, SL. lia.
      + rewrite Ep, PH by lia. rewrite SH by lia. rewrite (seen_over alpha beta (S F)) by lia.
        replace (S (Z.to_nat (k - 1))) with (Z.to_nat k) by lia. ring. }
  assert (HM : forall sp, match sp with Some l => length l = 1%nat | None => True end ->
     exists p, mk_reach_point Qops [imp] kp sp None = Ok p /\ rp_impressions p = [imp] /\ rp_kplus p = kp /\
       rp_universe p = None /\ rp_spends p = sp).
  { intros [[|s [|]]|] Hs; cbn in Hs; try discriminate; eexists; (split; [reflexivity|]); repeat split. }
  unfold truthy_cost. set (sp := match gm_cpi m with Some c => if Qeqb c 0 then None else Some [imp * c] | None => None end).
  replace (match match gm_cpi m with Some v => if Qeqb v 0 then None else Some v | None => None end with
           | Some c => Some [imp * c] | None => None end) with sp
    by (unfold sp; destruct (gm_cpi m) as [c|]; [destruct (Qeqb c 0)|]; reflexivity).
  destruct (HM sp) as [p [E1 [E2 [E3 [E4 E5]]]]].
  { unfold sp. destruct (gm_cpi m) as [c|]; [destruct (Qeqb c 0)|]; cbn; auto. }
  destruct (HK p E3) as [A B]. exists p. split; [exact E1|]. split; [exact E2|]. split; [exact A|]. split; [exact E4|]. split; [exact E5|exact B].
Qed.

End Lemmas.
