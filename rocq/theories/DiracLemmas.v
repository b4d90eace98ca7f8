(** Lemmas on the Dirac mixture model: rounding, arrays and predictions. *)
From Coq Require Import Lqa Qfield Qround.
From Verif Require Import Prelude ModelReachPoint ModelHalo ModelCurves SpecSurface ModelSurface SurfaceLemmas
  SurfaceLemmas2 ReachPointLemmas ModelGamma GammaLemmas GammaLemmas2 ModelGammaPoisson GammaPoissonLemmas ModelDirac SpecDirac.
Open Scope Z_scope.
Local Open Scope Q_scope.

(** ** Rounding *)

Lemma floor_facts q : inject_Z (Qfloor q) <= q /\ q < inject_Z (Qfloor q) + 1.
Proof.
  split; [apply Qfloor_le|]. pose proof (Qlt_floor q) as H. rewrite inject_Z_plus in H. exact H.
Qed.

Lemma Z_even_succ z : Z.even (z + 1) = negb (Z.even z).
Proof. rewrite Z.even_add. cbn. destruct (Z.even z); reflexivity. Qed.

Lemma py_round_nearest q : nearest q (py_round q).
Proof.
  destruct (floor_facts q) as [F1 F2]. unfold py_round, nearest. set (f := Qfloor q) in *.
  destruct (Qltb_spec (q - inject_Z f) (1#2)) as [A|A].
  - split; [split; lra|]. intros [H|H]; lra.
  - destruct (Qltb_spec (1#2) (q - inject_Z f)) as [B|B].
    + rewrite inject_Z_plus. change (inject_Z 1) with 1. split; [split; lra|]. intros [H|H]; lra.
    + destruct (Z.even f) eqn:E.
      * split; [split; lra|]. auto.
      * rewrite inject_Z_plus. change (inject_Z 1) with 1. split; [split; lra|]. intros _. rewrite Z_even_succ, E. reflexivity.
Qed.

Lemma nearest_mono q q' z z' : nearest q z -> nearest q' z' -> q <= q' -> (z <= z')%Z.
Proof.
  intros [[A1 A2] A3] [[B1 B2] B3] H.
  destruct (Z_le_gt_dec z z') as [L|L]; [exact L|exfalso].
  assert (G : (z' + 1 <= z)%Z) by lia.
  rewrite Zle_Qle, inject_Z_plus in G. change (inject_Z 1) with 1 in G.
  assert (E1 : q == inject_Z z - (1#2)) by lra. assert (E2 : q' == inject_Z z' + (1#2)) by lra.
  assert (E3 : (inject_Z z' + 1 == inject_Z z)%Q) by lra.
  assert (E4 : z = (z' + 1)%Z). { apply inject_Z_injective. rewrite inject_Z_plus. change (inject_Z 1) with 1. lra. }
  specialize (A3 (or_introl E1)). specialize (B3 (or_intror E2)). rewrite E4, Z_even_succ, B3 in A3. discriminate.
Qed.

Lemma nearest_fun q q' z z' : nearest q z -> nearest q' z' -> q == q' -> z = z'.
Proof.
  intros A B E. apply Z.le_antisymm; [apply (nearest_mono q q')|apply (nearest_mono q' q)]; auto; rewrite E; apply Qle_refl.
Qed.

Lemma nearest_int z : nearest (inject_Z z) z.
Proof. split; [split; lra|]. intros [H|H]; lra. Qed.

Lemma py_round_mono q q' : q <= q' -> (py_round q <= py_round q')%Z.
Proof. intros H. apply (nearest_mono q q'); auto using py_round_nearest. Qed.
Lemma py_round_eq q q' : q == q' -> py_round q = py_round q'.
Proof. intros H. apply (nearest_fun q q'); auto using py_round_nearest. Qed.
Lemma py_round_Z q z : q == inject_Z z -> py_round q = z.
Proof. intros H. rewrite (py_round_eq q (inject_Z z) H). apply (nearest_fun (inject_Z z) (inject_Z z)); [apply py_round_nearest|apply nearest_int|reflexivity]. Qed.
Lemma py_round_nonneg q : 0 <= q -> (0 <= py_round q)%Z.
Proof. intros H. rewrite <- (py_round_Z 0 0) by reflexivity. apply py_round_mono. exact H. Qed.

(** ** Sums of arrays *)

Lemma vadd_length a b : length (vadd a b) = Nat.min (length a) (length b).
Proof. revert b. induction a as [|u a IH]; intros [|v b]; cbn; auto. Qed.

Lemma vadd_nth a b i : length a = length b -> nth i (vadd a b) 0 == nth i a 0 + nth i b 0.
Proof.
  revert b i. induction a as [|u a IH]; intros [|v b] i L; cbn in L; try discriminate; cbn [vadd].
  - destruct i; cbn; ring.
  - destruct i; cbn [nth]; [ring|]. apply IH. lia.
Qed.

Lemma fold_vadd n l : forall v, length v = n -> Forall (fun a => length a = n) l ->
  length (fold_left vadd l v) = n /\
  forall i, nth i (fold_left vadd l v) 0 == nth i v 0 + Qsum (map (fun a => nth i a 0) l).
Proof.
  induction l as [|a l IH]; intros v L H; cbn [fold_left map Qsum].
  - split; auto. intros i. ring.
  - apply Forall_cons_iff in H. destruct H as [La H].
    destruct (IH (vadd v a)) as [I1 I2]; [rewrite vadd_length; lia|exact H|].
    split; auto. intros i. rewrite I2, vadd_nth by lia. ring.
Qed.

Lemma sum_arrays_value n ws arrs : length ws = length arrs -> arrs <> [] -> Forall (fun a => length a = n) arrs ->
  exists h, sum_arrays (weighted ws arrs) = Some h /\ length h = n /\
    forall i, (i < n)%nat -> nth i h 0 == total (length arrs) (fun j => nth j ws 0 * nth i (nth j arrs []) 0).
Proof.
  intros L N H.
  assert (W : Forall (fun a => length a = n) (weighted ws arrs)).
  { unfold weighted. apply Forall_forall. intros a Ha. apply in_map_iff in Ha. destruct Ha as [[w b] [<- Hb]].
    cbn [fst snd]. rewrite map_length. apply in_combine_r in Hb. rewrite Forall_forall in H. auto. }
  destruct (weighted ws arrs) as [|v r] eqn:E.
  { destruct arrs as [|b arrs]; [congruence|]. destruct ws as [|w ws]; [discriminate L|]. discriminate E. }
  apply Forall_cons_iff in W. destruct W as [Wv Wr].
  destruct (fold_vadd n r v Wv Wr) as [F1 F2].
  exists (fold_left vadd r v). split; [reflexivity|]. split; [exact F1|]. intros i Hi. rewrite F2.
  assert (S1 : nth i v 0 + Qsum (map (fun a => nth i a 0) r) == Qsum (map (fun a => nth i a 0) (weighted ws arrs))).
  { rewrite E. reflexivity. }
  rewrite S1. unfold weighted. rewrite map_map.
  rewrite (Qsum_nth (map (fun x => nth i (map (Qmult (fst x)) (snd x)) 0) (combine ws arrs)) (length arrs)
             (fun j => nth j ws 0 * nth i (nth j arrs []) 0)).
  - reflexivity.
  - rewrite map_length, combine_length. lia.
  - intros j Hj.
    rewrite (nth_indep _ 0 (nth i (map (Qmult (fst (0, @nil Q))) (snd (0, @nil Q))) 0)) by (rewrite map_length, combine_length; lia).
    rewrite (map_nth (fun x => nth i (map (Qmult (fst x)) (snd x)) 0)), combine_nth by exact L. cbn [fst snd].
    assert (Lj : length (nth j arrs []) = n). { rewrite Forall_forall in H. apply H. apply nth_In. exact Hj. }
    rewrite (nth_indep _ 0 (nth j ws 0 * 0)) by (rewrite map_length; lia).
    rewrite (map_nth (Qmult (nth j ws 0))). reflexivity.
Qed.

Lemma suffix_value l g m : length l = m ->
  (forall i, (i < m)%nat -> nth i l 0 == g i - g (S i)) ->
  length (suffix_sums l) = m /\ forall i, (i < m)%nat -> nth i (suffix_sums l) 0 == g i - g m.
Proof.
  apply (GammaPoissonLemmas.suffix_value
    {| ModelGammaPoisson.gp_nbinom := fun _ _ _ => 0; ModelGammaPoisson.gp_chi2_ppf := fun _ _ => 0;
       ModelGammaPoisson.gp_sqrt := fun q => q; ModelGammaPoisson.gp_minimize := fun _ _ _ => Err OtherError;
       ModelGammaPoisson.gp_frequencies := O |}).
Qed.

(** ** Predictions *)

Section Prediction.
Context (x : dirac_externals).

Lemma truncated_negative mean F : (F < 0)%Z -> truncated_poisson_pmf_vec x mean F = Err IndexError.
Proof.
  intros H. unfold truncated_poisson_pmf_vec, py_range. replace (Z.to_nat (F + 1 - 0)) with O by lia. reflexivity.
Qed.

Lemma truncated_value mean F : exists v, truncated_poisson_pmf_vec x mean (Z.of_nat F) = Ok v /\
  length v = S F /\ (forall f, (f < F)%nat -> nth f v 0 = dx_pmf x (Z.of_nat f) mean) /\
  nth F v 0 = dx_sf x (Z.of_nat F - 1) mean.
Proof.
  unfold truncated_poisson_pmf_vec. replace (Z.of_nat F + 1)%Z with (Z.of_nat (S F)) by lia. rewrite py_range_0, map_map.
  assert (L : length (map (fun i => dx_pmf x (Z.of_nat i) mean) (seq 0 (S F))) = S F) by (rewrite map_length, seq_length; reflexivity).
  unfold py_set. rewrite L. change (-1 <? 0)%Z with true. cbv iota.
  replace (-1 + Z.of_nat (S F))%Z with (Z.of_nat F) by lia.
  replace ((0 <=? Z.of_nat F)%Z && (Z.of_nat F <? Z.of_nat (S F))%Z) with true
    by (symmetry; apply andb_true_iff; split; [apply Z.leb_le|apply Z.ltb_lt]; lia).
  rewrite Nat2Z.id. eexists. split; [reflexivity|]. split; [rewrite set_nth_length; exact L|].
  assert (G : forall (l : list Q) i j a, (i < length l)%nat -> nth j (set_nth i a l) 0 = if Nat.eqb j i then a else nth j l 0).
  { clear. induction l as [|b l IH]; intros i j a Hi; cbn in Hi; [lia|].
    destruct i as [|i], j as [|j]; cbn [set_nth nth Nat.eqb]; auto. apply IH. lia. }
  split.
  - intros f Hf. rewrite G by lia. replace (Nat.eqb f F) with false by (symmetry; apply Nat.eqb_neq; lia).
    apply (nth_map_seq (fun i => dx_pmf x (Z.of_nat i) mean)). lia.
  - rewrite G by lia. rewrite Nat.eqb_refl. reflexivity.
Qed.

Lemma truncated_all (cs : list Q) (g : Q -> Q) F : exists arrs,
  mapM (fun c => truncated_poisson_pmf_vec x (g c) (Z.of_nat F)) cs = Ok arrs /\ length arrs = length cs /\
  Forall (fun a => length a = S F) arrs /\
  forall j, (j < length cs)%nat ->
    (forall f, (f < F)%nat -> nth f (nth j arrs []) 0 = dx_pmf x (Z.of_nat f) (g (nth j cs 0))) /\
    nth F (nth j arrs []) 0 = dx_sf x (Z.of_nat F - 1) (g (nth j cs 0)).
Proof.
  induction cs as [|c cs IH].
  - exists []. cbn. repeat split; auto; intros; lia.
  - destruct IH as [arrs [E [L [A H]]]]. destruct (truncated_value (g c) F) as [v [Ev [Lv [V1 V2]]]].
    exists (v :: arrs). cbn [mapM]. rewrite Ev. cbn [bind]. rewrite E. cbn [bind]. split; [reflexivity|].
    split; [cbn; lia|]. split; [constructor; auto|]. intros [|j] Hj; cbn [nth]; [auto|]. apply H. cbn in Hj. lia.
Qed.

Lemma sf_tail mean k : poisson_sane x -> 0 <= mean ->
  dx_sf x (Z.of_nat k - 1) mean == 1 - total k (fun f => dx_pmf x (Z.of_nat f) mean).
Proof. intros P H. apply (P mean H). Qed.

(** The tail sums of a prediction. *)
Lemma prediction_tails cs ws s F : poisson_sane x -> Forall (fun c => 0 <= c) cs -> 0 <= s ->
  length ws = length cs -> cs <> [] ->
  exists pmfs h, mapM (fun c => truncated_poisson_pmf_vec x (c * s) (Z.of_nat F)) cs = Ok pmfs /\
    sum_arrays (weighted ws pmfs) = Some h /\ length h = S F /\ length (suffix_sums h) = S F /\
    (forall f, (f < F)%nat -> nth f h 0 == mixture_exactly x cs ws s f) /\
    forall k, (k <= F)%nat -> nth k (suffix_sums h) 0 == mixture_at_least x cs ws s k.
Proof.
  intros P HC HS L N.
  destruct (truncated_all cs (fun c => c * s) F) as [arrs [E [La [A H]]]].
  destruct (sum_arrays_value (S F) ws arrs) as [h [Eh [Lh Hh]]]; [lia|intros ->; destruct cs; [congruence|discriminate]|exact A|].
  assert (M0 : forall j, (j < length cs)%nat -> 0 <= nth j cs 0 * s).
  { intros j Hj. apply Qmult_le_0_compat; auto. rewrite Forall_forall in HC. apply HC. apply nth_In. exact Hj. }
  exists arrs, h. split; [exact E|]. split; [exact Eh|]. split; [exact Lh|].
  assert (X : forall f, (f < F)%nat -> nth f h 0 == mixture_exactly x cs ws s f).
  { intros f Hf. rewrite (Hh f) by lia. rewrite La. unfold mixture_exactly. apply total_ext. intros j Hj.
    destruct (H j Hj) as [H1 _]. rewrite (H1 f Hf). reflexivity. }
  set (g := fun k => if (k <=? F)%nat then mixture_at_least x cs ws s k else 0).
  destruct (suffix_value h g (S F) Lh) as [S1 S2].
  { intros i Hi. unfold g. replace (i <=? F)%nat with true by (symmetry; apply Nat.leb_le; lia).
    destruct (Nat.leb_spec (S i) F) as [B|B].
    - rewrite (X i) by lia. unfold mixture_exactly, mixture_at_least. rewrite <- total_minus. apply total_ext.
      intros j Hj. cbn [total]. ring.
    - assert (i = F) by lia. subst i. rewrite (Hh F) by lia. rewrite La. unfold mixture_at_least.
      assert (Z0 : forall q, q - 0 == q) by (intros; ring). rewrite Z0. apply total_ext. intros j Hj.
      destruct (H j Hj) as [_ H2]. rewrite H2. rewrite sf_tail by auto. reflexivity. }
  split; [exact S1|]. split; [exact X|].
  intros k Hk. rewrite (S2 k) by lia. unfold g.
  replace (k <=? F)%nat with true by (symmetry; apply Nat.leb_le; lia).
  replace (S F <=? F)%nat with false by (symmetry; apply Nat.leb_gt; lia). ring.
Qed.

(** ** The tails *)

Lemma mixture_sf cs ws s k : poisson_sane x -> Forall (fun c => 0 <= c) cs -> 0 <= s ->
  mixture_at_least x cs ws s k == total (length cs) (fun j => nth j ws 0 * dx_sf x (Z.of_nat k - 1) (nth j cs 0 * s)).
Proof.
  intros P HC HS. unfold mixture_at_least. apply total_ext. intros j Hj. rewrite sf_tail; [reflexivity|exact P|].
  apply Qmult_le_0_compat; auto. rewrite Forall_forall in HC. apply HC. apply nth_In. exact Hj.
Qed.

Lemma weight_nonneg n ws j : weights n ws -> (j < n)%nat -> 0 <= nth j ws 0.
Proof. intros [L [H _]] Hj. rewrite Forall_forall in H. apply H. apply nth_In. lia. Qed.

Lemma mixture_bounds cs ws s k : poisson_sane x -> Forall (fun c => 0 <= c) cs -> 0 <= s -> weights (length cs) ws ->
  0 <= mixture_at_least x cs ws s k /\ mixture_at_least x cs ws s k <= 1.
Proof.
  intros P HC HS HW. split.
  - rewrite mixture_sf by auto. apply total_nonneg. intros j Hj. apply Qmult_le_0_compat; [apply (weight_nonneg _ _ _ HW Hj)|].
    apply P. apply Qmult_le_0_compat; auto. rewrite Forall_forall in HC. apply HC. apply nth_In. exact Hj.
  - apply Qle_trans with (total (length cs) (fun j => nth j ws 0)); [|rewrite (proj2 (proj2 HW)); apply Qle_refl].
    unfold mixture_at_least. apply total_le. intros j Hj. pose proof (weight_nonneg _ _ _ HW Hj) as W0.
    assert (T0 : 0 <= total k (fun f => dx_pmf x (Z.of_nat f) (nth j cs 0 * s))).
    { apply total_nonneg. intros f _. apply P; [|lia]. apply Qmult_le_0_compat; auto. rewrite Forall_forall in HC. apply HC. apply nth_In. exact Hj. }
    set (t := total k _) in *. assert (nth j ws 0 * (1 - t) == nth j ws 0 - nth j ws 0 * t) as -> by ring.
    pose proof (Qmult_le_0_compat _ _ W0 T0). lra.
Qed.

Lemma mixture_mono_s cs ws s s' k : poisson_sane x -> Forall (fun c => 0 <= c) cs -> 0 <= s -> s <= s' -> weights (length cs) ws ->
  mixture_at_least x cs ws s k <= mixture_at_least x cs ws s' k.
Proof.
  intros P HC HS Hs HW. rewrite (mixture_sf cs ws s) by auto. rewrite (mixture_sf cs ws s') by (auto; lra).
  apply total_le. intros j Hj. pose proof (weight_nonneg _ _ _ HW Hj) as W0.
  assert (C0 : 0 <= nth j cs 0) by (rewrite Forall_forall in HC; apply HC; apply nth_In; exact Hj).
  rewrite !(Qmult_comm (nth j ws 0)). apply Qmult_le_compat_r; auto.
  apply P; [apply Qmult_le_0_compat; auto|]. rewrite !(Qmult_comm (nth j cs 0)). apply Qmult_le_compat_r; auto.
Qed.

Lemma mixture_mono_k cs ws s k : poisson_sane x -> Forall (fun c => 0 <= c) cs -> 0 <= s -> weights (length cs) ws ->
  mixture_at_least x cs ws s (S k) <= mixture_at_least x cs ws s k.
Proof.
  intros P HC HS HW. unfold mixture_at_least. apply total_le. intros j Hj. pose proof (weight_nonneg _ _ _ HW Hj) as W0.
  assert (C0 : 0 <= nth j cs 0 * s) by (apply Qmult_le_0_compat; auto; rewrite Forall_forall in HC; apply HC; apply nth_In; exact Hj).
  rewrite !(Qmult_comm (nth j ws 0)). apply Qmult_le_compat_r; auto. cbn [total].
  destruct (P _ C0) as [P1 _]. pose proof (P1 (Z.of_nat k) ltac:(lia)). lra.
Qed.

Lemma mixture_zero cs ws s k : poisson_sane x -> Forall (fun c => 0 <= c) cs -> s == 0 -> (1 <= k)%nat ->
  mixture_at_least x cs ws s k == 0.
Proof.
  intros P HC HS Hk. rewrite mixture_sf by (auto; rewrite HS; apply Qle_refl). apply total_0. intros j Hj.
  assert (C0 : nth j cs 0 * s == 0) by (rewrite HS; ring).
  destruct (P (nth j cs 0 * s)) as [_ [_ [_ [_ [P5 _]]]]]; [rewrite C0; apply Qle_refl|].
  rewrite P5; [ring|lia|exact C0].
Qed.

End Prediction.
