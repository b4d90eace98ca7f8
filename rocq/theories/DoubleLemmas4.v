(** Lemmas on prices and spends in double precision. *)
From Coq Require Import String Lqa Qfield Qabs Qpower.
From Verif Require Import Prelude DataLemmas SpecData ModelReachPoint ModelData ModelGenerators ModelDouble SpecDouble DoubleLemmas
  DoubleLemmas2.
Notation length := List.length.
Open Scope Z_scope.
Local Open Scope Q_scope.

Lemma iZ_nonneg k : (0 <= k)%Z -> 0 <= inject_Z k.
Proof. intros H. change 0 with (inject_Z 0). rewrite <- Zle_Qle. exact H. Qed.
Lemma iZ_succ k : inject_Z (k + 1) == inject_Z k + 1.
Proof. rewrite inject_Z_plus. reflexivity. Qed.

Lemma normal_pos x : normal x -> 0 < x.
Proof. unfold normal. intros H. pose proof (p2_pos (-1022)). lra. Qed.
Lemma multiple_fine c k : normal c -> (0 <= k)%Z -> fine (inject_Z k * c).
Proof.
  intros Hc Hk. destruct (Z.eq_dec k 0) as [->|N].
  - left. ring.
  - right; left. unfold normal in *. assert (K : 1 <= inject_Z k) by (change 1 with (inject_Z 1); rewrite <- Zle_Qle; lia).
    assert (P : 0 < c) by (apply normal_pos; exact Hc). pose proof (Qmult_le_compat_r 1 (inject_Z k) c K ltac:(lra)). lra.
Qed.
Lemma multiple_up_to c k : normal c -> (0 <= k)%Z -> up_to 1 (inject_Z k * c) (double (inject_Z k * c)).
Proof.
  intros Hc Hk. assert (N : 0 <= inject_Z k * c) by (apply Qmult_le_0_compat; [apply iZ_nonneg; exact Hk|pose proof (normal_pos c Hc); lra]).
  apply up_to_round; [exact N|apply up_to_refl; exact N|apply multiple_fine; assumption].
Qed.
Lemma multiple_bounds c k : normal c -> (0 <= k)%Z ->
  inject_Z k * c * (1 - ur) <= double (inject_Z k * c) <= inject_Z k * c * (1 + ur).
Proof.
  intros Hc Hk. apply double_relative; [|apply multiple_fine; assumption].
  apply Qmult_le_0_compat; [apply iZ_nonneg; exact Hk|pose proof (normal_pos c Hc); lra].
Qed.

Lemma multiple_step c k : normal c -> (0 <= k < 2 ^ 52)%Z -> double (inject_Z k * c) < double (inject_Z (k + 1) * c).
Proof.
  intros Hc Hk. destruct (multiple_bounds c k Hc ltac:(lia)) as [_ A].
  destruct (multiple_bounds c (k + 1) Hc ltac:(lia)) as [B _].
  apply (Qle_lt_trans _ _ _ A). refine (Qlt_le_trans _ _ _ _ B).
  pose proof (normal_pos c Hc) as P. rewrite iZ_succ.
  assert (L : inject_Z k <= inject_Z (2 ^ 52 - 1)) by (rewrite <- Zle_Qle; lia).
  assert (F : inject_Z k * (1 + ur) < (inject_Z k + 1) * (1 - ur)).
  { assert (G : inject_Z k * ur <= inject_Z (2 ^ 52 - 1) * ur) by (apply Qmult_le_compat_r; [exact L|discriminate]).
    assert (G' : 2 * (inject_Z (2 ^ 52 - 1) * ur) < 1 - ur) by (vm_compute; reflexivity). lra. }
  pose proof (proj2 (Qmult_lt_r _ _ c P) F). lra.
Qed.
Lemma multiple_lt c j k : normal c -> (0 <= j < k)%Z -> (k <= 2 ^ 52)%Z ->
  double (inject_Z j * c) < double (inject_Z k * c).
Proof.
  intros Hc [Hj L] Hk. pose proof (multiple_step c j Hc ltac:(lia)) as S.
  apply (Qlt_le_trans _ _ _ S). apply double_mono. pose proof (normal_pos c Hc).
  apply Qmult_le_compat_r; [rewrite <- Zle_Qle; lia|lra].
Qed.

(** ** Fixed prices *)

Lemma price_fl_length cpi imps : forall i, length (price_from_fl double cpi i imps) = length imps.
Proof. induction imps as [|u r IH]; intros i; [reflexivity|]. cbn. rewrite IH. reflexivity. Qed.
Lemma price_fl_nth cpi imps : forall i k, (k < length imps)%nat ->
  nth_error (price_from_fl double cpi i imps) k = Some (nth k imps 0%Z, double (inject_Z (i + Z.of_nat k + 1) * cpi)).
Proof.
  induction imps as [|u r IH]; intros i k Hk; [cbn in Hk; lia|]. destruct k as [|k].
  - cbn [price_from_fl nth_error nth]. replace (i + Z.of_nat 0 + 1)%Z with (i + 1)%Z by lia. reflexivity.
  - cbn [price_from_fl nth_error nth length] in *. rewrite IH by lia.
    replace (i + 1 + Z.of_nat k + 1)%Z with (i + Z.of_nat (S k) + 1)%Z by lia. reflexivity.
Qed.

(** Rows that are not dearer than the k-th multiple of the price. *)
Lemma price_fl_filter cpi k imps : normal cpi -> (0 <= k)%Z -> forall i, (0 <= i)%Z ->
  (i + Z.of_nat (length imps) <= 2 ^ 52)%Z -> (k <= 2 ^ 52)%Z ->
  filter (fun r => Qleb (snd r) (double (inject_Z k * cpi))) (price_from_fl double cpi i imps) =
  firstn (Z.to_nat (k - i)) (price_from_fl double cpi i imps).
Proof.
  intros Hc Hk. induction imps as [|u r IH]; intros i Hi HL Hk2; cbn [price_from_fl filter].
  - destruct (Z.to_nat (k - i)); reflexivity.
  - cbn [snd]. cbn [length] in HL. rewrite IH by lia.
    destruct (Z_le_gt_dec (i + 1) k) as [L|L].
    + assert (Qleb (double (inject_Z (i + 1) * cpi)) (double (inject_Z k * cpi)) = true) as ->.
      { apply Qleb_le. apply double_mono. pose proof (normal_pos cpi Hc). apply Qmult_le_compat_r; [rewrite <- Zle_Qle; lia|lra]. }
      replace (Z.to_nat (k - i)) with (S (Z.to_nat (k - (i + 1)))) by lia. reflexivity.
    + assert (Qleb (double (inject_Z (i + 1) * cpi)) (double (inject_Z k * cpi)) = false) as ->.
      { apply Qleb_gt. apply multiple_lt; [exact Hc|lia|lia]. }
      replace (Z.to_nat (k - (i + 1))) with 0%nat by lia. replace (Z.to_nat (k - i)) with 0%nat by lia. reflexivity.
Qed.

(** ** Fractions of a spend *)

Lemma fraction_inside f m : 0 <= f <= 1 -> 0 <= m -> is_double m -> 0 <= double (f * m) <= m.
Proof.
  intros [A B] Hm Hd. split.
  - apply double_nonneg. apply Qmult_le_0_compat; assumption.
  - rewrite <- (double_exact m Hd) at 2. apply double_mono. rewrite <- (Qmult_1_l m) at 2.
    apply Qmult_le_compat_r; assumption.
Qed.

(** ** The grid *)

Section Grid.
Context (m : Q) (g : Z).
Hypothesis Hg : (0 <= g)%Z.
Hypothesis Hg2 : (g + 1 <= 2 ^ 51)%Z.
Hypothesis Hm : 2 ^ (-1021) * inject_Z (g + 1) <= m.

Definition grid_at (k : Z) : Q := double (double (m * inject_Z k) / inject_Z (g + 1)).

Lemma grid_m_normal : normal m.
Proof.
  unfold normal. assert (1 <= inject_Z (g + 1)) by (change 1 with (inject_Z 1); rewrite <- Zle_Qle; lia).
  pose proof (p2_pos (-1021)) as P. pose proof (proj2 (Qmult_le_l 1 (inject_Z (g + 1)) _ P) H).
  change (-1021)%Z with (-1022 + 1)%Z in *. rewrite p2_succ in *. pose proof (p2_pos (-1022)). lra.
Qed.

Lemma grid_bounds k : (1 <= k <= g)%Z ->
  m * inject_Z k / inject_Z (g + 1) * ((1 - ur) * (1 - ur)) <= grid_at k
  <= m * inject_Z k / inject_Z (g + 1) * ((1 + ur) * (1 + ur)).
Proof.
  intros Hk. set (n := inject_Z (g + 1)). assert (Pn : 0 < n).
  { unfold n. change 0 with (inject_Z 0). rewrite <- Zlt_Qlt. lia. }
  destruct (multiple_bounds m k grid_m_normal ltac:(lia)) as [A B].
  unfold grid_at. fold n. set (x := double (m * inject_Z k)).
  assert (Ex : x == double (inject_Z k * m)) by (unfold x; apply double_proper; ring).
  rewrite <- Ex in A, B.
  assert (K1 : 1 <= inject_Z k) by (change 1 with (inject_Z 1); rewrite <- Zle_Qle; lia).
  pose proof (normal_pos m grid_m_normal) as Pm.
  assert (A' : m * inject_Z k / n * (1 - ur) <= x / n).
  { unfold Qdiv. setoid_replace (m * inject_Z k * / n * (1 - ur)) with (inject_Z k * m * (1 - ur) * / n) by ring.
    apply Qmult_le_compat_r; [exact A|]. apply Qinv_le_0_compat. lra. }
  assert (B' : x / n <= m * inject_Z k / n * (1 + ur)).
  { unfold Qdiv. setoid_replace (m * inject_Z k * / n * (1 + ur)) with (inject_Z k * m * (1 + ur) * / n) by ring.
    apply Qmult_le_compat_r; [exact B|]. apply Qinv_le_0_compat. lra. }
  assert (Lq : 2 ^ (-1021) <= m * inject_Z k / n).
  { apply Qle_shift_div_l; [exact Pn|]. apply (Qle_trans _ _ _ Hm). rewrite <- (Qmult_1_r m) at 1.
    rewrite !(Qmult_comm m). apply Qmult_le_compat_r; [exact K1|lra]. }
  assert (N : normal (x / n)).
  { unfold normal. apply (Qle_trans _ (m * inject_Z k / n * (1 - ur))); [|exact A'].
    change (-1021)%Z with (-1022 + 1)%Z in Lq. rewrite p2_succ in Lq. pose proof (p2_pos (-1022)) as P.
    assert (H2 : 1#2 <= 1 - ur) by discriminate.
    set (y := m * inject_Z k / n) in *. assert (Py : 0 <= y) by lra.
    pose proof (Qmult_le_compat_r _ _ y H2 Py). lra. }
  destruct (double_relative (x / n) ltac:(pose proof (normal_pos _ N); lra) (or_intror (or_introl N))) as [C D].
  pose proof (Qmult_le_compat_r _ _ (1 - ur) A' ltac:(discriminate)).
  pose proof (Qmult_le_compat_r _ _ (1 + ur) B' ltac:(discriminate)). split; lra.
Qed.

Lemma grid_scale a b : a < b -> m * a / inject_Z (g + 1) < m * b / inject_Z (g + 1).
Proof.
  intros H. pose proof (normal_pos m grid_m_normal) as Pm.
  assert (Pn : 0 < inject_Z (g + 1)) by (change 0 with (inject_Z 0); rewrite <- Zlt_Qlt; lia).
  unfold Qdiv. apply Qmult_lt_r; [apply Qinv_lt_0_compat; exact Pn|]. apply Qmult_lt_l; assumption.
Qed.

Lemma grid_inside k : (1 <= k <= g)%Z -> 0 < grid_at k < m.
Proof.
  intros Hk. destruct (grid_bounds k Hk) as [A B].
  assert (Pn : 0 < inject_Z (g + 1)) by (change 0 with (inject_Z 0); rewrite <- Zlt_Qlt; lia).
  assert (K1 : 1 <= inject_Z k) by (change 1 with (inject_Z 1); rewrite <- Zle_Qle; lia).
  split.
  - apply (Qlt_le_trans _ _ _) with (2 := A).
    pose proof (grid_scale 0 (inject_Z k) ltac:(lra)) as S. unfold Qdiv in S at 1.
    setoid_replace (m * 0 * / inject_Z (g + 1)) with 0 in S by ring.
    apply (Qmult_lt_0_compat _ _ S). reflexivity.
  - apply (Qle_lt_trans _ _ _ B).
    setoid_replace (m * inject_Z k / inject_Z (g + 1) * ((1 + ur) * (1 + ur)))
      with (m * (inject_Z k * ((1 + ur) * (1 + ur))) / inject_Z (g + 1)) by (field; lra).
    setoid_replace m with (m * inject_Z (g + 1) / inject_Z (g + 1)) at 2 by (field; lra).
    apply grid_scale.
    assert (L : inject_Z k <= inject_Z (2 ^ 51)) by (rewrite <- Zle_Qle; lia).
    assert (L2 : inject_Z k + 1 <= inject_Z (g + 1)) by (rewrite <- iZ_succ, <- Zle_Qle; lia).
    set (e := ur + ur + ur * ur). assert (E : (1 + ur) * (1 + ur) == 1 + e) by (unfold e; ring).
    rewrite E. assert (G : inject_Z k * e <= inject_Z (2 ^ 51) * e) by (apply Qmult_le_compat_r; [exact L|discriminate]).
    assert (G' : inject_Z (2 ^ 51) * e < 1) by (vm_compute; reflexivity). lra.
Qed.

Lemma grid_increasing j k : (1 <= j < k)%Z -> (k <= g)%Z -> grid_at j < grid_at k.
Proof.
  intros Hj Hk. destruct (grid_bounds j ltac:(lia)) as [_ B]. destruct (grid_bounds k ltac:(lia)) as [A _].
  apply (Qle_lt_trans _ _ _ B). refine (Qlt_le_trans _ _ _ _ A).
  assert (Pn : 0 < inject_Z (g + 1)) by (change 0 with (inject_Z 0); rewrite <- Zlt_Qlt; lia).
  setoid_replace (m * inject_Z j / inject_Z (g + 1) * ((1 + ur) * (1 + ur)))
    with (m * (inject_Z j * ((1 + ur) * (1 + ur))) / inject_Z (g + 1)) by (field; lra).
  setoid_replace (m * inject_Z k / inject_Z (g + 1) * ((1 - ur) * (1 - ur)))
    with (m * (inject_Z k * ((1 - ur) * (1 - ur))) / inject_Z (g + 1)) by (field; lra).
  apply grid_scale.
  assert (L : inject_Z j <= inject_Z (2 ^ 51 - 2)) by (rewrite <- Zle_Qle; lia).
  assert (L2 : inject_Z j + 1 <= inject_Z k) by (rewrite <- iZ_succ, <- Zle_Qle; lia).
  set (a := (1 - ur) * (1 - ur)). set (b := (1 + ur) * (1 + ur)).
  assert (E : b == a + 4 * ur) by (unfold a, b; ring). rewrite E.
  assert (G : inject_Z j * (4 * ur) <= inject_Z (2 ^ 51 - 2) * (4 * ur)) by (apply Qmult_le_compat_r; [exact L|discriminate]).
  assert (G' : inject_Z (2 ^ 51 - 2) * (4 * ur) < a) by (vm_compute; reflexivity).
  assert (G2 : (inject_Z j + 1) * a <= inject_Z k * a) by (apply Qmult_le_compat_r; [exact L2|discriminate]).
  lra.
Qed.
End Grid.
