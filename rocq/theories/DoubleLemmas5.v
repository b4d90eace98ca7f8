(** Rounding has only one result. *)
From Coq Require Import Lqa Qfield Qabs Qpower.
From Verif Require Import Prelude DataLemmas ModelReachPoint ModelHalo ModelDouble SpecDirac DiracLemmas SpecDouble DoubleLemmas.
Open Scope Z_scope.
Local Open Scope Q_scope.

Lemma abs_scale a u : 0 < u -> Qabs a * u == Qabs (a * u).
Proof. intros P. rewrite Qabs_Qmult, (Qabs_pos u) by lra. reflexivity. Qed.

Lemma tie_is_next q z n : nearest q z -> n <> z ->
  Qabs (inject_Z n - q) == Qabs (inject_Z z - q) -> (n = z + 1 \/ n = z - 1)%Z.
Proof.
  intros [[A B] _] D E.
  assert (L : Qabs (inject_Z z - q) <= 1#2) by (apply Qabs_Qle_condition; split; lra).
  rewrite <- E in L. apply Qabs_Qle_condition in L.
  assert (U1 : inject_Z n <= inject_Z z + 1) by lra. assert (U2 : inject_Z z <= inject_Z n + 1) by lra.
  change 1 with (inject_Z 1) in U1, U2. rewrite <- inject_Z_plus, <- Zle_Qle in U1, U2. lia.
Qed.

Lemma even_on_grid y n u k : even_double y -> y == inject_Z n * 2 ^ u -> u = Z.max (k - 52) (-1074) ->
  (2 ^ k <= Qabs y \/ (k - 52 <= -1074)%Z) -> Z.even n = true.
Proof.
  intros (m & e & [[A B] C] & Ev & W) E U H.
  destruct (Z_le_gt_dec u e) as [L|L].
  - assert (F : inject_Z n == inject_Z (m * 2 ^ (e - u))).
    { apply (Qmult_inj_r _ _ (2 ^ u)); [apply p2_nz|]. rewrite <- E, C, inject_Z_mult, <- p2_Z, <- Qmult_assoc, <- p2_add by lia.
      replace (e - u + u)%Z with e by lia. reflexivity. }
    apply (proj1 (inject_Z_injective _ _)) in F. rewrite F, Z.even_mul, Ev. reflexivity.
  - exfalso. destruct H as [H|H]; [|lia].
    assert (K : Qabs y < 2 ^ (53 + e)).
    { rewrite C, Qabs_Qmult, p2_add, (p2_Z 53) by lia.
      rewrite (Qabs_pos (2 ^ e)) by (pose proof (p2_pos e); lra). pose proof (p2_pos e).
      apply Qmult_lt_compat_r; [assumption|].
      change (Qabs (inject_Z m)) with (inject_Z (Z.abs m)). rewrite <- Zlt_Qlt. exact A. }
    assert (K2 : 2 ^ k < 2 ^ (53 + e)) by lra. apply p2_lt_inv in K2. lia.
Qed.

Lemma rounded_positive_unique x d : 0 < x -> rounded x d -> d == round_positive x.
Proof.
  intros Hx [D1 D2]. pose proof (round_positive_rounded x Hx) as [R1 R2].
  destruct (D2 _ R1) as [A1 A2]. destruct (R2 _ D1) as [B1 B2].
  assert (T : Qabs (d - x) == Qabs (round_positive x - x)) by (apply Qle_antisym; assumption).
  destruct (B2 T) as [E|Ev]; [exact E|]. destruct (A2 (Qeq_sym _ _ T)) as [E|Ev']; [symmetry; exact E|].
  destruct (exponent_spec x Hx) as [S1 S2].
  destruct (Qlt_le_dec (Qabs d) (2 ^ exponent x)) as [C|C].
  - destruct (Z_le_gt_dec (exponent x - 52) (-1074)) as [L|L].
    + destruct (on_grid d (-1022) D1 (or_intror eq_refl)) as [n En].
      assert (U : ue x = (-1074)%Z) by (unfold unit_exponent; lia). change (Z.max (-1022 - 52) (-1074)) with (-1074)%Z in En.
      rewrite <- U in En.
      assert (En1 : Z.even n = true) by (apply (even_on_grid d n (ue x) (exponent x) Ev' En eq_refl (or_intror L))).
      assert (Er : round_positive x == inject_Z (py_round (x / 2 ^ ue x)) * 2 ^ ue x) by apply round_positive_eq.
      assert (En2 : Z.even (py_round (x / 2 ^ ue x)) = true) by (apply (even_on_grid _ _ (ue x) (exponent x) Ev Er eq_refl (or_intror L))).
      rewrite Er, En. destruct (Z.eq_dec n (py_round (x / 2 ^ ue x))) as [->|N]; [reflexivity|exfalso].
      assert (T' : Qabs (inject_Z n - x / 2 ^ ue x) == Qabs (inject_Z (py_round (x / 2 ^ ue x)) - x / 2 ^ ue x)).
      { pose proof (p2_pos (ue x)) as P. apply (Qmult_inj_r _ _ (2 ^ ue x)); [lra|].
        rewrite !(abs_scale _ _ P).
        setoid_replace ((inject_Z n - x / 2 ^ ue x) * 2 ^ ue x) with (d - x) by (rewrite En; field; lra).
        setoid_replace ((inject_Z (py_round (x / 2 ^ ue x)) - x / 2 ^ ue x) * 2 ^ ue x) with (round_positive x - x) by (rewrite Er; field; lra).
        exact T. }
      destruct (tie_is_next _ _ _ (py_round_nearest (x / 2 ^ ue x)) N T') as [F|F]; rewrite F in En1;
      [rewrite Z.even_add, En2 in En1|rewrite Z.even_sub, En2 in En1]; discriminate En1.
    + exfalso. destruct (grid_nearest x (2 ^ 52) Hx) as [I _]. cbv zeta in I.
      assert (E : ue x = (exponent x - 52)%Z) by (unfold unit_exponent; lia).
      assert (F : inject_Z (2 ^ 52) * 2 ^ ue x == 2 ^ exponent x).
      { rewrite <- p2_Z, <- p2_add by lia. rewrite E. replace (52 + (exponent x - 52))%Z with (exponent x) by lia. reflexivity. }
      rewrite F in I. rewrite (Qabs_neg (2 ^ exponent x - x)) in I by lra.
      pose proof (Qle_Qabs d). rewrite (Qabs_neg (d - x)) in T by lra. rewrite <- T in I. lra.
  - destruct (on_grid d (exponent x) D1 (or_introl C)) as [n En]. change (Z.max (exponent x - 52) (-1074)) with (ue x) in En.
    assert (En1 : Z.even n = true) by (apply (even_on_grid d n (ue x) (exponent x) Ev' En eq_refl (or_introl C))).
    assert (Er : round_positive x == inject_Z (py_round (x / 2 ^ ue x)) * 2 ^ ue x) by apply round_positive_eq.
    assert (Cr : 2 ^ exponent x <= Qabs (round_positive x) \/ (exponent x - 52 <= -1074)%Z).
    { destruct (Z_le_gt_dec (exponent x - 52) (-1074)) as [L|L]; [right; exact L|left].
      pose proof (round_positive_lower x Hx ltac:(unfold unit_exponent; lia)). pose proof (Qle_Qabs (round_positive x)). lra. }
    assert (En2 : Z.even (py_round (x / 2 ^ ue x)) = true) by (apply (even_on_grid _ _ (ue x) (exponent x) Ev Er eq_refl Cr)).
    rewrite Er, En. destruct (Z.eq_dec n (py_round (x / 2 ^ ue x))) as [->|N]; [reflexivity|exfalso].
    assert (T' : Qabs (inject_Z n - x / 2 ^ ue x) == Qabs (inject_Z (py_round (x / 2 ^ ue x)) - x / 2 ^ ue x)).
    { pose proof (p2_pos (ue x)) as P. apply (Qmult_inj_r _ _ (2 ^ ue x)); [lra|].
      rewrite !(abs_scale _ _ P).
      setoid_replace ((inject_Z n - x / 2 ^ ue x) * 2 ^ ue x) with (d - x) by (rewrite En; field; lra).
      setoid_replace ((inject_Z (py_round (x / 2 ^ ue x)) - x / 2 ^ ue x) * 2 ^ ue x) with (round_positive x - x) by (rewrite Er; field; lra).
      exact T. }
    destruct (tie_is_next _ _ _ (py_round_nearest (x / 2 ^ ue x)) N T') as [F|F]; rewrite F in En1;
    [rewrite Z.even_add, En2 in En1|rewrite Z.even_sub, En2 in En1]; discriminate En1.
Qed.

Lemma rounded_opp x d : rounded x d -> rounded (- x) (- d).
Proof.
  intros [A B]. split; [apply is_double_opp; exact A|]. intros y Hy.
  destruct (B (- y) (is_double_opp y Hy)) as [C D].
  assert (E1 : Qabs (- d - - x) == Qabs (d - x)).
  { rewrite <- (Qabs_opp (d - x)). setoid_replace (- (d - x)) with (- d - - x) by ring. reflexivity. }
  assert (E2 : Qabs (y - - x) == Qabs (- y - x)).
  { rewrite <- (Qabs_opp (- y - x)). setoid_replace (- (- y - x)) with (y - - x) by ring. reflexivity. }
  rewrite E1, E2. split; [exact C|]. intros F. destruct (D F) as [G|G].
  - left. rewrite <- G. ring.
  - right. apply even_double_opp. exact G.
Qed.

Lemma rounded_unique x d : rounded x d -> d == double x.
Proof.
  intros H. destruct (double_cases x) as [[E ->]|[[P ->]|[P ->]]].
  - destruct H as [_ B]. destruct (B 0 is_double_0) as [C _].
    setoid_replace (0 - x) with 0 in C by (rewrite E; ring). change (Qabs 0) with 0 in C.
    apply Qabs_Qle_condition in C. lra.
  - apply rounded_positive_unique; assumption.
  - rewrite <- (rounded_positive_unique (- x) (- d)); [ring|lra|apply rounded_opp; exact H].
Qed.
