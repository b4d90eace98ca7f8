(** Lemmas on rounding to double precision. *)
From Coq Require Import Lqa Qfield Qround Qabs Qpower.
From Verif Require Import Prelude DataLemmas ModelReachPoint ModelHalo ModelCurves SpecSurface ModelSurface SurfaceLemmas
  SurfaceLemmas2 SpecDirac DiracLemmas ModelDouble SpecDouble.
Open Scope Z_scope.
Local Open Scope Q_scope.

(** ** Powers of two *)

Lemma p2_pos e : 0 < 2 ^ e.
Proof. apply Qpower_0_lt. reflexivity. Qed.
Lemma p2_nz e : ~ 2 ^ e == 0.
Proof. pose proof (p2_pos e). lra. Qed.
Lemma p2_add a b : 2 ^ (a + b) == 2 ^ a * 2 ^ b.
Proof. apply Qpower_plus. discriminate. Qed.
Lemma p2_le a b : (a <= b)%Z -> 2 ^ a <= 2 ^ b.
Proof. intros H. apply Qpower_le_compat_l; [exact H|discriminate]. Qed.
Lemma p2_lt a b : (a < b)%Z -> 2 ^ a < 2 ^ b.
Proof. intros H. apply Qpower_lt_compat_l; [exact H|reflexivity]. Qed.
Lemma p2_lt_inv a b : 2 ^ a < 2 ^ b -> (a < b)%Z.
Proof. intros H. apply (Qpower_lt_compat_l_inv 2); [exact H|reflexivity]. Qed.
Lemma p2_Z n : (0 <= n)%Z -> 2 ^ n == inject_Z (2 ^ n).
Proof. intros H. rewrite (Zpower_Qpower 2 n H). reflexivity. Qed.
Lemma p2_opp e : 2 ^ (- e) == / 2 ^ e.
Proof. apply Qpower_opp. Qed.
Lemma p2_succ e : 2 ^ (e + 1) == 2 * 2 ^ e.
Proof. rewrite p2_add. change (2 ^ 1) with 2. lra. Qed.
Lemma pow2_p2 e : pow2 e == 2 ^ e.
Proof.
  unfold pow2. destruct (0 <=? e)%Z eqn:E.
  - apply Z.leb_le in E. symmetry. apply p2_Z. exact E.
  - apply Z.leb_gt in E. rewrite <- (Z.opp_involutive e) at 2. rewrite p2_opp, p2_Z by lia.
    pose proof (Z.pow_pos_nonneg 2 (- e) ltac:(lia) ltac:(lia)) as P.
    destruct (2 ^ (- e))%Z as [|p|p]; try lia. reflexivity.
Qed.

(** ** Exponents *)

Lemma exponent_spec x : 0 < x -> 2 ^ exponent x <= x < 2 ^ (exponent x + 1).
Proof.
  intros Hx. destruct x as [n d]. unfold exponent. cbn [Qnum Qden].
  assert (Hn : (0 < n)%Z) by (unfold Qlt in Hx; cbn in Hx; lia).
  set (a := Z.log2 n). set (b := Z.log2 (Zpos d)).
  destruct (Z.log2_spec n Hn) as [N1 N2]. destruct (Z.log2_spec (Zpos d) ltac:(lia)) as [D1 D2].
  fold a in N1, N2. fold b in D1, D2.
  pose proof (Z.log2_nonneg n) as A0. pose proof (Z.log2_nonneg (Zpos d)) as B0. fold a in A0. fold b in B0.
  assert (E : n # d == inject_Z n / inject_Z (Zpos d)).
  { rewrite (Qmake_Qdiv n d). reflexivity. }
  assert (Dp : 0 < inject_Z (Zpos d)) by reflexivity.
  rewrite Zle_Qle, <- p2_Z in N1, D1 by assumption. rewrite Zlt_Qlt, <- p2_Z in N2, D2 by lia.
  rewrite <- Z.add_1_r, p2_succ in N2, D2.
  assert (U : n # d < 2 ^ (a - b + 1)).
  { rewrite E. apply Qlt_shift_div_r; [exact Dp|]. rewrite p2_succ.
    apply Qlt_le_trans with (2 * 2 ^ a); [exact N2|].
    replace a with ((a - b) + b)%Z at 1 by lia. rewrite p2_add.
    pose proof (p2_pos (a - b)). rewrite Qmult_assoc. apply Qmult_le_l; [lra|exact D1]. }
  assert (L : 2 ^ (a - b - 1) <= n # d).
  { rewrite E. apply Qle_shift_div_l; [exact Dp|].
    apply Qle_trans with (2 ^ a); [|exact N1].
    replace a with ((a - b - 1) + (b + 1))%Z at 2 by lia. rewrite p2_add, p2_succ.
    pose proof (p2_pos (a - b - 1)). apply Qmult_le_l; [assumption|lra]. }
  destruct (Qleb (pow2 (a - b)) (n # d)) eqn:C; [apply Qleb_le in C|apply Qleb_gt in C]; rewrite pow2_p2 in C.
  - split; [exact C|exact U].
  - split; [exact L|]. replace (a - b - 1 + 1)%Z with (a - b)%Z by lia. lra.
Qed.
Lemma exponent_unique x k : 0 < x -> 2 ^ k <= x -> x < 2 ^ (k + 1) -> exponent x = k.
Proof.
  intros Hx A B. destruct (exponent_spec x Hx) as [C D].
  assert (k < exponent x + 1)%Z by (apply p2_lt_inv; lra).
  assert (exponent x < k + 1)%Z by (apply p2_lt_inv; lra). lia.
Qed.
Lemma exponent_eq x y : 0 < x -> x == y -> exponent x = exponent y.
Proof.
  intros Hx E. assert (Hy : 0 < y) by lra. destruct (exponent_spec y Hy) as [A B].
  apply exponent_unique; [exact Hx|lra|lra].
Qed.
Lemma exponent_mono x y : 0 < x -> x <= y -> (exponent x <= exponent y)%Z.
Proof.
  intros Hx H. assert (Hy : 0 < y) by lra.
  destruct (exponent_spec x Hx) as [A B]. destruct (exponent_spec y Hy) as [C D].
  assert (exponent x < exponent y + 1)%Z by (apply p2_lt_inv; lra). lia.
Qed.

(** ** Rounding of positive numbers *)

Notation ue := unit_exponent.

Lemma round_positive_eq x : round_positive x == inject_Z (py_round (x / 2 ^ ue x)) * 2 ^ ue x.
Proof.
  unfold round_positive. cbv zeta. rewrite Qred_correct.
  rewrite (py_round_eq (x / pow2 (ue x)) (x / 2 ^ ue x)) by (rewrite pow2_p2; reflexivity).
  rewrite pow2_p2. reflexivity.
Qed.

Lemma ue_eq x y : 0 < x -> x == y -> ue x = ue y.
Proof. intros H E. unfold unit_exponent. rewrite (exponent_eq x y H E). reflexivity. Qed.

(** The distance to the integer multiples of the unit. *)
Lemma round_positive_error x :
  round_positive x - (1#2) * 2 ^ ue x <= x <= round_positive x + (1#2) * 2 ^ ue x.
Proof.
  rewrite round_positive_eq. set (u := 2 ^ ue x). pose proof (p2_pos (ue x)) as P. fold u in P.
  destruct (py_round_nearest (x / u)) as [[A B] _]. set (z := inject_Z (py_round (x / u))) in *.
  assert (E : x == (x / u) * u) by (field; lra).
  split.
  - rewrite E. setoid_replace (z * u - (1#2) * u) with ((z - (1#2)) * u) by ring.
    apply Qmult_le_compat_r; lra.
  - rewrite E at 1. setoid_replace (z * u + (1#2) * u) with ((z + (1#2)) * u) by ring.
    apply Qmult_le_compat_r; lra.
Qed.

Lemma Qdiv_le_compat_r x y u : 0 < u -> x <= y -> x / u <= y / u.
Proof.
  intros P H. unfold Qdiv. apply Qmult_le_compat_r; [exact H|]. apply Qinv_le_0_compat. lra.
Qed.

(** Significands. *)
Lemma significand_range x : 0 < x ->
  (0 <= py_round (x / 2 ^ ue x) <= 2 ^ 53)%Z /\
  (ue x = exponent x - 52 -> 2 ^ 52 <= py_round (x / 2 ^ ue x))%Z.
Proof.
  intros Hx. destruct (exponent_spec x Hx) as [A B]. set (u := 2 ^ ue x).
  pose proof (p2_pos (ue x)) as P. fold u in P.
  assert (Le : 2 ^ (exponent x + 1) <= inject_Z (2 ^ 53) * u).
  { unfold u. rewrite <- (p2_Z 53) by lia. rewrite <- p2_add. apply p2_le. unfold unit_exponent. lia. }
  split; [split|].
  - apply py_round_nonneg. apply Qle_shift_div_l; [exact P|]. lra.
  - rewrite <- (py_round_Z (inject_Z (2 ^ 53)) (2 ^ 53)) by reflexivity. apply py_round_mono.
    apply Qle_shift_div_r; [exact P|]. lra.
  - intros E. rewrite <- (py_round_Z (inject_Z (2 ^ 52)) (2 ^ 52)) at 1 by reflexivity. apply py_round_mono.
    apply Qle_shift_div_l; [exact P|]. unfold u. rewrite E, <- (p2_Z 52), <- p2_add by lia.
    replace (52 + (exponent x - 52))%Z with (exponent x) by lia. exact A.
Qed.

Lemma round_positive_nonneg x : 0 < x -> 0 <= round_positive x.
Proof.
  intros Hx. rewrite round_positive_eq. destruct (significand_range x Hx) as [[A _] _].
  rewrite Zle_Qle in A. pose proof (p2_pos (ue x)). apply Qmult_le_0_compat; [exact A|lra].
Qed.

(** Between two neighbouring powers of two. *)
Lemma round_positive_upper x : 0 < x -> round_positive x <= 2 ^ (ue x + 53).
Proof.
  intros Hx. rewrite round_positive_eq. destruct (significand_range x Hx) as [[_ B] _].
  rewrite Zle_Qle in B. rewrite Z.add_comm, p2_add, (p2_Z 53) by lia. pose proof (p2_pos (ue x)).
  apply Qmult_le_compat_r; [exact B|lra].
Qed.
Lemma round_positive_lower x : 0 < x -> (ue x = exponent x - 52)%Z -> 2 ^ exponent x <= round_positive x.
Proof.
  intros Hx E. rewrite round_positive_eq. destruct (significand_range x Hx) as [_ B]. specialize (B E).
  replace (exponent x) with (52 + ue x)%Z by lia. rewrite p2_add, (p2_Z 52) by lia.
  rewrite Zle_Qle in B. pose proof (p2_pos (ue x)). apply Qmult_le_compat_r; [exact B|lra].
Qed.

Lemma round_positive_mono x y : 0 < x -> x <= y -> round_positive x <= round_positive y.
Proof.
  intros Hx H. assert (Hy : 0 < y) by lra. pose proof (exponent_mono x y Hx H) as M.
  destruct (Z.eq_dec (ue x) (ue y)) as [E|E].
  - rewrite !round_positive_eq, E. pose proof (p2_pos (ue y)).
    apply Qmult_le_compat_r; [|lra]. rewrite <- Zle_Qle. apply py_round_mono.
    apply Qdiv_le_compat_r; [assumption|exact H].
  - assert (E' : (ue y = exponent y - 52)%Z) by (unfold unit_exponent in *; lia).
    apply Qle_trans with (2 ^ (ue x + 53)); [apply round_positive_upper; exact Hx|].
    apply Qle_trans with (2 ^ exponent y); [|apply round_positive_lower; assumption].
    apply p2_le. unfold unit_exponent in *. lia.
Qed.
Lemma round_positive_compat x y : 0 < x -> x == y -> round_positive x == round_positive y.
Proof. intros Hx E. apply Qle_antisym; apply round_positive_mono; lra. Qed.

(** ** Doubles *)

Lemma is_double_compat x y : x == y -> is_double x -> is_double y.
Proof. intros E (m & e & A & B). exists m, e. split; [exact A|]. rewrite <- E. exact B. Qed.
Lemma is_double_opp x : is_double x -> is_double (- x).
Proof.
  intros (m & e & A & B). exists (- m)%Z, e. split; [lia|]. rewrite B, inject_Z_opp. ring.
Qed.
Lemma is_double_0 : is_double 0.
Proof. exists 0%Z, 0%Z. split; [cbn; lia|]. reflexivity. Qed.

(** A number of up to 53 bits, and 2^53 itself. *)
Lemma written_le m e : (Z.abs m <= 2 ^ 53)%Z -> (-1074 <= e)%Z -> is_double (inject_Z m * 2 ^ e).
Proof.
  intros A B. destruct (Z.eq_dec (Z.abs m) (2 ^ 53)) as [E|E].
  - exists (Z.sgn m * 2 ^ 52)%Z, (e + 1)%Z. split; [split; [|lia]|].
    + destruct m; cbn in *; lia.
    + assert (M : m = (Z.sgn m * 2 ^ 52 * 2)%Z) by (destruct m; cbn in *; lia).
      rewrite M at 1. rewrite p2_succ, inject_Z_mult. change (inject_Z 2) with 2. ring.
  - exists m, e. split; [lia|]. reflexivity.
Qed.

Lemma round_positive_double x : 0 < x -> is_double (round_positive x).
Proof.
  intros Hx. apply (is_double_compat (inject_Z (py_round (x / 2 ^ ue x)) * 2 ^ ue x)).
  { symmetry. apply round_positive_eq. }
  destruct (significand_range x Hx) as [R _]. apply written_le; [lia|unfold unit_exponent; lia].
Qed.

(** A double that is at least 2^k is a multiple of the unit of numbers between 2^k and 2^(k+1). *)
Lemma on_grid y k : is_double y -> 2 ^ k <= Qabs y \/ (k = -1022)%Z ->
  exists n, y == inject_Z n * 2 ^ (Z.max (k - 52) (-1074)).
Proof.
  intros (m & e & [A B] & C) H.
  set (u := Z.max (k - 52) (-1074)). assert (U : (u <= e)%Z).
  { destruct H as [H|H]; [|unfold u; lia].
    assert (L : 2 ^ k < 2 ^ (53 + e)).
    { apply Qle_lt_trans with (Qabs y); [exact H|]. rewrite C, Qabs_Qmult, p2_add, (p2_Z 53) by lia.
      rewrite (Qabs_pos (2 ^ e)) by (pose proof (p2_pos e); lra). pose proof (p2_pos e).
      apply Qmult_lt_compat_r; [assumption|].
      change (Qabs (inject_Z m)) with (inject_Z (Z.abs m)). rewrite <- Zlt_Qlt. exact A. }
    apply p2_lt_inv in L. unfold u. lia. }
  exists (m * 2 ^ (e - u))%Z. rewrite C, inject_Z_mult, <- p2_Z, <- Qmult_assoc, <- p2_add by lia.
  replace (e - u + u)%Z with e by lia. reflexivity.
Qed.

(** ** The nearest double *)

Lemma nearest_integer q z n : nearest q z ->
  Qabs (inject_Z z - q) <= Qabs (inject_Z n - q) /\
  (Qabs (inject_Z n - q) == Qabs (inject_Z z - q) -> n = z \/ Z.even z = true).
Proof.
  intros [[A B] C].
  destruct (Z.lt_trichotomy n z) as [L|[L|L]].
  - assert (L' : inject_Z n <= inject_Z z - 1).
    { assert (L1 : (n + 1 <= z)%Z) by lia. rewrite Zle_Qle, inject_Z_plus in L1. change (inject_Z 1) with 1 in L1. lra. }
    rewrite (Qabs_neg (inject_Z n - q)) by lra.
    split.
    + apply Qabs_Qle_condition. lra.
    + intros E. right. apply C. left. pose proof (Qle_Qabs (inject_Z z - q)) as P.
      destruct (Qlt_le_dec q (inject_Z z)) as [W|W].
      * rewrite (Qabs_pos (inject_Z z - q)) in E by lra. lra.
      * rewrite (Qabs_neg (inject_Z z - q)) in E by lra. lra.
  - subst. split; [apply Qle_refl|]. intros _. left. reflexivity.
  - assert (L' : inject_Z z + 1 <= inject_Z n).
    { change 1 with (inject_Z 1). rewrite <- inject_Z_plus, <- Zle_Qle. lia. }
    rewrite (Qabs_pos (inject_Z n - q)) by lra.
    split.
    + apply Qabs_Qle_condition. lra.
    + intros E. right. apply C. right.
      destruct (Qlt_le_dec q (inject_Z z)) as [W|W].
      * rewrite (Qabs_pos (inject_Z z - q)) in E by lra. lra.
      * rewrite (Qabs_neg (inject_Z z - q)) in E by lra. lra.
Qed.

Lemma even_double_compat x y : x == y -> even_double x -> even_double y.
Proof.
  intros E (m & e & [A B] & C). exists m, e. split; [split; [exact A|rewrite <- E; exact B]|exact C].
Qed.
Lemma even_double_opp x : even_double x -> even_double (- x).
Proof.
  intros (m & e & [A B] & C & D). exists (- m)%Z, e.
  rewrite Z.even_opp, Z.abs_opp. repeat split; try assumption; try lia.
  rewrite B, inject_Z_opp. ring.
Qed.

Lemma grid_nearest x n : 0 < x -> let y := inject_Z n * 2 ^ ue x in
  Qabs (round_positive x - x) <= Qabs (y - x) /\
  (Qabs (y - x) == Qabs (round_positive x - x) -> y == round_positive x \/ even_double (round_positive x)).
Proof.
  intros Hx y. set (u := 2 ^ ue x) in *. pose proof (p2_pos (ue x)) as P. fold u in P.
  set (q := x / u). set (z := py_round q).
  assert (Ed : round_positive x == inject_Z z * u) by apply round_positive_eq.
  assert (Eq : forall i, Qabs (inject_Z i * u - x) == Qabs (inject_Z i - q) * u).
  { intros i. setoid_replace (inject_Z i * u - x) with ((inject_Z i - q) * u) by (unfold q; field; lra).
    rewrite Qabs_Qmult, (Qabs_pos u) by lra. reflexivity. }
  destruct (nearest_integer q z n (py_round_nearest q)) as [A B].
  assert (E1 : Qabs (round_positive x - x) == Qabs (inject_Z z - q) * u) by (rewrite Ed; apply Eq).
  assert (E2 : Qabs (y - x) == Qabs (inject_Z n - q) * u) by (apply Eq).
  split; [rewrite E1, E2|].
  - apply Qmult_le_compat_r; [exact A|lra].
  - intros E. rewrite E1, E2 in E.
    assert (E' : Qabs (inject_Z n - q) == Qabs (inject_Z z - q)) by (apply (Qmult_inj_r _ _ u); [lra|exact E]).
    destruct (B E') as [En | Ev]; [left; rewrite Ed; unfold y; rewrite En; reflexivity|right].
    apply (even_double_compat (inject_Z z * u)); [symmetry; exact Ed|].
    destruct (significand_range x Hx) as [R1 R2]. fold u q z in R1, R2.
    destruct (Z.eq_dec z (2 ^ 53)) as [W|W].
    + exists (2 ^ 52)%Z, (ue x + 1)%Z. split; [split; [split; [reflexivity|unfold unit_exponent; lia]|]|].
      * rewrite W, p2_succ. fold u. change (2 ^ 53)%Z with (2 ^ 52 * 2)%Z. rewrite inject_Z_mult.
        change (inject_Z 2) with 2. ring.
      * split; [reflexivity|]. left. apply Z.leb_le. reflexivity.
    + exists z, (ue x). split; [split; [split; [lia|unfold unit_exponent; lia]|reflexivity]|].
      split; [exact Ev|]. unfold unit_exponent in *. rewrite Z.abs_eq by lia.
      destruct (Z.eq_dec (Z.max (exponent x - 52) (-1074)) (exponent x - 52)) as [V|V]; [left; apply R2; exact V|right; lia].
Qed.

Lemma round_positive_rounded x : 0 < x -> rounded x (round_positive x).
Proof.
  intros Hx. split; [apply round_positive_double; exact Hx|]. intros y Hy.
  destruct (exponent_spec x Hx) as [A B].
  assert (G : (exists n, y == inject_Z n * 2 ^ ue x) \/ (y < 2 ^ exponent x /\ (ue x = exponent x - 52)%Z)).
  { destruct (Z_le_gt_dec (exponent x - 52) (-1074)) as [L|L].
    - left. destruct (on_grid y (-1022) Hy (or_intror eq_refl)) as [n E]. exists n. rewrite E.
      replace (ue x) with (-1074)%Z by (unfold unit_exponent; lia). reflexivity.
    - destruct (Qlt_le_dec (Qabs y) (2 ^ exponent x)) as [C|C].
      + right. split; [pose proof (Qle_Qabs y); lra|unfold unit_exponent; lia].
      + left. destruct (on_grid y (exponent x) Hy (or_introl C)) as [n E]. exists n. exact E. }
  destruct G as [[n E]|[C E]].
  - destruct (grid_nearest x n Hx) as [I J]. cbv zeta in I, J.
    assert (E1 : Qabs (y - x) == Qabs (inject_Z n * 2 ^ ue x - x)) by (rewrite E; reflexivity).
    split; [rewrite E1; exact I|]. intros K. rewrite E1 in K.
    destruct (J K) as [V|V]; [left; rewrite E; exact V|right; exact V].
  - destruct (grid_nearest x (2 ^ 52) Hx) as [I _]. cbv zeta in I.
    assert (F : inject_Z (2 ^ 52) * 2 ^ ue x == 2 ^ exponent x).
    { rewrite <- p2_Z, <- p2_add by lia. rewrite E. replace (52 + (exponent x - 52))%Z with (exponent x) by lia. reflexivity. }
    rewrite F in I. rewrite (Qabs_neg (2 ^ exponent x - x)) in I by lra. rewrite (Qabs_neg (y - x)) by lra.
    split; [lra|]. intros K. exfalso. lra.
Qed.

(** ** Any sign *)

Lemma double_cases x :
  (x == 0 /\ double x = 0) \/ (0 < x /\ double x = round_positive x) \/
  (x < 0 /\ double x = - round_positive (- x)).
Proof.
  unfold double. destruct (Qeqb x 0) eqn:E.
  - left. split; [apply Qeq_bool_iff; exact E|reflexivity].
  - assert (N : ~ x == 0) by (intros C; apply Qeq_bool_iff in C; unfold Qeqb in E; rewrite C in E; discriminate E).
    destruct (Qltb 0 x) eqn:L; [apply Qltb_lt in L|apply Qltb_ge in L].
    + right; left. split; [exact L|reflexivity].
    + right; right. split; [|reflexivity]. destruct (Qlt_le_dec x 0); [assumption|]. exfalso. apply N. lra.
Qed.

Lemma double_rounded x : rounded x (double x).
Proof.
  destruct (double_cases x) as [[E ->]|[[P ->]|[P ->]]].
  - split; [apply is_double_0|]. intros y Hy. setoid_replace (0 - x) with 0 by (rewrite E; ring).
    change (Qabs 0) with 0. split; [apply Qabs_nonneg|]. intros C.
    left. pose proof (Qabs_nonneg (y - x)). assert (A : Qabs (y - x) <= 0) by lra.
    apply Qabs_Qle_condition in A. lra.
  - apply round_positive_rounded. exact P.
  - destruct (round_positive_rounded (- x) ltac:(lra)) as [A B].
    split; [apply is_double_opp; exact A|]. intros y Hy.
    destruct (B (- y) (is_double_opp y Hy)) as [C D]. set (d := round_positive (- x)) in *.
    assert (E1 : Qabs (- d - x) == Qabs (d - - x)).
    { rewrite <- (Qabs_opp (d - - x)). setoid_replace (- (d - - x)) with (- d - x) by ring. reflexivity. }
    assert (E2 : Qabs (y - x) == Qabs (- y - - x)).
    { rewrite <- (Qabs_opp (- y - - x)). setoid_replace (- (- y - - x)) with (y - x) by ring. reflexivity. }
    rewrite E1, E2. split; [exact C|]. intros F. destruct (D F) as [G|G].
    + left. rewrite <- G. ring.
    + right. apply even_double_opp. exact G.
Qed.

Lemma double_is_double x : is_double (double x).
Proof. apply double_rounded. Qed.
Lemma double_exact x : is_double x -> double x == x.
Proof.
  intros H. destruct (double_rounded x) as [_ A]. destruct (A x H) as [B _].
  setoid_replace (x - x) with 0 in B by ring. change (Qabs 0) with 0 in B.
  apply Qabs_Qle_condition in B. lra.
Qed.
Lemma double_0 x : x == 0 -> double x == 0.
Proof. intros E. destruct (double_cases x) as [[_ ->]|[[P _]|[P _]]]; lra. Qed.
Lemma double_mono x y : x <= y -> double x <= double y.
Proof.
  intros H. destruct (double_cases x) as [[E ->]|[[P ->]|[P ->]]];
  destruct (double_cases y) as [[E' ->]|[[P' ->]|[P' ->]]]; try lra.
  - apply round_positive_nonneg. exact P'.
  - apply round_positive_mono; assumption.
  - pose proof (round_positive_nonneg (- x)) as A. lra.
  - pose proof (round_positive_nonneg (- x)) as A. pose proof (round_positive_nonneg y) as B. lra.
  - pose proof (round_positive_mono (- y) (- x)) as A. lra.
Qed.
#[global] Instance double_proper : Proper (Qeq ==> Qeq) double.
Proof. intros x y E. apply Qle_antisym; apply double_mono; lra. Qed.
Lemma double_nonneg x : 0 <= x -> 0 <= double x.
Proof. intros H. rewrite <- (double_0 0) by reflexivity. apply double_mono. exact H. Qed.

(** ** Relative errors *)

Lemma round_positive_relative x : normal x ->
  x * (1 - unit_error) <= round_positive x <= x * (1 + unit_error).
Proof.
  unfold normal. intros H. assert (Hx : 0 < x) by (pose proof (p2_pos (-1022)); lra).
  destruct (exponent_spec x Hx) as [A B].
  assert (K : (-1022 < exponent x + 1)%Z) by (apply p2_lt_inv; lra).
  pose proof (round_positive_error x) as [C D].
  assert (E : ue x = (exponent x - 52)%Z) by (unfold unit_exponent; lia). rewrite E in C, D.
  assert (F : (1#2) * 2 ^ (exponent x - 52) == unit_error * 2 ^ exponent x).
  { replace (exponent x - 52)%Z with (exponent x + -52)%Z by lia. rewrite p2_add.
    rewrite (Qmult_comm (2 ^ exponent x)), Qmult_assoc.
    setoid_replace ((1#2) * 2 ^ (-52)) with unit_error by (vm_compute; reflexivity). reflexivity. }
  rewrite F in C, D.
  assert (G : unit_error * 2 ^ exponent x <= unit_error * x) by (apply Qmult_le_l; [reflexivity|exact A]).
  split; lra.
Qed.

Lemma grid_unit x : is_double x -> exists n, x == inject_Z n * 2 ^ (-1074).
Proof. intros H. destruct (on_grid x (-1022) H (or_intror eq_refl)) as [n E]. exists n. exact E. Qed.
Lemma small_grid x n : x == inject_Z n * 2 ^ (-1074) -> Qabs x <= 2 ^ (-1021) -> is_double x.
Proof.
  intros E H. apply (is_double_compat (inject_Z n * 2 ^ (-1074))); [symmetry; exact E|].
  apply written_le; [|lia]. rewrite E, Qabs_Qmult in H. pose proof (p2_pos (-1074)) as P.
  rewrite (Qabs_pos (2 ^ (-1074))) in H by lra. change (-1021)%Z with (53 + -1074)%Z in H. rewrite p2_add, (p2_Z 53) in H by lia.
  apply (Qmult_lt_0_le_reg_r _ _ (2 ^ (-1074)) P) in H.
  change (Qabs (inject_Z n)) with (inject_Z (Z.abs n)) in H. rewrite <- Zle_Qle in H. exact H.
Qed.

(** A non-negative number that is 0, not tiny or a multiple of the smallest double. *)
Definition fine (x : Q) : Prop := x == 0 \/ normal x \/ exists n, x == inject_Z n * 2 ^ (-1074).
Lemma double_relative x : 0 <= x -> fine x ->
  x * (1 - unit_error) <= double x <= x * (1 + unit_error).
Proof.
  intros Hx F. assert (U : 0 < unit_error) by reflexivity.
  assert (Ex : double x == x -> x * (1 - unit_error) <= double x <= x * (1 + unit_error)).
  { intros ->. pose proof (Qmult_le_0_compat x unit_error Hx ltac:(lra)). split; lra. }
  destruct (Qlt_le_dec x (2 ^ (-1022))) as [T|T].
  - apply Ex. destruct F as [F|[F|[n F]]].
    + rewrite (double_0 x F), F. reflexivity.
    + unfold normal in F. lra.
    + apply double_exact. apply (small_grid x n F). rewrite Qabs_pos by exact Hx.
      pose proof (p2_lt (-1022) (-1021) ltac:(lia)). lra.
  - assert (P : 0 < x) by (pose proof (p2_pos (-1022)); lra).
    destruct (double_cases x) as [[C _]|[[_ E]|[C _]]]; [lra| |lra]. rewrite E.
    apply round_positive_relative. exact T.
Qed.

Lemma sum_fine x y : is_double x -> is_double y -> fine (x + y).
Proof.
  intros Hx Hy. right; right. destruct (grid_unit x Hx) as [m A]. destruct (grid_unit y Hy) as [n B].
  exists (m + n)%Z. rewrite A, B, inject_Z_plus. ring.
Qed.
Lemma double_fine x : is_double x -> fine x.
Proof. intros H. right; right. apply grid_unit. exact H. Qed.
