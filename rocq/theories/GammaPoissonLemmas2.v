(** Lemmas on the Gamma-Poisson model: the distance, the search and the fit. *)
From Coq Require Import Lqa Qfield Qround.
From Verif Require Import Prelude ModelReachPoint ModelCurves SpecSurface ModelSurface SurfaceLemmas
  SurfaceLemmas2 HaloLemmas ReachPointLemmas ModelGamma SpecGamma GammaLemmas GammaLemmas2 GammaLemmas3
  ModelGammaPoisson SpecGammaPoisson GammaPoissonLemmas.
Open Scope Z_scope.
Local Open Scope Q_scope.

Lemma inventory_eq N alpha beta : 0 < beta -> expected_impressions N alpha beta == inventory N alpha beta.
Proof. intros H. unfold expected_impressions, nbinom_mean, inventory. field. lra. Qed.

Lemma Qltb_comp a b c : a == b -> Qltb a c = Qltb b c.
Proof. intros E. destruct (Qltb_spec a c), (Qltb_spec b c); auto; lra. Qed.

Lemma diffs_value (l : list Q) : forall i, (S i < length l)%nat -> nth i (diffs Qops l) 0 = nth i l 0 - nth (S i) l 0.
Proof.
  intros i Hi. assert (nth_error (diffs Qops l) i = Some (nth i l 0 - nth (S i) l 0)) as E.
  { apply (diffs_nth Qops).
    - apply nth_error_nth'. lia.
    - replace (i + 1)%nat with (S i) by lia. apply nth_error_nth'. lia. }
  rewrite (nth_error_nth _ _ _ E). reflexivity.
Qed.

(** The histogram of a point. *)
Lemma histogram_value (p : qpoint) : rp_kplus p <> [] -> rp_frequencies p = diffs Qops (rp_kplus p) ->
  exists h, histogram_with_kplus_bucket p = Ok h /\ length h = length (rp_kplus p) /\
    forall i, (i < length h)%nat -> nth i h 0 == nth i (rp_kplus p) 0 - nth (S i) (rp_kplus p) 0.
Proof.
  intros HN HF. set (kp := rp_kplus p) in *. set (n := length kp).
  assert (Hn : (0 < n)%nat) by (unfold n; destruct kp; [congruence|cbn; lia]).
  assert (E : histogram_from_reach_point p = Ok (map (fun i => nth i kp 0 - nth (S i) kp 0) (seq 0 (n - 1)))).
  { unfold histogram_from_reach_point, py_range. unfold max_frequency. fold kp n.
    replace (Z.to_nat (Z.of_nat n - 1)) with (n - 1)%nat by lia.
    assert (G : forall m s, (s + m <= n - 1)%nat ->
       mapM (fun i => frequency p i) (map (fun i => (1 + Z.of_nat i)%Z) (seq s m)) =
       Ok (map (fun i => nth i kp 0 - nth (S i) kp 0) (seq s m))).
    { induction m as [|m IH]; intros s Hs; [reflexivity|]. cbn [seq map mapM].
      assert (frequency p (1 + Z.of_nat s) = Ok (nth s kp 0 - nth (S s) kp 0)) as ->.
      { unfold frequency, max_frequency. fold kp n.
        replace ((0 <? 1 + Z.of_nat s)%Z && (1 + Z.of_nat s <? Z.of_nat n)%Z) with true
          by (symmetry; apply andb_true_iff; split; apply Z.ltb_lt; lia).
        rewrite HF. unfold py_index. destruct (Z.ltb_spec (1 + Z.of_nat s - 1) 0); [lia|].
        rewrite diffs_length. fold n.
        replace ((0 <=? 1 + Z.of_nat s - 1)%Z && (1 + Z.of_nat s - 1 <? Z.of_nat (n - 1))%Z) with true
          by (symmetry; apply andb_true_iff; split; [apply Z.leb_le|apply Z.ltb_lt]; lia).
        replace (Z.to_nat (1 + Z.of_nat s - 1)) with s by lia.
        rewrite (nth_error_nth' _ 0) by (rewrite diffs_length; fold n; lia).
        rewrite diffs_value by (fold n; lia). reflexivity. }
      cbn [bind]. rewrite IH by lia. reflexivity. }
    apply G. lia. }
  unfold histogram_with_kplus_bucket. rewrite E. cbn [bind].
  rewrite map_length, seq_length.
  rewrite (point_reach_nth p) by (fold kp n; lia). cbn [bind]. fold kp.
  replace (Z.to_nat (Z.of_nat (n - 1) + 1 - 1)) with (n - 1)%nat by lia.
  eexists. split; [reflexivity|]. rewrite app_length, map_length, seq_length. cbn [length].
  split; [lia|]. intros i Hi. destruct (Nat.eq_dec i (n - 1)) as [->|Hne].
  - rewrite app_nth2 by (rewrite map_length, seq_length; lia). rewrite map_length, seq_length, Nat.sub_diag. cbn [nth].
    rewrite (nth_overflow kp (n := S (n - 1))) by (fold n; lia). ring.
  - rewrite app_nth1 by (rewrite map_length, seq_length; lia).
    rewrite nth_map_seq by lia. reflexivity.
Qed.

(** ** The distance *)

Section Distance.
Context (x : gp_externals).

Lemma gp_distance_value ev h I N alpha beta w : gp_sane x alpha beta -> h <> [] ->
  0 < alpha -> 0 < beta -> 0 < N -> I < inventory N alpha beta ->
  gp_distance x ev h I N alpha beta w == documented_distance x ev h I N alpha beta w.
Proof.
  intros S0 Hh Ha Hb HN HI. pose proof (inventory_eq N alpha beta Hb) as EI.
  unfold gp_distance.
  destruct (Qleb_spec alpha 0); [lra|]. destruct (Qleb_spec beta 0); [lra|]. destruct (Qleb_spec N 0); [lra|].
  cbn [orb]. set (J := expected_impressions N alpha beta) in *.
  destruct (Qleb_spec J I); [lra|].
  set (m := length h). assert (Hm : (0 < m)%nat) by (unfold m; destruct h; [congruence|cbn; lia]).
  destruct (expected_histogram_value x I J N alpha beta (m - 1) S0) as [l [E [L K]]].
  destruct (gp_kreach_seq x 0 m I J alpha beta S0) as [l2 [E2 [L2 K2]]].
  fold m. rewrite E, E2. cbn [or_empty].
  set (P := I / inventory N alpha beta).
  assert (EP : I / J == P) by (unfold P; rewrite EI; reflexivity).
  assert (ES : forall k, seen_exactly x alpha beta k (I / J) == seen_exactly x alpha beta k P).
  { intros k. unfold seen_exactly. rewrite (seen_comp x alpha beta k _ _ EP), (seen_comp x alpha beta (S k) _ _ EP). reflexivity. }
  assert (S2 : 1 - Qsum l2 == seen_at_least x alpha beta m P + beyond_table x alpha beta).
  { rewrite (Qsum_nth l2 m (fun k => seen_at_least x alpha beta k P - seen_at_least x alpha beta (S k) P)).
    - assert (total m (fun k => seen_at_least x alpha beta k P - seen_at_least x alpha beta (S k) P)
              == seen_at_least x alpha beta 0 P - seen_at_least x alpha beta m P) as ->.
      { clear. induction m as [|m IH]; cbn [total]; [ring|]. rewrite IH. ring. }
      rewrite seen_0. ring.
    - exact L2.
    - intros i Hi. rewrite (K2 i Hi). cbn [Nat.add]. rewrite ES. reflexivity. }
  set (hbar := l ++ [(1 - Qsum l2) * N]).
  assert (LB : length hbar = m) by (unfold hbar; rewrite app_length, L; cbn; lia).
  assert (HB : forall i, (i < m)%nat -> nth i hbar 0 == predicted x N alpha beta P m (S i)).
  { intros i Hi. unfold predicted, hbar. destruct (Nat.ltb_spec (S i) m).
    - rewrite app_nth1 by lia. rewrite (K i) by lia. rewrite ES. reflexivity.
    - assert (i = m - 1)%nat as -> by lia. rewrite app_nth2 by lia. rewrite L, Nat.sub_diag. cbn [nth].
      rewrite S2. ring. }
  unfold documented_distance. fold m P. cbv zeta.
  apply Qplus_comp; [apply Qplus_comp|].
  - rewrite (Qsum_nth _ m (fun i => let d := predicted x N alpha beta P m (S i) - nth i h 0 in
        d * d / (predicted x N alpha beta P m (S i) + (1#1000000)))).
    + reflexivity.
    + rewrite map_length, combine_length, LB. fold m. lia.
    + intros i Hi. rewrite (nth_indep _ 0 ((fun bh => (fst bh - snd bh) * (fst bh - snd bh) / (fst bh + (1 # 1000000))) (0, 0)))
        by (rewrite map_length, combine_length, LB; fold m; lia).
      rewrite (map_nth (fun bh => (fst bh - snd bh) * (fst bh - snd bh) / (fst bh + (1 # 1000000)))).
      rewrite combine_nth by (rewrite LB; reflexivity). cbn [fst snd]. cbv zeta. rewrite (HB i Hi). reflexivity.
  - rewrite (Qsum_nth h m (fun i => nth i h 0)); [|reflexivity|reflexivity].
    rewrite (Qsum_nth hbar m (fun i => predicted x N alpha beta P m (S i))); auto. reflexivity.
  - rewrite (Qltb_comp _ _ ev EI). destruct (Qltb (inventory N alpha beta) ev); [|reflexivity].
    rewrite EI. reflexivity.
Qed.

Lemma gp_distance_infeasible ev h I N alpha beta w :
  alpha <= 0 \/ beta <= 0 \/ N <= 0 \/ (0 < beta /\ inventory N alpha beta <= I) ->
  gp_distance x ev h I N alpha beta w == total (length h) (fun i => nth i h 0 * nth i h 0).
Proof.
  intros H. assert (E : gp_distance x ev h I N alpha beta w = sum_squares h).
  { unfold gp_distance. destruct (Qleb_spec alpha 0); cbn [orb]; [reflexivity|].
    destruct (Qleb_spec beta 0); cbn [orb]; [reflexivity|].
    destruct (Qleb_spec N 0); [reflexivity|].
    destruct (Qleb_spec (expected_impressions N alpha beta) I) as [L|L]; [reflexivity|].
    exfalso. rewrite inventory_eq in L by auto. destruct H as [H|[H|[H|[_ H]]]]; lra. }
  rewrite E. unfold sum_squares. rewrite (Qsum_nth _ (length h) (fun i => nth i h 0 * nth i h 0)).
  - reflexivity.
  - apply map_length.
  - intros i Hi. rewrite (nth_indep _ 0 (0 * 0)) by (rewrite map_length; auto).
    rewrite (map_nth (fun v => v * v)). reflexivity.
Qed.

Lemma predicted_nonneg N alpha beta P m k : gp_sane x alpha beta -> 0 <= N -> 0 <= P -> P <= 1 ->
  0 <= predicted x N alpha beta P m k.
Proof.
  intros S0 HN H0 H1. unfold predicted. destruct (Nat.ltb k m).
  - apply Qmult_le_0_compat; auto. unfold seen_exactly. pose proof (seen_k x alpha beta k P S0 H0 H1). lra.
  - apply Qmult_le_0_compat; auto. destruct (seen_bounds x alpha beta m P S0 H0 H1).
    pose proof (has_total x alpha beta (gp_frequencies x) S0). unfold beyond_table. lra.
Qed.

Lemma square_nonneg (d : Q) : 0 <= d * d.
Proof. nra. Qed.
Lemma square_zero (d : Q) : d * d == 0 -> d == 0.
Proof. intros H. destruct (Qmult_integral _ _ H); auto. Qed.

Lemma documented_nonneg ev h I N alpha beta w : gp_sane x alpha beta -> 0 <= w ->
  0 < alpha -> 0 < beta -> 0 < N -> 0 <= I -> I < inventory N alpha beta ->
  0 <= documented_distance x ev h I N alpha beta w.
Proof.
  intros S0 Hw Ha Hb HN H0 HI. unfold documented_distance. cbv zeta.
  set (P := I / inventory N alpha beta).
  assert (0 <= P) by (apply Qdiv_nonneg; lra). assert (P <= 1) by (apply Qle_shift_div_r; lra).
  match goal with |- 0 <= ?a + ?b + ?c => assert (0 <= a); [|assert (0 <= b); [|assert (0 <= c); [|lra]]] end.
  - apply total_nonneg. intros i _.
    pose proof (predicted_nonneg N alpha beta P (length h) (S i) S0 ltac:(lra) ltac:(auto) ltac:(auto)).
    apply Qdiv_nonneg; [apply square_nonneg|lra].
  - apply Qmult_le_0_compat; auto. apply square_nonneg.
  - destruct (Qltb (inventory N alpha beta) ev); [apply square_nonneg|lra].
Qed.

(** A distance of zero means that the histograms agree. *)
Lemma documented_zero ev h I N alpha beta w : gp_sane x alpha beta -> 0 <= w ->
  0 < alpha -> 0 < beta -> 0 < N -> 0 <= I -> I < inventory N alpha beta ->
  (documented_distance x ev h I N alpha beta w == 0 <->
   ev <= inventory N alpha beta /\
   forall i, (i < length h)%nat -> nth i h 0 == predicted x N alpha beta (I / inventory N alpha beta) (length h) (S i)).
Proof.
  intros S0 Hw Ha Hb HN H0 HI. unfold documented_distance. cbv zeta.
  set (P := I / inventory N alpha beta).
  assert (HP0 : 0 <= P) by (apply Qdiv_nonneg; lra). assert (HP1 : P <= 1) by (apply Qle_shift_div_r; lra).
  set (pr := predicted x N alpha beta P (length h)).
  assert (PN : forall k, 0 <= pr k) by (intros k; apply predicted_nonneg; auto; lra).
  set (A := total (length h) (fun i => (pr (S i) - nth i h 0) * (pr (S i) - nth i h 0) / (pr (S i) + (1#1000000)))).
  set (B := w * _). set (C := if Qltb (inventory N alpha beta) ev then _ else 0).
  assert (TN : forall i, 0 <= (pr (S i) - nth i h 0) * (pr (S i) - nth i h 0) / (pr (S i) + (1#1000000))).
  { intros i. pose proof (PN (S i)). apply Qdiv_nonneg; [apply square_nonneg|lra]. }
  assert (A0 : 0 <= A) by (apply total_nonneg; auto).
  assert (B0 : 0 <= B) by (apply Qmult_le_0_compat; auto; apply square_nonneg).
  assert (C0 : 0 <= C) by (unfold C; destruct (Qltb (inventory N alpha beta) ev); [apply square_nonneg|lra]).
  split.
  - intros Z. assert (ZA : A == 0) by lra. assert (ZC : C == 0) by lra. split.
    + unfold C in ZC. destruct (Qltb_spec (inventory N alpha beta) ev) as [L|L]; [|exact L].
      apply square_zero in ZC. lra.
    + intros i Hi. pose proof (total_term_le (length h) i _ Hi (fun j _ => TN j)) as T. cbv beta in T. fold A in T.
      pose proof (TN i). pose proof (PN (S i)).
      assert ((pr (S i) - nth i h 0) * (pr (S i) - nth i h 0) / (pr (S i) + (1#1000000)) == 0) as Z1 by lra.
      assert ((pr (S i) - nth i h 0) * (pr (S i) - nth i h 0) == 0) as Z2.
      { setoid_replace ((pr (S i) - nth i h 0) * (pr (S i) - nth i h 0)) with
          ((pr (S i) - nth i h 0) * (pr (S i) - nth i h 0) / (pr (S i) + (1#1000000)) * (pr (S i) + (1#1000000)))
          by (field; lra). rewrite Z1. ring. }
      apply square_zero in Z2. lra.
  - intros [HE HH]. assert (A == 0) as ->.
    { apply total_0. intros i Hi. setoid_replace (pr (S i) - nth i h 0) with 0 by (rewrite (HH i Hi); ring).
      pose proof (PN (S i)). field. lra. }
    assert (B == 0) as ->.
    { unfold B. rewrite (total_ext (length h) (fun i => nth i h 0) (fun i => pr (S i))) by exact HH. ring. }
    unfold C. destruct (Qltb_spec (inventory N alpha beta) ev); [lra|]. ring.
Qed.

(** Reading the k+ counts off the predicted histogram. *)
Lemma predicted_tail N alpha beta P m : forall j, (j <= m)%nat ->
  total j (fun i => predicted x N alpha beta P m (m - i)) ==
  if Nat.eqb j 0 then 0 else N * (seen_at_least x alpha beta (S m - j) P + beyond_table x alpha beta).
Proof.
  induction j as [|j IH]; intros Hj; [reflexivity|]. cbn [total Nat.eqb]. rewrite IH by lia.
  unfold predicted. destruct j as [|j].
  - cbn [Nat.eqb]. replace (m - 0)%nat with m by lia. rewrite Nat.ltb_irrefl.
    replace (S m - 1)%nat with m by lia. ring.
  - cbn [Nat.eqb]. destruct (Nat.ltb_spec (m - S j) m); [|lia].
    replace (S m - S (S j))%nat with (m - S j)%nat by lia.
    replace (S m - S j)%nat with (S (m - S j)) by lia. unfold seen_exactly. ring.
Qed.

(** ** The search for a starting point *)

Lemma best_neighbour_facts sc s ns : forall ob s', best_neighbour sc s ns = (ob, s') ->
  (forall a b, In (a, b) ns -> s' <= sc a b) /\ s' <= s /\
  match ob with
  | None => s' = s
  | Some (a, b) => In (a, b) ns /\ s' = sc a b /\ s' < s
  end.
Proof.
  unfold best_neighbour.
  assert (G : forall ns ob0 s0 ob s', fold_left (fun best ab => if Qltb (sc (fst ab) (snd ab)) (snd best)
                            then (Some ab, sc (fst ab) (snd ab)) else best) ns (ob0, s0) = (ob, s') ->
     (forall a b, In (a, b) ns -> s' <= sc a b) /\ s' <= s0 /\
     ((ob = ob0 /\ s' = s0) \/ exists a b, ob = Some (a, b) /\ In (a, b) ns /\ s' = sc a b /\ s' < s0)).
  { clear. induction ns as [|[a b] ns IH]; intros ob0 s0 ob s' E; cbn [fold_left] in E.
    - assert (ob = ob0) by congruence. assert (s' = s0) by congruence. subst. split; [intros ? ? []|]. split; [lra|auto].
    - cbn [fst snd] in E. destruct (Qltb_spec (sc a b) s0) as [L|L].
      + destruct (IH _ _ _ _ E) as [A [B C]]. split; [|split; [lra|]].
        * intros a' b' [X|X]; [|auto]. assert (a' = a) by congruence. assert (b' = b) by congruence. subst. exact B.
        * right. destruct C as [[-> ->]|[a' [b' [C1 [C2 [C3 C4]]]]]].
          -- exists a, b. split; auto. split; [left; auto|]. split; auto.
          -- exists a', b'. split; auto. split; [right; auto|]. split; auto. lra.
      + destruct (IH _ _ _ _ E) as [A [B C]]. split; [|split; [lra|]].
        * intros a' b' [X|X]; [|auto]. assert (a' = a) by congruence. assert (b' = b) by congruence. subst. lra.
        * destruct C as [C|[a' [b' [C1 [C2 [C3 C4]]]]]]; [left; auto|right; exists a', b'; split; auto; split; [right; auto|auto]]. }
  intros ob s' E. destruct (G _ _ _ _ _ E) as [A [B C]]. split; auto. split; auto.
  destruct C as [[-> ->]|[a [b [-> [C2 [C3 C4]]]]]]; auto.
Qed.

(** Where the search ends. *)
Lemma downhill_facts sc : forall fuel a b s w a' b', downhill fuel sc a b s w = Ok (a', b') -> 1#100 < w ->
  exists s' w' j, w' == w * qpow (1#2) j /\ 1#100 < w' /\ w' * (1#2) <= 1#100 /\
    (forall a2 b2, In (a2, b2) (neighbours a' b' w') -> s' <= sc a2 b2) /\
    s' <= s /\ ((a' = a /\ b' = b /\ s' = s) \/ (s' = sc a' b' /\ s' < s)) /\
    (forall a2 b2, In (a2, b2) (neighbours a b w) -> s' <= sc a2 b2).
Proof.
  induction fuel as [|fuel IH]; intros a b s w a' b' E L; cbn [downhill] in E;
    (destruct (Qltb_spec (1#100) w) as [_|L']; [|lra]); [discriminate|].
  destruct (best_neighbour sc s (neighbours a b w)) as [ob s1] eqn:EB.
  destruct (best_neighbour_facts _ _ _ _ _ EB) as [A [B C]].
  destruct ob as [[a1 b1]|].
  - destruct C as [C1 [C2 C3]]. cbn [fst snd] in E.
    destruct (IH _ _ _ _ _ _ E L) as [s' [w' [j [W1 [W2 [W3 [W4 [W5 [W6 W7]]]]]]]]].
    exists s', w', j. repeat (split; [solve [auto|lra]|]). split.
    + right. destruct W6 as [[-> [-> ->]]|[-> W6]]; split; auto; lra.
    + intros a2 b2 H2. specialize (A a2 b2 H2). lra.
  - subst s1. destruct (Qlt_le_dec (1#100) (w * (1#2))) as [L2|L2].
    + destruct (IH _ _ _ _ _ _ E L2) as [s' [w' [j [W1 [W2 [W3 [W4 [W5 [W6 W7]]]]]]]]].
      exists s', w', (S j). split; [rewrite W1; cbn [qpow]; ring|]. repeat (split; [solve [auto|lra]|]).
      intros a2 b2 H2. specialize (A a2 b2 H2). lra.
    + assert (E' : downhill fuel sc a b s (w * (1#2)) = Ok (a, b)).
      { destruct fuel; cbn [downhill]; destruct (Qltb_spec (1#100) (w * (1#2))); auto; lra. }
      rewrite E' in E. assert (a' = a) by congruence. assert (b' = b) by congruence. subst.
      exists s, w, O. cbn [qpow]. split; [ring|]. repeat (split; [solve [auto|lra]|]). auto.
Qed.

Lemma downhill_more sc : forall fuel fuel' a b s w r, (fuel <= fuel')%nat ->
  downhill fuel sc a b s w = Ok r -> downhill fuel' sc a b s w = Ok r.
Proof.
  induction fuel as [|fuel IH]; intros fuel' a b s w r Hf E.
  - destruct fuel'; cbn [downhill] in *; destruct (Qltb (1#100) w); auto; discriminate.
  - destruct fuel' as [|fuel']; [lia|]. cbn [downhill] in *. destruct (Qltb (1#100) w); auto.
    destruct (best_neighbour sc s (neighbours a b w)) as [[ab|] s1]; apply IH; auto; lia.
Qed.

Lemma width_80 w j : w == (5#100) * qpow (1#2) j -> 1#100 < w -> w * (1#2) <= 1#100 -> w == 1#80.
Proof.
  intros E L U. destruct j as [|[|[|j]]]; cbn [qpow] in E.
  - rewrite E in U. lra.
  - rewrite E in U. lra.
  - rewrite E. reflexivity.
  - assert (0 <= qpow (1#2) j) as H0 by (apply qpow_nonneg; lra).
    assert (qpow (1#2) j <= 1) as H1 by (apply qpow_le_1; lra). rewrite E in L. lra.
Qed.

(** ** The fit *)

Lemma fit_fixed_N_facts fuel ev p N w Imax alpha beta : gp_minimizes x ->
  fit_fixed_N x fuel ev p N w = Ok (Imax, alpha, beta) ->
  (1#1000000 <= alpha <= 100) /\ (1#1000000 <= beta <= 100) /\ Imax == inventory N alpha beta.
Proof.
  intros HM E. unfold fit_fixed_N in E.
  destruct (py_index (rp_impressions p) 0) as [I0|]; cbn [bind] in E; [|discriminate].
  destruct (histogram_with_kplus_bucket p) as [h|]; cbn [bind] in E; [|discriminate].
  destruct (starting_point x fuel ev h I0 N w) as [[a0 b0]|]; cbn [bind] in E; [|discriminate].
  match type of E with context [gp_minimize x ?f ?s ?bd] => destruct (gp_minimize x f s bd) as [[v sc]|] eqn:EM end;
    cbn [bind] in E; [|discriminate].
  destruct (HM _ _ _ _ _ EM) as [B _]. cbn [fst] in E.
  inversion B as [|a ? v1 ? B1 B2]; subst. inversion B2 as [|b ? v2 ? B3 B4]; subst. inversion B4; subst.
  assert (alpha = a) by congruence. assert (beta = b) by congruence. subst.
  cbn [fst snd] in *. split; [auto|]. split; [auto|].
  assert (Imax = expected_impressions N a b) as -> by congruence. apply inventory_eq. lra.
Qed.

Lemma audience_nth r n i : (i < n)%nat ->
  nth i (audience_sizes r n) 0 == inject_Z (Z.of_nat n + 1) * r / inject_Z (Z.of_nat (S i)).
Proof.
  intros Hi. unfold audience_sizes.
  set (f := fun i => r / (inject_Z (Z.of_nat i) / inject_Z (Z.of_nat n + 1))).
  rewrite (nth_indep _ 0 (f O)) by (rewrite map_length, seq_length; auto).
  rewrite map_nth, seq_nth by auto. cbn [Nat.add]. unfold f.
  assert (A : 0 < inject_Z (Z.of_nat (S i))) by (change 0 with (inject_Z 0); rewrite <- Zlt_Qlt; lia).
  assert (B : 0 < inject_Z (Z.of_nat n + 1)) by (change 0 with (inject_Z 0); rewrite <- Zlt_Qlt; lia).
  field. split; lra.
Qed.

Definition made fuel ev p h I0 Nmin (size : Q) (t : (Q * Q * Q) * Q) : Prop :=
  exists alpha0 beta0 Imax0 alpha beta N, fst t = (alpha, beta, N) /\
    fit_fixed_N x fuel ev p size 1 = Ok (Imax0, alpha0, beta0) /\
    gp_minimize x (fun params => match params with
                                 | [a; b; n] => gp_distance x ev h I0 n a b 1
                                 | _ => 0 end)
      [alpha0; beta0; size] [(1#1000000, 100); (1#1000000, 100); (Nmin, 100 * Nmin)] = Ok ([alpha; beta; N], snd t).

Lemma try_sizes_facts fuel ev p h I0 Nmin stop : gp_minimizes x -> forall sizes best bs res,
  try_sizes x fuel ev p h I0 Nmin 1 stop best bs sizes = Ok res ->
  exists tried : list ((Q * Q * Q) * Q),
    Forall2 (made fuel ev p h I0 Nmin) (firstn (length tried) sizes) tried /\
    (sizes <> [] -> tried <> []) /\
    ((res = best /\ (forall t, In t tried -> bs <= snd t) /\ (length tried = length sizes \/ bs < stop)) \/
     exists i ans s, nth_error tried i = Some (ans, s) /\ res = Some ans /\ s < bs /\
       (forall t, In t tried -> s <= snd t) /\
       (forall j t, (j < i)%nat -> nth_error tried j = Some t -> s < snd t) /\
       (length tried = length sizes \/ s < stop)) /\
    (forall i t, (S i < length tried)%nat -> nth_error tried i = Some t -> stop <= snd t).
Proof.
  intros HM. induction sizes as [|size sizes IH]; intros best bs res E; cbn [try_sizes] in E.
  - assert (res = best) by congruence. subst. exists []. split; [constructor|]. split; [congruence|].
    split; [left; split; [auto|split; [intros t []|auto]]|]. intros i t Hi. cbn in Hi. lia.
  - destruct (fit_fixed_N x fuel ev p size 1) as [[[Imax0 alpha0] beta0]|] eqn:EF; cbn [bind] in E; [|discriminate].
    match type of E with context [gp_minimize x ?f ?s ?bd] => destruct (gp_minimize x f s bd) as [[v sc]|] eqn:EM end;
      cbn [bind] in E; [|discriminate].
    destruct (HM _ _ _ _ _ EM) as [B _].
    inversion B as [|a ? v1 ? B1 B2]; subst. inversion B2 as [|b ? v2 ? B3 B4]; subst.
    inversion B4 as [|n ? v3 ? B5 B6]; subst. inversion B6; subst. clear B B1 B2 B3 B4 B5 B6.
    cbn [fst snd] in E.
    assert (MD : made fuel ev p h I0 Nmin size ((a, b, n), sc)).
    { exists alpha0, beta0, Imax0, a, b, n. cbn [fst snd]. auto. }
    destruct (Qltb_spec sc bs) as [L|L]; cbn [bind] in E.
    + destruct (Qltb_spec sc stop) as [T|T].
      * assert (res = Some (a, b, n)) by congruence. subst. exists [((a, b, n), sc)].
        split; [cbn [length firstn]; constructor; [auto|constructor]|]. split; [discriminate|]. split.
        -- right. exists O, (a, b, n), sc. split; [reflexivity|]. split; [auto|]. split; [auto|].
           split; [intros t [<-|[]]; cbn; lra|]. split; [intros j t Hj; lia|auto].
        -- intros i t Hi. cbn in Hi. lia.
      * destruct (IH _ _ _ E) as [tried [F1 [F2 [F3 F4]]]].
        exists (((a, b, n), sc) :: tried). split; [cbn [length firstn]; constructor; auto|]. split; [discriminate|].
        split.
        -- right. destruct F3 as [[G1 [G2 G3]]|[i [ans [s [G1 [G2 [G3 [G4 [G5 G6]]]]]]]]].
           ++ exists O, (a, b, n), sc. split; [reflexivity|]. split; [auto|]. split; [auto|].
              split; [intros t [<-|Ht]; [cbn; lra|auto]|]. split; [intros j t Hj; lia|]. cbn [length].
              destruct G3 as [G3|G3]; [left; lia|right; auto].
           ++ exists (S i), ans, s. split; [exact G1|]. split; [auto|]. split; [lra|].
              split; [intros t [<-|Ht]; [cbn; lra|auto]|]. split.
              ** intros [|j] t Hj Ht; [assert (t = ((a, b, n), sc)) as -> by (cbn in Ht; congruence); cbn; lra|].
                 apply (G5 j t); [lia|exact Ht].
              ** cbn [length]. destruct G6; [left; lia|auto].
        -- intros [|i] t Hi Ht; [assert (t = ((a, b, n), sc)) as -> by (cbn in Ht; congruence); cbn; lra|].
           apply (F4 i t); [cbn in Hi; lia|exact Ht].
    + destruct (Qltb_spec bs stop) as [T|T].
      * assert (res = best) by congruence. subst. exists [((a, b, n), sc)].
        split; [cbn [length firstn]; constructor; [auto|constructor]|]. split; [discriminate|]. split.
        -- left. split; [auto|]. split; [intros t [<-|[]]; cbn; lra|auto].
        -- intros i t Hi. cbn in Hi. lia.
      * destruct (IH _ _ _ E) as [tried [F1 [F2 [F3 F4]]]].
        exists (((a, b, n), sc) :: tried). split; [cbn [length firstn]; constructor; auto|]. split; [discriminate|].
        split.
        -- destruct F3 as [[G1 [G2 G3]]|[i [ans [s [G1 [G2 [G3 [G4 [G5 G6]]]]]]]]].
           ++ left. split; [auto|]. split; [intros t [<-|Ht]; [cbn; lra|auto]|]. cbn [length].
              destruct G3 as [G3|G3]; [left; lia|right; auto].
           ++ right. exists (S i), ans, s. split; [exact G1|]. split; [auto|]. split; [lra|].
              split; [intros t [<-|Ht]; [cbn; lra|auto]|]. split.
              ** intros [|j] t Hj Ht; [assert (t = ((a, b, n), sc)) as -> by (cbn in Ht; congruence); cbn; lra|].
                 apply (G5 j t); [lia|exact Ht].
              ** cbn [length]. destruct G6; [left; lia|auto].
        -- intros [|i] t Hi Ht; [assert (t = ((a, b, n), sc)) as -> by (cbn in Ht; congruence); cbn; lra|].
           apply (F4 i t); [cbn in Hi; lia|exact Ht].
Qed.

End Distance.
