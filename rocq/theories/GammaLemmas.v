(** Lemmas on binomial sampling and on the k-inflated distribution. *)
From Coq Require Import Lqa Qfield.
From Verif Require Import Prelude ModelReachPoint ModelCurves SpecSurface ModelSurface SurfaceLemmas
  SurfaceLemmas2 HaloLemmas ModelGamma SpecGamma.
Open Scope Z_scope.

Lemma qpow_nonneg x k : (0 <= x)%Q -> (0 <= qpow x k)%Q.
Proof. intros H. induction k; simpl; [lra|]. apply Qmult_le_0_compat; auto. Qed.

Lemma qpow_le_1 x k : (0 <= x)%Q -> (x <= 1)%Q -> (qpow x k <= 1)%Q.
Proof.
  intros H H1. induction k; simpl; [lra|]. pose proof (qpow_nonneg x k H).
  apply Qle_trans with (1 * qpow x k)%Q; [apply Qmult_le_compat_r; auto|lra].
Qed.

#[global] Instance qpow_comp : Morphisms.Proper (Morphisms.respectful Qeq (Morphisms.respectful eq Qeq)) qpow.
Proof. intros x y H k ? <-. induction k; simpl; [reflexivity|]. rewrite IHk, H. reflexivity. Qed.

Lemma qpow_1 k : (qpow 1 k == 1)%Q.
Proof. induction k; simpl; [reflexivity|]. rewrite IHk. ring. Qed.

Lemma choose_0 n : choose n 0 = 1.
Proof. destruct n; reflexivity. Qed.

Lemma choose_over n : forall k, (n < k)%nat -> choose n k = 0.
Proof.
  induction n as [|n IH]; intros [|k] H; try lia; simpl; auto.
  rewrite (IH k), (IH (S k)) by lia. reflexivity.
Qed.

Lemma binom_over k n p : (n < k)%nat -> (binom_pmf k n p == 0)%Q.
Proof. intros H. unfold binom_pmf. rewrite choose_over by auto. change (inject_Z 0) with 0%Q. ring. Qed.

Lemma binom_0 n p : (binom_pmf 0 (S n) p == (1 - p) * binom_pmf 0 n p)%Q.
Proof.
  unfold binom_pmf. rewrite !choose_0, !Nat.sub_0_r. cbn [qpow]. ring.
Qed.

Lemma binom_step k n p :
  (binom_pmf (S k) (S n) p == p * binom_pmf k n p + (1 - p) * binom_pmf (S k) n p)%Q.
Proof.
  unfold binom_pmf. cbn [choose qpow]. rewrite inject_Z_plus. change (S n - S k)%nat with (n - k)%nat.
  destruct (le_lt_dec n k) as [H|H].
  - rewrite (choose_over n (S k)) by lia. change (inject_Z 0) with 0%Q. ring.
  - replace (n - k)%nat with (S (n - S k)) by lia. cbn [qpow]. ring.
Qed.

Lemma binom_nonneg k n p : (0 <= p)%Q -> (p <= 1)%Q -> (0 <= binom_pmf k n p)%Q.
Proof.
  intros H0 H1. unfold binom_pmf. apply Qmult_le_0_compat; [apply Qmult_le_0_compat|].
  - change 0%Q with (inject_Z 0). rewrite <- Zle_Qle.
    revert k. induction n as [|n IH]; intros [|k]; simpl; try lia.
    pose proof (IH k). pose proof (IH (S k)). lia.
  - apply qpow_nonneg; auto.
  - apply qpow_nonneg. lra.
Qed.

(** Fewer than [k] of [n]. *)
Lemma at_least_sum n : forall k p,
  (at_least n k p == 1 - total k (fun j => binom_pmf j n p))%Q.
Proof.
  induction n as [|n IH]; intros k p.
  - destruct k as [|k]; simpl; [ring|].
    assert (total k (fun j => binom_pmf j 0 p) + binom_pmf k 0 p == 1)%Q as ->; [|ring].
    induction k as [|k IHk]; simpl.
    + unfold binom_pmf; simpl. ring.
    + rewrite (binom_over (S k)) by lia. rewrite IHk. ring.
  - destruct k as [|k]; [simpl; ring|]. cbn [at_least]. rewrite (IH k p), (IH (S k) p).
    rewrite !total_split. rewrite binom_0.
    rewrite (total_ext k (fun i => binom_pmf (S i) (S n) p) (fun j => p * binom_pmf j n p + (1 - p) * binom_pmf (S j) n p)%Q)
      by (intros; apply binom_step).
    rewrite total_plus, !total_scal. ring.
Qed.

Lemma at_least_bounds n : forall k p, (0 <= p)%Q -> (p <= 1)%Q ->
  (0 <= at_least n k p)%Q /\ (at_least n k p <= 1)%Q.
Proof.
  induction n as [|n IH]; intros [|k] p H0 H1; simpl; try lra.
  destruct (IH k p H0 H1) as [A1 A2]. destruct (IH (S k) p H0 H1) as [B1 B2].
  split; [nra|]. nra.
Qed.

Lemma at_least_k n : forall k p, (0 <= p)%Q -> (p <= 1)%Q -> (at_least n (S k) p <= at_least n k p)%Q.
Proof.
  induction n as [|n IH]; intros k p H0 H1.
  - destruct k; simpl; lra.
  - destruct k as [|k].
    + apply at_least_bounds; auto.
    + cbn [at_least]. pose proof (IH k p H0 H1). pose proof (IH (S k) p H0 H1). nra.
Qed.

Lemma at_least_p n : forall k p q, (0 <= p)%Q -> (p <= q)%Q -> (q <= 1)%Q ->
  (at_least n k p <= at_least n k q)%Q.
Proof.
  induction n as [|n IH]; intros [|k] p q H0 H1 H2; simpl; try lra.
  pose proof (IH k p q H0 H1 H2). pose proof (IH (S k) p q H0 H1 H2).
  pose proof (at_least_k n k p H0 ltac:(lra)).
  apply Qle_trans with (q * at_least n k p + (1 - q) * at_least n (S k) p)%Q; nra.
Qed.

#[global] Instance at_least_comp : Morphisms.Proper (Morphisms.respectful eq (Morphisms.respectful eq (Morphisms.respectful Qeq Qeq))) at_least.
Proof.
  intros n ? <- k ? <- p q H. revert k. induction n as [|n IH]; intros [|k]; simpl; try reflexivity.
  rewrite !IH, H. reflexivity.
Qed.

Lemma at_least_full n k : (k <= n)%nat -> (at_least n k 1 == 1)%Q.
Proof.
  revert k. induction n as [|n IH]; intros [|k] H; try lia; simpl; try reflexivity.
  rewrite IH by lia. ring.
Qed.

Lemma at_least_over n : forall k p, (n < k)%nat -> (at_least n k p == 0)%Q.
Proof.
  induction n as [|n IH]; intros [|k] p H; try lia; simpl; try reflexivity.
  rewrite (IH k), (IH (S k)) by lia. ring.
Qed.

Lemma at_least_zero n : forall k, (at_least n (S k) 0 == 0)%Q.
Proof. induction n as [|n IH]; intros k; simpl; [reflexivity|]. rewrite (IH k). ring. Qed.

(** The expected number shown. *)
Lemma at_least_mean n : forall m p, (n <= m)%nat ->
  (total m (fun j => at_least n (S j) p) == inject_Z (Z.of_nat n) * p)%Q.
Proof.
  induction n as [|n IH]; intros m p H.
  - rewrite total_0; [simpl; ring|]. intros; reflexivity.
  - destruct m as [|m]; [lia|]. cbn [at_least]. rewrite total_plus, !total_scal.
    rewrite (IH (S m)) by lia. rewrite total_split.
    assert (at_least n 0 p = 1%Q) as -> by (destruct n; reflexivity).
    rewrite (IH m) by lia. rewrite Nat2Z.inj_succ. unfold Z.succ. rewrite inject_Z_plus. ring.
Qed.

(** ** The sums of the code *)

Lemma Qsum_map_seq f n : forall k, (Qsum (map f (seq k n)) == total n (fun j => f (k + j)%nat))%Q.
Proof.
  induction n as [|n IH]; intros k; [reflexivity|]. cbn [seq map Qsum].
  rewrite IH, total_split. rewrite Nat.add_0_r. apply Qplus_comp; [reflexivity|].
  apply total_ext. intros j _. rewrite Nat.add_succ_r. reflexivity.
Qed.

Definition shown_exactly (d : kdist) (k : nat) (p : Q) : Q :=
  total (length (kd_pmf d)) (fun n => binom_pmf k n p * kd_at d n)%Q.

Lemma total_from k n f : (k <= n)%nat -> (forall i, (i < k)%nat -> f i == 0)%Q ->
  (total n f == total (n - k) (fun j => f (k + j)%nat))%Q.
Proof.
  intros H Hz. replace n with (k + (n - k))%nat at 1 by lia. rewrite total_app.
  rewrite (total_0 k) by auto. ring.
Qed.

Lemma combine_seq_map {A} (f : nat -> A) n k :
  combine (seq 0 n) (map f (seq k n)) = map (fun j => (j, f (k + j)%nat)) (seq 0 n).
Proof.
  assert (forall m s k, combine (seq s m) (map f (seq k m)) = map (fun j => (j, f (k + (j - s))%nat)) (seq s m)) as G.
  { induction m as [|m IH]; intros s k0; [reflexivity|]. cbn [seq map combine].
    f_equal.
    - rewrite Nat.sub_diag, Nat.add_0_r. reflexivity.
    - rewrite IH. apply map_ext_in. intros j Hj. apply in_seq in Hj. do 2 f_equal. lia. }
  rewrite G. apply map_ext. intros j. rewrite Nat.sub_0_r. reflexivity.
Qed.

Lemma combine_seq n k : combine (seq 0 n) (seq k n) = map (fun j => (j, (k + j)%nat)) (seq 0 n).
Proof. rewrite <- (map_id (seq k n)). apply combine_seq_map. Qed.

Lemma min_seq k n : forall k0, (k <= k0)%nat -> (0 < n)%nat -> fold_right Nat.min k0 (seq k n) = k.
Proof.
  revert k. induction n as [|n IH]; intros k k0 H Hn; [lia|]. cbn [seq fold_right].
  destruct n as [|n]; [cbn; lia|]. destruct (le_lt_dec (S k) k0).
  - rewrite IH by lia. lia.
  - assert (k0 = k) as -> by lia. clear. revert k. 
    assert (forall m s k, (k <= s)%nat -> fold_right Nat.min k (seq s m) = k) as G.
    { induction m; intros s k H; cbn [seq fold_right]; auto. rewrite IHm by lia. lia. }
    intros k. rewrite G by lia. lia.
Qed.

Lemma last_seq n : forall k z, last (seq k (S n)) z = (k + n)%nat.
Proof.
  induction n as [|n IH]; intros k z; [simpl; lia|].
  change (seq k (S (S n))) with (k :: seq (S k) (S n)).
  change (last (k :: seq (S k) (S n)) z) with (last (seq (S k) (S n)) z).
  rewrite IH. lia.
Qed.

Lemma consecutive_seq k n : consecutive (seq k n) = true.
Proof.
  destruct n as [|n]; [reflexivity|]. unfold consecutive.
  assert (seq k (S n) = k :: seq (S k) n) as E by reflexivity. rewrite E at 1.
  rewrite last_seq. replace (S (k + n) - k)%nat with (S n) by lia.
  destruct (list_eq_dec Nat.eq_dec _ _); [reflexivity|congruence].
Qed.

Lemma kreach_seq (d : kdist) k n p : exists l, kreach d (seq k n) p = Ok l /\ length l = n /\
  forall i, (i < n)%nat -> (nth i l 0 == shown_exactly d (k + i) p)%Q.
Proof.
  destruct n as [|n].
  - exists []. split; [reflexivity|]. split; [reflexivity|]. intros; lia.
  - set (ks := seq k (S n)).
    assert (kreach d ks p = Ok (map (fun ik =>
                   Qsum (map (fun jn => if (fst ik <=? fst jn)%nat
                                        then knreach d (snd ik) (snd jn) p else 0%Q)
                             (combine (seq 0 (length (kd_pmf d) - k)) (seq k (length (kd_pmf d) - k)))))
                (combine (seq 0 (S n)) ks))) as ->.
    { unfold kreach. assert (ks = k :: seq (S k) n) as E by reflexivity.
      destruct ks as [|k0 ks'] eqn:Eks; [discriminate|]. rewrite <- Eks in *.
      assert (k0 = k) as -> by (rewrite Eks in E; inversion E; auto).
      unfold ks. rewrite consecutive_seq. cbn [negb]. rewrite min_seq by lia.
      rewrite !seq_length. reflexivity. }
    eexists. split; [reflexivity|]. unfold ks. rewrite (combine_seq (S n)). rewrite !map_length, seq_length.
    split; [reflexivity|]. intros i Hi.
    rewrite map_map. cbn [fst snd].
    rewrite nth_map_seq by auto.
    rewrite combine_seq, map_map. cbn [fst snd]. rewrite Qsum_map_seq. unfold shown_exactly.
    set (L := length (kd_pmf d)).
    destruct (le_lt_dec k L) as [HL|HL].
    + rewrite (total_from k L) by (auto; intros j Hj; rewrite binom_over by lia; ring).
      apply total_ext. intros j Hj. cbn [Nat.add]. destruct (Nat.leb_spec i j); [reflexivity|].
      rewrite binom_over by lia. ring.
    + replace (L - k)%nat with O by lia. simpl. symmetry. apply total_0. intros j Hj.
      rewrite binom_over by lia. ring.
Qed.

Lemma Qsum_nth l n f : length l = n -> (forall i, (i < n)%nat -> nth i l 0 == f i)%Q -> (Qsum l == total n f)%Q.
Proof. intros <- H. rewrite Qsum_total. apply total_ext. auto. Qed.

Lemma kplusreach_value (d : kdist) k p : (Qsum (kd_pmf d) == 1)%Q ->
  exists v, kplusreach d k p = Ok v /\ (v == shown_at_least (kd_pmf d) k p)%Q.
Proof.
  intros HS. unfold kplusreach. destruct k as [|k].
  - exists 1%Q. split; auto. unfold shown_at_least.
    rewrite (total_ext _ (fun n => nth n (kd_pmf d) 0 * at_least n 0 p)%Q (fun n => nth n (kd_pmf d) 0)%Q).
    + rewrite <- Qsum_total, HS. reflexivity.
    + intros n _. assert (at_least n 0 p = 1%Q) as -> by (destruct n; auto). ring.
  - destruct (kreach_seq d 0 (S k) p) as [l [E [Hl Hn]]]. rewrite E. cbn [bind].
    eexists. split; [reflexivity|].
    rewrite (Qsum_nth l (S k) (fun i => shown_exactly d i p) Hl Hn).
    unfold shown_at_least, shown_exactly. rewrite total_swap.
    rewrite (total_ext (length (kd_pmf d)) (fun n => nth n (kd_pmf d) 0 * at_least n (S k) p)%Q
      (fun n => nth n (kd_pmf d) 0 - total (S k) (fun j => binom_pmf j n p * kd_at d n))%Q).
    + rewrite total_minus, <- Qsum_total, HS. reflexivity.
    + intros n _. rewrite at_least_sum, total_scal_r. unfold kd_at. ring.
Qed.

Lemma shown_exactly_diff (d : kdist) k p :
  (shown_exactly d k p == shown_at_least (kd_pmf d) k p - shown_at_least (kd_pmf d) (S k) p)%Q.
Proof.
  unfold shown_exactly, shown_at_least. rewrite <- total_minus. apply total_ext. intros n _.
  rewrite !at_least_sum. cbn [total]. unfold kd_at. ring.
Qed.

Lemma expected_value_mean (d : kdist) : (expected_value d == mean (kd_pmf d))%Q.
Proof. unfold expected_value, mean. rewrite Qsum_map_seq. apply total_ext. intros; reflexivity. Qed.

(** ** Facts on distributions *)

Lemma dist_nth l n : is_distribution l -> (0 <= nth n l 0)%Q.
Proof.
  intros [H _]. destruct (le_lt_dec (length l) n).
  - rewrite nth_overflow by auto. lra.
  - apply H. apply nth_In. auto.
Qed.

Lemma shown_bounds l k p : is_distribution l -> (0 <= p)%Q -> (p <= 1)%Q ->
  (0 <= shown_at_least l k p)%Q /\ (shown_at_least l k p <= 1)%Q.
Proof.
  intros D H0 H1. unfold shown_at_least. split.
  - apply total_nonneg. intros n _. pose proof (dist_nth l n D). pose proof (at_least_bounds n k p H0 H1). nra.
  - apply Qle_trans with (total (length l) (fun n => nth n l 0)%Q).
    + apply total_le. intros n _. pose proof (dist_nth l n D). pose proof (at_least_bounds n k p H0 H1). nra.
    + rewrite <- Qsum_total. destruct D as [_ ->]. lra.
Qed.

Lemma shown_k l k p : is_distribution l -> (0 <= p)%Q -> (p <= 1)%Q ->
  (shown_at_least l (S k) p <= shown_at_least l k p)%Q.
Proof.
  intros D H0 H1. apply total_le. intros n _. pose proof (dist_nth l n D). pose proof (at_least_k n k p H0 H1). nra.
Qed.

Lemma shown_p l k p q : is_distribution l -> (0 <= p)%Q -> (p <= q)%Q -> (q <= 1)%Q ->
  (shown_at_least l k p <= shown_at_least l k q)%Q.
Proof.
  intros D H0 H1 H2. apply total_le. intros n _. pose proof (dist_nth l n D). pose proof (at_least_p n k p q H0 H1 H2). nra.
Qed.

Lemma shown_full l : is_distribution l -> (nth 0 l 0 == 0)%Q -> (shown_at_least l 1 1 == 1)%Q.
Proof.
  intros D H0. unfold shown_at_least. rewrite (total_ext _ (fun n => nth n l 0 * at_least n 1 1)%Q (fun n => nth n l 0)%Q).
  - rewrite <- Qsum_total. apply D.
  - intros [|n] _; [rewrite H0; ring|]. rewrite at_least_full by lia. ring.
Qed.

Lemma shown_mean l m p : (length l <= S m)%nat ->
  (total m (fun j => shown_at_least l (S j) p) == mean l * p)%Q.
Proof.
  intros H. unfold shown_at_least, mean. rewrite total_swap, <- total_scal_r.
  apply total_ext. intros n Hn. rewrite total_scal, at_least_mean by lia. ring.
Qed.

#[global] Instance shown_comp : Morphisms.Proper (Morphisms.respectful eq (Morphisms.respectful eq (Morphisms.respectful Qeq Qeq))) shown_at_least.
Proof.
  intros l ? <- k ? <- p q H. unfold shown_at_least. apply total_ext. intros n _. rewrite H. reflexivity.
Qed.

(** ** The constructor *)

Lemma Qsum_scale l c : (Qsum (map (fun v => v / c) l) == Qsum l / c)%Q.
Proof. induction l as [|v l IH]; simpl; [unfold Qdiv; ring|]. rewrite IH. unfold Qdiv. ring. Qed.

Lemma Qsum_mult l c : (Qsum (map (fun v => c * v) l) == c * Qsum l)%Q.
Proof. induction l as [|v l IH]; simpl; [ring|]. rewrite IH. ring. Qed.

Lemma removelast_last_sum l : l <> [] -> (Qsum l == Qsum (removelast l) + last l 0)%Q.
Proof.
  intros H. rewrite (app_removelast_last 0%Q H) at 1. rewrite Qsum_app. simpl. ring.
Qed.

Lemma force_sum_1 l : (Qsum (force_sum l) == 1)%Q.
Proof. unfold force_sum. rewrite Qsum_app. simpl. ring. Qed.

Lemma removelast_in {A} (l : list A) v : In v (removelast l) -> In v l.
Proof.
  intros H. destruct l as [|w l]; [destruct H|].
  rewrite (app_removelast_last w (l := w :: l)) by discriminate. apply in_or_app. left. auto.
Qed.

Lemma force_sum_dist l : l <> [] -> (forall v, In v l -> (0 <= v)%Q) -> (Qsum l <= 1)%Q ->
  is_distribution (force_sum l).
Proof.
  intros Hne Hp Hs. split; [|apply force_sum_1].
  intros v Hv. unfold force_sum in Hv. apply in_app_iff in Hv. destruct Hv as [Hv|[<-|[]]].
  - apply Hp, removelast_in, Hv.
  - pose proof (removelast_last_sum l Hne) as E.
    assert (0 <= last l 0)%Q. { apply Hp. rewrite (app_removelast_last 0%Q Hne) at 2. apply in_or_app. right. left. auto. }
    lra.
Qed.

Lemma pmf_range x alpha beta lo n :
  (Qsum (map (fun i => gamma_poisson_pmf x i alpha beta) (py_range (Z.of_nat lo + 1) (Z.of_nat lo + 1 + Z.of_nat n)))
   == total n (fun k => gx_nbinom x (Z.of_nat (lo + k)) alpha (1 / (1 + beta))))%Q.
Proof.
  unfold py_range. replace (Z.to_nat _) with n by lia. rewrite map_map, Qsum_map_seq.
  apply total_ext. intros k _. unfold gamma_poisson_pmf.
  replace (Z.of_nat lo + 1 + Z.of_nat (0 + k) - 1) with (Z.of_nat (lo + k)) by lia. reflexivity.
Qed.

Lemma scaled_a (a0 : list Q) : (forall v, In v a0 -> (0 <= v)%Q) ->
  let a := if Qltb 1 (Qsum a0) then map (fun v => v / Qsum a0)%Q a0 else a0 in
  length a = length a0 /\ (forall v, In v a -> (0 <= v)%Q) /\ (Qsum a <= 1)%Q.
Proof.
  intros Hp a. unfold a, Qltb. destruct (Qle_bool (Qsum a0) 1) eqn:E; cbn [negb].
  - apply Qle_bool_iff in E. auto.
  - assert (1 < Qsum a0)%Q as H1.
    { apply Qnot_le_lt. intros C. apply Qle_bool_iff in C. congruence. }
    split; [apply map_length|]. split.
    + intros v Hv. apply in_map_iff in Hv. destruct Hv as [w [<- Hw]].
      apply Qle_shift_div_l; [lra|]. rewrite Qmult_0_l. apply Hp; auto.
    + rewrite Qsum_scale. apply Qle_shift_div_r; [lra|]. lra.
Qed.

Lemma mk_kdist_dist x alpha beta a0 : (forall v, In v a0 -> (0 <= v)%Q) ->
  nbinom_sane x alpha beta -> is_distribution (kd_pmf (mk_kdist x alpha beta a0)).
Proof.
  intros Ha [B0 B1]. pose proof (scaled_a a0 Ha) as G. cbv zeta in G.
  unfold mk_kdist. set (a := if Qltb 1 (Qsum a0) then _ else a0) in *. destruct G as [_ [G1 G2]].
  cbn [kd_pmf].
  set (n := length a). set (F := gx_frequencies x).
  set (t := Qsum (map _ (py_range 1 _))). set (u := map _ (py_range _ F)).
  assert (t == total n (fun k => gx_nbinom x (Z.of_nat k) alpha (1 / (1 + beta))))%Q as Et.
  { unfold t. pose proof (pmf_range x alpha beta 0 n) as P. cbn [Z.of_nat] in P.
    replace (0 + 1 + Z.of_nat n) with (Z.of_nat n + 1) in P by lia. exact P. }
  assert (forall v, In v u -> 0 <= v)%Q as Hu.
  { intros v Hv. apply in_map_iff in Hv. destruct Hv as [i [<- Hi]]. unfold py_range in Hi.
    apply in_map_iff in Hi. destruct Hi as [j [<- _]]. unfold gamma_poisson_pmf.
    replace (Z.of_nat n + 1 + Z.of_nat j - 1) with (Z.of_nat (n + j)) by lia. apply B0. }
  assert (Qsum u <= 1 - t)%Q as Hut.
  { destruct (Z_lt_le_dec F (Z.of_nat n + 1)).
    - unfold u, py_range. replace (Z.to_nat _) with O by lia. simpl. rewrite Et. specialize (B1 n). lra.
    - unfold u. replace F with (Z.of_nat n + 1 + Z.of_nat (Z.to_nat (F - (Z.of_nat n + 1)))) by lia.
      rewrite pmf_range, Et. specialize (B1 (n + Z.to_nat (F - (Z.of_nat n + 1)))%nat).
      rewrite total_app in B1. lra. }
  pose proof (Qsum_nonneg a G1) as Ga.
  apply force_sum_dist.
  - discriminate.
  - intros v Hv. cbn [app] in Hv. destruct Hv as [<-|Hv]; [lra|]. apply in_app_iff in Hv. destruct Hv as [Hv|Hv]; auto.
    unfold Qleb in Hv. destruct (Qle_bool 1 t) eqn:E; apply in_map_iff in Hv; destruct Hv as [w [<- Hw]].
    + rewrite Qmult_0_l. lra.
    + assert (t < 1)%Q as Ht by (apply Qnot_le_lt; intros C; apply Qle_bool_iff in C; congruence).
      specialize (Hu w Hw). apply Qmult_le_0_compat; auto.
      apply Qle_shift_div_l; lra.
  - cbn [app Qsum]. rewrite Qsum_app. unfold Qleb. destruct (Qle_bool 1 t) eqn:E.
    + rewrite Qsum_mult. lra.
    + assert (t < 1)%Q as Ht by (apply Qnot_le_lt; intros C; apply Qle_bool_iff in C; congruence).
      rewrite Qsum_mult.
      assert ((1 - Qsum a) / (1 - t) * Qsum u <= (1 - Qsum a) / (1 - t) * (1 - t))%Q as X.
      { rewrite !(Qmult_comm ((1 - Qsum a) / (1 - t))). apply Qmult_le_compat_r; auto. apply Qle_shift_div_l; lra. }
      assert ((1 - Qsum a) / (1 - t) * (1 - t) == 1 - Qsum a)%Q as Y by (field; lra).
      lra.
Qed.

Lemma removelast_length {A} (l : list A) : length (removelast l) = pred (length l).
Proof.
  destruct l as [|w l]; [reflexivity|].
  pose proof (app_removelast_last w (l := w :: l) ltac:(discriminate)) as E.
  apply (f_equal (@length A)) in E. rewrite app_length in E. simpl length in *. lia.
Qed.

Lemma force_sum_nth l i : (S i < length l)%nat -> nth i (force_sum l) 0%Q = nth i l 0%Q.
Proof.
  intros H. unfold force_sum. assert (l <> []) as Hne by (destruct l; [simpl in H; lia|discriminate]).
  pose proof (removelast_length l) as HL.
  rewrite app_nth1 by lia. transitivity (nth i (removelast l ++ [last l 0%Q]) 0%Q).
  - rewrite app_nth1 by lia. reflexivity.
  - rewrite <- (app_removelast_last 0%Q Hne). reflexivity.
Qed.

Lemma force_sum_length l : l <> [] -> length (force_sum l) = length l.
Proof.
  intros H. unfold force_sum. rewrite app_length, removelast_length. destruct l; [congruence|]. simpl. lia.
Qed.
