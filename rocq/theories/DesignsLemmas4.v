(** Latin hypercube and cartesian designs. *)
From Coq Require Import String Ascii Qround Permutation Lqa.
From Verif Require Import Prelude ModelReachPoint ModelData DataLemmas ModelFiles SpecFiles ModelGenerators SpecGenerators
  ModelDriver SpecDriver DriverLemmas4 DriverLemmas5 ModelDesigns SpecDesigns DesignsLemmas DesignsLemmas2.
Open Scope Z_scope.

(** ** One level *)

Definition index_of (k : nat) (q : Q) : nat := Z.to_nat (Qfloor (q * inject_Z (Z.of_nat k))).

Lemma index_bounds k q : (0 <= q < 1)%Q -> (0 < k)%nat ->
  0 <= Qfloor (q * inject_Z (Z.of_nat k)) < Z.of_nat k.
Proof.
  intros [H0 H1] Hk.
  assert (HK : (0 < inject_Z (Z.of_nat k))%Q) by (change 0%Q with (inject_Z 0); rewrite <- Zlt_Qlt; lia).
  pose proof (Qfloor_le (q * inject_Z (Z.of_nat k))) as A. pose proof (Qlt_floor (q * inject_Z (Z.of_nat k))) as B.
  split.
  - change 0 with (Qfloor 0). apply Qfloor_resp_le. apply Qmult_le_0_compat; lra.
  - rewrite Zlt_Qlt. apply Qle_lt_trans with (1 := A).
    setoid_replace (inject_Z (Z.of_nat k))%Q with (1 * inject_Z (Z.of_nat k))%Q at 2 by ring.
    apply Qmult_lt_r; assumption.
Qed.

Lemma trunc_floor q : (0 <= q)%Q -> py_trunc q = Qfloor q.
Proof. intros H. unfold py_trunc. apply Qle_bool_iff in H. rewrite H. reflexivity. Qed.

Lemma pick_ok {A} (l : list A) q : l <> [] -> (0 <= q < 1)%Q ->
  exists v, pick l q = Ok v /\ nth_error l (index_of (length l) q) = Some v /\ chosen l q v.
Proof.
  intros NE Hq. assert (Hl : (0 < length l)%nat) by (destruct l; [congruence|cbn; lia]).
  pose proof (index_bounds (length l) q Hq Hl) as B. unfold pick.
  assert (HK : (0 <= inject_Z (Z.of_nat (length l)))%Q) by (change 0%Q with (inject_Z 0); rewrite <- Zle_Qle; lia).
  rewrite trunc_floor by (apply Qmult_le_0_compat; lra).
  unfold index_of. set (z := Qfloor (q * inject_Z (Z.of_nat (length l)))) in *.
  destruct (nth_error l (Z.to_nat z)) as [v|] eqn:E; [|apply nth_error_None in E; lia].
  exists v. split; [|split; [reflexivity|]].
  - unfold py_index. assert ((z <? 0) = false) as -> by lia.
    assert ((0 <=? z) && (z <? Z.of_nat (length l)) = true) as -> by lia. rewrite E. reflexivity.
  - exists (Z.to_nat z). split; [exact E|]. rewrite Z2Nat.id by lia.
    split; [apply Qfloor_le|]. apply Qlt_floor.
Qed.

Lemma point_nth s k : point s -> (k < 6)%nat -> exists q, nth_error s k = Some q /\ nth k s 0%Q = q /\ (0 <= q < 1)%Q.
Proof.
  intros [L Fo] Hk. destruct (nth_error s k) as [q|] eqn:E; [|apply nth_error_None in E; lia].
  exists q. split; [reflexivity|]. split; [apply nth_error_nth; exact E|].
  rewrite Forall_forall in Fo. apply Fo. eapply nth_error_In. exact E.
Qed.

Lemma pick_or_ok {A} (l : list A) s k d : l <> [] -> point s -> (k < 6)%nat ->
  exists v, pick_or l s k d = Ok v /\ nth_error l (index_of (length l) (nth k s 0%Q)) = Some v /\ chosen l (nth k s 0%Q) v.
Proof.
  intros NE P Hk. destruct (point_nth s k P Hk) as [q [E1 [E2 Hq]]]. unfold pick_or. rewrite E1, E2. apply pick_ok; assumption.
Qed.

(** The position of the level that a point stands for. *)
Record levels_at (L : levels) (s : list Q) (p : set_parameters) : Prop := {
  la_num : nth_error (lv_num_publishers L) (index_of (length (lv_num_publishers L)) (nth 0 s 0%Q)) = Some (fp_num_publishers p);
  la_largest : nth_error (lv_largest L) (index_of (length (lv_largest L)) (nth 1 s 0%Q)) = Some (fp_largest p);
  la_ratio : nth_error (lv_ratio L) (index_of (length (lv_ratio L)) (nth 2 s 0%Q)) = Some (fp_ratio p);
  la_pricing : nth_error (lv_pricing L) (index_of (length (lv_pricing L)) (nth 3 s 0%Q)) = Some (fp_pricing p);
  la_impressions : nth_error (lv_impressions L) (index_of (length (lv_impressions L)) (nth 4 s 0%Q)) = Some (fp_impressions p);
  la_overlap : nth_error (lv_overlap L) (index_of (length (lv_overlap L)) (nth 5 s 0%Q)) = Some (fp_overlap p) }.

Lemma lhs_set_ok L i s : has_levels L -> point s ->
  exists p, lhs_set L (Z.of_nat i) s = Ok p /\ from_levels L i s p /\ levels_at L s p.
Proof.
  intros [N0 [N1 [N2 [N3 [N4 N5]]]]] P. unfold lhs_set.
  destruct (pick_or_ok _ s 0 default_num_publishers N0 P ltac:(lia)) as [v0 [-> [A0 B0]]].
  destruct (pick_or_ok _ s 1 default_largest N1 P ltac:(lia)) as [v1 [-> [A1 B1]]].
  destruct (pick_or_ok _ s 2 default_ratio N2 P ltac:(lia)) as [v2 [-> [A2 B2]]].
  destruct (pick_or_ok _ s 3 default_pricing N3 P ltac:(lia)) as [v3 [-> [A3 B3]]].
  destruct (pick_or_ok _ s 4 default_impressions N4 P ltac:(lia)) as [v4 [-> [A4 B4]]].
  destruct (pick_or_ok _ s 5 default_overlap N5 P ltac:(lia)) as [v5 [-> [A5 B5]]].
  cbn [bind]. eexists. split; [reflexivity|]. split; [|constructor; assumption].
  unfold from_levels. cbn [fp_name fp_id fp_num_publishers fp_largest fp_ratio fp_pricing fp_impressions fp_overlap].
  repeat (split; [first [reflexivity|assumption]|]). assumption.
Qed.

(** ** All samples *)

Lemma enumerate_map {A B} (f : Z -> A -> B) (g : nat -> A -> B) l : forall i,
  (forall k a, f (Z.of_nat k) a = g k a) ->
  map (fun ix => f (fst ix) (snd ix)) (enumerate_from (Z.of_nat i) l) =
  map (fun ix => g (fst ix) (snd ix)) (combine (seq i (length l)) l).
Proof.
  induction l as [|a l IH]; intros i H; [reflexivity|]. cbn [enumerate_from length seq combine map fst snd].
  rewrite H. f_equal. replace (Z.of_nat i + 1) with (Z.of_nat (S i)) by lia. apply IH. exact H.
Qed.

Lemma collect {A B} (f : Z -> A -> result B) (R : nat -> A -> B -> Prop) l : forall i,
  (forall k a, In a l -> exists b, f (Z.of_nat k) a = Ok b /\ R k a b) ->
  exists bs, map (fun ix => f (fst ix) (snd ix)) (enumerate_from (Z.of_nat i) l) = map Ok bs /\
    length bs = length l /\ forall k a b, nth_error l k = Some a -> nth_error bs k = Some b -> R (i + k)%nat a b.
Proof.
  induction l as [|a l IH]; intros i H.
  - exists []. split; [reflexivity|]. split; [reflexivity|]. intros [|k]; discriminate.
  - destruct (H i a (or_introl eq_refl)) as [b [E1 E2]].
    destruct (IH (S i)) as [bs [F1 [F2 F3]]]; [intros k a' I; apply H; right; exact I|].
    exists (b :: bs). split; [|split].
    + cbn [enumerate_from map fst snd]. rewrite E1. f_equal. replace (Z.of_nat i + 1) with (Z.of_nat (S i)) by lia. exact F1.
    + cbn [length]. congruence.
    + intros [|k] a' b' Ha Hb; cbn [nth_error] in Ha, Hb.
      * inversion Ha; inversion Hb; subst. rewrite Nat.add_0_r. exact E2.
      * rewrite Nat.add_succ_r. apply (F3 k a' b' Ha Hb).
Qed.

Lemma m3_universe_ok p : has_universe_ratio (fp_overlap p) -> 0 <= fp_largest p ->
  exists p', m3_universe p = Ok p' /\ with_universe p p'.
Proof.
  intros H HN. unfold m3_universe. destruct (String.eqb_spec (gn_name (fp_overlap p)) "Independent") as [E|E].
  - destruct (H E) as [ND [[r [Ir Pr]] G]]. unfold key_get. rewrite (kw_get_in _ _ _ ND Ir). cbn [bind as_float].
    assert (Qeq_bool (number_Q r) 0 = false) as ->.
    { destruct (Qeq_bool (number_Q r) 0) eqn:Eb; [|reflexivity]. apply Qeq_bool_iff in Eb. lra. }
    cbn [bind]. destruct (kw_get_key _ _ G) as [g Eg]. rewrite Eg. cbn [bind].
    eexists. split; [reflexivity|]. unfold with_universe.
    cbn [fp_name fp_id fp_num_publishers fp_largest fp_ratio fp_pricing fp_impressions fp_overlap gn_name gn_class gn_params].
    repeat (split; [reflexivity|]). split; [intros X; congruence|]. intros _.
    exists r, g, (py_trunc (inject_Z (fp_largest p) / number_Q r)).
    split; [exact Ir|]. split; [apply kw_get_some; exact Eg|]. split; [exact E|]. split; [reflexivity|]. split; [reflexivity|].
    assert (HN' : (0 <= inject_Z (fp_largest p))%Q) by (change 0%Q with (inject_Z 0); rewrite <- Zle_Qle; lia).
    assert (HD : (0 <= inject_Z (fp_largest p) / number_Q r)%Q).
    { apply Qle_shift_div_l; [exact Pr|]. lra. }
    rewrite trunc_floor by exact HD.
    pose proof (Qfloor_le (inject_Z (fp_largest p) / number_Q r)) as A.
    pose proof (Qlt_floor (inject_Z (fp_largest p) / number_Q r)) as B.
    assert (C : (inject_Z (fp_largest p) == inject_Z (fp_largest p) / number_Q r * number_Q r)%Q) by (field; lra).
    set (d := (inject_Z (fp_largest p) / number_Q r)%Q) in *. split.
    + apply Qle_trans with (d * number_Q r)%Q; [apply Qmult_le_compat_r; [exact A|lra]|lra].
    + apply Qle_lt_trans with (d * number_Q r)%Q; [lra|]. apply Qmult_lt_r; [exact Pr|exact B].
  - eexists. split; [reflexivity|]. unfold with_universe. repeat (split; [reflexivity|]). intros X; congruence.
Qed.

(** ** Shares *)

Lemma filter_seq_upper (f : nat -> bool) a b n : (forall t, f t = true -> (a <= t < b)%nat) ->
  (length (filter f (seq 0 n)) <= b - a)%nat.
Proof.
  intros H. assert (I : incl (filter f (seq 0 n)) (seq a (b - a))).
  { intros t It. apply filter_In in It. destruct It as [_ It]. apply H in It. apply in_seq. lia. }
  pose proof (NoDup_incl_length (NoDup_filter f (seq_NoDup n 0)) I) as X. rewrite seq_length in X. exact X.
Qed.
Lemma filter_seq_lower (f : nat -> bool) a b n : (b <= n)%nat -> (forall t, (a <= t < b)%nat -> f t = true) ->
  (b - a <= length (filter f (seq 0 n)))%nat.
Proof.
  intros Hb H. assert (I : incl (seq a (b - a)) (filter f (seq 0 n))).
  { intros t It. apply in_seq in It. apply filter_In. split; [apply in_seq; lia|apply H; lia]. }
  pose proof (NoDup_incl_length (seq_NoDup (b - a) a) I) as X. rewrite seq_length in X. exact X.
Qed.

Lemma count_occ_filter k l : count_occ Nat.eq_dec l k = length (filter (Nat.eqb k) l).
Proof.
  induction l as [|x l IH]; [reflexivity|]. cbn [count_occ filter].
  destruct (Nat.eq_dec x k) as [->|E]; [rewrite Nat.eqb_refl; cbn [length]; congruence|].
  destruct (Nat.eqb_spec k x); [congruence|exact IH].
Qed.
Lemma filter_map_length {A B} (f : A -> B) (g : B -> bool) l : length (filter g (map f l)) = length (filter (fun a => g (f a)) l).
Proof. induction l as [|x l IH]; [reflexivity|]. cbn [map filter]. destruct (g (f x)); cbn [length]; congruence. Qed.
Lemma filter_le {A} (f g : A -> bool) l : (forall x, In x l -> f x = true -> g x = true) ->
  (length (filter f l) <= length (filter g l))%nat.
Proof.
  induction l as [|x l IH]; intros H; [cbn; lia|]. cbn [filter].
  specialize (IH (fun y I => H y (or_intror I))). pose proof (H x (or_introl eq_refl)) as Hx.
  destruct (f x); [rewrite (Hx eq_refl); cbn [length]; lia|]. destruct (g x); cbn [length]; lia.
Qed.
Lemma filter_perm {A} (f : A -> bool) l l' : Permutation l l' -> length (filter f l) = length (filter f l').
Proof.
  intros P. induction P as [|x l l' P IH|x y l|l l' l2 P IH P' IH']; cbn [filter]; try congruence.
  - destruct (f x); cbn [length]; congruence.
  - destruct (f x), (f y); reflexivity.
Qed.

(** In which of [n] and of [k] equal parts a number falls. *)
Lemma parts_meet q n k : (0 <= q < 1)%Q -> (0 < n)%nat -> (0 < k)%nat ->
  (index_of n q * k < (index_of k q + 1) * n)%nat /\ (index_of k q * n < (index_of n q + 1) * k)%nat.
Proof.
  intros Hq Hn Hk. pose proof (index_bounds n q Hq Hn) as Bn. pose proof (index_bounds k q Hq Hk) as Bk.
  unfold index_of. pose proof (Qfloor_le (q * inject_Z (Z.of_nat n))) as An. pose proof (Qlt_floor (q * inject_Z (Z.of_nat n))) as Cn.
  pose proof (Qfloor_le (q * inject_Z (Z.of_nat k))) as Ak. pose proof (Qlt_floor (q * inject_Z (Z.of_nat k))) as Ck.
  set (t := Qfloor (q * inject_Z (Z.of_nat n))) in *. set (u := Qfloor (q * inject_Z (Z.of_nat k))) in *.
  assert (Pn : (0 < inject_Z (Z.of_nat n))%Q) by (change 0%Q with (inject_Z 0); rewrite <- Zlt_Qlt; lia).
  assert (Pk : (0 < inject_Z (Z.of_nat k))%Q) by (change 0%Q with (inject_Z 0); rewrite <- Zlt_Qlt; lia).
  assert (X : t * Z.of_nat k < (u + 1) * Z.of_nat n /\ u * Z.of_nat n < (t + 1) * Z.of_nat k).
  { split; rewrite Zlt_Qlt, !inject_Z_mult.
    - apply Qle_lt_trans with ((q * inject_Z (Z.of_nat n)) * inject_Z (Z.of_nat k))%Q; [apply Qmult_le_compat_r; lra|].
      setoid_replace (q * inject_Z (Z.of_nat n) * inject_Z (Z.of_nat k))%Q with ((q * inject_Z (Z.of_nat k)) * inject_Z (Z.of_nat n))%Q by ring.
      apply Qmult_lt_r; assumption.
    - apply Qle_lt_trans with ((q * inject_Z (Z.of_nat k)) * inject_Z (Z.of_nat n))%Q; [apply Qmult_le_compat_r; lra|].
      setoid_replace (q * inject_Z (Z.of_nat k) * inject_Z (Z.of_nat n))%Q with ((q * inject_Z (Z.of_nat n)) * inject_Z (Z.of_nat k))%Q by ring.
      apply Qmult_lt_r; assumption. }
  split; nia.
Qed.

Lemma shares samples j k i : latin samples -> (j < 6)%nat -> (i < k)%nat ->
  even_share (length samples) k (count_occ Nat.eq_dec (map (fun s => index_of k (nth j s 0%Q)) samples) i).
Proof.
  intros [Pt La] Hj Hi. set (n := length samples) in *. specialize (La j Hj).
  destruct (Nat.eq_dec n 0) as [E0|E0].
  { destruct samples; [|unfold n in E0; discriminate]. cbn [map count_occ]. rewrite E0. unfold even_share.
    repeat split; [lia|lia|]. intros _. lia. }
  set (strata := map (fun s => index_of n (nth j s 0%Q)) samples).
  assert (Ps : Permutation strata (seq 0 n)).
  { apply (Permutation_map Z.to_nat) in La. rewrite !map_map in La.
    rewrite (map_ext (fun x => Z.to_nat (Z.of_nat x)) (fun x => x)) in La by (intros; apply Nat2Z.id).
    rewrite map_id in La. exact La. }
  assert (Meet : forall s, In s samples ->
    (index_of n (nth j s 0%Q) * k < (index_of k (nth j s 0%Q) + 1) * n)%nat /\
    (index_of k (nth j s 0%Q) * n < (index_of n (nth j s 0%Q) + 1) * k)%nat).
  { intros s Is. rewrite Forall_forall in Pt. destruct (point_nth s j (Pt s Is) Hj) as [q [_ [-> Hq]]].
    apply parts_meet; [exact Hq|lia|lia]. }
  rewrite count_occ_filter, filter_map_length.
  set (c := length (filter (fun s => (i =? index_of k (nth j s 0%Q))%nat) samples)).
  (* bounds *)
  set (lo := (i * n / k)%nat). set (hi := (((i + 1) * n + (k - 1)) / k)%nat).
  set (lo' := ((i * n + (k - 1)) / k)%nat). set (hi' := ((i + 1) * n / k)%nat).
  assert (U : (c <= hi - lo)%nat).
  { apply Nat.le_trans with (length (filter (fun t => ((t * k <? (i + 1) * n) && (i * n <? (t + 1) * k))%nat) strata)).
    - unfold strata. rewrite filter_map_length. apply filter_le. intros s Is Eq. apply Nat.eqb_eq in Eq.
      destruct (Meet s Is) as [M1 M2]. rewrite <- Eq in M1, M2. apply andb_true_iff. split; apply Nat.ltb_lt; assumption.
    - rewrite (filter_perm _ _ _ Ps). apply filter_seq_upper. intros t Ht. apply andb_true_iff in Ht.
      destruct Ht as [H1 H2]. apply Nat.ltb_lt in H1, H2. unfold lo, hi. split.
      + apply Nat.lt_succ_r. apply Nat.div_lt_upper_bound; lia.
      + apply Nat.lt_le_trans with (S t); [lia|]. apply Nat.div_le_lower_bound; nia. }
  assert (Lw : (hi' - lo' <= c)%nat).
  { apply Nat.le_trans with (length (filter (fun t => ((i * n <=? t * k) && ((t + 1) * k <=? (i + 1) * n))%nat) strata)).
    - rewrite (filter_perm _ _ _ Ps). apply filter_seq_lower.
      + unfold hi'. apply Nat.div_le_upper_bound; nia.
      + intros t Ht. unfold lo', hi' in Ht.
        pose proof (Nat.mul_div_le ((i + 1) * n) k ltac:(lia)) as D1.
        pose proof (Nat.mul_succ_div_gt (i * n + (k - 1)) k ltac:(lia)) as D2.
        apply andb_true_iff. split; apply Nat.leb_le; nia.
    - unfold strata. rewrite filter_map_length. apply filter_le. intros s Is Eq. apply andb_true_iff in Eq.
      destruct Eq as [H1 H2]. apply Nat.leb_le in H1, H2. destruct (Meet s Is) as [M1 M2].
      apply Nat.eqb_eq. nia. }
  pose proof (Nat.mul_div_le (i * n) k ltac:(lia)) as A1. pose proof (Nat.mul_succ_div_gt (i * n) k ltac:(lia)) as A2.
  pose proof (Nat.mul_div_le ((i + 1) * n + (k - 1)) k ltac:(lia)) as A3.
  pose proof (Nat.mul_div_le (i * n + (k - 1)) k ltac:(lia)) as A4.
  pose proof (Nat.mul_succ_div_gt ((i + 1) * n) k ltac:(lia)) as A5.
  fold lo in A1, A2. fold hi in A3. fold lo' in A4. fold hi' in A5.
  unfold even_share. split; [nia|]. split; [nia|].
  intros [m Em]. assert (lo = (i * m)%nat) by (unfold lo; rewrite Em, Nat.mul_assoc; apply Nat.div_mul; lia).
  assert (hi' = ((i + 1) * m)%nat) by (unfold hi'; rewrite Em, Nat.mul_assoc; apply Nat.div_mul; lia).
  assert (lo' = (i * m)%nat).
  { unfold lo'. rewrite Em, Nat.mul_assoc, Nat.div_add_l by lia. rewrite Nat.div_small by lia. lia. }
  assert (hi = ((i + 1) * m)%nat).
  { unfold hi. rewrite Em, Nat.mul_assoc, Nat.div_add_l by lia. rewrite Nat.div_small by lia. lia. }
  nia.
Qed.
