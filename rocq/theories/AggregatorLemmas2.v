(** The row of metrics in closed form, over the list of pairs of points. *)
From Coq Require Import String Permutation Sorted Lqa Qround.
From Verif Require Import Prelude ModelReachPoint ModelAggregator SpecSurface SpecAggregator
  ReachPointLemmas SurfaceLemmas GammaLemmas GammaLemmas2 AggregatorLemmas TestPointsLemmas.
Open Scope Z_scope.

Section Rows.
Context {I : Type}.
Notation point := (reach_point I Q).

Definition rk (k : Z) (p : point) : Q := nth (Z.to_nat (k - 1)) (rp_kplus p) 0%Q.
Definition err (k : Z) (p : point * point) : Q := (rk k (fst p) - rk k (snd p))%Q.
Definition rel (k : Z) (p : point * point) : stat := np_div (Qabs' (err k p)) (rk k (fst p)).
Definition short (k : Z) (p : point * point) : bool :=
  (max_frequency (fst p) <? k) || (max_frequency (snd p) <? k).
Definition sd (a b : point) : Q := match shuffle_distance a b 5 with Ok v => v | Err _ => 0%Q end.
Definition sdp (p : point * point) : Q := sd (fst p) (snd p).
Definition qstat (l : list stat) (q : Q) : stat :=
  match finite l with None => NotFinite | Some qs => Num (quantile_of qs q) end.
Definition mare_of (pairs : list (point * point)) (k : Z) : stat :=
  if existsb (short k) pairs then NotFinite else np_mean (map (rel k) pairs).

Definition row_of (pairs : list (point * point)) : list (string * cell) :=
  [("model_succeeded", CInt 1); ("model_exception", CText "None");
   ("npoints", CInt (Z.of_nat (length pairs)));
   ("mean_error", CStat (np_mean (map Num (map (err 1) pairs))));
   ("mean_abs_error", CStat (np_mean (map Num (map Qabs' (map (err 1) pairs)))));
   ("mean_squared_error", CStat (np_mean (map Num (map square (map (err 1) pairs)))));
   ("mean_abs_relative_error", CStat (mare_of pairs 1));
   ("mare_freq_at_least_2", CStat (mare_of pairs 2));
   ("mare_freq_at_least_3", CStat (mare_of pairs 3));
   ("mare_freq_at_least_4", CStat (mare_of pairs 4));
   ("mare_freq_at_least_5", CStat (mare_of pairs 5));
   ("mare_freq_at_least_6", CStat (mare_of pairs 6));
   ("mare_freq_at_least_7", CStat (mare_of pairs 7));
   ("mare_freq_at_least_8", CStat (mare_of pairs 8));
   ("mare_freq_at_least_9", CStat (mare_of pairs 9));
   ("mean_squared_relative_error",
     CStat (np_mean (map (fun p => np_div (square (err 1 p)) (square (rk 1 (fst p)))) pairs)));
   ("var_error", CStat (np_var (map Num (map (err 1) pairs))));
   ("var_relative_error", CStat (np_var (map (fun p => np_div (err 1 p) (rk 1 (fst p))) pairs)));
   ("relative_error_q10", CStat (qstat (map (rel 1) pairs) (10 # 100)));
   ("relative_error_q20", CStat (qstat (map (rel 1) pairs) (20 # 100)));
   ("relative_error_q30", CStat (qstat (map (rel 1) pairs) (30 # 100)));
   ("relative_error_q40", CStat (qstat (map (rel 1) pairs) (40 # 100)));
   ("relative_error_q50", CStat (qstat (map (rel 1) pairs) (50 # 100)));
   ("relative_error_q60", CStat (qstat (map (rel 1) pairs) (60 # 100)));
   ("relative_error_q70", CStat (qstat (map (rel 1) pairs) (70 # 100)));
   ("relative_error_q80", CStat (qstat (map (rel 1) pairs) (80 # 100)));
   ("relative_error_q90", CStat (qstat (map (rel 1) pairs) (90 # 100)));
   ("mean_shuffle_distance", CStat (np_mean (map Num (map sdp pairs))));
   ("mean_squared_shuffle_distance", CStat (np_mean (map Num (map square (map sdp pairs)))));
   ("var_shuffle_distance", CStat (np_var (map Num (map sdp pairs))))]%string.

Lemma reach_rk (p : point) k : 0 < k -> k <= max_frequency p -> reach p k = Ok (rk k p).
Proof.
  intros H1 H2. unfold reach.
  replace (0 <? k) with true by (symmetry; apply Z.ltb_lt; lia).
  replace (k <=? max_frequency p) with true by (symmetry; apply Z.leb_le; lia). cbn [andb].
  unfold max_frequency in H2. replace (k - 1) with (Z.of_nat (Z.to_nat (k - 1))) by lia.
  rewrite (py_index_at _ _ 0%Q) by lia. unfold rk. reflexivity.
Qed.

Lemma reach_array_ok (x : list point) k : 0 < k -> (forall p, In p x -> k <= max_frequency p) ->
  reach_array x k = Ok (map (rk k) x).
Proof. intros H1 H2. apply mapM_ok_all. intros p Hp. apply reach_rk; auto. Qed.

Lemma zip_combine {A B A' B' C} (f : A' -> B' -> C) (g : A -> A') (h : B -> B') x y :
  length x = length y ->
  np_zip f (map g x) (map h y) = Ok (map (fun p => f (g (fst p)) (h (snd p))) (combine x y)).
Proof.
  intros H. unfold np_zip. rewrite !map_length, H, Nat.eqb_refl. f_equal. revert y H.
  induction x as [|a x IH]; intros [|b y] H; cbn in H; try discriminate; [reflexivity|].
  cbn [map combine]. f_equal. apply IH. lia.
Qed.

Lemma zip_pairs {A B A' B' C} (f : A' -> B' -> C) (g : A * B -> A') (h : A -> B') x (y : list B) :
  length x = length y ->
  np_zip f (map g (combine x y)) (map h x) = Ok (map (fun p => f (g p) (h (fst p))) (combine x y)).
Proof.
  intros H. unfold np_zip. rewrite !map_length, combine_length, H, Nat.min_id, Nat.eqb_refl. f_equal.
  revert y H. induction x as [|a x IH]; intros [|b y] H; cbn in H; try discriminate; [reflexivity|].
  cbn [map combine]. f_equal. apply IH. lia.
Qed.

Lemma diffs_at_index (p : point) i : rp_frequencies p = diffs Qops (rp_kplus p) ->
  0 <= i -> i + 1 < max_frequency p -> exists v, frequency p (i + 1) = Ok v.
Proof.
  intros Hf H1 H2. unfold frequency.
  replace (0 <? i + 1) with true by (symmetry; apply Z.ltb_lt; lia).
  replace (i + 1 <? max_frequency p) with true by (symmetry; apply Z.ltb_lt; lia). cbn [andb].
  unfold max_frequency in H2. replace (i + 1 - 1) with (Z.of_nat (Z.to_nat i)) by lia.
  exists (nth (Z.to_nat i) (rp_frequencies p) 0%Q). apply py_index_at. rewrite Hf, diffs_length. lia.
Qed.

Lemma constructed_freq (p : point) : constructed p -> rp_frequencies p = diffs Qops (rp_kplus p).
Proof.
  intros [i [k [s [u H]]]]. unfold mk_reach_point in H.
  destruct (match match s with Some [] => None | _ => s end with
            | Some s0 => negb (length i =? length s0)%nat | None => false end); [discriminate|].
  inversion H. reflexivity.
Qed.

(** The first five frequencies of a constructed point with more than five. *)
Lemma five_frequencies (p : point) : constructed p -> 5 < max_frequency p ->
  mapM (fun i => frequency p (i + 1)) (py_range 0 5) =
  Ok (map (fun i => nth i (rp_kplus p) 0 - nth (i + 1) (rp_kplus p) 0)%Q (seq 0 5)).
Proof.
  intros Hc Hm. change (py_range 0 5) with (map (fun i => Z.of_nat i) (seq 0 5)).
  assert (G : forall l, (forall i, In i l -> (i < 5)%nat) ->
    mapM (fun i => frequency p (i + 1)) (map (fun i => Z.of_nat i) l) =
    Ok (map (fun i => nth i (rp_kplus p) 0 - nth (i + 1) (rp_kplus p) 0)%Q l)).
  { induction l as [|i l IH]; intros H; [reflexivity|]. cbn [map mapM].
    pose proof (H i (or_introl eq_refl)) as Hi.
    rewrite IH by (intros; apply H; right; assumption). unfold frequency.
    replace (0 <? Z.of_nat i + 1) with true by (symmetry; apply Z.ltb_lt; lia).
    replace (Z.of_nat i + 1 <? max_frequency p) with true by (symmetry; apply Z.ltb_lt; lia). cbn [andb].
    replace (Z.of_nat i + 1 - 1) with (Z.of_nat i) by lia. unfold max_frequency in Hm.
    rewrite (constructed_freq p Hc). rewrite (py_index_at _ i 0%Q) by (rewrite diffs_length; lia).
    cbn [bind]. do 2 f_equal.
    assert (X : nth_error (diffs Qops (rp_kplus p)) i = Some (nth i (rp_kplus p) 0 - nth (i + 1) (rp_kplus p) 0)%Q).
    { apply (diffs_nth Qops).
      - apply nth_error_nth'. lia.
      - replace (S i) with (i + 1)%nat by lia. apply nth_error_nth'. lia. }
    apply (nth_error_nth _ _ 0%Q) in X. exact X. }
  apply G. intros i Hi. apply in_seq in Hi. lia.
Qed.

Lemma shuffle_ok (a b : point) : constructed a -> constructed b -> shuffle_distance a b 5 = Ok (sd a b).
Proof.
  intros Ha Hb. unfold sd. enough (exists v, shuffle_distance a b 5 = Ok v) as [v ->] by reflexivity.
  unfold shuffle_distance. destruct (Z.leb_spec (max_frequency a) 5); cbn [orb]; [eauto|].
  destruct (Z.leb_spec (max_frequency b) 5); [eauto|].
  rewrite !five_frequencies by assumption. cbn [bind].
  destruct (Qeqb _ 0 || Qeqb _ 0); [eauto|]. unfold np_zip. rewrite !map_length, Nat.eqb_refl. cbn [bind]. eauto.
Qed.

Lemma shuffle_distances_ok (x y : list point) : length x = length y ->
  (forall p, In p x -> constructed p) -> (forall p, In p y -> constructed p) ->
  shuffle_distances x y = Ok (map sdp (combine x y)).
Proof.
  intros El Hx Hy. unfold shuffle_distances.
  replace (length x) with (length (combine x y)) by (rewrite combine_length; lia).
  apply (mapM_index _ sdp (combine x y)). intros i [a b] H.
  assert (Ha : nth_error x i = Some a /\ nth_error y i = Some b).
  { clear -H El. revert y i El H. induction x as [|c x IH]; intros [|e y] i El H; cbn in El; try discriminate.
    - destruct i; discriminate.
    - destruct i; cbn in H |- *; [inversion H; auto|]. apply IH; auto. }
  destruct Ha as [Ha Hb]. rewrite !py_index_nonneg by lia. rewrite Nat2Z.id, Ha, Hb. cbn [bind].
  apply shuffle_ok; [apply Hx|apply Hy]; eapply nth_error_In; eauto.
Qed.

Lemma mare_ok (x y : list point) k : length x = length y -> 0 < k ->
  mean_abs_relative_error x y k = Ok (mare_of (combine x y) k).
Proof.
  intros El Hk. unfold mean_abs_relative_error, mare_of.
  assert (Ex : existsb (short k) (combine x y) =
    existsb (fun p => max_frequency p <? k) x || existsb (fun p => max_frequency p <? k) y).
  { clear -El. revert y El. induction x as [|a x IH]; intros [|b y] El; cbn in El; try discriminate; [reflexivity|].
    cbn [combine existsb]. rewrite IH by lia. unfold short. cbn [fst snd].
    destruct (max_frequency a <? k), (max_frequency b <? k), (existsb (fun p => max_frequency p <? k) x); reflexivity. }
  rewrite Ex. destruct (existsb (fun p => max_frequency p <? k) x) eqn:E1; [reflexivity|].
  destruct (existsb (fun p => max_frequency p <? k) y) eqn:E2; [reflexivity|]. cbn [orb].
  assert (Long : forall l, existsb (fun p : point => max_frequency p <? k) l = false ->
    forall p, In p l -> k <= max_frequency p).
  { intros l E p Hp. destruct (Z.ltb_spec (max_frequency p) k); [|assumption]. exfalso.
    assert (X : existsb (fun p : point => max_frequency p <? k) l = true); [|congruence].
    apply existsb_exists. exists p. split; [exact Hp|]. apply Z.ltb_lt. assumption. }
  unfold differences. rewrite !reach_array_ok by (try assumption; apply Long; assumption). cbn [bind].
  rewrite zip_combine by exact El. cbn [bind]. rewrite map_map, zip_pairs by exact El. reflexivity.
Qed.

Lemma aggregate_row (x y : list point) : length x = length y -> x <> [] ->
  (forall p, In p x \/ In p y -> constructed p /\ 1 <= max_frequency p) ->
  aggregate x y = Ok (row_of (combine x y)).
Proof.
  intros El Hx Hp. unfold aggregate, aggregators.
  assert (Hd : differences x y 1 = Ok (map (err 1) (combine x y))).
  { unfold differences. rewrite !reach_array_ok by (try lia; intros; apply Hp; auto). cbn [bind].
    rewrite zip_combine by exact El. reflexivity. }
  assert (Ha : reach_array x 1 = Ok (map (rk 1) x)) by (apply reach_array_ok; [lia|]; intros; apply Hp; auto).
  assert (Hs : shuffle_distances x y = Ok (map sdp (combine x y))) by (apply shuffle_distances_ok; auto; intros; apply Hp; auto).
  assert (Hr : abs_relative_errors x y = Ok (map (rel 1) (combine x y))).
  { unfold abs_relative_errors. rewrite Hd. cbn [bind]. rewrite Ha. cbn [bind].
    rewrite map_map, zip_pairs by exact El. reflexivity. }
  assert (Hq : forall q, np_quantile (map (rel 1) (combine x y)) q = Ok (qstat (map (rel 1) (combine x y)) q)).
  { intros q. destruct x as [|a x], y as [|b y]; cbn in El; try congruence; try discriminate.
    cbn [combine map]. unfold np_quantile, qstat. destruct (finite _); reflexivity. }
  cbn [mapM fst snd]. rewrite Hd, Ha, Hs, Hr, !mare_ok by (try assumption; lia). cbn [bind].
  rewrite !Hq. cbn [bind].
  rewrite (map_map (rk 1) square), (map_map (err 1) square), (zip_pairs np_div (fun p => square (err 1 p)) (fun p => square (rk 1 p))) by exact El.
  rewrite (zip_pairs np_div (err 1) (rk 1)) by exact El. cbn [bind].
  unfold row_of. rewrite combine_length, <- El, Nat.min_id. rewrite (map_map (err 1) square). reflexivity.
Qed.

End Rows.
