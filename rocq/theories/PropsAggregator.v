(** C41: the error metrics of a trial are sound. *)
From Coq Require Import String Permutation Sorted Lqa Qround.
From Verif Require Import Prelude ModelReachPoint ModelAggregator SpecSurface SpecAggregator
  ReachPointLemmas SurfaceLemmas GammaLemmas GammaLemmas2 TestPointsLemmas AggregatorLemmas AggregatorLemmas2.
Open Scope Z_scope.

(** ** Small helpers *)

Lemma combine_nth_error {A B} (x : list A) (y : list B) i a b :
  nth_error (combine x y) i = Some (a, b) -> nth_error x i = Some a /\ nth_error y i = Some b.
Proof.
  revert y i. induction x as [|c x IH]; intros [|e y] i H; try (destruct i; discriminate).
  destruct i; cbn in H |- *; [inversion H; auto|]. apply IH; auto.
Qed.

Lemma pairs_total {A} (f : A -> Q) (g : nat -> Q) l :
  (forall i p, nth_error l i = Some p -> f p == g i)%Q -> (Qsum (map f l) == total (length l) g)%Q.
Proof.
  intros H. destruct l as [|d l]; [reflexivity|]. rewrite (Qsum_map_total f (d :: l) d).
  apply total_ext. intros i Hi. apply H. apply nth_error_nth'. exact Hi.
Qed.

Lemma mean_total {A} (f : A -> Q) (g : nat -> Q) l : l <> [] ->
  (forall i p, nth_error l i = Some p -> f p == g i)%Q ->
  (mean_of (map f l) * inject_Z (Z.of_nat (length l)) == total (length l) g)%Q.
Proof.
  intros Hl H. rewrite <- (pairs_total f g l H), <- (mean_times (map f l)).
  - unfold length_Q. rewrite map_length. reflexivity.
  - destruct l; [congruence|discriminate].
Qed.

Section Metrics.
Context {I : Type}.
Notation point := (reach_point I Q).

Lemma comparable_row (x y : list point) : comparable x y ->
  aggregate x y = Ok (row_of (combine x y)) /\ combine x y <> [] /\ length (combine x y) = length x.
Proof.
  intros [El [Hx Hp]]. split; [apply aggregate_row; assumption|]. rewrite combine_length, <- El, Nat.min_id.
  split; [|reflexivity]. destruct x, y; cbn in *; congruence.
Qed.

Lemma pair_reach (x y : list point) k t s : 0 < k -> reaches x k t -> reaches y k s ->
  forall i p, nth_error (combine x y) i = Some p -> rk k (fst p) = t i /\ rk k (snd p) = s i.
Proof.
  intros Hk Ht Hs i [a b] H. apply combine_nth_error in H. destruct H as [Ha Hb].
  assert (G : forall (p : point) v, reach p k = Ok v -> rk k p = v).
  { intros p v E. assert (X : k <= max_frequency p).
    { unfold reach in E. destruct (Z.leb_spec k (max_frequency p)); [assumption|].
      rewrite andb_false_r in E. discriminate. }
    rewrite (reach_rk p k Hk X) in E. congruence. }
  split; apply G; [apply Ht|apply Hs]; assumption.
Qed.

(** ** Columns *)

(** A failed trial has the columns of a successful one, in the same order; it says so and
    carries the message, and every metric is missing. *)
Theorem C41_columns (x y : list point) row (msg : string) :
  aggregate x y = Ok row ->
  let failed := aggregate_on_exception (I := I) msg in
  map fst row = map fst failed /\ NoDup (map fst row) /\
  column row "model_succeeded" = Some (CInt 1) /\ column row "model_exception" = Some (CText "None") /\
  column failed "model_succeeded" = Some (CInt 0) /\ column failed "model_exception" = Some (CText msg) /\
  forall key, In key (map fst row) -> key <> "model_succeeded"%string -> key <> "model_exception"%string ->
    missing failed key.
Proof.
  intros E failed. unfold aggregate in E.
  destruct (mapM (fun a => c <- snd a x y ;; Ok (fst a, c)) aggregators) as [stats|e] eqn:Es; [|discriminate].
  cbn [bind] in E. inversion E; subst row; clear E.
  assert (K : map fst stats = map fst (aggregators (I := I))).
  { revert stats Es. generalize (aggregators (I := I)). induction l as [|a l IH]; intros stats Es; cbn [mapM] in Es.
    - inversion Es. reflexivity.
    - destruct (snd a x y) as [c|]; [|discriminate]. cbn [bind] in Es.
      destruct (mapM (fun a => c <- snd a x y ;; Ok (fst a, c)) l) as [r|]; [|discriminate]. inversion Es.
      cbn [map fst]. f_equal. apply IH. reflexivity. }
  assert (Kf : map fst failed = ("model_succeeded" :: "model_exception" :: map fst (aggregators (I := I)))%string)
    by reflexivity.
  cbn [map fst]. rewrite Kf, K. split; [reflexivity|]. split.
  { cbn. repeat constructor; cbn; intuition discriminate. }
  split; [reflexivity|]. split; [reflexivity|]. split; [reflexivity|]. split; [reflexivity|].
  intros key Hk H1 H2. destruct Hk as [Hk|[Hk|Hk]]; [congruence|congruence|].
  cbn in Hk. unfold missing, failed, aggregate_on_exception.
  repeat (destruct Hk as [<-|Hk]; [reflexivity|]). destruct Hk.
Qed.

(** ** Absolute errors *)

Theorem C41_absolute_errors (x y : list point) n t s :
  comparable x y -> length x = n -> reaches x 1 t -> reaches y 1 s ->
  let e := fun i => (t i - s i)%Q in
  let nQ := inject_Z (Z.of_nat n) in
  exists row bias mae mse var, aggregate x y = Ok row /\
    column row "npoints" = Some (CInt (Z.of_nat n)) /\
    number row "mean_error" bias /\ number row "mean_abs_error" mae /\
    number row "mean_squared_error" mse /\ number row "var_error" var /\
    (bias * nQ == total n e)%Q /\
    (mae * nQ == total n (fun i => absolute (e i)))%Q /\
    (mse * nQ == total n (fun i => e i * e i))%Q /\
    (var * nQ == total n (fun i => (e i - bias) * (e i - bias)))%Q /\
    (mse == var + bias * bias)%Q /\ (absolute bias <= mae)%Q /\ (mae * mae <= mse)%Q /\
    (0 <= var)%Q /\
    ((mae == 0)%Q <-> forall i, (i < n)%nat -> (t i == s i)%Q) /\
    ((mse == 0)%Q <-> forall i, (i < n)%nat -> (t i == s i)%Q).
Proof.
  intros Hc Hn Ht Hs e nQ. destruct (comparable_row x y Hc) as [Er [Hne Hlen]]. rewrite Hn in Hlen.
  set (pairs := combine x y) in *.
  assert (Hd : forall i p, nth_error pairs i = Some p -> err 1 p = e i).
  { intros i p H. unfold err, e. destruct (pair_reach x y 1 t s ltac:(lia) Ht Hs i p H) as [-> ->]. reflexivity. }
  set (d := map (err 1) pairs).
  assert (Hdn : d <> []) by (unfold d; destruct pairs; [congruence|discriminate]).
  assert (Hdl : length_Q d == nQ) by (unfold d, length_Q, nQ; rewrite map_length, Hlen; reflexivity).
  assert (Hpos : (0 < nQ)%Q) by (rewrite <- Hdl; apply length_Q_pos; exact Hdn).
  assert (S1 : (mean_of d * nQ == total n e)%Q).
  { unfold nQ. rewrite <- Hlen. apply mean_total; [exact Hne|]. intros i p H. rewrite (Hd i p H). reflexivity. }
  assert (S2 : (mean_of (map Qabs' d) * nQ == total n (fun i => absolute (e i)))%Q).
  { unfold nQ, d. rewrite map_map, <- Hlen. apply mean_total; [exact Hne|]. intros i p H.
    rewrite (Hd i p H), absolute_abs. reflexivity. }
  assert (S3 : (mean_of (map square d) * nQ == total n (fun i => e i * e i))%Q).
  { unfold nQ, d. rewrite map_map, <- Hlen. apply mean_total; [exact Hne|]. intros i p H.
    rewrite (Hd i p H). reflexivity. }
  assert (S4 : (variance_of d * nQ == total n (fun i => (e i - mean_of d) * (e i - mean_of d)))%Q).
  { unfold nQ. unfold variance_of. set (mu := mean_of d). unfold d. rewrite map_map. rewrite <- Hlen.
    apply mean_total; [exact Hne|]. intros i p H. rewrite (Hd i p H). reflexivity. }
  exists (row_of pairs), (mean_of d), (mean_of (map Qabs' d)), (mean_of (map square d)), (variance_of d).
  split; [exact Er|]. split; [cbn; rewrite Hlen; reflexivity|].
  split; [exists (mean_of d); split; [|reflexivity]; cbn -[np_mean]; fold d; rewrite np_mean_Num by exact Hdn; reflexivity|].
  split; [exists (mean_of (map Qabs' d)); split; [|reflexivity]; cbn -[np_mean]; fold d;
          rewrite np_mean_Num by (destruct d; [congruence|discriminate]); reflexivity|].
  split; [exists (mean_of (map square d)); split; [|reflexivity]; cbn -[np_mean]; fold d;
          rewrite np_mean_Num by (destruct d; [congruence|discriminate]); reflexivity|].
  split; [exists (variance_of d); split; [|reflexivity]; cbn -[np_var]; fold d; rewrite np_var_Num by exact Hdn; reflexivity|].
  split; [exact S1|]. split; [exact S2|]. split; [exact S3|]. split; [exact S4|].
  split; [apply variance_eq; exact Hdn|].
  split; [rewrite absolute_abs; apply mean_abs_le|].
  assert (Sq : (mean_of (map square (map Qabs' d)) == mean_of (map square d))%Q).
  { unfold mean_of. rewrite !length_Q_map, map_map. apply Qmult_comp; [|reflexivity].
    apply Qsum_map_ext. intros v _. apply abs_square. }
  split.
  { pose proof (variance_eq (map Qabs' d) ltac:(destruct d; [congruence|discriminate])) as V.
    pose proof (variance_nonneg (map Qabs' d)). rewrite Sq in V. lra. }
  split; [apply variance_nonneg|].
  assert (Z0 : forall f : nat -> Q, (forall i, (i < n)%nat -> 0 <= f i)%Q -> (total n f == 0)%Q ->
    forall i, (i < n)%nat -> (f i == 0)%Q).
  { intros f Hf H0 i Hi. pose proof (total_term_le n i f Hi Hf). specialize (Hf i Hi). lra. }
  split; split.
  - intros H0 i Hi. assert (X : (absolute (e i) == 0)%Q).
    { apply (Z0 (fun i => absolute (e i))); [|rewrite <- S2, H0; ring|exact Hi].
      intros j _. rewrite absolute_abs. apply abs_nonneg. }
    rewrite absolute_abs in X. pose proof (abs_ge (e i)) as [A B]. unfold e in *. lra.
  - intros H. assert (X : (mean_of (map Qabs' d) * nQ == 0)%Q).
    { rewrite S2. apply total_0. intros i Hi. rewrite absolute_abs. setoid_replace (e i) with 0%Q; [reflexivity|].
      unfold e. rewrite (H i Hi). ring. }
    nra.
  - intros H0 i Hi. assert (X : (e i * e i == 0)%Q).
    { apply (Z0 (fun i => (e i * e i)%Q)); [|rewrite <- S3, H0; ring|exact Hi]. intros j _. exact (square_nonneg (e j)). }
    apply Qmult_integral in X. unfold e in X. destruct X; lra.
  - intros H. assert (X : (mean_of (map square d) * nQ == 0)%Q).
    { rewrite S3. apply total_0. intros i Hi. unfold e. rewrite (H i Hi). ring. }
    nra.
Qed.

(** ** Relative errors *)

(** At frequency k or more: missing if a point has fewer than k frequencies or a true reach
    is zero, otherwise the mean of the absolute relative errors. *)
Theorem C41_relative_errors (x y : list point) k name :
  comparable x y -> In (k, name) mare_columns ->
  exists row, aggregate x y = Ok row /\
    ((exists p, (In p x \/ In p y) /\ max_frequency p < k) -> missing row name) /\
    forall n t s, length x = n -> reaches x k t -> reaches y k s ->
      (forall p, In p x \/ In p y -> k <= max_frequency p) ->
      ((exists i, (i < n)%nat /\ (t i == 0)%Q) -> missing row name) /\
      ((forall i, (i < n)%nat -> ~ (t i == 0)%Q) ->
       number row name (total n (fun i => absolute (t i - s i) / t i) / inject_Z (Z.of_nat n))%Q).
Proof.
  intros Hc Hk. destruct (comparable_row x y Hc) as [Er [Hne Hlen]].
  assert (El : length x = length y) by apply Hc.
  set (pairs := combine x y) in *. exists (row_of pairs). split; [exact Er|].
  assert (Col : column (row_of pairs) name = Some (CStat (mare_of pairs k)) /\ 0 < k).
  { cbn in Hk. repeat (destruct Hk as [Hk|Hk]; [inversion Hk; subst; split; [reflexivity|lia]|]). destruct Hk. }
  destruct Col as [Col Hk0].
  assert (Hin : forall p, In p x \/ In p y -> exists q, In q pairs /\ (fst q = p \/ snd q = p)).
  { clear -El. unfold pairs. clear pairs. revert y El. induction x as [|a x IH]; intros [|b y] El p H; cbn in El; try discriminate.
    - destruct H as [[]|[]].
    - cbn [combine].
      destruct H as [[->|H]|[->|H]]; [exists (p, b)|destruct (IH y ltac:(lia) p (or_introl H)) as [q [A B]]; exists q|exists (a, p)|destruct (IH y ltac:(lia) p (or_intror H)) as [q [A B]]; exists q]; cbn; auto. }
  split.
  - intros [p [Hp Hm]]. unfold missing. rewrite Col. unfold mare_of.
    replace (existsb (short k) pairs) with true; [reflexivity|]. symmetry. apply existsb_exists.
    destruct (Hin p Hp) as [q [Hq1 Hq2]]. exists q. split; [exact Hq1|]. unfold short. apply orb_true_iff.
    destruct Hq2 as [->| ->]; [left|right]; apply Z.ltb_lt; exact Hm.
  - intros n t s Hn Ht Hs Hall. rewrite Hn in Hlen.
    assert (Hshort : existsb (short k) pairs = false).
    { destruct (existsb (short k) pairs) eqn:E; [|reflexivity]. apply existsb_exists in E.
      destruct E as [[a b] [H1 H2]]. unfold short in H2. cbn [fst snd] in H2.
      pose proof (Hall a (or_introl (in_combine_l _ _ _ _ H1))). pose proof (Hall b (or_intror (in_combine_r _ _ _ _ H1))).
      apply orb_true_iff in H2. destruct H2 as [H2|H2]; apply Z.ltb_lt in H2; lia. }
    unfold missing, number. rewrite Col. unfold mare_of. rewrite Hshort.
    assert (Hd : forall i p, nth_error pairs i = Some p -> err k p = (t i - s i)%Q /\ rk k (fst p) = t i).
    { intros i p H. unfold err. destruct (pair_reach x y k t s Hk0 Ht Hs i p H) as [-> ->]. auto. }
    split.
    + intros [i [Hi H0]]. unfold np_mean, rel.
      assert (Hi' : (i < length pairs)%nat) by lia.
      destruct (nth_error pairs i) as [p|] eqn:Ep; [|apply nth_error_None in Ep; lia].
      destruct (Hd i p Ep) as [_ E2].
      rewrite (div_some (fun p => Qabs' (err k p)) (fun p => rk k (fst p)) pairs p); [reflexivity| |].
      * eapply nth_error_In; eauto.
      * rewrite E2. exact H0.
    + intros H0. unfold rel.
      rewrite (div_all (fun p => Qabs' (err k p)) (fun p => rk k (fst p)) pairs).
      * rewrite np_mean_Num by (destruct pairs; [congruence|discriminate]). eexists. split; [reflexivity|].
        unfold mean_of. rewrite length_Q_map. unfold length_Q. rewrite Hlen. apply Qmult_comp; [|reflexivity].
        rewrite <- Hlen. apply pairs_total. intros i p H. destruct (Hd i p H) as [-> ->].
        rewrite absolute_abs. reflexivity.
      * intros p Hp. apply In_nth_error in Hp. destruct Hp as [i Hi]. destruct (Hd i p Hi) as [_ ->].
        apply H0. rewrite <- Hlen. apply nth_error_Some. congruence.
Qed.

(** Squared and signed relative errors. *)
Theorem C41_squared_relative_errors (x y : list point) n t s :
  comparable x y -> length x = n -> reaches x 1 t -> reaches y 1 s ->
  (forall i, (i < n)%nat -> ~ (t i == 0)%Q) ->
  let r := fun i => ((t i - s i) / t i)%Q in
  let nQ := inject_Z (Z.of_nat n) in
  exists row msre var, aggregate x y = Ok row /\
    number row "mean_squared_relative_error" msre /\ number row "var_relative_error" var /\
    (msre * nQ == total n (fun i => r i * r i))%Q /\
    (msre == var + (total n r / nQ) * (total n r / nQ))%Q /\ (0 <= var)%Q.
Proof.
  intros Hc Hn Ht Hs H0 r nQ. destruct (comparable_row x y Hc) as [Er [Hne Hlen]]. rewrite Hn in Hlen.
  set (pairs := combine x y) in *.
  assert (Hd : forall i p, nth_error pairs i = Some p -> err 1 p = (t i - s i)%Q /\ rk 1 (fst p) = t i).
  { intros i p H. unfold err. destruct (pair_reach x y 1 t s ltac:(lia) Ht Hs i p H) as [-> ->]. auto. }
  assert (Hz : forall p, In p pairs -> ~ (rk 1 (fst p) == 0)%Q).
  { intros p Hp. apply In_nth_error in Hp. destruct Hp as [i Hi]. destruct (Hd i p Hi) as [_ ->].
    apply H0. rewrite <- Hlen. apply nth_error_Some. congruence. }
  set (d := map (fun p => (err 1 p / rk 1 (fst p))%Q) pairs).
  set (d2 := map (fun p => (square (err 1 p) / square (rk 1 (fst p)))%Q) pairs).
  assert (Hdn : d <> []) by (unfold d; destruct pairs; [congruence|discriminate]).
  assert (E2 : (mean_of d2 == mean_of (map square d))%Q).
  { unfold d, d2, mean_of. rewrite map_map, !length_Q_map. apply Qmult_comp; [|reflexivity].
    apply Qsum_map_ext. intros p Hp. unfold square. field. exact (Hz p Hp). }
  exists (row_of pairs), (mean_of d2), (variance_of d). split; [exact Er|].
  split; [exists (mean_of d2); split; [|reflexivity]; cbn -[np_mean];
          rewrite (div_all (fun p => square (err 1 p)) (fun p => square (rk 1 (fst p))) pairs)|].
  { fold d2. rewrite np_mean_Num by (unfold d2; destruct pairs; [congruence|discriminate]). reflexivity. }
  { intros p Hp E. apply (Hz p Hp). unfold square in E. apply Qmult_integral in E. tauto. }
  split; [exists (variance_of d); split; [|reflexivity]; cbn -[np_var];
          rewrite (div_all (err 1) (fun p => rk 1 (fst p)) pairs Hz); fold d; rewrite np_var_Num by exact Hdn; reflexivity|].
  assert (S1 : (mean_of d * nQ == total n r)%Q).
  { unfold nQ. rewrite <- Hlen. apply mean_total; [exact Hne|]. intros i p H. destruct (Hd i p H) as [-> ->]. reflexivity. }
  assert (Hpos : (0 < nQ)%Q).
  { unfold nQ. change 0%Q with (inject_Z 0). rewrite <- Zlt_Qlt, <- Hlen. destruct pairs; [congruence|cbn [length]; lia]. }
  split.
  { rewrite E2. unfold nQ, d. rewrite map_map, <- Hlen. apply mean_total; [exact Hne|].
    intros i p H. destruct (Hd i p H) as [-> ->]. reflexivity. }
  split; [|apply variance_nonneg]. rewrite E2, (variance_eq d Hdn).
  assert (M : (mean_of d == total n r / nQ)%Q) by (rewrite <- S1; field; intros X; lra).
  rewrite M. reflexivity.
Qed.

(** ** Quantiles of the relative error *)

Theorem C41_quantiles (x y : list point) n t s :
  comparable x y -> length x = n -> reaches x 1 t -> reaches y 1 s ->
  (forall i, (i < n)%nat -> ~ (t i == 0)%Q) ->
  let r := fun i => (absolute (t i - s i) / t i)%Q in
  exists row (v : Z -> Q), aggregate x y = Ok row /\
    (forall p name, In (p, name) quantile_columns -> number row name (v p)) /\
    (forall p p', 0 <= p <= p' -> p' <= 100 -> (v p <= v p')%Q) /\
    (forall p, 0 <= p <= 100 ->
       (exists i, (i < n)%nat /\ (r i <= v p)%Q) /\ (exists i, (i < n)%nat /\ (v p <= r i)%Q) /\
       p * (Z.of_nat n - 1) < 100 * how_many n (fun i => Qleb (r i) (v p)) /\
       100 * how_many n (fun i => Qltb (r i) (v p)) <= p * (Z.of_nat n - 1) + 100).
Proof.
  intros Hc Hn Ht Hs H0 r. destruct (comparable_row x y Hc) as [Er [Hne Hlen]]. rewrite Hn in Hlen.
  set (pairs := combine x y) in *.
  assert (Hd : forall i p, nth_error pairs i = Some p -> err 1 p = (t i - s i)%Q /\ rk 1 (fst p) = t i).
  { intros i p H. unfold err. destruct (pair_reach x y 1 t s ltac:(lia) Ht Hs i p H) as [-> ->]. auto. }
  assert (Hz : forall p, In p pairs -> ~ (rk 1 (fst p) == 0)%Q).
  { intros p Hp. apply In_nth_error in Hp. destruct Hp as [i Hi]. destruct (Hd i p Hi) as [_ ->].
    apply H0. rewrite <- Hlen. apply nth_error_Some. congruence. }
  set (d := map (fun p => (Qabs' (err 1 p) / rk 1 (fst p))%Q) pairs).
  assert (Ed : map (rel 1) pairs = map Num d) by (apply (div_all (fun p => Qabs' (err 1 p))); exact Hz).
  assert (Hdn : d <> []) by (unfold d; destruct pairs; [congruence|discriminate]).
  assert (Hdl : length d = n) by (unfold d; rewrite map_length; exact Hlen).
  assert (Hnth : forall i, (i < n)%nat -> (nth i d 0 == r i)%Q).
  { intros i Hi. destruct (nth_error pairs i) as [p|] eqn:Ep; [|apply nth_error_None in Ep; lia].
    assert (X : nth_error d i = Some (Qabs' (err 1 p) / rk 1 (fst p))%Q).
    { unfold d. rewrite nth_error_map, Ep. reflexivity. }
    apply (nth_error_nth _ _ 0%Q) in X. rewrite X. destruct (Hd i p Ep) as [-> ->]. unfold r.
    rewrite absolute_abs. reflexivity. }
  assert (Cnt : forall (f : Q -> bool), (forall a b, (a == b)%Q -> f a = f b) ->
    Z.of_nat (count f d) = how_many n (fun i => f (r i))).
  { intros f Hf. unfold how_many, count. f_equal. rewrite <- Hdl in *. clear -Hnth Hf.
    assert (G : forall k l, (forall i, (i < length l)%nat -> (nth i l 0 == r (k + i)%nat)%Q) ->
      length (filter f l) = length (filter (fun i => f (r i)) (seq k (length l)))).
    { intros k l. revert k. induction l as [|a l IH]; intros k H; [reflexivity|]. cbn [length seq filter].
      assert (Ea : f a = f (r k)).
      { apply Hf. specialize (H O ltac:(cbn; lia)). cbn [nth] in H. rewrite Nat.add_0_r in H. exact H. }
      rewrite Ea. assert (R : length (filter f l) = length (filter (fun i => f (r i)) (seq (S k) (length l)))).
      { apply IH. intros i Hi. specialize (H (S i) ltac:(cbn; lia)). cbn [nth] in H. rewrite H.
        replace (S k + i)%nat with (k + S i)%nat by lia. reflexivity. }
      destruct (f (r k)); cbn [length]; lia. }
    apply (G O d). exact Hnth. }
  set (q := fun p : Z => (inject_Z p / 100)%Q).
  exists (row_of pairs), (fun p => quantile_of d (q p)). split; [exact Er|].
  assert (Q01 : forall p, 0 <= p <= 100 -> (0 <= q p <= 1)%Q).
  { intros p Hp. unfold q, Qle, Qdiv, Qmult, inject_Z, Qinv. cbn. lia. }
  split; [|split].
  - intros p name Hp.
    assert (G : forall z, (z == q p)%Q -> column (row_of pairs) name = Some (CStat (qstat (map (rel 1) pairs) z)) ->
      number (row_of pairs) name (quantile_of d (q p))).
    { intros z Ez Ec. exists (quantile_of d z). split.
      - rewrite Ec, Ed. unfold qstat. rewrite finite_Num. reflexivity.
      - unfold quantile_of. assert (E3 : Qfloor (z * (length_Q d - 1)) = Qfloor (q p * (length_Q d - 1))).
        { apply Qfloor_comp. rewrite Ez. reflexivity. }
        rewrite E3, Ez. reflexivity. }
    cbn in Hp.
    repeat (destruct Hp as [Hp|Hp]; [inversion Hp; subst; eapply G; [|reflexivity]; reflexivity|]). destruct Hp.
  - intros p p' H1 H2. apply quantile_mono; [exact Hdn|apply Q01; lia| |apply Q01; lia].
    unfold q. apply Qmult_le_compat_r; [rewrite <- Zle_Qle; lia|discriminate].
  - intros p Hp. destruct (quantile_between d (q p) Hdn (Q01 p Hp)) as [B1 B2].
    destruct (quantile_counts d (q p) Hdn (Q01 p Hp)) as [C1 C2].
    set (v := quantile_of d (q p)) in *.
    assert (Eh : (inject_Z (p * (Z.of_nat n - 1)) == 100 * (q p * (length_Q d - 1)))%Q).
    { unfold length_Q, q, Z.sub. rewrite Hdl, inject_Z_mult, inject_Z_plus. change (inject_Z (- (1))) with (-(1))%Q. field. }
    assert (Cv : forall z, (q p * (length_Q d - 1) < inject_Z z)%Q -> p * (Z.of_nat n - 1) < 100 * z).
    { intros z Hz'. rewrite Zlt_Qlt, Eh, inject_Z_mult. change (inject_Z 100) with 100%Q. lra. }
    assert (Cw : forall z, (inject_Z z <= q p * (length_Q d - 1) + 1)%Q -> 100 * z <= p * (Z.of_nat n - 1) + 100).
    { intros z Hz'. rewrite Zle_Qle, inject_Z_plus, Eh, inject_Z_mult. change (inject_Z 100) with 100%Q. lra. }
    split; [|split; [|split]].
    + destruct B1 as [a [Ha Hv]]. apply (In_nth _ _ 0%Q) in Ha. destruct Ha as [i [Hi <-]]. rewrite Hdl in Hi.
      exists i. split; [exact Hi|]. rewrite <- (Hnth i Hi). exact Hv.
    + destruct B2 as [a [Ha Hv]]. apply (In_nth _ _ 0%Q) in Ha. destruct Ha as [i [Hi <-]]. rewrite Hdl in Hi.
      exists i. split; [exact Hi|]. rewrite <- (Hnth i Hi). exact Hv.
    + rewrite <- (Cnt (fun a => Qleb a v)); [apply Cv; exact C1|]. intros a b Eab.
      destruct (Qleb_spec a v), (Qleb_spec b v); try reflexivity; lra.
    + rewrite <- (Cnt (fun a => Qltb a v)); [apply Cw; exact C2|]. intros a b Eab.
      destruct (Qltb_spec a v), (Qltb_spec b v); try reflexivity; lra.
Qed.

(** ** The shape of the frequency histogram *)

(** The frequencies of a point. *)
Definition freq (p : point) (j : nat) : Q := (nth j (rp_kplus p) 0 - nth (j + 1) (rp_kplus p) 0)%Q.

(** The distance of two points: 1 if one has at most five frequencies, 1/2 if the first five
    of one sum to zero, otherwise half the sum of the differences of the five shares; in
    [0, 1] if the reaches do not increase, symmetric, and zero for equal shares only. *)
Theorem C41_shuffle_distance (a b : point) :
  constructed a -> constructed b ->
  exists v, shuffle_distance a b 5 = Ok v /\
    (max_frequency a <= 5 \/ max_frequency b <= 5 -> v = 1%Q) /\
    (5 < max_frequency a -> 5 < max_frequency b ->
       ((total 5 (freq a) == 0)%Q \/ (total 5 (freq b) == 0)%Q -> v = (1 # 2)%Q) /\
       (~ (total 5 (freq a) == 0)%Q -> ~ (total 5 (freq b) == 0)%Q ->
          (v == (1 # 2) * total 5 (fun j => absolute (five_share (freq a) j - five_share (freq b) j)))%Q /\
          ((v == 0)%Q <-> forall j, (j < 5)%nat -> (five_share (freq a) j == five_share (freq b) j)%Q))) /\
    ((forall j, (j < 5)%nat -> 0 <= freq a j)%Q -> (forall j, (j < 5)%nat -> 0 <= freq b j)%Q ->
       (0 <= v <= 1)%Q) /\
    (exists w, shuffle_distance b a 5 = Ok w /\ (v == w)%Q).
Proof.
  intros Ha Hb. unfold shuffle_distance.
  destruct (Z.leb_spec (max_frequency a) 5) as [La|La]; cbn [orb].
  { exists 1%Q. split; [reflexivity|]. split; [reflexivity|]. split; [intros; lia|]. split; [intros; lra|].
    exists 1%Q. rewrite orb_true_r. split; reflexivity. }
  destruct (Z.leb_spec (max_frequency b) 5) as [Lb|Lb]; cbn [orb].
  { exists 1%Q. split; [reflexivity|]. split; [reflexivity|]. split; [intros; lia|]. split; [intros; lra|].
    exists 1%Q. split; reflexivity. }
  rewrite !five_frequencies by assumption. cbn [bind].
  fold (freq a) (freq b).
  change (map (fun i => (nth i (rp_kplus a) 0 - nth (i + 1) (rp_kplus a) 0)%Q) (seq 0 5)) with (map (freq a) (seq 0 5)).
  change (map (fun i => (nth i (rp_kplus b) 0 - nth (i + 1) (rp_kplus b) 0)%Q) (seq 0 5)) with (map (freq b) (seq 0 5)).
  set (sa := Qsum (map (freq a) (seq 0 5))). set (sb := Qsum (map (freq b) (seq 0 5))).
  assert (Ea : (sa == total 5 (freq a))%Q) by (unfold sa; rewrite Qsum_map_seq; reflexivity).
  assert (Eb : (sb == total 5 (freq b))%Q) by (unfold sb; rewrite Qsum_map_seq; reflexivity).
  assert (ZD : forall q, Qeqb q 0 = true <-> (q == 0)%Q) by (intros q; unfold Qeqb; apply Qeq_bool_iff).
  destruct (Qeqb sa 0) eqn:Za; cbn [orb].
  { apply ZD in Za. exists (1 # 2)%Q. split; [reflexivity|]. split; [intros; lia|]. split.
    - intros _ _. split; [reflexivity|]. intros H. rewrite <- Ea in H. contradiction.
    - split; [intros; lra|]. exists (1 # 2)%Q. rewrite orb_true_r. split; reflexivity. }
  destruct (Qeqb sb 0) eqn:Zb; cbn [orb].
  { apply ZD in Zb. exists (1 # 2)%Q. split; [reflexivity|]. split; [intros; lia|]. split.
    - intros _ _. split; [reflexivity|]. intros _ H. rewrite <- Eb in H. contradiction.
    - split; [intros; lra|]. exists (1 # 2)%Q. split; reflexivity. }
  assert (Na : ~ (sa == 0)%Q) by (intros X; apply ZD in X; congruence).
  assert (Nb : ~ (sb == 0)%Q) by (intros X; apply ZD in X; congruence).
  clear Za Zb.
  assert (Zip : forall (f : Q -> Q -> Q) g h, np_zip f (map g (seq 0 5)) (map h (seq 0 5)) = Ok (map (fun j => f (g j) (h j)) (seq 0 5))) by reflexivity.
  rewrite !Zip. cbn [bind].
  set (S1 := Qsum (map (fun j => Qabs' (freq a j / sa - freq b j / sb)) (seq 0 5))).
  assert (T1 : (S1 == total 5 (fun j => absolute (five_share (freq a) j - five_share (freq b) j)))%Q).
  { unfold S1. rewrite Qsum_map_seq. apply total_ext. intros j _. rewrite absolute_abs. unfold five_share.
    rewrite Nat.add_0_l, Ea, Eb. reflexivity. }
  exists ((1 # 2) * S1)%Q. split; [reflexivity|]. split; [intros; lia|].
  split; [|split].
  - intros _ _. split; [intros [H|H]; [rewrite <- Ea in H|rewrite <- Eb in H]; contradiction|].
    intros _ _. split; [rewrite T1; reflexivity|]. rewrite T1. split.
    + intros H j Hj.
      assert (X : (total 5 (fun j => absolute (five_share (freq a) j - five_share (freq b) j)) == 0)%Q) by lra.
      pose proof (total_term_le 5 j (fun j => absolute (five_share (freq a) j - five_share (freq b) j)) Hj
        ltac:(intros i _; rewrite absolute_abs; apply abs_nonneg)) as L. cbv beta in L.
      rewrite X, absolute_abs in L. pose proof (abs_ge (five_share (freq a) j - five_share (freq b) j)) as [A B]. lra.
    + intros H. rewrite total_0; [ring|]. intros j Hj. rewrite absolute_abs, (H j Hj).
      setoid_replace (five_share (freq b) j - five_share (freq b) j)%Q with 0%Q by ring. reflexivity.
  - intros Fa Fb. rewrite T1.
    assert (Pa : (0 < sa)%Q).
    { pose proof (total_nonneg 5 (freq a) Fa). rewrite <- Ea in H. destruct (Qlt_le_dec 0 sa); [assumption|].
      exfalso. apply Na. lra. }
    assert (Pb : (0 < sb)%Q).
    { pose proof (total_nonneg 5 (freq b) Fb). rewrite <- Eb in H. destruct (Qlt_le_dec 0 sb); [assumption|].
      exfalso. apply Nb. lra. }
    assert (Share : forall f s, (s == total 5 f)%Q -> (0 < s)%Q -> (forall j, (j < 5)%nat -> 0 <= f j)%Q ->
      (total 5 (five_share f) == 1)%Q /\ forall j, (j < 5)%nat -> (0 <= five_share f j)%Q).
    { intros f s0 E P F. split.
      - unfold five_share. unfold Qdiv. rewrite total_scal_r, <- E. field. intros X. lra.
      - intros j Hj. unfold five_share. apply Qle_shift_div_l; [rewrite <- E; exact P|]. rewrite Qmult_0_l. apply F. exact Hj. }
    destruct (Share _ _ Ea Pa Fa) as [A1 A2]. destruct (Share _ _ Eb Pb Fb) as [B1 B2].
    assert (U : (total 5 (fun j => absolute (five_share (freq a) j - five_share (freq b) j)) <= 2)%Q).
    { setoid_replace 2%Q with (total 5 (five_share (freq a)) + total 5 (five_share (freq b)))%Q by (rewrite A1, B1; reflexivity).
      rewrite <- total_plus. apply total_le. intros j Hj. rewrite absolute_abs.
      specialize (A2 j Hj). specialize (B2 j Hj).
      destruct (abs_spec (five_share (freq a) j - five_share (freq b) j)) as [[H ->]|[H ->]]; lra. }
    assert (L : (0 <= total 5 (fun j => absolute (five_share (freq a) j - five_share (freq b) j)))%Q).
    { apply total_nonneg. intros j _. rewrite absolute_abs. apply abs_nonneg. }
    lra.
  - eexists. split; [reflexivity|]. unfold S1. apply Qmult_comp; [reflexivity|].
    apply Qsum_map_ext. intros j _. rewrite <- abs_opp. apply abs_comp. ring.
Qed.

(** The columns of the shape distance: its mean, mean square and variance. *)
Theorem C41_shuffle_columns (x y : list point) n d :
  comparable x y -> length x = n ->
  (forall i a b, nth_error x i = Some a -> nth_error y i = Some b -> shuffle_distance a b 5 = Ok (d i)) ->
  let nQ := inject_Z (Z.of_nat n) in
  exists row m m2 v, aggregate x y = Ok row /\
    number row "mean_shuffle_distance" m /\ number row "mean_squared_shuffle_distance" m2 /\
    number row "var_shuffle_distance" v /\
    (m * nQ == total n d)%Q /\ (m2 * nQ == total n (fun i => d i * d i))%Q /\ (m2 == v + m * m)%Q /\
    (0 <= v)%Q /\
    ((forall i, (i < n)%nat -> 0 <= d i <= 1)%Q -> (0 <= m <= 1)%Q /\ (m2 <= m)%Q).
Proof.
  intros Hc Hn Hd nQ. destruct (comparable_row x y Hc) as [Er [Hne Hlen]]. rewrite Hn in Hlen.
  set (pairs := combine x y) in *.
  assert (Hs : forall i p, nth_error pairs i = Some p -> sdp p = d i).
  { intros i [a b] H. apply combine_nth_error in H. destruct H as [H1 H2]. unfold sdp, sd. cbn [fst snd].
    rewrite (Hd i a b H1 H2). reflexivity. }
  set (l := map sdp pairs). assert (Hl : l <> []) by (unfold l; destruct pairs; [congruence|discriminate]).
  assert (Hpos : (0 < nQ)%Q).
  { unfold nQ. change 0%Q with (inject_Z 0). rewrite <- Zlt_Qlt, <- Hlen. destruct pairs; [congruence|cbn [length]; lia]. }
  assert (M1 : (mean_of l * nQ == total n d)%Q).
  { unfold nQ. rewrite <- Hlen. apply mean_total; [exact Hne|]. intros i p H. rewrite (Hs i p H). reflexivity. }
  assert (M2 : (mean_of (map square l) * nQ == total n (fun i => d i * d i))%Q).
  { unfold nQ, l. rewrite map_map, <- Hlen. apply mean_total; [exact Hne|]. intros i p H. rewrite (Hs i p H). reflexivity. }
  exists (row_of pairs), (mean_of l), (mean_of (map square l)), (variance_of l). split; [exact Er|].
  split; [exists (mean_of l); split; [|reflexivity]; cbn -[np_mean]; fold l; rewrite np_mean_Num by exact Hl; reflexivity|].
  split; [exists (mean_of (map square l)); split; [|reflexivity]; cbn -[np_mean]; fold l;
          rewrite np_mean_Num by (destruct l; [congruence|discriminate]); reflexivity|].
  split; [exists (variance_of l); split; [|reflexivity]; cbn -[np_var]; fold l; rewrite np_var_Num by exact Hl; reflexivity|].
  split; [exact M1|]. split; [exact M2|]. split; [apply variance_eq; exact Hl|]. split; [apply variance_nonneg|].
  intros H01.
  assert (U : (total n d <= total n (fun _ => 1))%Q) by (apply total_le; intros i Hi; apply H01; exact Hi).
  assert (E1 : (total n (fun _ => 1) == nQ)%Q).
  { unfold nQ. clear. induction n as [|n IH]; [reflexivity|]. cbn [total]. rewrite IH, Nat2Z.inj_succ.
    unfold Z.succ. rewrite inject_Z_plus. reflexivity. }
  assert (L : (0 <= total n d)%Q) by (apply total_nonneg; intros i Hi; apply H01; exact Hi).
  assert (S2 : (total n (fun i => d i * d i) <= total n d)%Q).
  { apply total_le. intros i Hi. specialize (H01 i Hi). nra. }
  rewrite E1 in U. rewrite <- M1 in L, U, S2. rewrite <- M2 in S2. split; [split; nra|nra].
Qed.

(** ** Perfect predictions *)

(** A model that predicts every reach has no error in any column of the reach. *)
Theorem C41_perfect_model (x : list point) :
  comparable x x -> (forall p r, In p x -> reach p 1 = Ok r -> (0 < r)%Q) ->
  exists row, aggregate x x = Ok row /\
    (forall key, In key ["mean_error"; "mean_abs_error"; "mean_squared_error";
       "mean_abs_relative_error"; "mean_squared_relative_error"; "var_error"; "var_relative_error";
       "relative_error_q10"; "relative_error_q20"; "relative_error_q30"; "relative_error_q40";
       "relative_error_q50"; "relative_error_q60"; "relative_error_q70"; "relative_error_q80";
       "relative_error_q90"]%string -> number row key 0).
Proof.
  intros Hc Hp. destruct (comparable_row x x Hc) as [Er [Hne Hlen]].
  set (t := fun i => match nth_error x i with Some p => rk 1 p | None => 0%Q end).
  assert (Ht : reaches x 1 t).
  { intros i p H. unfold t. rewrite H. apply reach_rk; [lia|]. apply Hc. left. eapply nth_error_In; eauto. }
  assert (Hpos : forall i, (i < length x)%nat -> (0 < t i)%Q).
  { intros i Hi. destruct (nth_error x i) as [p|] eqn:E; [|apply nth_error_None in E; lia].
    apply (Hp p); [eapply nth_error_In; eauto|]. apply Ht. exact E. }
  assert (Hnz : forall i, (i < length x)%nat -> ~ (t i == 0)%Q) by (intros i Hi X; specialize (Hpos i Hi); lra).
  exists (row_of (combine x x)). split; [exact Er|].
  destruct (C41_absolute_errors x x _ t t Hc eq_refl Ht Ht)
    as [row [b [a [m [v [E [_ [Nb [Na [Nm [Nv [_ [_ [_ [_ [R1 [R2 [R3 [R4 [R5 R6]]]]]]]]]]]]]]]]]]]].
  rewrite Er in E. injection E as <-.
  assert (A0 : (a == 0)%Q) by (apply R5; intros; reflexivity).
  assert (M0 : (m == 0)%Q) by (apply R6; intros; reflexivity).
  assert (B0 : (b == 0)%Q).
  { rewrite absolute_abs in R2. pose proof (abs_ge b) as [X Y]. lra. }
  assert (V0 : (v == 0)%Q) by (rewrite M0, B0 in R1; lra).
  destruct (C41_squared_relative_errors x x _ t t Hc eq_refl Ht Ht Hnz) as [row [ms [vr [E [Nms [Nvr [F1 [F2 F3]]]]]]]].
  rewrite Er in E. injection E as <-.
  assert (Z0 : (total (length x) (fun i => (t i - t i) / t i) == 0)%Q).
  { apply total_0. intros i Hi. unfold Qdiv. ring. }
  assert (Z2 : (total (length x) (fun i => (t i - t i) / t i * ((t i - t i) / t i)) == 0)%Q).
  { apply total_0. intros i Hi. unfold Qdiv. ring. }
  assert (Pos : (0 < inject_Z (Z.of_nat (length x)))%Q).
  { change 0%Q with (inject_Z 0). rewrite <- Zlt_Qlt. destruct Hc as [_ [Hx _]]. destruct x; [congruence|cbn [length]; lia]. }
  cbv beta in F1, F2. rewrite Z2 in F1. rewrite Z0 in F2.
  assert (MS0 : (ms == 0)%Q) by nra.
  assert (VR0 : (vr == 0)%Q). { rewrite MS0 in F2. unfold Qdiv in F2. lra. }
  destruct (C41_relative_errors x x 1 "mean_abs_relative_error" Hc (or_introl eq_refl)) as [row [E [_ G]]].
  rewrite Er in E. injection E as <-.
  destruct (G (length x) t t eq_refl Ht Ht ltac:(intros; apply Hc; assumption)) as [_ G2]. specialize (G2 Hnz).
  destruct (C41_quantiles x x _ t t Hc eq_refl Ht Ht Hnz) as [row [qv [E [Q1 [_ Q2]]]]].
  rewrite Er in E. injection E as <-.
  assert (Abs0 : forall i, (absolute (t i - t i) == 0)%Q).
  { intros i. rewrite absolute_abs. setoid_replace (t i - t i)%Q with 0%Q by ring. reflexivity. }
  assert (QV : forall p, 0 <= p <= 100 -> (qv p == 0)%Q).
  { intros p Hp'. destruct (Q2 p Hp') as [[i [_ H1]] [[j [_ H2]] _]]. cbv beta in H1, H2.
    rewrite Abs0 in H1, H2. unfold Qdiv in H1, H2. lra. }
  assert (Cv : forall key u w, (u == w)%Q -> number (row_of (combine x x)) key u -> number (row_of (combine x x)) key w).
  { intros key u w E [z [H1 H2]]. exists z. split; [exact H1|]. rewrite H2. exact E. }
  assert (QN : forall p name, In (p, name) quantile_columns -> 0 <= p <= 100 -> number (row_of (combine x x)) name 0).
  { intros p name Hin Hp'. apply (Cv name (qv p)); [apply QV; exact Hp'|]. apply Q1. exact Hin. }
  intros key Hk.
  repeat (destruct Hk as [<-|Hk]).
  1: apply (Cv _ b); assumption. 1: apply (Cv _ a); assumption. 1: apply (Cv _ m); assumption.
  1: { eapply Cv; [|exact G2]. rewrite total_0; [unfold Qdiv; ring|]. intros i _. rewrite Abs0. unfold Qdiv. ring. }
  1: apply (Cv _ ms); assumption. 1: apply (Cv _ v); assumption. 1: apply (Cv _ vr); assumption.
  1: apply (QN 10); [cbn; tauto|lia]. 1: apply (QN 20); [cbn; tauto|lia]. 1: apply (QN 30); [cbn; tauto|lia].
  1: apply (QN 40); [cbn; tauto|lia]. 1: apply (QN 50); [cbn; tauto|lia]. 1: apply (QN 60); [cbn; tauto|lia].
  1: apply (QN 70); [cbn; tauto|lia]. 1: apply (QN 80); [cbn; tauto|lia]. 1: apply (QN 90); [cbn; tauto|lia].
  destruct Hk.
Qed.

(** ** The order of the test points *)

(** Listing the test points in another order changes no entry of the row. *)
Theorem C41_order_irrelevant (x y x' y' : list point) :
  comparable x y -> length x' = length y' -> Permutation (combine x y) (combine x' y') ->
  exists row row', aggregate x y = Ok row /\ aggregate x' y' = Ok row' /\ same_row row row'.
Proof.
  intros Hc El HP. destruct (comparable_row x y Hc) as [Er [Hne Hlen]].
  assert (Hc' : comparable x' y').
  { split; [exact El|]. split.
    - intros ->. cbn in HP. apply Permutation_sym, Permutation_nil in HP. congruence.
    - assert (G : forall p, In p x' \/ In p y' -> exists q, In q (combine x' y') /\ (fst q = p \/ snd q = p)).
      { clear -El. revert y' El. induction x' as [|a x IH]; intros [|b y] El p H; cbn in El; try discriminate.
        - destruct H as [[]|[]].
        - cbn [combine].
          destruct H as [[->|H]|[->|H]]; [exists (p, b)|destruct (IH y ltac:(lia) p (or_introl H)) as [q [A B]]; exists q|exists (a, p)|destruct (IH y ltac:(lia) p (or_intror H)) as [q [A B]]; exists q]; cbn; auto. }
      intros p Hp. destruct (G p Hp) as [[a b] [H1 H2]]. apply (Permutation_in _ (Permutation_sym HP)) in H1.
      destruct Hc as [_ [_ Hc]]. apply Hc. cbn [fst snd] in H2.
      destruct H2 as [<-|<-]; [left; eapply in_combine_l; eauto|right; eapply in_combine_r; eauto]. }
  destruct (comparable_row x' y' Hc') as [Er' _].
  exists (row_of (combine x y)), (row_of (combine x' y')). split; [exact Er|]. split; [exact Er'|].
  set (l := combine x y) in *. set (l' := combine x' y') in *. clearbody l l'.
  assert (Mean : forall f, same_cell (CStat (np_mean (map f l))) (CStat (np_mean (map f l')))).
  { intros f. pose proof (finite_perm _ _ (Permutation_map f HP)) as F. unfold np_mean.
    destruct (finite (map f l)) as [u|], (finite (map f l')) as [w|]; try contradiction; [|reflexivity].
    destruct u as [|u0 u], w as [|w0 w]; try reflexivity.
    - apply Permutation_nil in F. discriminate.
    - apply Permutation_sym, Permutation_nil in F. discriminate.
    - apply mean_perm. exact F. }
  assert (Var : forall f, same_cell (CStat (np_var (map f l))) (CStat (np_var (map f l')))).
  { intros f. pose proof (finite_perm _ _ (Permutation_map f HP)) as F. unfold np_var.
    destruct (finite (map f l)) as [u|], (finite (map f l')) as [w|]; try contradiction; [|reflexivity].
    destruct u as [|u0 u], w as [|w0 w]; try reflexivity.
    - apply Permutation_nil in F. discriminate.
    - apply Permutation_sym, Permutation_nil in F. discriminate.
    - apply variance_perm. exact F. }
  assert (Qt : forall f q, same_cell (CStat (qstat (map f l) q)) (CStat (qstat (map f l') q))).
  { intros f q. pose proof (finite_perm _ _ (Permutation_map f HP)) as F. unfold qstat.
    destruct (finite (map f l)) as [u|], (finite (map f l')) as [w|]; try contradiction; [|reflexivity].
    apply quantile_perm. exact F. }
  assert (Ma : forall k, same_cell (CStat (mare_of l k)) (CStat (mare_of l' k))).
  { intros k. unfold mare_of.
    assert (Ex : existsb (short k) l = existsb (short k) l').
    { clear -HP. induction HP as [|p a b _ IH|p q a|a b c _ IH1 _ IH2]; cbn [existsb]; try congruence.
      destruct (short k p), (short k q); reflexivity. }
    rewrite Ex. destruct (existsb (short k) l'); [reflexivity|]. apply Mean. }
  unfold row_of. rewrite !map_map. rewrite (Permutation_length HP).
  repeat (constructor; [split; [reflexivity|]|]);
    cbn [snd fst];
    first [exact (Mean _)|exact (Var _)|exact (Qt _ _)|exact (Ma _)|reflexivity|idtac].
  constructor.
Qed.

End Metrics.
Print Assumptions C41_columns.
Print Assumptions C41_absolute_errors.
Print Assumptions C41_relative_errors.
Print Assumptions C41_squared_relative_errors.
Print Assumptions C41_quantiles.
Print Assumptions C41_shuffle_distance.
Print Assumptions C41_shuffle_columns.
Print Assumptions C41_perfect_model.
Print Assumptions C41_order_irrelevant.

(** ** Lists of different lengths *)

Theorem C41_different_lengths {I} (x y : list (reach_point I Q)) :
  length x <> length y -> length x <> 1%nat -> length y <> 1%nat ->
  (forall p, In p x \/ In p y -> 1 <= max_frequency p) ->
  aggregate x y = Err ValueError.
Proof.
  intros H1 H2 H3 Hp. unfold aggregate, aggregators. cbn [mapM fst snd bind].
  assert (E : differences x y 1 = Err ValueError).
  { unfold differences. rewrite !reach_array_ok by (try lia; intros; apply Hp; auto). cbn [bind].
    unfold np_zip. rewrite !map_length. destruct (Nat.eqb_spec (length x) (length y)); [congruence|].
    destruct x as [|a [|b x]], y as [|c [|d y]]; cbn in *; try congruence; reflexivity. }
  rewrite E. reflexivity.
Qed.
Print Assumptions C41_different_lengths.

(** ** Examples *)

Definition example_point (kplus : list Q) : reach_point Z Q :=
  {| rp_impressions := [10]; rp_kplus := kplus; rp_frequencies := diffs Qops kplus;
     rp_spends := None; rp_universe := None |}.
Definition p1 := example_point [10; 6; 4; 3; 2; 1]%Q.
Definition p2 := example_point [8; 6; 4; 2; 1; 1]%Q.
Definition p3 := example_point [5; 3]%Q.
Definition p4 := example_point [4; 4; 4; 4; 4; 4]%Q.

Lemma example_constructed l : constructed (example_point l).
Proof. exists [10], l, None, None. reflexivity. Qed.

Example C41_example_comparable : comparable [p1; p2] [p2; p3].
Proof.
  split; [reflexivity|]. split; [discriminate|].
  intros p Hp. assert (H : p = p1 \/ p = p2 \/ p = p3) by (cbn in Hp; intuition).
  destruct H as [->|[->| ->]]; (split; [apply example_constructed|cbn; lia]).
Qed.

Example C41_example :
  exists row, aggregate [p1; p2] [p2; p3] = Ok row /\
    number row "mean_error" (5 # 2) /\ number row "mean_squared_error" (13 # 2) /\
    number row "mean_abs_relative_error" (23 # 80) /\ missing row "mare_freq_at_least_3" /\
    number row "mare_freq_at_least_2" (1 # 4) /\ number row "relative_error_q50" (23 # 80).
Proof.
  eexists. split; [vm_compute; reflexivity|].
  split; [eexists; split; reflexivity|]. split; [eexists; split; reflexivity|].
  split; [eexists; split; reflexivity|]. split; [reflexivity|].
  split; eexists; split; reflexivity.
Qed.

Example C41_example_perfect : exists row, aggregate [p1; p2] [p1; p2] = Ok row /\ number row "relative_error_q90" 0.
Proof.
  destruct (C41_perfect_model [p1; p2]) as [row [E H]].
  - split; [reflexivity|]. split; [discriminate|].
    intros p Hp. assert (H : p = p1 \/ p = p2) by (cbn in Hp; intuition).
    destruct H as [->| ->]; (split; [apply example_constructed|cbn; lia]).
  - intros p r Hp. assert (H : p = p1 \/ p = p2) by (cbn in Hp; intuition).
    destruct H as [->| ->]; cbn; intros E; inversion E; reflexivity.
  - exists row. split; [exact E|]. apply H. cbn. tauto.
Qed.

Example C41_example_order : exists row row',
  aggregate [p1; p2] [p2; p3] = Ok row /\ aggregate [p2; p1] [p3; p2] = Ok row' /\ same_row row row'.
Proof.
  apply C41_order_irrelevant; [exact C41_example_comparable|reflexivity|]. cbn. apply perm_swap.
Qed.

Example C41_example_shuffle : exists v, shuffle_distance p1 p2 5 = Ok v /\ (0 < v)%Q /\ (v < 1)%Q.
Proof. eexists. split; [vm_compute; reflexivity|]. split; reflexivity. Qed.

(** A model that predicts the truth exactly still gets the largest distance, 1, if the
    points have at most five frequencies, and 1/2 if nobody is reached fewer than six
    times. *)
Theorem C41_perfect_shape_refuted :
  exists a b : reach_point Z Q, constructed a /\ constructed b /\
    shuffle_distance a a 5 = Ok 1%Q /\ shuffle_distance b b 5 = Ok (1 # 2)%Q /\ reach b 1 = Ok 4%Q.
Proof.
  exists p3, p4. split; [apply example_constructed|]. split; [apply example_constructed|].
  split; [reflexivity|]. split; reflexivity.
Qed.
Print Assumptions C41_perfect_shape_refuted.

(** A single true point is silently compared with each of several modelled points. *)
Theorem C41_lengths_checked_refuted :
  exists (x y : list (reach_point Z Q)) row, length x = 1%nat /\ length y = 2%nat /\
    aggregate x y = Ok row /\ column row "npoints" = Some (CInt 1).
Proof.
  exists [p1], [p1; p2]. eexists. split; [reflexivity|]. split; [reflexivity|].
  split; [vm_compute; reflexivity|reflexivity].
Qed.
Print Assumptions C41_lengths_checked_refuted.
