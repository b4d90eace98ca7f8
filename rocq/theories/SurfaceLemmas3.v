From Coq Require Import Lqa.
From Verif Require Import Prelude ModelReachPoint ReachPointLemmas DataLemmas ModelCurves ModelSurface SpecSurface SurfaceLemmas SurfaceLemmas2.
Open Scope Z_scope.

(** ** Changing one coordinate *)

Lemma set_nth_length {A} i (x : A) l : length (set_nth i x l) = length l.
Proof. revert l. induction i; intros [|y l]; simpl; auto. Qed.

Lemma replaced_set_nth lbd i x : (i < length lbd)%nat -> replaced lbd i x = set_nth i x lbd.
Proof.
  revert i. induction lbd as [|y l IH]; intros [|i] H; simpl in *; try lia; [reflexivity|].
  unfold replaced in *. cbn [firstn app skipn]. f_equal. apply IH. lia.
Qed.

Lemma set_nth_same lbd i : set_nth i (nth i lbd 0%Q) lbd = lbd.
Proof. revert i. induction lbd as [|y l IH]; intros [|i]; simpl; auto. f_equal. apply IH. Qed.

(** entries of the changed vector *)
Lemma nth_set_delta lbd i x k : (i < length lbd)%nat ->
  (nth k (set_nth i x lbd) 0 == nth k lbd 0 + (if Nat.eqb k i then x - nth i lbd 0 else 0))%Q.
Proof.
  intros Hi. destruct (Nat.eqb k i) eqn:E.
  - apply Nat.eqb_eq in E. subst k. rewrite nth_set_nth_eq by auto. ring.
  - apply Nat.eqb_neq in E. rewrite nth_set_nth_neq by auto. ring.
Qed.

Lemma total_delta n i d (g : nat -> Q) : (i < n)%nat ->
  (total n (fun k => g k * (if Nat.eqb k i then d else 0)) == g i * d)%Q.
Proof.
  intros Hi. rewrite (total_single n i); auto.
  - rewrite Nat.eqb_refl. reflexivity.
  - intros k _ Hne. apply Nat.eqb_neq in Hne. rewrite Hne. ring.
Qed.

Lemma total_set lbd i x : (i < length lbd)%nat ->
  (total (length lbd) (fun j => nth j (set_nth i x lbd) 0) ==
   total (length lbd) (fun j => nth j lbd 0) - nth i lbd 0 + x)%Q.
Proof.
  intros Hi. rewrite (total_ext _ _ (fun k => nth k lbd 0 + 1 * (if Nat.eqb k i then x - nth i lbd 0 else 0)))%Q.
  - rewrite total_plus, (total_delta _ i (x - nth i lbd 0) (fun _ => 1))%Q by auto. ring.
  - intros k _. rewrite nth_set_delta by auto. ring.
Qed.

Definition quad (n : nat) (f : nat -> Q) (D : nat -> nat -> Q) : Q :=
  total n (fun a => total n (fun b => f a * f b * D a b))%Q.

Lemma quad_update n f f' D i d : (i < n)%nat ->
  (forall a b, (a < n)%nat -> (b < n)%nat -> D a b == D b a)%Q ->
  (forall k, (k < n)%nat -> f' k == f k + (if Nat.eqb k i then d else 0))%Q ->
  (quad n f' D == quad n f D + 2 * d * total n (fun j => f j * D j i) + d * d * D i i)%Q.
Proof.
  intros Hi Hs Hf. unfold quad.
  rewrite (total_ext n (fun a => total n (fun b => f' a * f' b * D a b))%Q (fun a =>
    total n (fun b => f a * f b * D a b) + f a * D a i * d +
    (total n (fun b => f b * D b a) + D a i * d) * (if Nat.eqb a i then d else 0)))%Q.
  - rewrite total_plus, total_plus.
    rewrite (total_delta n i d (fun a => total n (fun b => f b * D b a) + D a i * d))%Q by auto.
    rewrite (total_scal_r n d (fun a => f a * D a i)%Q). ring.
  - intros a Ha.
    rewrite (total_ext n _ (fun b => f a * f b * D a b + (if Nat.eqb a i then d else 0) * (f b * D b a) +
      (f' a * D a b) * (if Nat.eqb b i then d else 0)))%Q.
    + rewrite !total_plus, total_scal.
      rewrite (total_delta n i d (fun b => f' a * D a b))%Q by auto. rewrite (Hf a Ha). ring.
    + intros b Hb. rewrite (Hf b Hb). rewrite (Hf a Ha) at 1. rewrite (Hs b a Hb Ha). ring_simplify.
      rewrite (Hf a Ha). ring.
Qed.

(** The diagonal part. *)
Lemma diag_update n f f' (D : nat -> nat -> Q) i d : (i < n)%nat ->
  (forall k, (k < n)%nat -> f' k == f k + (if Nat.eqb k i then d else 0))%Q ->
  (total n (fun j => f' j * f' j * D j j) ==
   total n (fun j => f j * f j * D j j) + (2 * f i * d + d * d) * D i i)%Q.
Proof.
  intros Hi Hf.
  rewrite (total_ext n _ (fun j => f j * f j * D j j + ((2 * f j + d) * D j j) * (if Nat.eqb j i then d else 0)))%Q.
  - rewrite total_plus, (total_delta n i d (fun j => (2 * f j + d) * D j j))%Q by auto. ring.
  - intros j Hj. rewrite (Hf j Hj). destruct (Nat.eqb j i); ring.
Qed.

Lemma fitted_update lbd i x D : (i < length lbd)%nat ->
  (forall a b, (a < length lbd)%nat -> (b < length lbd)%nat -> D a b == D b a)%Q ->
  (fitted (set_nth i x lbd) D == compute_u lbd i D + x * compute_v lbd i D)%Q.
Proof.
  intros Hi Hs. unfold fitted, compute_u, compute_v. rewrite set_nth_length.
  set (n := length lbd) in *. set (f := ent lbd). set (f' := ent (set_nth i x lbd)).
  set (d := (x - f i)%Q).
  assert (forall k, (k < n)%nat -> f' k == f k + (if Nat.eqb k i then d else 0))%Q as Hf.
  { intros k _. apply nth_set_delta. auto. }
  rewrite !sumn_total.
  assert (forall g, total n (fun a => sumn n (fun b => g a * g b * D a b)) == quad n g D)%Q as Eq.
  { intros g. apply total_ext. intros a _. apply sumn_total. }
  rewrite !Eq. rewrite (quad_update n f f' D i d Hi Hs Hf), (diag_update n f f' D i d Hi Hf).
  unfold d. field.
Qed.

(** The explained overlap is the sum over pairs. *)
Lemma quad_pairs n f (D : nat -> nat -> Q) :
  (forall a b, (a < n)%nat -> (b < n)%nat -> D a b == D b a)%Q ->
  (quad n f D == 2 * total n (fun j => total j (fun i => f i * f j * D i j)) +
     total n (fun j => f j * f j * D j j))%Q.
Proof.
  unfold quad. induction n as [|n IH]; intros Hs; [reflexivity|]. cbn [total].
  rewrite total_plus, IH by (intros; apply Hs; lia).
  rewrite (total_ext n (fun b => f n * f b * D n b)%Q (fun i => f i * f n * D i n)%Q).
  - ring.
  - intros i Hi. rewrite (Hs n i) by lia. ring.
Qed.

Lemma fitted_explained lbd D :
  (forall a b, (a < length lbd)%nat -> (b < length lbd)%nat -> D a b == D b a)%Q ->
  (fitted lbd D == explained lbd D)%Q.
Proof.
  intros Hs. unfold fitted, explained. rewrite !sumn_total.
  rewrite (total_ext _ (fun a => sumn _ _) (fun a => total (length lbd) (fun b => ent lbd a * ent lbd b * D a b)))%Q
    by (intros; apply sumn_total).
  fold (quad (length lbd) (ent lbd) D). rewrite quad_pairs by auto. unfold ent. field.
Qed.

Lemma loss_squared_loss data lbd : symmetric_data (length lbd) data ->
  (loss data lbd == squared_loss data lbd)%Q.
Proof.
  unfold loss, symmetric_data. induction 1 as [|[y D] data Hs HF IH]; [reflexivity|].
  cbn [map Qsum squared_loss fst snd] in *. rewrite IH, (fitted_explained lbd D Hs). reflexivity.
Qed.

(** ** One step is a clamped least squares step *)

Definition uvs (data : list (Q * (nat -> nat -> Q))) (lbd : list Q) (i : nat) :=
  map (fun yD => (compute_u lbd i (snd yD), compute_v lbd i (snd yD))) data.
Definition num_of data lbd i : Q :=
  Qsum (map (fun yuv => (fst yuv - fst (snd yuv)) * snd (snd yuv))%Q (combine (map fst data) (uvs data lbd i))).
Definition den_of data lbd i : Q := Qsum (map (fun w => snd w * snd w)%Q (uvs data lbd i)).

Lemma loss_quadratic data lbd i x : (i < length lbd)%nat -> symmetric_data (length lbd) data ->
  (loss data (set_nth i x lbd) == loss data (set_nth i 0 lbd) - 2 * x * num_of data lbd i + x * x * den_of data lbd i)%Q.
Proof.
  intros Hi H. unfold loss, num_of, den_of, uvs. induction H as [|[y D] data Hs HF IH]; [simpl; ring|].
  cbn [map combine Qsum fst snd] in *. rewrite IH.
  rewrite !(fitted_update lbd i) by auto. ring.
Qed.

Lemma den_nonneg data lbd i : (0 <= den_of data lbd i)%Q.
Proof.
  unfold den_of. induction (uvs data lbd i) as [|[u v] l IH]; simpl; [lra|].
  assert (0 <= v * v)%Q by (destruct (Qlt_le_dec v 0); [setoid_replace (v * v)%Q with ((-v) * (-v))%Q by ring|]; apply Qmult_le_0_compat; lra).
  lra.
Qed.

Lemma square_nonneg (x : Q) : (0 <= x * x)%Q.
Proof. destruct (Qlt_le_dec x 0); [setoid_replace (x * x)%Q with ((-x) * (-x))%Q by ring|]; apply Qmult_le_0_compat; lra. Qed.

(** The clamped minimiser of a quadratic is the best point of the interval. *)
Lemma clamp_best num den B x y : (0 < den)%Q -> (0 <= B)%Q -> (0 <= y <= B)%Q ->
  x = (if Qltb (num / den) 0 then 0%Q else Qmin (num / den) B) ->
  (- 2 * x * num + x * x * den <= - 2 * y * num + y * y * den)%Q /\ (0 <= x <= B)%Q.
Proof.
  intros Hd HB Hy ->. set (h := (num / den)%Q).
  assert (num == h * den)%Q as En by (unfold h; field; lra).
  assert (forall z, - 2 * z * num + z * z * den == den * ((z - h) * (z - h)) - den * (h * h))%Q as K.
  { intros z. rewrite En. ring. }
  rewrite !K.
  assert (forall z, (z - h) * (z - h) <= (y - h) * (y - h) ->
    den * ((z - h) * (z - h)) - den * (h * h) <= den * ((y - h) * (y - h)) - den * (h * h))%Q as K2.
  { intros z Hz. assert (den * ((z - h) * (z - h)) <= den * ((y - h) * (y - h)))%Q; [|lra].
    rewrite !(Qmult_comm den). apply Qmult_le_compat_r; lra. }
  destruct (Qltb h 0) eqn:E.
  - apply Qltb_lt in E. split; [|lra]. apply K2.
    setoid_replace ((y - h) * (y - h))%Q with ((0 - h) * (0 - h) + y * (y + 2 * (- h)))%Q by ring.
    assert (0 <= y * (y + 2 * - h))%Q by (apply Qmult_le_0_compat; lra). lra.
  - assert (0 <= h)%Q as Hh.
    { destruct (Qlt_le_dec h 0) as [L|]; auto. apply Qltb_lt in L. congruence. }
    unfold Qmin. destruct (Qleb h B) eqn:E2.
    + apply Qleb_le in E2. split; [|lra]. apply K2. pose proof (square_nonneg (y - h)).
      setoid_replace ((h - h) * (h - h))%Q with 0%Q by ring. auto.
    + apply Qleb_gt in E2. split; [|lra]. apply K2.
      setoid_replace ((y - h) * (y - h))%Q with ((B - h) * (B - h) + (B - y) * (2 * (h - B) + (B - y)))%Q by ring.
      assert (0 <= (B - y) * (2 * (h - B) + (B - y)))%Q by (apply Qmult_le_0_compat; lra). lra.
Qed.

(** ** The feasible interval *)

Lemma fold_min_le (g : nat -> Q) i l r0 x :
  (x <= fold_left (fun res j => if Nat.eqb j i then res else Qmin res (g j)) l r0 <->
   x <= r0 /\ forall j, In j l -> j <> i -> x <= g j)%Q.
Proof.
  revert r0. induction l as [|j l IH]; intros r0; simpl.
  - split; [intros; split; auto; intros ? []|tauto].
  - rewrite IH. destruct (Nat.eqb j i) eqn:E.
    + apply Nat.eqb_eq in E. split; intros [H1 H2]; split; auto.
      * intros k [<-|Hk] Hne; [congruence|auto].
    + apply Nat.eqb_neq in E. split.
      * intros [H1 H2]. pose proof (Qmin_le_l r0 (g j)). pose proof (Qmin_le_r r0 (g j)).
        split; [lra|]. intros k [<-|Hk] Hne; [lra|auto].
      * intros [H1 H2]. split; [|auto]. apply Qmin_glb; auto.
Qed.

Lemma le_inv_iff x s : (0 < s)%Q -> (x <= 1 / s <-> x * s <= 1)%Q.
Proof.
  intros Hs. split; intros H.
  - setoid_replace 1%Q with ((1 / s) * s)%Q by (field; lra). apply Qmult_le_compat_r; lra.
  - apply Qle_shift_div_l; auto.
Qed.

Lemma tol_pos : (0 < tol)%Q. Proof. reflexivity. Qed.

(** Within a feasible vector, the interval 0..bound is exactly the feasible values of
    coordinate [i]. *)
Lemma bound_exact lbd i x : lambda_feasible lbd -> (i < length lbd)%nat -> (0 <= x)%Q ->
  (x <= feasible_bound lbd i)%Q <-> lambda_feasible (set_nth i x lbd).
Proof.
  intros HF Hi Hx. unfold feasible_bound. rewrite fold_min_le.
  set (n := length lbd) in *. set (T := total n (fun j => nth j lbd 0%Q)).
  set (l := fun k => nth k lbd 0%Q).
  assert (Qsum lbd == T)%Q as ET by (apply Qsum_total).
  assert (forall k, (k < n)%nat -> (0 <= l k /\ l k * (T - l k) <= 1 /\ l k <= 1000000 /\ T - l k <= 1000000)%Q) as HF'.
  { intros k Hk. exact (HF k Hk). }
  assert (forall k, (k < n)%nat -> l k <= T)%Q as HlT.
  { intros k Hk. apply (total_term_le n k l Hk). intros j Hj. apply HF'; auto. }
  assert (x <= 1 / Qmax (Qsum lbd - ent lbd i) tol <-> x * (T - l i) <= 1 /\ x <= 1000000)%Q as K1.
  { assert (0 < Qmax (Qsum lbd - ent lbd i) tol)%Q as P by (pose proof (Qmax_le_r (Qsum lbd - ent lbd i) tol); pose proof tol_pos; lra).
    rewrite le_inv_iff by auto. unfold Qmax in *. destruct (Qleb (Qsum lbd - ent lbd i) tol) eqn:E.
    - apply Qleb_le in E. unfold ent in E. fold (l i) in E. rewrite ET in E. split.
      + intros H. unfold tol in *. assert (x <= 1000000)%Q as HX by lra. split; auto.
        apply Qle_trans with (x * (1#1000000))%Q; [|lra].
        rewrite !(Qmult_comm x). apply Qmult_le_compat_r; lra.
      + intros [H1 H2]. unfold tol. lra.
    - apply Qleb_gt in E. unfold ent in *. fold (l i) in *. rewrite ET in *. split.
      + intros H. split; auto. unfold tol in E.
        assert (x * (1#1000000) <= x * (T - l i))%Q by (rewrite !(Qmult_comm x); apply Qmult_le_compat_r; lra). lra.
      + intros [H1 H2]. auto. }
  assert (forall j, (j < n)%nat -> j <> i ->
    (x <= 1 / Qmax (ent lbd j) tol - Qsum lbd + ent lbd i + ent lbd j <->
     l j * (T - l i + x - l j) <= 1 /\ T - l i + x - l j <= 1000000)%Q) as K2.
  { intros j Hj Hne. unfold ent. fold (l i) (l j). rewrite ET.
    set (o := (T - l i + x - l j)%Q).
    assert (0 <= o)%Q as Ho.
    { unfold o. assert (0 <= T - l i - l j)%Q; [|lra].
      pose proof (total_term_le n j (fun k => nth k (set_nth i 0%Q lbd) 0%Q) Hj) as G.
      assert (forall k, (k < n)%nat -> 0 <= nth k (set_nth i 0%Q lbd) 0)%Q as G0.
      { intros k Hk. destruct (Nat.eq_dec k i) as [->|N]; [rewrite nth_set_nth_eq by auto; lra|].
        rewrite nth_set_nth_neq by auto. apply (HF' k Hk). }
      specialize (G G0). cbv beta in G. rewrite nth_set_nth_neq in G by auto. unfold n in G. rewrite (total_set lbd i 0%Q Hi) in G.
      fold n T (l i) (l j) in G. lra. }
    assert (x <= 1 / Qmax (l j) tol - T + l i + l j <-> o <= 1 / Qmax (l j) tol)%Q as -> by (unfold o; lra).
    assert (0 < Qmax (l j) tol)%Q as P by (pose proof (Qmax_le_r (l j) tol); pose proof tol_pos; lra).
    rewrite le_inv_iff by auto. pose proof (HF' j Hj) as [P1 [P2 [P3 P4]]].
    unfold Qmax in *. destruct (Qleb (l j) tol) eqn:E.
    - apply Qleb_le in E. unfold tol in *. split.
      + intros H. split; [|lra].
        apply Qle_trans with (o * (1#1000000))%Q; [|lra].
        rewrite !(Qmult_comm o). apply Qmult_le_compat_r; lra.
      + intros [_ H]. lra.
    - apply Qleb_gt in E. unfold tol in *. split.
      + intros H. split; [lra|].
        assert (o * (1#1000000) <= o * l j)%Q by (rewrite !(Qmult_comm o); apply Qmult_le_compat_r; lra). lra.
      + intros [H _]. lra. }
  rewrite K1. unfold lambda_feasible. rewrite set_nth_length. fold n. split.
  - intros [[H1 H2] H3] k Hk. cbv zeta. unfold n at 1 2. rewrite (total_set lbd i x Hi). fold n T.
    destruct (Nat.eq_dec k i) as [->|N].
    + rewrite nth_set_nth_eq by auto. fold (l i). destruct (HF' i Hi) as [P1 [P2 [P3 P4]]].
      repeat split; lra.
    + rewrite nth_set_nth_neq by auto. fold (l i) (l k). destruct (HF' k Hk) as [P1 [P2 [P3 P4]]].
      destruct (proj1 (K2 k Hk N) (H3 k ltac:(apply in_seq; lia) N)) as [Q1 Q2]. repeat split; auto.
  - intros H. split.
    + specialize (H i Hi). cbv zeta in H. unfold n in H. rewrite !(total_set lbd i x Hi) in H. fold n T in H.
      rewrite nth_set_nth_eq in H by auto. fold (l i) in H. destruct H as [P1 [P2 [P3 P4]]]. split; [|lra].
      setoid_replace (x * (T - l i))%Q with (x * (T - l i + x - x))%Q by ring. auto.
    + intros j Hin N. apply in_seq in Hin. apply K2; [lia|auto|].
      specialize (H j ltac:(lia)). cbv zeta in H. unfold n in H. rewrite !(total_set lbd i x Hi) in H. fold n T in H.
      rewrite nth_set_nth_neq in H by auto. fold (l i) (l j) in H. destruct H as [P1 [P2 [P3 P4]]]. split; auto.
Qed.

Lemma feasible_nonneg lbd i : lambda_feasible lbd -> (i < length lbd)%nat -> (0 <= nth i lbd 0)%Q.
Proof. intros H Hi. apply (H i Hi). Qed.

Lemma step_sound data lbd i x : lambda_feasible lbd -> (i < length lbd)%nat ->
  symmetric_data (length lbd) data -> step data lbd i = Ok x ->
  lambda_feasible (set_nth i x lbd) /\
  forall y, lambda_feasible (set_nth i y lbd) -> (loss data (set_nth i x lbd) <= loss data (set_nth i y lbd))%Q.
Proof.
  intros HF Hi HS E. unfold step in E. fold (uvs data lbd i) (num_of data lbd i) (den_of data lbd i) in E.
  destruct (Qeqb (den_of data lbd i) 0) eqn:Ed; [discriminate|].
  assert (0 < den_of data lbd i)%Q as Hd.
  { pose proof (den_nonneg data lbd i). destruct (Qlt_le_dec 0 (den_of data lbd i)); auto.
    assert (den_of data lbd i == 0)%Q as G by lra. apply Qeq_bool_iff in G. unfold Qeqb in Ed. congruence. }
  set (h := (num_of data lbd i / den_of data lbd i)%Q) in *.
  pose proof (feasible_nonneg lbd i HF Hi) as P.
  assert (nth i lbd 0 <= feasible_bound lbd i)%Q as PB.
  { apply bound_exact; auto. rewrite set_nth_same. auto. }
  assert (x = if Qltb h 0 then 0%Q else Qmin h (feasible_bound lbd i)) as Ex.
  { destruct (Qltb h 0); inversion E; auto. }
  assert (0 <= x <= feasible_bound lbd i)%Q as Bx.
  { eapply (clamp_best _ _ _ x (nth i lbd 0%Q)); eauto; lra. }
  split; [apply bound_exact; auto; apply Bx|].
  intros y Hy. rewrite (loss_quadratic data lbd i x), (loss_quadratic data lbd i y) by auto.
  assert (0 <= y)%Q as Py.
  { pose proof (feasible_nonneg _ i Hy ltac:(rewrite set_nth_length; auto)) as G. rewrite nth_set_nth_eq in G by auto. auto. }
  apply bound_exact in Hy; auto.
  destruct (clamp_best (num_of data lbd i) (den_of data lbd i) (feasible_bound lbd i) x y Hd ltac:(lra) (conj Py Hy) Ex) as [G _].
  lra.
Qed.

(** ** Rounds and descent *)

Lemma round_sound data perm : forall lbd lbd', lambda_feasible lbd ->
  Forall (fun i => (i < length lbd)%nat) perm -> symmetric_data (length lbd) data ->
  round data perm lbd = Ok lbd' ->
  lambda_feasible lbd' /\ length lbd' = length lbd /\ (loss data lbd' <= loss data lbd)%Q.
Proof.
  induction perm as [|i perm IH]; intros lbd lbd' HF HP HS E; simpl in E.
  - inversion E; subst. split; [auto|]. split; [auto|lra].
  - destruct (step data lbd i) as [x|] eqn:Ex; [|discriminate]. cbn [bind] in E.
    inversion HP as [|? ? Hi HP']; subst.
    destruct (step_sound data lbd i x HF Hi HS Ex) as [F1 F2].
    destruct (IH (set_nth i x lbd) lbd' F1) as [G1 [G2 G3]]; auto.
    + eapply Forall_impl; [|exact HP']. intros. rewrite set_nth_length. auto.
    + rewrite set_nth_length. auto.
    + split; auto. rewrite set_nth_length in G2. split; auto.
      specialize (F2 (nth i lbd 0%Q)). rewrite set_nth_same in F2. specialize (F2 HF). lra.
Qed.

Lemma descend_sound data perms mi : forall left num lbd prev cur lbd' l conv,
  lambda_feasible lbd -> (forall r, Forall (fun i => (i < length lbd)%nat) (perms r)) ->
  symmetric_data (length lbd) data ->
  descend data perms mi left num lbd prev cur = Ok (lbd', l, conv) ->
  lambda_feasible lbd' /\ length lbd' = length lbd /\ (loss data lbd' <= loss data lbd)%Q /\
  ((lbd' = lbd /\ l = cur) \/ l = loss data lbd').
Proof.
  induction left as [|k IH]; intros num lbd prev cur lbd' l conv HF HP HS E; cbn [descend] in E.
  - inversion E; subst. split; [auto|]. split; [auto|]. split; [lra|auto].
  - destruct (Qltb cur (prev - mi)).
    + destruct (round data (perms num) lbd) as [lbd1|] eqn:E1; [|discriminate]. cbn [bind] in E.
      destruct (round_sound data (perms num) lbd lbd1 HF (HP num) HS E1) as [F1 [F2 F3]].
      destruct (IH _ _ _ _ _ _ _ F1 ltac:(rewrite F2; auto) ltac:(rewrite F2; auto) E) as [G1 [G2 [G3 G4]]].
      split; auto. split; [congruence|]. split; [lra|]. right. destruct G4 as [[-> ->]|]; auto.
    + inversion E; subst. split; [auto|]. split; [auto|]. split; [lra|auto].
Qed.

Lemma fit_one_sound data perms mi rounds lbd lbd' l conv :
  lambda_feasible lbd -> (forall r, Forall (fun i => (i < length lbd)%nat) (perms r)) ->
  symmetric_data (length lbd) data -> (mi < 1)%Q -> (0 < rounds)%nat ->
  fit_one_init_lbd data perms mi rounds lbd = Ok (lbd', l, conv) ->
  lambda_feasible lbd' /\ length lbd' = length lbd /\ (l <= loss data lbd)%Q /\ l = loss data lbd'.
Proof.
  intros HF HP HS Hmi Hr E. unfold fit_one_init_lbd in E. destruct rounds as [|k]; [lia|].
  cbn [descend] in E. 
  destruct (Qltb (loss data lbd - 1) (loss data lbd - mi)) eqn:Eb.
  2:{ exfalso. assert (Qltb (loss data lbd - 1) (loss data lbd - mi) = true); [|congruence]. apply Qltb_lt. lra. }
  destruct (round data (perms 0%nat) lbd) as [lbd1|] eqn:E1; [|discriminate]. cbn [bind] in E.
  destruct (round_sound data (perms 0%nat) lbd lbd1 HF (HP _) HS E1) as [F1 [F2 F3]].
  assert (symmetric_data (length lbd1) data) as HS1 by (rewrite F2; auto).
  assert (forall r, Forall (fun i => (i < length lbd1)%nat) (perms r)) as HP1 by (rewrite F2; auto).
  destruct (descend_sound _ _ _ _ _ _ _ _ _ _ _ F1 HP1 HS1 E) as [G1 [G2 [G3 G4]]].
  assert (l = loss data lbd') as El by (destruct G4 as [[-> ->]|]; auto).
  split; auto. split; [congruence|]. split; auto. rewrite El. lra.
Qed.

(** ** Coefficients built from lambda *)

Lemma construct_a_entry lbd i j : (i < length lbd)%nat -> (j < length lbd)%nat ->
  entry (length lbd) (construct_a lbd) i j =
  if Nat.eqb i j then 0%Q else (nth i lbd 0 * nth j lbd 0 / 2)%Q.
Proof.
  intros Hi Hj. unfold entry, construct_a.
  rewrite (nth_flat_map_block _ (length lbd) _ _ _ 0%nat 0%Q); [|intros; rewrite map_length, seq_length; auto|rewrite seq_length; auto|auto].
  rewrite seq_nth by auto. rewrite nth_map_seq by auto. reflexivity.
Qed.

Lemma construct_a_length lbd : length (construct_a lbd) = (length lbd * length lbd)%nat.
Proof.
  unfold construct_a. rewrite (flat_map_block_length _ (length lbd)); [rewrite seq_length; auto|].
  intros. rewrite map_length, seq_length; auto.
Qed.

Lemma construct_a_row lbd i : (i < length lbd)%nat ->
  (total (length lbd) (fun j => entry (length lbd) (construct_a lbd) i j) ==
   nth i lbd 0 * (total (length lbd) (fun j => nth j lbd 0) - nth i lbd 0) / 2)%Q.
Proof.
  intros Hi.
  rewrite (total_ext _ _ (fun j => (nth i lbd 0 / 2) * nth j lbd 0 + (- nth i lbd 0 / 2) * (if Nat.eqb j i then nth i lbd 0 else 0)))%Q.
  - rewrite total_plus, total_scal, (total_delta _ i (nth i lbd 0) (fun _ => - nth i lbd 0 / 2))%Q by auto. field.
  - intros j Hj. rewrite construct_a_entry by auto. rewrite (Nat.eqb_sym j i). destruct (Nat.eqb i j) eqn:E.
    + apply Nat.eqb_eq in E. subst. field.
    + field.
Qed.

Lemma construct_a_ok lbd : lambda_feasible lbd -> overlap_coefficients (length lbd) (construct_a lbd).
Proof.
  intros HF. split; [apply construct_a_length|].
  assert (forall i j, (i < length lbd)%nat -> (j < length lbd)%nat ->
    entry (length lbd) (construct_a lbd) i j == entry (length lbd) (construct_a lbd) j i)%Q as Hs.
  { intros i j Hi Hj. rewrite !construct_a_entry by auto. rewrite (Nat.eqb_sym j i). destruct (Nat.eqb i j); field. }
  assert (forall i, (i < length lbd)%nat -> total (length lbd) (fun j => entry (length lbd) (construct_a lbd) i j) <= 1)%Q as Hr.
  { intros i Hi. rewrite construct_a_row by auto. destruct (HF i Hi) as [P1 [P2 _]].
    apply Qle_shift_div_r; lra. }
  repeat split; auto.
  - intros i j Hi Hj. rewrite construct_a_entry by auto. destruct (Nat.eqb i j); [lra|].
    apply Qle_shift_div_l; [lra|]. rewrite Qmult_0_l. apply Qmult_le_0_compat; apply feasible_nonneg; auto.
  - intros i Hi. rewrite construct_a_entry, Nat.eqb_refl by auto. reflexivity.
  - intros j Hj. rewrite (total_ext _ _ (fun i => entry (length lbd) (construct_a lbd) j i))%Q; auto.
Qed.

(** The explained overlap is the overlap of the surface with the constructed coefficients. *)
Lemma construct_D_sym r m i j : (construct_D r m i j == construct_D r m j i)%Q.
Proof.
  unfold construct_D. assert (Qmax (ent m i) (ent m j) == Qmax (ent m j) (ent m i))%Q as ->.
  { unfold Qmax. destruct (Qleb (ent m i) (ent m j)) eqn:E1; destruct (Qleb (ent m j) (ent m i)) eqn:E2; try reflexivity.
    - apply Qleb_le in E1, E2. lra.
    - apply Qleb_gt in E1, E2. lra. }
  setoid_replace (ent r i * ent r j)%Q with (ent r j * ent r i)%Q by ring. reflexivity.
Qed.

Lemma ent_cmax curves i : (i < length curves)%nat -> ent (map c_max_reach curves) i = cmax curves i.
Proof.
  intros Hi. unfold ent, cmax. destruct (nth_error curves i) as [c|] eqn:E.
  - rewrite (nth_error_nth (map c_max_reach curves) i 0%Q (x := c_max_reach c)); auto. apply map_nth_error. auto.
  - apply nth_error_None in E. lia.
Qed.

Lemma construct_a_predicts curves lbd rs : length lbd = length curves -> non_trivial_curves curves ->
  (pairwise_value (length curves) (construct_a lbd) curves rs ==
   total (length curves) (fun i => nth i rs 0) - explained lbd (construct_D rs (map c_max_reach curves)))%Q.
Proof.
  intros HL Hn. unfold pairwise_value. apply Qplus_comp; [reflexivity|]. apply Qopp_comp.
  rewrite <- fitted_explained by (intros; apply construct_D_sym).
  unfold fitted. rewrite !sumn_total. rewrite <- HL. set (n := length lbd) in *.
  set (D := construct_D rs (map c_max_reach curves)).
  rewrite (total_ext n (fun a => sumn _ _) (fun a => total n (fun b => ent lbd a * ent lbd b * D a b)))%Q
    by (intros; apply sumn_total).
  setoid_replace ((total n (fun a => total n (fun b => ent lbd a * ent lbd b * D a b)) - total n (fun j => ent lbd j * ent lbd j * D j j)) / 2)%Q
    with ((1#2) * (total n (fun a => total n (fun b => ent lbd a * ent lbd b * D a b)) - total n (fun j => ent lbd j * ent lbd j * D j j)))%Q by field.
  rewrite <- total_minus, <- total_scal. apply total_ext. intros i Hi.
  rewrite (total_ext n _ (fun j => (1#2) * (ent lbd i * ent lbd j * D i j) + (- (1#2) * ent lbd i * ent lbd j * D j j) * (if Nat.eqb j i then 1 else 0)))%Q.
  - rewrite total_plus, total_scal, (total_delta n i 1 (fun j => - (1#2) * ent lbd i * ent lbd j * D j j))%Q by auto. ring.
  - intros j Hj. unfold n. rewrite construct_a_entry by auto.
    assert (D i j == nth i rs 0 * nth j rs 0 / pden curves i j)%Q as ED.
    { unfold D, construct_D, pden. rewrite !ent_cmax by lia. unfold ent.
      pose proof (cmax_pos curves i Hn ltac:(lia)). pose proof (Qmax_le_l (cmax curves i) (cmax curves j)).
      field. lra. }
    rewrite (Nat.eqb_sym j i). destruct (Nat.eqb i j) eqn:E.
    + apply Nat.eqb_eq in E. subst j. unfold ent. ring.
    + rewrite <- ED. unfold ent. field.
Qed.
