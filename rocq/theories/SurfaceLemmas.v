From Coq Require Import Lqa.
From Verif Require Import Prelude ModelReachPoint ReachPointLemmas DataLemmas ModelCurves ModelSurface SpecSurface.
Open Scope Z_scope.

(** ** Finite sums *)

Lemma Qsum_app l1 l2 : (Qsum (l1 ++ l2) == Qsum l1 + Qsum l2)%Q.
Proof. induction l1 as [|x l IH]; simpl; [ring|]. rewrite IH. ring. Qed.

Lemma sumn_total n f : (sumn n f == total n f)%Q.
Proof.
  unfold sumn. induction n as [|n IH]; [reflexivity|].
  rewrite seq_S, map_app, Qsum_app, IH. simpl. ring.
Qed.

Lemma total_ext n f g : (forall i, (i < n)%nat -> f i == g i)%Q -> (total n f == total n g)%Q.
Proof.
  induction n as [|n IH]; intros H; simpl; [reflexivity|].
  rewrite IH, (H n) by (auto; lia). reflexivity.
Qed.

Lemma total_le n f g : (forall i, (i < n)%nat -> f i <= g i)%Q -> (total n f <= total n g)%Q.
Proof.
  induction n as [|n IH]; intros H; simpl; [lra|].
  pose proof (IH (fun i Hi => H i ltac:(lia))). pose proof (H n ltac:(lia)). lra.
Qed.

Lemma total_plus n f g : (total n (fun i => f i + g i) == total n f + total n g)%Q.
Proof. induction n as [|n IH]; simpl; [ring|]. rewrite IH. ring. Qed.

Lemma total_minus n f g : (total n (fun i => f i - g i) == total n f - total n g)%Q.
Proof. induction n as [|n IH]; simpl; [ring|]. rewrite IH. ring. Qed.

Lemma total_scal n c f : (total n (fun i => c * f i) == c * total n f)%Q.
Proof. induction n as [|n IH]; simpl; [ring|]. rewrite IH. ring. Qed.

Lemma total_scal_r n c f : (total n (fun i => f i * c) == total n f * c)%Q.
Proof. induction n as [|n IH]; simpl; [ring|]. rewrite IH. ring. Qed.

Lemma total_0 n f : (forall i, (i < n)%nat -> f i == 0)%Q -> (total n f == 0)%Q.
Proof.
  induction n as [|n IH]; intros H; simpl; [reflexivity|].
  rewrite IH, (H n) by (auto; lia). ring.
Qed.

Lemma total_nonneg n f : (forall i, (i < n)%nat -> 0 <= f i)%Q -> (0 <= total n f)%Q.
Proof.
  induction n as [|n IH]; intros H; simpl; [lra|].
  pose proof (IH (fun i Hi => H i ltac:(lia))). pose proof (H n ltac:(lia)). lra.
Qed.

Lemma total_swap n m f :
  (total n (fun i => total m (fun j => f i j)) == total m (fun j => total n (fun i => f i j)))%Q.
Proof.
  induction n as [|n IH]; simpl.
  - symmetry. apply total_0. reflexivity.
  - rewrite IH. rewrite <- total_plus. apply total_ext. intros; ring.
Qed.

(** Only one term is not zero. *)
Lemma total_single n k f : (k < n)%nat ->
  (forall i, (i < n)%nat -> i <> k -> f i == 0)%Q -> (total n f == f k)%Q.
Proof.
  induction n as [|n IH]; intros Hk H; [lia|]. simpl.
  destruct (Nat.eq_dec k n) as [->|].
  - rewrite total_0; [ring|]. intros i Hi. apply H; lia.
  - rewrite IH by (try lia; intros; apply H; lia). rewrite (H n) by lia. ring.
Qed.

Lemma total_term_le n k f : (k < n)%nat -> (forall i, (i < n)%nat -> 0 <= f i)%Q -> (f k <= total n f)%Q.
Proof.
  induction n as [|n IH]; intros Hk H; [lia|]. simpl.
  destruct (Nat.eq_dec k n) as [->|].
  - pose proof (total_nonneg n f ltac:(intros; apply H; lia)). lra.
  - pose proof (IH ltac:(lia) ltac:(intros; apply H; lia)). pose proof (H n ltac:(lia)). lra.
Qed.

Lemma total_split n f : (total (S n) f == f O + total n (fun i => f (S i)))%Q.
Proof. induction n as [|n IH]; simpl in *; [ring|]. rewrite IH. ring. Qed.

Lemma Qsum_total l : (Qsum l == total (length l) (fun i => nth i l 0%Q))%Q.
Proof.
  induction l as [|x l IH]; [reflexivity|]. cbn [length]. rewrite total_split. cbn [nth]. rewrite <- IH. reflexivity.
Qed.

Lemma Qsum_map_total {A} (f : A -> Q) l d :
  (Qsum (map f l) == total (length l) (fun i => f (nth i l d)))%Q.
Proof.
  rewrite Qsum_total, map_length. apply total_ext. intros i Hi.
  rewrite (nth_indep _ 0%Q (f d)) by (rewrite map_length; auto). rewrite map_nth. reflexivity.
Qed.

Lemma py_range_0 n : py_range 0 (Z.of_nat n) = map Z.of_nat (seq 0 n).
Proof. unfold py_range. rewrite Z.sub_0_r, Nat2Z.id. apply map_ext. intros; lia. Qed.

Lemma Qsum_range n (f : Z -> Q) : (Qsum (map f (py_range 0 (Z.of_nat n))) == total n (fun i => f (Z.of_nat i)))%Q.
Proof. rewrite py_range_0, map_map. apply (sumn_total n (fun i => f (Z.of_nat i))). Qed.

Lemma Qsum_list_prod {A B} (f : A * B -> Q) l l' :
  (Qsum (map f (list_prod l l')) == Qsum (map (fun a => Qsum (map (fun b => f (a, b)) l')) l))%Q.
Proof.
  induction l as [|x l IH]; [reflexivity|]. simpl. rewrite map_app, Qsum_app, IH, map_map. reflexivity.
Qed.

Lemma Qsum_pairs p (f : Z * Z -> Q) :
  (Qsum (map f (index_pairs p)) == total p (fun i => total p (fun j => f (Z.of_nat i, Z.of_nat j))))%Q.
Proof.
  unfold index_pairs. rewrite Qsum_list_prod.
  rewrite (Qsum_range p (fun a => Qsum (map (fun b => f (a, b)) (py_range 0 (Z.of_nat p))))).
  apply total_ext. intros i _. apply (Qsum_range p (fun b => f (Z.of_nat i, b))).
Qed.

Lemma in_index_pairs p ij : In ij (index_pairs p) <->
  0 <= fst ij < Z.of_nat p /\ 0 <= snd ij < Z.of_nat p.
Proof.
  destruct ij as [i j]. unfold index_pairs. rewrite in_prod_iff, py_range_0, !in_map_iff. simpl.
  split.
  - intros [[a [<- Ha]] [b [<- Hb]]]. apply in_seq in Ha, Hb. lia.
  - intros [Hi Hj]. split; [exists (Z.to_nat i)|exists (Z.to_nat j)]; rewrite in_seq; lia.
Qed.

Lemma py_index_in {A} (l : list A) i d : 0 <= i < Z.of_nat (length l) ->
  py_index l i = Ok (nth (Z.to_nat i) l d).
Proof.
  intros H. rewrite py_index_nonneg by lia.
  rewrite (nth_error_nth' l d) by lia. reflexivity.
Qed.

Lemma Qmax_le_l x y : (x <= Qmax x y)%Q.
Proof. unfold Qmax. destruct (Qleb x y) eqn:E; [apply Qleb_le in E; auto|lra]. Qed.
Lemma Qmax_le_r x y : (y <= Qmax x y)%Q.
Proof. unfold Qmax. destruct (Qleb x y) eqn:E; [lra|apply Qleb_gt in E; lra]. Qed.
Lemma Qmax_lub x y z : (x <= z)%Q -> (y <= z)%Q -> (Qmax x y <= z)%Q.
Proof. unfold Qmax. destruct (Qleb x y); auto. Qed.
Lemma Qmin_le_l x y : (Qmin x y <= x)%Q.
Proof. unfold Qmin. destruct (Qleb x y) eqn:E; [lra|apply Qleb_gt in E; lra]. Qed.
Lemma Qmin_le_r x y : (Qmin x y <= y)%Q.
Proof. unfold Qmin. destruct (Qleb x y) eqn:E; [apply Qleb_le in E; auto|lra]. Qed.
Lemma Qmin_glb x y z : (z <= x)%Q -> (z <= y)%Q -> (z <= Qmin x y)%Q.
Proof. unfold Qmin. destruct (Qleb x y); auto. Qed.

Lemma Qdiv_le_1 x y : (0 < y)%Q -> (x <= y)%Q -> (x / y <= 1)%Q.
Proof. intros. apply Qle_shift_div_r; lra. Qed.
Lemma Qdiv_nonneg x y : (0 <= x)%Q -> (0 < y)%Q -> (0 <= x / y)%Q.
Proof. intros. apply Qle_shift_div_l; lra. Qed.

(** ** Reach vectors *)

Lemma single_reaches_vector curves imps rs : single_reaches curves imps rs ->
  get_reach_vector curves imps = Ok rs /\ length imps = length curves /\ length rs = length curves.
Proof.
  induction 1 as [|c cs x xs r rs E B H [IH [L1 L2]]]; [auto|].
  unfold get_reach_vector in *. cbn [combine mapM fst snd]. rewrite E. cbn [bind]. rewrite IH. cbn [bind].
  split; auto. simpl. split; congruence.
Qed.

Definition cmax (curves : list reach_curve) (i : nat) : Q :=
  match nth_error curves i with Some c => c_max_reach c | None => 0%Q end.

Lemma single_reaches_bounds curves imps rs i : single_reaches curves imps rs ->
  (0 <= nth i rs 0 <= cmax curves i)%Q.
Proof.
  intros H. revert i. induction H as [|c cs x xs r rs E B H IH]; intros i; unfold cmax in *.
  - destruct i; simpl; lra.
  - destruct i; simpl; [auto|apply IH].
Qed.

(** Denominator 2 max(m_i, m_j). *)
Definition pden (curves : list reach_curve) (i j : nat) : Q := (Qmax (cmax curves i) (cmax curves j) * 2)%Q.

Lemma cmax_pos curves i : non_trivial_curves curves -> (i < length curves)%nat -> (0 < cmax curves i)%Q.
Proof.
  intros H Hi. unfold cmax, non_trivial_curves in *. rewrite Forall_forall in H.
  destruct (nth_error curves i) eqn:E; [apply H; eapply nth_error_In; eauto|].
  apply nth_error_None in E. lia.
Qed.

Lemma pair_term_ok curves rv i j :
  (0 < cmax curves i)%Q -> (i < length curves)%nat -> (j < length curves)%nat ->
  length rv = length curves ->
  pair_term curves rv (Z.of_nat i) (Z.of_nat j) = Ok (ent rv i * ent rv j / pden curves i j)%Q.
Proof.
  intros Hp Hi Hj HL. unfold pair_term.
  rewrite !(py_index_in rv _ 0%Q) by lia. cbn [bind].
  rewrite !py_index_nonneg by lia. rewrite !Nat2Z.id. 
  destruct (nth_error curves i) as [ci|] eqn:Ei; [|apply nth_error_None in Ei; lia].
  destruct (nth_error curves j) as [cj|] eqn:Ej; [|apply nth_error_None in Ej; lia].
  cbn [bind]. unfold pden, cmax in *. rewrite Ei in *. rewrite Ej.
  destruct (Qeqb _ 0) eqn:E; [|reflexivity].
  apply Qeq_bool_iff in E. pose proof (Qmax_le_l (c_max_reach ci) (c_max_reach cj)). lra.
Qed.

(** The value computed by the pairwise surface. *)
Definition pairwise_value (p : nat) (a : list Q) (curves : list reach_curve) (rv : list Q) : Q :=
  (total p (fun i => nth i rv 0) -
   total p (fun i => total p (fun j => entry p a i j * (nth i rv 0 * nth j rv 0 / pden curves i j))))%Q.

Lemma pairwise_by_impressions_ok a curves imps rs m : let p := length curves in
  length a = (p * p)%nat -> single_reaches curves imps rs -> non_trivial_curves curves ->
  exists pt u, pairwise_by_impressions p a curves imps m = Ok pt /\ reach pt 1 = Ok u /\
    rp_impressions pt = imps /\ max_frequency pt = 1 /\
    (u == pairwise_value p a curves rs)%Q.
Proof.
  intros p La H Hn. destruct (single_reaches_vector _ _ _ H) as [Ev [L1 L2]].
  unfold pairwise_by_impressions. rewrite Ev. cbn [bind].
  set (g := fun ij : Z * Z => (entry p a (Z.to_nat (fst ij)) (Z.to_nat (snd ij)) *
    (ent rs (Z.to_nat (fst ij)) * ent rs (Z.to_nat (snd ij)) / pden curves (Z.to_nat (fst ij)) (Z.to_nat (snd ij))))%Q).
  rewrite (mapM_ok_all _ g).
  - cbn [bind]. rewrite mk_reach_point_none. eexists. eexists. split; [reflexivity|]. split; [reflexivity|].
    split; [reflexivity|]. split; [reflexivity|].
    unfold pairwise_value. rewrite Qsum_pairs. rewrite (Qsum_total rs), L2. fold p.
    apply Qplus_comp; [reflexivity|]. apply Qopp_comp. apply total_ext. intros i _. apply total_ext. intros j _.
    unfold g. cbn [fst snd]. rewrite !Nat2Z.id. reflexivity.
  - intros [i j] Hin. apply in_index_pairs in Hin. cbn [fst snd] in *. destruct Hin as [Hi Hj].
    rewrite (py_index_in a _ 0%Q) by (rewrite La; nia).
    cbn [bind]. unfold g. cbn [fst snd].
    pose proof (pair_term_ok curves rs (Z.to_nat i) (Z.to_nat j)
      (cmax_pos curves (Z.to_nat i) Hn ltac:(unfold p in *; lia)) ltac:(unfold p in *; lia) ltac:(unfold p in *; lia) L2) as E.
    rewrite !Z2Nat.id in E by lia. rewrite E. cbn [bind]. unfold entry.
    replace (Z.to_nat (i * Z.of_nat p + j)) with (Z.to_nat i * p + Z.to_nat j)%nat by nia. reflexivity.
Qed.

(** ** Pairwise value: bounds *)

Lemma pden_ge curves i j : (cmax curves i * 2 <= pden curves i j)%Q /\ (cmax curves j * 2 <= pden curves i j)%Q.
Proof.
  unfold pden. pose proof (Qmax_le_l (cmax curves i) (cmax curves j)).
  pose proof (Qmax_le_r (cmax curves i) (cmax curves j)). lra.
Qed.

(** difference of two products over a common denominator *)
Lemma pairwise_value_mono p a curves r r' : p = length curves ->
  overlap_coefficients p a -> non_trivial_curves curves ->
  (forall i, (i < p)%nat -> 0 <= nth i r 0 <= nth i r' 0)%Q ->
  (forall i, (i < p)%nat -> nth i r' 0 <= cmax curves i)%Q ->
  (pairwise_value p a curves r <= pairwise_value p a curves r')%Q.
Proof.
  intros Ep [La [Hpos [Hdiag [Hsym [Hrow Hcol]]]]] Hn Hr Hm.
  unfold pairwise_value. set (x := fun i => nth i r 0%Q) in *. set (y := fun i => nth i r' 0%Q) in *.
  change (forall i, (i < p)%nat -> (0 <= x i <= y i)%Q) in Hr.
  change (forall i, (i < p)%nat -> (y i <= cmax curves i)%Q) in Hm.
  assert (forall i, (i < p)%nat -> (0 < cmax curves i)%Q) as Hc by (intros; apply cmax_pos; auto; lia).
  set (A := entry p a) in *. set (D := pden curves).
  assert (forall i j, (i < p)%nat -> (j < p)%nat -> (0 < D i j)%Q) as HD.
  { intros i j Hi Hj. destruct (pden_ge curves i j). pose proof (Hc i Hi). unfold D. lra. }
  (* overlap grows by at most the growth of the sum *)
  assert (total p (fun i => total p (fun j => A i j * (y i * y j / D i j))) -
          total p (fun i => total p (fun j => A i j * (x i * x j / D i j)))
          <= total p y - total p x)%Q; [|unfold x, y, A, D in *; lra].
  rewrite <- !total_minus.
  assert (forall i j, (i < p)%nat -> (j < p)%nat ->
    (A i j * (y i * y j / D i j) - A i j * (x i * x j / D i j) <=
     (1#2) * (A i j * (y i - x i)) + (1#2) * (A i j * (y j - x j)))%Q) as Hterm.
  { intros i j Hi Hj. pose proof (Hpos i j Hi Hj) as P. pose proof (HD i j Hi Hj) as PD.
    destruct (pden_ge curves i j) as [G1 G2]. fold (D i j) in G1, G2. fold (A i j) in P.
    pose proof (Hr i Hi). pose proof (Hr j Hj). pose proof (Hm i Hi). pose proof (Hm j Hj).
    assert (A i j * (y i * y j / D i j) - A i j * (x i * x j / D i j) ==
            A i j * ((y i - x i) * (y j / D i j) + (y j - x j) * (x i / D i j)))%Q as -> by (field; lra).
    assert ((1 # 2) * (A i j * (y i - x i)) + (1 # 2) * (A i j * (y j - x j)) ==
            A i j * ((y i - x i) * (1#2) + (y j - x j) * (1#2)))%Q as -> by ring.
    rewrite !(Qmult_comm (A i j)). apply Qmult_le_compat_r; auto.
    assert (y j / D i j <= 1#2)%Q by (apply Qle_shift_div_r; lra).
    assert (x i / D i j <= 1#2)%Q by (apply Qle_shift_div_r; lra).
    apply Qplus_le_compat; rewrite !(Qmult_comm (_ - _)); apply Qmult_le_compat_r; lra. }
  apply Qle_trans with (total p (fun i => total p (fun j =>
    (1#2) * (A i j * (y i - x i)) + (1#2) * (A i j * (y j - x j)))))%Q.
  { apply total_le. intros i Hi. rewrite <- total_minus. apply total_le. intros j Hj. apply Hterm; auto. }
  assert (total p (fun i => total p (fun j => (1#2) * (A i j * (y i - x i)) + (1#2) * (A i j * (y j - x j)))) ==
    (1#2) * total p (fun i => total p (fun j => A i j) * (y i - x i)) +
    (1#2) * total p (fun j => total p (fun i => A i j) * (y j - x j)))%Q as ->.
  { rewrite <- !total_scal.
    rewrite (total_ext p _ (fun i => ((1#2) * (total p (fun j => A i j) * (y i - x i)) +
       total p (fun j => (1#2) * (A i j * (y j - x j))))%Q)).
    2:{ intros i Hi. rewrite total_plus. rewrite (total_scal p (1#2) (fun j => A i j * (y i - x i)))%Q.
        rewrite (total_scal_r p (y i - x i) (fun j => A i j)). reflexivity. }
    rewrite total_plus. apply Qplus_comp; [reflexivity|].
    rewrite total_swap. apply total_ext. intros j Hj.
    rewrite (total_scal p (1#2) (fun i => A i j * (y j - x j)))%Q.
    rewrite (total_scal_r p (y j - x j) (fun i => A i j)). reflexivity. }
  assert (forall f, (forall i, (i < p)%nat -> f i <= 1)%Q ->
    total p (fun i => f i * (y i - x i)) <= total p (fun i => y i - x i))%Q as Hle.
  { intros f Hf. apply total_le. intros i Hi. pose proof (Hf i Hi). pose proof (Hr i Hi).
    rewrite <- (Qmult_1_l (y i - x i)) at 2. apply Qmult_le_compat_r; lra. }
  pose proof (Hle (fun i => total p (fun j => A i j)) Hrow) as H1.
  pose proof (Hle (fun j => total p (fun i => A i j)) Hcol) as H2.
  cbv beta in H1, H2. lra.
Qed.

Lemma pairwise_value_le_sum p a curves r : p = length curves ->
  overlap_coefficients p a -> non_trivial_curves curves ->
  (forall i, (i < p)%nat -> 0 <= nth i r 0)%Q ->
  (pairwise_value p a curves r <= total p (fun i => nth i r 0))%Q.
Proof.
  intros Ep [La [Hpos _]] Hn Hr. unfold pairwise_value.
  assert (0 <= total p (fun i => total p (fun j => entry p a i j * (nth i r 0 * nth j r 0 / pden curves i j))))%Q; [|lra].
  apply total_nonneg. intros i Hi. apply total_nonneg. intros j Hj.
  apply Qmult_le_0_compat; [apply Hpos; auto|]. apply Qdiv_nonneg; [apply Qmult_le_0_compat; apply Hr; auto|].
  pose proof (cmax_pos curves i Hn ltac:(lia)). destruct (pden_ge curves i j). lra.
Qed.

(** With a single active publisher the surface is that publisher's curve. *)
Lemma pairwise_value_single p a curves r k : p = length curves -> (k < p)%nat ->
  overlap_coefficients p a ->
  (forall i, (i < p)%nat -> i <> k -> nth i r 0 == 0)%Q ->
  (pairwise_value p a curves r == nth k r 0)%Q.
Proof.
  intros Ep Hk [La [Hpos [Hdiag _]]] Hr. unfold pairwise_value.
  rewrite (total_single p k) by auto.
  rewrite (total_0 p (fun i => total p _)); [ring|].
  intros i Hi. apply total_0. intros j Hj.
  destruct (Nat.eq_dec i k) as [->|N1].
  - destruct (Nat.eq_dec j k) as [->|N2].
    + rewrite (Hdiag k Hk). ring.
    + assert (nth k r 0 * nth j r 0 == 0)%Q as E by (rewrite (Hr j Hj N2); ring).
      rewrite E. unfold Qdiv. ring.
  - assert (nth i r 0 * nth j r 0 == 0)%Q as E by (rewrite (Hr i Hi N1); ring).
    rewrite E. unfold Qdiv. ring.
Qed.

Lemma nth_set_nth_eq {A} i (x d : A) l : (i < length l)%nat -> nth i (set_nth i x l) d = x.
Proof. revert l. induction i; intros [|y l] H; simpl in *; try lia; auto. apply IHi. lia. Qed.
Lemma nth_set_nth_neq {A} i j (x d : A) l : i <> j -> nth j (set_nth i x l) d = nth j l d.
Proof. revert j l. induction i; intros [|j] [|y l] H; simpl; try congruence; auto. Qed.

Lemma pairwise_value_ge p a curves r k : p = length curves -> (k < p)%nat -> length r = p ->
  overlap_coefficients p a -> non_trivial_curves curves ->
  (forall i, (i < p)%nat -> 0 <= nth i r 0 <= cmax curves i)%Q ->
  (nth k r 0 <= pairwise_value p a curves r)%Q.
Proof.
  intros Ep Hk Lr Hoc Hn Hr.
  set (r0 := set_nth k (nth k r 0%Q) (repeat 0%Q p)).
  assert (forall i, i <> k -> nth i r0 0%Q = 0%Q) as Hz.
  { intros i Hi. unfold r0. rewrite nth_set_nth_neq by auto. apply nth_repeat. }
  assert (nth k r0 0%Q = nth k r 0%Q) as Ek.
  { unfold r0. apply nth_set_nth_eq. rewrite repeat_length. auto. }
  assert (pairwise_value p a curves r0 == nth k r0 0)%Q as E.
  { apply pairwise_value_single; auto. intros i _ Hi. rewrite Hz by auto. reflexivity. }
  rewrite <- Ek, <- E. apply pairwise_value_mono; auto.
  - intros i Hi. destruct (Nat.eq_dec i k) as [->|].
    + rewrite Ek. pose proof (Hr k Hk). lra.
    + rewrite Hz by auto. pose proof (Hr i Hi). lra.
  - intros i Hi. apply Hr; auto.
Qed.
