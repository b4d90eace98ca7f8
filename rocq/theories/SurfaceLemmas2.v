From Coq Require Import Lqa.
From Verif Require Import Prelude ModelReachPoint ReachPointLemmas DataLemmas ModelCurves ModelSurface SpecSurface SurfaceLemmas.
Open Scope Z_scope.

(** ** Scalar products and block sums *)

Lemma dot_total u v : (dot u v == total (length u) (fun i => nth i u 0%Q * nth i v 0%Q))%Q.
Proof.
  revert v. induction u as [|x u IH]; intros [|y v]; cbn [dot length].
  - reflexivity.
  - reflexivity.
  - symmetry. apply total_0. intros i _. replace (nth i [] 0%Q) with 0%Q by (destruct i; auto). ring.
  - rewrite total_split. cbn [nth]. rewrite IH. reflexivity.
Qed.

Lemma total_app n m f : (total (n + m) f == total n f + total m (fun j => f (n + j)%nat))%Q.
Proof.
  induction m as [|m IH].
  - rewrite Nat.add_0_r. simpl. ring.
  - rewrite Nat.add_succ_r. simpl. rewrite IH. ring.
Qed.

Lemma total_mult n q f : (total (n * q) f == total n (fun k => total q (fun j => f (k * q + j)%nat)))%Q.
Proof.
  induction n as [|n IH]; [reflexivity|]. cbn [total]. rewrite <- IH.
  replace (S n * q)%nat with (n * q + q)%nat by lia. apply total_app.
Qed.

Lemma nth_map_seq {A} (f : nat -> A) n i d : (i < n)%nat -> nth i (map f (seq 0 n)) d = f i.
Proof.
  intros H. rewrite (nth_indep _ d (f 0%nat)) by (rewrite map_length, seq_length; auto).
  rewrite map_nth, seq_nth by auto. reflexivity.
Qed.

Lemma nth_flat_map_block {A B} (f : A -> list B) q l k j dA dB :
  (forall a, In a l -> length (f a) = q) -> (k < length l)%nat -> (j < q)%nat ->
  nth (k * q + j) (flat_map f l) dB = nth j (f (nth k l dA)) dB.
Proof.
  revert k. induction l as [|a l IH]; intros k Hq Hk Hj; [simpl in Hk; lia|].
  cbn [flat_map]. destruct k as [|k].
  - simpl. rewrite app_nth1; auto. rewrite Hq by (left; auto). auto.
  - rewrite app_nth2; rewrite Hq by (left; auto); [|simpl; lia].
    replace (S k * q + j - q)%nat with (k * q + j)%nat by (simpl; lia).
    cbn [nth]. apply IH; auto. intros; apply Hq; right; auto. simpl in Hk; lia.
Qed.

Lemma flat_map_block_length {A B} (f : A -> list B) q l :
  (forall a, In a l -> length (f a) = q) -> length (flat_map f l) = (length l * q)%nat.
Proof.
  induction l as [|a l IH]; intros H; [reflexivity|]. simpl. rewrite app_length, IH by (intros; apply H; right; auto).
  rewrite (H a) by (left; auto). reflexivity.
Qed.

Lemma combine_app {A B} (a1 a2 : list A) (b1 b2 : list B) : length a1 = length b1 ->
  combine (a1 ++ a2) (b1 ++ b2) = combine a1 b1 ++ combine a2 b2.
Proof.
  revert b1. induction a1 as [|x a IH]; intros [|y b] H; simpl in *; try lia; auto. rewrite IH by lia. auto.
Qed.

Lemma in_combine_repeat {A B} (l : list A) (c : B) n row b : length l = n ->
  In (row, b) (combine l (repeat c n)) <-> In row l /\ b = c.
Proof.
  intros <-. induction l as [|x l IH]; simpl; [tauto|]. rewrite IH. split.
  - intros [E|[H1 H2]]; [inversion E; auto|auto].
  - intros [[->|H] ->]; auto.
Qed.

(** ** The rows of the constraints *)

Definition unit_row (n i : nat) : list Q := map (fun j => if Nat.eqb i j then 1%Q else 0%Q) (seq 0 n).

Lemma unit_row_length n i : length (unit_row n i) = n.
Proof. unfold unit_row. rewrite map_length, seq_length. auto. Qed.

Lemma unit_row_nth n i j : (j < n)%nat -> nth j (unit_row n i) 0%Q = if Nat.eqb i j then 1%Q else 0%Q.
Proof. intros. unfold unit_row. rewrite nth_map_seq; auto. Qed.

Lemma in_eye n row : In row (eye n) <-> exists i, (i < n)%nat /\ row = unit_row n i.
Proof.
  unfold eye. rewrite in_map_iff. split; intros [i [H1 H2]]; exists i.
  - apply in_seq in H2. split; [lia|auto].
  - split; [auto|apply in_seq; lia].
Qed.

Lemma dot_neg_unit n i x : (i < n)%nat -> (dot (map Qopp (unit_row n i)) x == - nth i x 0%Q)%Q.
Proof.
  intros Hi. rewrite dot_total, map_length, unit_row_length.
  rewrite (total_single n i); auto.
  - rewrite (nth_indep _ 0%Q (Qopp 0)) by (rewrite map_length, unit_row_length; auto).
    rewrite map_nth, unit_row_nth, Nat.eqb_refl by auto. ring.
  - intros j Hj Hne. rewrite (nth_indep _ 0%Q (Qopp 0)) by (rewrite map_length, unit_row_length; auto).
    rewrite map_nth, unit_row_nth by auto. apply Nat.eqb_neq in Hne. rewrite Nat.eqb_sym, Hne. ring.
Qed.

Definition kron_row (arow brow : list Q) : list Q := flat_map (fun x => map (Qmult x) brow) arow.

Lemma dot_kron arow brow x :
  (dot (kron_row arow brow) x == total (length arow) (fun k => total (length brow) (fun j =>
     nth k arow 0%Q * nth j brow 0%Q * nth (k * length brow + j) x 0%Q)))%Q.
Proof.
  rewrite dot_total. unfold kron_row.
  rewrite (flat_map_block_length _ (length brow)) by (intros; apply map_length).
  rewrite total_mult. apply total_ext. intros k Hk. apply total_ext. intros j Hj.
  rewrite (nth_flat_map_block _ (length brow) _ _ _ 0%Q 0%Q); auto; [|intros; apply map_length].
  rewrite (nth_indep _ 0%Q (Qmult (nth k arow 0%Q) 0)) by (rewrite map_length; auto).
  rewrite (map_nth (Qmult (nth k arow 0%Q))). reflexivity.
Qed.

Lemma nth_ones n i : (i < n)%nat -> nth i (ones n) 0%Q = 1%Q.
Proof. intros. unfold ones. rewrite (nth_indep _ 0%Q 1%Q) by (rewrite repeat_length; auto). apply nth_repeat. Qed.

Lemma in_kron_eye_ones p q row : In row (kron (eye p) [ones q]) <->
  exists i, (i < p)%nat /\ row = kron_row (unit_row p i) (ones q).
Proof.
  unfold kron. rewrite in_flat_map. split.
  - intros [ar [Ha Hr]]. apply in_eye in Ha. destruct Ha as [i [Hi ->]]. destruct Hr as [<-|[]].
    exists i. auto.
  - intros [i [Hi ->]]. exists (unit_row p i). split; [apply in_eye; eauto|left; auto].
Qed.

Lemma in_kron_ones_eye p row : In row (kron [ones p] (eye p)) <->
  exists j, (j < p)%nat /\ row = kron_row (ones p) (unit_row p j).
Proof.
  unfold kron. cbn [flat_map]. rewrite app_nil_r, in_map_iff. split.
  - intros [br [<- Hb]]. apply in_eye in Hb. destruct Hb as [i [Hi ->]]. exists i. auto.
  - intros [i [Hi ->]]. exists (unit_row p i). split; [auto|apply in_eye; eauto].
Qed.

Lemma dot_row_sum p q i x : (i < p)%nat ->
  (dot (kron_row (unit_row p i) (ones q)) x == total q (fun j => entry q x i j))%Q.
Proof.
  intros Hi. rewrite dot_kron, unit_row_length. unfold ones at 1 2 3. rewrite repeat_length.
  fold (ones q). rewrite (total_single p i); auto.
  - apply total_ext. intros j Hj. rewrite unit_row_nth, Nat.eqb_refl, nth_ones by auto. unfold entry. ring.
  - intros k Hk Hne. apply total_0. intros j Hj. rewrite unit_row_nth by auto.
    apply Nat.eqb_neq in Hne. rewrite Nat.eqb_sym, Hne. ring.
Qed.

Lemma dot_col_sum p j x : (j < p)%nat ->
  (dot (kron_row (ones p) (unit_row p j)) x == total p (fun i => entry p x i j))%Q.
Proof.
  intros Hj. rewrite dot_kron. unfold ones at 1. rewrite repeat_length, unit_row_length.
  apply total_ext. intros i Hi. rewrite (total_single p j); auto.
  - rewrite unit_row_nth, Nat.eqb_refl, nth_ones by auto. unfold entry. ring.
  - intros k Hk Hne. rewrite unit_row_nth by auto. apply Nat.eqb_neq in Hne. rewrite Nat.eqb_sym, Hne. ring.
Qed.

Lemma eye_length n : length (eye n) = n.
Proof. unfold eye. rewrite map_length, seq_length. auto. Qed.

Lemma kron_length A B : length (kron A B) = (length A * length B)%nat.
Proof. unfold kron. apply flat_map_block_length. intros. apply map_length. Qed.

Lemma in_inequality p row b : In (row, b) (inequality_constraints p) <->
  (exists u, (u < p * p)%nat /\ row = map Qopp (unit_row (p * p) u) /\ b = 0%Q) \/
  (exists i, (i < p)%nat /\ row = kron_row (unit_row p i) (ones p) /\ b = 1%Q) \/
  (exists j, (j < p)%nat /\ row = kron_row (ones p) (unit_row p j) /\ b = 1%Q).
Proof.
  unfold inequality_constraints. rewrite combine_app.
  2:{ unfold zeros. rewrite map_length, eye_length, repeat_length. auto. }
  rewrite in_app_iff. unfold zeros, ones at 3. rewrite !in_combine_repeat.
  2:{ rewrite app_length, !kron_length, eye_length. simpl. lia. }
  2:{ rewrite map_length, eye_length. auto. }
  rewrite in_app_iff, in_kron_eye_ones, in_kron_ones_eye, in_map_iff. split.
  - intros [[[r [<- Hr]] ->]|[[[i [Hi ->]]|[i [Hi ->]]] ->]].
    + left. apply in_eye in Hr. destruct Hr as [u [Hu ->]]. exists u. auto.
    + right. left. exists i. auto.
    + right. right. exists i. auto.
  - intros [[u [Hu [-> ->]]]|[[i [Hi [-> ->]]]|[i [Hi [-> ->]]]]].
    + left. split; auto. exists (unit_row (p * p) u). split; auto. apply in_eye. eauto.
    + right. split; auto. left. eauto.
    + right. split; auto. right. eauto.
Qed.

(** ** Sparse rows *)

Lemma sparse_nth n es u : (u < n)%nat -> nth u (sparse_row n es) 0%Q =
  match find (fun e => Nat.eqb (fst e) u) es with Some e => snd e | None => 0%Q end.
Proof. intros. unfold sparse_row. rewrite nth_map_seq; auto. Qed.

Lemma dot_sparse1 n u c x : (u < n)%nat -> (dot (sparse_row n [(u, c)]) x == c * nth u x 0)%Q.
Proof.
  intros Hu. rewrite dot_total. unfold sparse_row at 1. rewrite map_length, seq_length.
  rewrite (total_single n u); auto.
  - rewrite sparse_nth by auto. simpl. rewrite Nat.eqb_refl. reflexivity.
  - intros i Hi Hne. rewrite sparse_nth by auto. simpl. apply not_eq_sym, Nat.eqb_neq in Hne. rewrite Hne. ring.
Qed.

Lemma dot_sparse2 n u v c d x : (u < n)%nat -> (v < n)%nat -> u <> v ->
  (dot (sparse_row n [(u, c); (v, d)]) x == c * nth u x 0 + d * nth v x 0)%Q.
Proof.
  intros Hu Hv Hne. rewrite dot_total. unfold sparse_row at 1. rewrite map_length, seq_length.
  rewrite (total_ext n _ (fun i => (if Nat.eqb u i then c * nth i x 0 else 0) + (if Nat.eqb v i then d * nth i x 0 else 0)))%Q.
  - rewrite total_plus. rewrite (total_single n u), (total_single n v); auto.
    + rewrite !Nat.eqb_refl. ring.
    + intros i Hi Hn. apply not_eq_sym, Nat.eqb_neq in Hn. rewrite Hn. reflexivity.
    + intros i Hi Hn. apply not_eq_sym, Nat.eqb_neq in Hn. rewrite Hn. reflexivity.
  - intros i Hi. rewrite sparse_nth by auto. simpl.
    destruct (Nat.eqb u i) eqn:E1; destruct (Nat.eqb v i) eqn:E2; simpl; try ring.
    apply Nat.eqb_eq in E1, E2. congruence.
Qed.

Lemma in_equality p row b : In (row, b) (equality_constraints p) <-> b = 0%Q /\
  ((exists i, (i < p)%nat /\ row = sparse_row (p * p) [((i * p + i)%nat, 1%Q)]) \/
   (exists i j, (i < j)%nat /\ (j < p)%nat /\
      row = sparse_row (p * p) [((i * p + j)%nat, 1%Q); ((j * p + i)%nat, (-1)%Q)])).
Proof.
  unfold equality_constraints. rewrite in_map_iff. split.
  - intros [r [E H]]. inversion E; subst. split; auto. apply in_app_iff in H. destruct H as [H|H].
    + left. apply in_map_iff in H. destruct H as [i [<- Hi]]. apply in_seq in Hi. exists i. split; [lia|auto].
    + right. apply in_flat_map in H. destruct H as [i [Hi H]]. apply in_map_iff in H. destruct H as [j [<- Hj]].
      apply in_seq in Hi, Hj. exists i, j. repeat split; lia.
  - intros [-> H]. exists row. split; auto. apply in_app_iff. destruct H as [[i [Hi ->]]|[i [j [Hij [Hj ->]]]]].
    + left. apply in_map_iff. exists i. split; auto. apply in_seq. lia.
    + right. apply in_flat_map. exists i. split; [apply in_seq; lia|]. apply in_map_iff. exists j.
      split; auto. apply in_seq. lia.
Qed.

Lemma idx_lt p i j : (i < p)%nat -> (j < p)%nat -> (i * p + j < p * p)%nat.
Proof. nia. Qed.
Lemma idx_neq p i j : (i < j)%nat -> (j < p)%nat -> (i * p + j)%nat <> (j * p + i)%nat.
Proof. nia. Qed.

(** The constraints that are handed to the solver are exactly the documented ones. *)
Lemma pairwise_feasible_iff p zs rs x : length x = (p * p)%nat ->
  (qp_feasible (pairwise_qp p zs rs) x <-> overlap_coefficients p x).
Proof.
  intros Lx. unfold qp_feasible, overlap_coefficients. cbn [pairwise_qp qp_ineq qp_eq].
  setoid_rewrite in_inequality. setoid_rewrite in_equality. split.
  - intros [H1 H2]. repeat split; auto.
    + intros i j Hi Hj. pose proof (H1 (map Qopp (unit_row (p * p) (i * p + j))) 0%Q
        (or_introl (ex_intro _ (i * p + j)%nat (conj (idx_lt p i j Hi Hj) (conj eq_refl eq_refl))))) as G.
      rewrite dot_neg_unit in G by (apply idx_lt; auto). unfold entry. lra.
    + intros i Hi. pose proof (H2 _ 0%Q (conj eq_refl (or_introl (ex_intro _ i (conj Hi eq_refl))))) as G.
      rewrite dot_sparse1 in G by (apply idx_lt; auto). unfold entry. lra.
    + assert (forall i j, (i < j)%nat -> (j < p)%nat -> (entry p x i j == entry p x j i)%Q) as K.
      { intros i j Hij Hj. pose proof (H2 _ 0%Q (conj eq_refl (or_intror (ex_intro _ i (ex_intro _ j
          (conj Hij (conj Hj eq_refl))))))) as G.
        rewrite dot_sparse2 in G; [unfold entry; lra| | |apply idx_neq; auto]; apply idx_lt; lia. }
      intros i j Hi Hj. destruct (Nat.lt_trichotomy i j) as [L|[->|L]]; [auto|reflexivity|symmetry; auto].
    + intros i Hi. rewrite <- (dot_row_sum p p i x Hi). apply H1. right; left. exists i. auto.
    + intros j Hj. rewrite <- (dot_col_sum p j x Hj). apply H1. right; right. exists j. auto.
  - intros [_ [Hpos [Hd [Hs [Hr Hc]]]]]. split.
    + intros row b [[u [Hu [-> ->]]]|[[i [Hi [-> ->]]]|[j [Hj [-> ->]]]]].
      * rewrite dot_neg_unit by auto.
        pose proof (Hpos (u / p)%nat (u mod p)%nat) as G.
        assert (p <> 0)%nat by (intros ->; simpl in Hu; lia).
        pose proof (Nat.div_lt_upper_bound u p p ltac:(auto) Hu) as G1.
        pose proof (Nat.mod_upper_bound u p ltac:(auto)) as G2.
        specialize (G G1 G2). unfold entry in G.
        replace (u / p * p + u mod p)%nat with u in G by (rewrite (Nat.div_mod_eq u p) at 1; lia). lra.
      * rewrite dot_row_sum by auto. auto.
      * rewrite dot_col_sum by auto. auto.
    + intros row b [-> [[i [Hi ->]]|[i [j [Hij [Hj ->]]]]]].
      * rewrite dot_sparse1 by (apply idx_lt; auto). pose proof (Hd i Hi) as G. unfold entry in G. rewrite G. ring.
      * rewrite dot_sparse2; [|apply idx_lt; lia|apply idx_lt; lia|apply idx_neq; auto].
        pose proof (Hs i j ltac:(lia) Hj) as G. unfold entry in G. rewrite G. ring.
Qed.

(** Same for the mixture. *)
Lemma mixture_feasible_iff p c N zs ys x : length x = (p * c)%nat ->
  (qp_feasible (mixture_qp p c N zs ys) x <-> mixture_weights p c x).
Proof.
  intros Lx. unfold qp_feasible, mixture_weights. cbn [mixture_qp qp_ineq qp_eq].
  assert (forall row b, In (row, b) (combine (map (map Qopp) (eye (p * c))) (zeros (p * c))) <->
    exists u, (u < p * c)%nat /\ row = map Qopp (unit_row (p * c) u) /\ b = 0%Q) as K1.
  { intros row b. unfold zeros. rewrite in_combine_repeat by (rewrite map_length, eye_length; auto).
    rewrite in_map_iff. split.
    - intros [[r [<- Hr]] ->]. apply in_eye in Hr. destruct Hr as [u [Hu ->]]. eauto.
    - intros [u [Hu [-> ->]]]. split; auto. exists (unit_row (p * c) u). split; auto. apply in_eye. eauto. }
  assert (forall row b, In (row, b) (combine (kron (eye p) [ones c]) (ones p)) <->
    exists i, (i < p)%nat /\ row = kron_row (unit_row p i) (ones c) /\ b = 1%Q) as K2.
  { intros row b. unfold ones at 2. rewrite in_combine_repeat by (rewrite kron_length, eye_length; simpl; lia).
    rewrite in_kron_eye_ones. split; [intros [[i [Hi ->]] ->]|intros [i [Hi [-> ->]]]]; eauto. }
  setoid_rewrite K1. setoid_rewrite K2. split.
  - intros [H1 H2]. repeat split; auto.
    + intros i j Hi Hj. assert (i * c + j < p * c)%nat as Hu by nia.
      pose proof (H1 _ 0%Q (ex_intro _ (i * c + j)%nat (conj Hu (conj eq_refl eq_refl)))) as G.
      rewrite dot_neg_unit in G by auto. unfold entry. lra.
    + intros i Hi. rewrite <- (dot_row_sum p c i x Hi). apply H2. eauto.
  - intros [_ [Hpos Hs]]. split.
    + intros row b [u [Hu [-> ->]]]. rewrite dot_neg_unit by auto.
      assert (c <> 0)%nat by (intros ->; lia).
      pose proof (Hpos (u / c)%nat (u mod c)%nat) as G.
      pose proof (Nat.div_lt_upper_bound u c p ltac:(auto) ltac:(lia)) as G1.
      pose proof (Nat.mod_upper_bound u c ltac:(auto)) as G2.
      specialize (G G1 G2). unfold entry in G.
      replace (u / c * c + u mod c)%nat with u in G by (rewrite (Nat.div_mod_eq u c) at 1; lia). lra.
    + intros row b [i [Hi [-> ->]]]. rewrite dot_row_sum by auto. auto.
Qed.

(** ** Least squares *)

Definition tdot (n : nat) (z x : list Q) : Q := total n (fun u => nth u z 0 * nth u x 0)%Q.

Fixpoint sq_err (n : nat) (zr : list (list Q * Q)) (x : list Q) : Q :=
  match zr with
  | [] => 0%Q
  | (z, r) :: rest => ((r - tdot n z x) * (r - tdot n z x) + sq_err n rest x)%Q
  end.

Lemma lsq_objective n (zr : list (list Q * Q)) x :
  ((1#2) * total n (fun u => total n (fun v => nth u x 0 *
      Qsum (map (fun e => nth u (fst e) 0 * nth v (fst e) 0) zr) * nth v x 0)) +
   total n (fun u => - Qsum (map (fun e => snd e * nth u (fst e) 0) zr) * nth u x 0)
   == (1#2) * sq_err n zr x - (1#2) * Qsum (map (fun e => snd e * snd e) zr))%Q.
Proof.
  induction zr as [|[z r] zr IH].
  - simpl. rewrite (total_0 n (fun u => total n _)).
    2:{ intros. apply total_0. intros. ring. }
    rewrite (total_0 n (fun u => _)) by (intros; ring). ring.
  - cbn [map fst snd sq_err].
    rewrite (total_ext n _ (fun u => (nth u x 0 * nth u z 0) * tdot n z x +
      total n (fun v => nth u x 0 * Qsum (map (fun e => nth u (fst e) 0 * nth v (fst e) 0) zr) * nth v x 0)))%Q.
    2:{ intros u Hu. unfold tdot. rewrite <- total_scal, <- total_plus. apply total_ext. intros v Hv.
        cbn [Qsum fold_right]. ring. }
    rewrite total_plus, (total_scal_r n (tdot n z x) (fun u => nth u x 0 * nth u z 0))%Q.
    rewrite (total_ext n (fun u => - Qsum ((r * nth u z 0) :: map (fun e => snd e * nth u (fst e) 0) zr) * nth u x 0)%Q (fun u => - (r) * (nth u z 0 * nth u x 0) +
      - Qsum (map (fun e => snd e * nth u (fst e) 0) zr) * nth u x 0))%Q.
    2:{ intros u Hu. cbn [Qsum fold_right]. ring. }
    rewrite total_plus, (total_scal n (- r) (fun u => nth u z 0 * nth u x 0))%Q. fold (tdot n z x).
    assert (total n (fun i => nth i x 0 * nth i z 0) == tdot n z x)%Q as E by (apply total_ext; intros; ring).
    rewrite E.
    cbn [Qsum].
    match type of IH with ((1#2) * ?T1 + ?T2 == _)%Q => remember T1 as t1 eqn:E1; remember T2 as t2 eqn:E2 end.
    clear E1 E2.
    set (Rs := Qsum (map (fun e => snd e * snd e)%Q zr)) in *.
    set (E0 := sq_err n zr x) in *. set (d := tdot n z x) in *.
    assert (t2 == (1 # 2) * E0 - (1 # 2) * Rs - (1#2) * t1)%Q as -> by lra. ring.
Qed.

Lemma nth_index_pairs p i j d : (i < p)%nat -> (j < p)%nat ->
  nth (i * p + j) (index_pairs p) d = (Z.of_nat i, Z.of_nat j).
Proof.
  intros Hi Hj. unfold index_pairs. rewrite py_range_0.
  assert (forall (l l' : list Z), list_prod l l' = flat_map (fun a => map (fun b => (a, b)) l') l) as E.
  { clear. induction l; intros; simpl; [auto|]. f_equal; auto. }
  rewrite E. rewrite (nth_flat_map_block _ p _ _ _ 0 d); auto.
  - rewrite nth_map_seq by auto. rewrite (nth_indep _ d (Z.of_nat i, 0)) by (rewrite !map_length, seq_length; auto).
    rewrite (map_nth (fun b => (Z.of_nat i, b))), nth_map_seq by auto. reflexivity.
  - intros. rewrite !map_length, seq_length. auto.
  - rewrite map_length, seq_length. auto.
Qed.

Lemma index_pairs_length p : length (index_pairs p) = (p * p)%nat.
Proof. unfold index_pairs. rewrite prod_length, py_range_0, map_length, seq_length. auto. Qed.

Lemma z_and_alpha_ok curves pt rs : single_reaches curves (rp_impressions pt) rs -> non_trivial_curves curves ->
  let p := length curves in
  exists z, z_and_alpha p curves pt = Ok (z, Qsum rs) /\
    forall a, (pairwise_value p a curves rs == Qsum rs + tdot (p * p) z a)%Q.
Proof.
  intros H Hn p. destruct (single_reaches_vector _ _ _ H) as [Ev [L1 L2]].
  unfold z_and_alpha. rewrite Ev. cbn [bind].
  set (g := fun ij : Z * Z => (- (ent rs (Z.to_nat (fst ij)) * ent rs (Z.to_nat (snd ij)) /
    pden curves (Z.to_nat (fst ij)) (Z.to_nat (snd ij))))%Q).
  rewrite (mapM_ok_all _ g).
  - cbn [bind]. eexists. split; [reflexivity|]. intros a. unfold pairwise_value, tdot.
    rewrite total_mult, Qsum_total, L2. fold p.
    unfold Qminus. apply Qplus_comp; [reflexivity|].
    transitivity (total p (fun i => (-1) * total p (fun j => entry p a i j * (nth i rs 0 * nth j rs 0 / pden curves i j))))%Q.
    { rewrite total_scal. ring. }
    apply total_ext. intros i Hi. rewrite <- total_scal. apply total_ext. intros j Hj.
    rewrite (nth_indep (map g (index_pairs p)) 0%Q (g (0, 0))) by (rewrite map_length, index_pairs_length; apply idx_lt; auto).
    rewrite (map_nth g), nth_index_pairs by auto. unfold g, entry, ent. cbn [fst snd]. rewrite !Nat2Z.id. ring.
  - intros [i j] Hin. apply in_index_pairs in Hin. cbn [fst snd] in *. destruct Hin as [Hi Hj].
    pose proof (pair_term_ok curves rs (Z.to_nat i) (Z.to_nat j)
      (cmax_pos curves (Z.to_nat i) Hn ltac:(unfold p in *; lia)) ltac:(unfold p in *; lia) ltac:(unfold p in *; lia) L2) as E.
    rewrite !Z2Nat.id in E by lia. rewrite E. cbn [bind]. reflexivity.
Qed.

Lemma mapM_cons_inv {A B} (f : A -> result B) x l r : mapM f (x :: l) = Ok r ->
  exists y r', f x = Ok y /\ mapM f l = Ok r' /\ r = y :: r'.
Proof.
  simpl. destruct (f x) as [y|]; cbn [bind]; [|discriminate].
  destruct (mapM f l) as [r'|]; cbn [bind]; [|discriminate]. intros E. inversion E. eauto.
Qed.

Lemma training_error_sq curves points za ys a : let p := length curves in
  non_trivial_curves curves ->
  Forall (fun pt => exists rs, single_reaches curves (rp_impressions pt) rs) points ->
  mapM (z_and_alpha p curves) points = Ok za -> mapM (fun pt => reach pt 1) points = Ok ys ->
  length a = (p * p)%nat ->
  exists e, training_error (fun x => pairwise_by_impressions p a curves x 1) points = Some e /\
   (e == sq_err (p * p) (combine (map fst za) (map (fun ya => (fst ya - snd (snd ya))%Q) (combine ys za))) a)%Q.
Proof.
  intros p Hn HF. revert za ys. induction HF as [|pt points [rs Hrs] HF IH]; intros za ys Ez Ey La.
  - cbn in Ez, Ey. injection Ez as <-. injection Ey as <-. exists 0%Q. split; reflexivity.
  - apply mapM_cons_inv in Ez. destruct Ez as [z1 [za' [Ez1 [Ez2 ->]]]].
    apply mapM_cons_inv in Ey. destruct Ey as [y1 [ys' [Ey1 [Ey2 ->]]]].
    destruct (IH za' ys' Ez2 Ey2 La) as [e [E1 E2]].
    destruct (z_and_alpha_ok curves pt rs Hrs Hn) as [z [Ez' Ev]]. fold p in Ez', Ev.
    rewrite Ez' in Ez1. injection Ez1 as <-.
    destruct (pairwise_by_impressions_ok a curves (rp_impressions pt) rs 1 La Hrs Hn) as (q & u & Eq & Er & _ & _ & Eu).
    fold p in Eq, Eu. cbn [training_error]. rewrite Eq, Ey1, E1, Er. eexists. split; [reflexivity|].
    cbn [map combine fst snd sq_err]. rewrite <- E2, Eu, (Ev a). ring.
Qed.

Lemma map_fst_combine {A B} (l : list A) (r : list B) : length l = length r -> map fst (combine l r) = l.
Proof. revert r. induction l; intros [|y r] H; simpl in *; try lia; auto. f_equal. auto. Qed.

Lemma pairwise_qp_objective p zs res n x : length zs = length res ->
  (qp_objective (pairwise_qp p zs res) n x == (1#2) * sq_err n (combine zs res) x
     - (1#2) * Qsum (map (fun e => snd e * snd e) (combine zs res)))%Q.
Proof.
  intros HL. rewrite <- lsq_objective. unfold qp_objective. cbn [pairwise_qp qp_P qp_q].
  apply Qplus_comp; [|reflexivity]. apply Qmult_comp; [reflexivity|].
  apply total_ext. intros u _. apply total_ext. intros v _.
  rewrite <- (map_fst_combine zs res HL) at 1. rewrite map_map. reflexivity.
Qed.

Lemma mixture_qp_objective p c N zs ys n x : length zs = length ys ->
  (qp_objective (mixture_qp p c N zs ys) n x ==
     (1#2) * sq_err n (combine zs (map (fun y => y / N) ys)) x
     - (1#2) * Qsum (map (fun e => snd e * snd e) (combine zs (map (fun y => y / N) ys))))%Q.
Proof.
  intros HL. rewrite <- lsq_objective. unfold qp_objective. cbn [mixture_qp qp_P qp_q].
  apply Qplus_comp.
  - apply Qmult_comp; [reflexivity|].
    apply total_ext. intros u _. apply total_ext. intros v _.
    rewrite <- (map_fst_combine zs (map (fun y => y / N)%Q ys)) at 1 by (rewrite map_length; auto).
    rewrite map_map. reflexivity.
  - apply total_ext. intros u _. apply Qmult_comp; [|reflexivity]. apply Qopp_comp.
    clear - HL. revert ys HL. induction zs as [|z zs IH]; intros [|y ys] HL; simpl in *; try lia; [reflexivity|].
    rewrite IH by lia. reflexivity.
Qed.

Lemma surface_ctor_inv points p : surface_ctor points = Ok p ->
  exists pt rest, points = pt :: rest /\ p = length (rp_impressions pt).
Proof.
  unfold surface_ctor. destruct points as [|pt rest]; [discriminate|].
  rewrite (py_index_in (pt :: rest) 0 pt) by (simpl; lia). cbn [bind].
  destruct (surface_init (pt :: rest)); cbn [bind]; [|discriminate]. intros E. inversion E. simpl. eauto.
Qed.

Lemma pairwise_fit_optimal solver curves points a : let p := length curves in
  returns_optimum solver (p * p) -> non_trivial_curves curves ->
  Forall (fun pt => exists rs, single_reaches curves (rp_impressions pt) rs) points ->
  pairwise_fit solver curves points = Ok a ->
  overlap_coefficients p a /\
  forall b, overlap_coefficients p b -> exists ea eb,
    training_error (fun x => pairwise_by_impressions p a curves x 1) points = Some ea /\
    training_error (fun x => pairwise_by_impressions p b curves x 1) points = Some eb /\ (ea <= eb)%Q.
Proof.
  intros p Hs Hn HF E. unfold pairwise_fit in E.
  destruct (surface_ctor points) as [p'|] eqn:Ec; [|discriminate]. cbn [bind] in E.
  destruct (surface_ctor_inv _ _ Ec) as [pt [rest [Ept Ep]]].
  assert (p' = p) as ->.
  { subst points. inversion HF as [|? ? [rs Hrs] _]; subst. destruct (single_reaches_vector _ _ _ Hrs) as [_ [L _]]. auto. }
  destruct (mapM (z_and_alpha p curves) points) as [za|] eqn:Ez; [|discriminate]. cbn [bind] in E.
  destruct (mapM (fun pt => reach pt 1) points) as [ys|] eqn:Ey; [|discriminate]. cbn [bind] in E.
  destruct (Hs _ _ E) as [La [Hf Hopt]]. apply pairwise_feasible_iff in Hf; auto.
  split; auto. intros b Hb. pose proof (proj1 Hb) as Lb.
  destruct (training_error_sq curves points za ys a Hn HF Ez Ey La) as [ea [E1 E2]].
  destruct (training_error_sq curves points za ys b Hn HF Ez Ey Lb) as [eb [E3 E4]].
  exists ea, eb. split; [exact E1|]. split; [exact E3|].
  pose proof (Hopt b Lb (proj2 (pairwise_feasible_iff p _ _ b Lb) Hb)) as Hle.
  assert (length za = length points /\ length ys = length points) as [Lz Ly].
  { split; eapply mapM_ok_length; eauto. }
  rewrite !pairwise_qp_objective in Hle by (rewrite !map_length, combine_length; lia).
  rewrite E2, E4. fold p. lra.
Qed.

Lemma pairwise_fit_feasible solver curves points a : let p := length curves in
  returns_feasible solver (p * p) -> 
  Forall (fun pt => length (rp_impressions pt) = p) points ->
  pairwise_fit solver curves points = Ok a -> overlap_coefficients p a.
Proof.
  intros p Hs HF E. unfold pairwise_fit in E.
  destruct (surface_ctor points) as [p'|] eqn:Ec; [|discriminate]. cbn [bind] in E.
  destruct (surface_ctor_inv _ _ Ec) as [pt [rest [Ept Ep]]].
  assert (p' = p) as -> by (subst points; inversion HF; subst; auto).
  destruct (mapM (z_and_alpha p curves) points) as [za|] eqn:Ez; [|discriminate]. cbn [bind] in E.
  destruct (mapM (fun pt => reach pt 1) points) as [ys|] eqn:Ey; [|discriminate]. cbn [bind] in E.
  destruct (Hs _ _ E) as [La Hf]. apply pairwise_feasible_iff in Hf; auto.
Qed.
