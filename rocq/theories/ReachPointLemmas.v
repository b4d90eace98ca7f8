(** Proofs about Prelude and ModelReachPoint. *)
From Verif Require Import Prelude ModelReachPoint.
Open Scope Z_scope.

(** ** Prelude *)

Lemma set_nth_length {A} i (x : A) l : length (set_nth i x l) = length l.
Proof. revert i; induction l; destruct i; simpl; auto. Qed.

Lemma nth_error_set_nth_eq {A} i (x : A) l :
  (i < length l)%nat -> nth_error (set_nth i x l) i = Some x.
Proof. revert i; induction l; destruct i; simpl; intros; try lia; auto. apply IHl; lia. Qed.

Lemma nth_error_set_nth_neq {A} i j (x : A) l :
  i <> j -> nth_error (set_nth i x l) j = nth_error l j.
Proof. revert i j; induction l; destruct i, j; simpl; intros; try congruence; auto. Qed.

Lemma py_index_nonneg {A} (l : list A) i :
  0 <= i -> py_index l i =
  match nth_error l (Z.to_nat i) with Some x => Ok x | None => Err IndexError end.
Proof.
  intros Hi. unfold py_index.
  replace (i <? 0) with false by (symmetry; apply Z.ltb_ge; lia).
  destruct (Z.leb_spec 0 i); [|lia]. simpl.
  destruct (Z.ltb_spec i (Z.of_nat (length l))); auto.
  replace (nth_error l (Z.to_nat i)) with (@None A); auto.
  symmetry. apply nth_error_None. lia.
Qed.

Lemma py_index_ok_iff {A} (l : list A) i :
  is_ok (py_index l i) = true <-> - Z.of_nat (length l) <= i < Z.of_nat (length l).
Proof.
  unfold py_index.
  destruct (Z.ltb_spec i 0); simpl.
  - destruct (Z.leb_spec 0 (i + Z.of_nat (length l))); simpl.
    + destruct (Z.ltb_spec (i + Z.of_nat (length l)) (Z.of_nat (length l))); simpl.
      * destruct (nth_error l _) eqn:E; simpl; [split; auto; lia|].
        apply nth_error_None in E. lia.
      * lia.
    + split; [discriminate|lia].
  - destruct (Z.leb_spec 0 i); simpl; [|lia].
    destruct (Z.ltb_spec i (Z.of_nat (length l))); simpl.
    + destruct (nth_error l _) eqn:E; simpl; [split; auto; lia|].
      apply nth_error_None in E. lia.
    + split; [discriminate|lia].
Qed.

Lemma py_index_last {A} (l : list A) x : py_index (l ++ [x]) (-1) = Ok x.
Proof.
  unfold py_index. rewrite app_length. cbn [length].
  change (-1 <? 0) with true. cbv beta iota zeta.
  set (n := Z.of_nat (length l + 1)). assert (n = Z.of_nat (length l) + 1) by lia.
  destruct (Z.leb_spec 0 (-1 + n)); [|lia].
  destruct (Z.ltb_spec (-1 + n) n); [|lia].
  cbn [andb]. replace (Z.to_nat (-1 + n)) with (length l) by lia.
  rewrite nth_error_app2 by lia. rewrite Nat.sub_diag. reflexivity.
Qed.

Lemma mapM_ok_length {A B} (f : A -> result B) l r : mapM f l = Ok r -> length r = length l.
Proof.
  revert r; induction l; simpl; intros r H.
  - inversion H; reflexivity.
  - destruct (f a); simpl in H; [|discriminate].
    destruct (mapM f l); simpl in H; [|discriminate].
    inversion H; simpl. f_equal; auto.
Qed.

Lemma mapM_ok_all {A B} (f : A -> result B) (g : A -> B) l :
  (forall x, In x l -> f x = Ok (g x)) -> mapM f l = Ok (map g l).
Proof.
  induction l; simpl; intros H; auto.
  rewrite H by auto. simpl. rewrite IHl by auto. reflexivity.
Qed.

Lemma mapM_ok_nth {A B} (f : A -> result B) l r i x :
  mapM f l = Ok r -> nth_error l i = Some x ->
  exists y, nth_error r i = Some y /\ f x = Ok y.
Proof.
  revert r i; induction l; simpl; intros r i H Hx.
  - destruct i; discriminate.
  - destruct (f a) eqn:Ea; simpl in H; [|discriminate].
    destruct (mapM f l) eqn:El; simpl in H; [|discriminate].
    inversion H; subst. destruct i; simpl in *.
    + inversion Hx; subst. eauto.
    + eapply IHl; eauto.
Qed.

Lemma mapM_err {A B} (f : A -> result B) l e :
  mapM f l = Err e -> exists x, In x l /\ f x = Err e.
Proof.
  induction l; simpl; intros H; [discriminate|].
  destruct (f a) eqn:Ea; simpl in H.
  - destruct (mapM f l) eqn:El; simpl in H; [discriminate|].
    inversion H; subst. destruct IHl as [x [? ?]]; eauto.
  - inversion H; subst. eauto.
Qed.

(** ** Suffix sums *)

(** What accumulating from the right computes. *)
Fixpoint suffix_acc {A} (ops : num_ops A) (l : list A) : list A :=
  match l with
  | [] => []
  | x :: r => match suffix_acc ops r with
              | [] => [x]
              | y :: t => nadd ops x y :: y :: t
              end
  end.

Lemma suffix_acc_length {A} (ops : num_ops A) l : length (suffix_acc ops l) = length l.
Proof.
  induction l as [|x r IH]; simpl; auto.
  destruct (suffix_acc ops r) eqn:E; simpl in *; lia.
Qed.

Lemma accumulate_step_cons {A} (ops : num_ops A) x l k :
  accumulate_step ops (x :: l) (S k) = x :: accumulate_step ops l k.
Proof.
  unfold accumulate_step. simpl.
  destruct (nth_error l k); [|reflexivity].
  destruct (nth_error l (k + 1)); reflexivity.
Qed.

Lemma fold_accumulate_cons {A} (ops : num_ops A) ks x l :
  fold_left (accumulate_step ops) (map S ks) (x :: l) =
  x :: fold_left (accumulate_step ops) ks l.
Proof.
  revert l; induction ks; simpl; intros l; auto.
  rewrite accumulate_step_cons. apply IHks.
Qed.

Lemma range_down_S n : range_down (S n) = map S (range_down n) ++ [O].
Proof. unfold range_down. simpl. rewrite <- seq_shift. rewrite map_rev. reflexivity. Qed.

Lemma fold_accumulate {A} (ops : num_ops A) l :
  fold_left (accumulate_step ops) (range_down (length l - 1)) l = suffix_acc ops l.
Proof.
  induction l as [|x r IH]; simpl; auto.
  destruct r as [|y t]; [reflexivity|].
  simpl length in *. replace (S (length t) - 0)%nat with (S (length t)) by lia.
  replace (S (length t) - 1)%nat with (length t) in IH by lia.
  rewrite range_down_S, fold_left_app, fold_accumulate_cons, IH.
  pose proof (suffix_acc_length ops (y :: t)) as Hl.
  destruct (suffix_acc ops (y :: t)) as [|z s] eqn:E; [simpl in Hl; lia|].
  reflexivity.
Qed.

Lemma suffix_acc_nth l k :
  (k < length l)%nat -> nth_error (suffix_acc Zops l) k = Some (Zsum (skipn k l)).
Proof.
  revert k; induction l as [|x r IH]; intros k Hk; [simpl in Hk; lia|].
  simpl. destruct r as [|y t].
  - destruct k; [|simpl in Hk; lia]. simpl. f_equal; lia.
  - pose proof (suffix_acc_length Zops (y :: t)) as Hl.
    destruct (suffix_acc Zops (y :: t)) as [|z s] eqn:E; [simpl in Hl; lia|].
    destruct k.
    + specialize (IH O ltac:(simpl; lia)). simpl in IH. inversion IH; subst.
      simpl. reflexivity.
    + change (nth_error (z :: s) k = Some (Zsum (skipn k (y :: t)))).
      apply IH. simpl in Hk |- *. lia.
Qed.

Lemma Zsum_app l1 l2 : Zsum (l1 ++ l2) = Zsum l1 + Zsum l2.
Proof. induction l1; simpl; lia. Qed.

Lemma Zsum_repeat0 n : Zsum (repeat 0 n) = 0.
Proof. induction n; simpl; lia. Qed.

Lemma Zsum_nonneg l : (forall x, In x l -> 0 <= x) -> 0 <= Zsum l.
Proof.
  induction l as [|a l IH]; simpl; intros H; [lia|].
  assert (0 <= a) by auto. assert (0 <= Zsum l) by auto. lia.
Qed.

(** ** diffs *)

Lemma diffs_length {A} (ops : num_ops A) l : length (diffs ops l) = (length l - 1)%nat.
Proof.
  induction l as [|x r IH]; simpl; auto.
  destruct r; simpl in *; auto. rewrite IH. lia.
Qed.

Lemma diffs_nth {A} (ops : num_ops A) l i x y :
  nth_error l i = Some x -> nth_error l (S i) = Some y ->
  nth_error (diffs ops l) i = Some (nsub ops x y).
Proof.
  revert i; induction l as [|a r IH]; intros i Hx Hy; [destruct i; discriminate|].
  destruct r as [|b r'].
  - simpl in Hy. destruct i; discriminate.
  - destruct i.
    + simpl in *. inversion Hx; inversion Hy; subst. reflexivity.
    + change (nth_error (nsub ops a b :: diffs ops (b :: r')) (S i) = Some (nsub ops x y)).
      simpl nth_error. apply IH; auto.
Qed.

(** [mk_reach_point] keeps its arguments. *)
Lemma mk_reach_point_ok {I A} (ops : num_ops A) (imps : list I) kp sp u p :
  mk_reach_point ops imps kp sp u = Ok p ->
  rp_impressions p = imps /\ rp_kplus p = kp /\ rp_frequencies p = diffs ops kp /\
  rp_universe p = u /\
  rp_spends p = (match sp with Some [] => None | s => s end).
Proof.
  unfold mk_reach_point.
  destruct (match match sp with Some [] => None | s => s end with
            | Some s => negb (Nat.eqb (length imps) (length s)) | None => false end);
    intros H; inversion H; subst; simpl; auto.
Qed.

Lemma mk_reach_point_none {I A} (ops : num_ops A) (imps : list I) kp u :
  mk_reach_point ops imps kp None u =
  Ok {| rp_impressions := imps; rp_kplus := kp; rp_frequencies := diffs ops kp;
        rp_spends := None; rp_universe := u |}.
Proof. reflexivity. Qed.

Lemma mk_reach_point_same_length {I A} (ops : num_ops A) (imps : list I) kp sp u :
  length imps = length sp ->
  exists p, mk_reach_point ops imps kp (Some sp) u = Ok p.
Proof.
  intros H. unfold mk_reach_point. destruct sp as [|s sp].
  - eauto.
  - rewrite H, Nat.eqb_refl. simpl. eauto.
Qed.

Lemma reach_spec {I A} (p : reach_point I A) k x :
  reach p k = Ok x <->
  (1 <= k <= max_frequency p /\ nth_error (rp_kplus p) (Z.to_nat (k - 1)) = Some x).
Proof.
  unfold reach, max_frequency.
  destruct (Z.ltb_spec 0 k); simpl.
  - destruct (Z.leb_spec k (Z.of_nat (length (rp_kplus p)))); simpl.
    + rewrite py_index_nonneg by lia.
      destruct (nth_error (rp_kplus p) (Z.to_nat (k - 1))) eqn:E.
      * split; intros H'; [inversion H'; split; auto; lia| destruct H' as [_ H']; inversion H'; auto].
      * split; [discriminate|intros [_ ?]; discriminate].
    + split; [discriminate|lia].
  - split; [discriminate|lia].
Qed.

Lemma reach_ok_iff {I A} (p : reach_point I A) k :
  is_ok (reach p k) = true <-> 1 <= k <= max_frequency p.
Proof.
  unfold reach.
  destruct (Z.ltb_spec 0 k); simpl; [|split; [discriminate|lia]].
  destruct (Z.leb_spec k (max_frequency p)); simpl; [|split; [discriminate|lia]].
  rewrite py_index_ok_iff. unfold max_frequency in *. lia.
Qed.

(** ** Counting with buckets *)

(** number of elements of a list of integers that are at least [k] *)
Definition count_ge (k : Z) (l : list Z) : Z :=
  Z.of_nat (length (filter (fun c => k <=? c) l)).

Lemma Zsum_skipn_set_nth k j x y l :
  nth_error l j = Some y ->
  Zsum (skipn k (set_nth j x l)) = Zsum (skipn k l) + (if (k <=? j)%nat then x - y else 0).
Proof.
  revert k j; induction l as [|a l IH]; intros k j H; [destruct j; discriminate|].
  destruct j; simpl in H.
  - inversion H; subst. destruct k; simpl; lia.
  - simpl. destruct k; simpl.
    + specialize (IH O j H). simpl in IH. lia.
    + apply IH; auto.
Qed.

Lemma bump_ok m fc c :
  1 <= m -> length fc = Z.to_nat m -> 1 <= c ->
  exists fc', bump m fc c = Ok fc' /\ length fc' = Z.to_nat m /\
    forall k, (k < Z.to_nat m)%nat ->
      Zsum (skipn k fc') = Zsum (skipn k fc) + (if Z.of_nat k + 1 <=? c then 1 else 0).
Proof.
  intros Hm Hl Hc. unfold bump.
  rewrite py_index_nonneg by lia.
  destruct (nth_error fc (Z.to_nat (Z.min c m - 1))) eqn:E.
  2:{ apply nth_error_None in E. lia. }
  simpl. unfold py_set.
  replace (Z.min c m - 1 <? 0) with false by (symmetry; apply Z.ltb_ge; lia).
  destruct (Z.leb_spec 0 (Z.min c m - 1)); [|lia].
  destruct (Z.ltb_spec (Z.min c m - 1) (Z.of_nat (length fc))); [|lia].
  simpl. eexists; split; [reflexivity|]. split; [rewrite set_nth_length; auto|].
  intros k Hk. rewrite (Zsum_skipn_set_nth _ _ _ z) by auto.
  destruct (Nat.leb_spec k (Z.to_nat (Z.min c m - 1)));
    destruct (Z.leb_spec (Z.of_nat k + 1) c); lia.
Qed.

Lemma bump_all_ok m fc cs :
  1 <= m -> length fc = Z.to_nat m -> (forall c, In c cs -> 1 <= c) ->
  exists fc', bump_all m fc cs = Ok fc' /\ length fc' = Z.to_nat m /\
    forall k, (k < Z.to_nat m)%nat ->
      Zsum (skipn k fc') = Zsum (skipn k fc) + count_ge (Z.of_nat k + 1) cs.
Proof.
  revert fc; induction cs as [|c cs IH]; intros fc Hm Hl Hc.
  - simpl. exists fc. repeat split; auto. intros. unfold count_ge. simpl. lia.
  - simpl. destruct (bump_ok m fc c Hm Hl (Hc c (or_introl eq_refl))) as [fc1 [E1 [L1 S1]]].
    rewrite E1. simpl.
    destruct (IH fc1 Hm L1 (fun c' H => Hc c' (or_intror H))) as [fc2 [E2 [L2 S2]]].
    exists fc2. repeat split; auto. intros k Hk.
    rewrite S2, S1 by auto. unfold count_ge. simpl.
    destruct (Z.of_nat k + 1 <=? c); simpl length; lia.
Qed.

Lemma skipn_repeat {A} (x : A) n k : skipn k (repeat x n) = repeat x (n - k).
Proof.
  revert k; induction n; intros k; simpl; [destruct k; auto|].
  destruct k; simpl; auto.
Qed.

(** With positive counts, position [k] of the accumulated list counts the entries > k. *)
Lemma accumulated_counts m cs :
  1 <= m -> (forall c, In c cs -> 1 <= c) ->
  exists fc kp,
    bump_all m (repeat 0 (Z.to_nat m)) cs = Ok fc /\
    fold_left (accumulate_step Zops) (range_down (Z.to_nat (m - 1))) fc = kp /\
    length kp = Z.to_nat m /\
    forall k, (k < Z.to_nat m)%nat -> nth_error kp k = Some (count_ge (Z.of_nat k + 1) cs).
Proof.
  intros Hm Hc.
  destruct (bump_all_ok m (repeat 0 (Z.to_nat m)) cs Hm) as [fc [E [L S]]]; auto.
  { apply repeat_length. }
  exists fc, (suffix_acc Zops fc). split; auto. split.
  { rewrite <- fold_accumulate. f_equal. f_equal. lia. }
  split; [rewrite suffix_acc_length; auto|].
  intros k Hk. rewrite suffix_acc_nth by lia. f_equal. rewrite S by auto.
  rewrite skipn_repeat, Zsum_repeat0. lia.
Qed.
