(** Lemmas on the error metrics. *)
From Coq Require Import String Permutation Sorted Lqa Qround.
From Verif Require Import Prelude ModelReachPoint ModelAggregator SpecSurface SpecAggregator
  ReachPointLemmas SurfaceLemmas GammaLemmas GammaLemmas2.
Open Scope Z_scope.

(** ** Sums, means, variances *)

Lemma length_Q_pos {A} (l : list A) : l <> [] -> (0 < length_Q l)%Q.
Proof.
  intros H. unfold length_Q. change 0%Q with (inject_Z 0). rewrite <- Zlt_Qlt.
  destruct l; [congruence|]. cbn [length]. lia.
Qed.

Lemma length_Q_cons {A} (a : A) l : (length_Q (a :: l) == 1 + length_Q l)%Q.
Proof.
  unfold length_Q. cbn [length]. rewrite Nat2Z.inj_succ. unfold Z.succ. rewrite inject_Z_plus.
  change (inject_Z 1) with 1%Q. ring.
Qed.

Lemma length_Q_map {A B} (f : A -> B) l : length_Q (map f l) = length_Q l.
Proof. unfold length_Q. rewrite map_length. reflexivity. Qed.

Lemma Qsum_map_ext {A} (f g : A -> Q) l : (forall x, In x l -> f x == g x)%Q ->
  (Qsum (map f l) == Qsum (map g l))%Q.
Proof.
  induction l as [|x l IH]; intros H; cbn [map Qsum]; [reflexivity|].
  rewrite (H x (or_introl eq_refl)), IH by (intros; apply H; right; assumption). reflexivity.
Qed.

Lemma Qsum_perm l l' : Permutation l l' -> (Qsum l == Qsum l')%Q.
Proof.
  induction 1 as [|x a b _ IH|x y l|a b c _ IH1 _ IH2]; cbn [Qsum]; try reflexivity.
  - rewrite IH. reflexivity.
  - ring.
  - rewrite IH1. exact IH2.
Qed.

Lemma mean_perm l l' : Permutation l l' -> (mean_of l == mean_of l')%Q.
Proof.
  intros H. unfold mean_of, length_Q. rewrite (Permutation_length H), (Qsum_perm _ _ H). reflexivity.
Qed.

Lemma variance_perm l l' : Permutation l l' -> (variance_of l == variance_of l')%Q.
Proof.
  intros H. unfold variance_of.
  rewrite (mean_perm _ (map (fun x => ((x - mean_of l) * (x - mean_of l))%Q) l') (Permutation_map _ H)).
  unfold mean_of at 1 4. rewrite !length_Q_map. apply Qmult_comp; [|reflexivity].
  apply Qsum_map_ext. intros x _. rewrite (mean_perm _ _ H). reflexivity.
Qed.

Lemma mean_times l : l <> [] -> (mean_of l * length_Q l == Qsum l)%Q.
Proof. intros H. unfold mean_of. field. pose proof (length_Q_pos l H). intros X. lra. Qed.

Lemma sum_squares m l :
  (Qsum (map (fun x => (x - m) * (x - m)) l) ==
   Qsum (map square l) - 2 * m * Qsum l + length_Q l * (m * m))%Q.
Proof.
  induction l as [|x l IH]; [unfold length_Q; cbn [map Qsum length Z.of_nat]; change (inject_Z 0) with 0%Q; ring|]. cbn [map Qsum]. rewrite IH, length_Q_cons. unfold square. ring.
Qed.

Lemma variance_eq l : l <> [] ->
  (mean_of (map square l) == variance_of l + mean_of l * mean_of l)%Q.
Proof.
  intros H. pose proof (length_Q_pos l H) as Hp. pose proof (mean_times l H) as Hm.
  unfold variance_of. unfold mean_of at 1 2. rewrite !length_Q_map, sum_squares, <- Hm.
  set (n := length_Q l) in *. set (m := mean_of l) in *. set (s := Qsum (map square l)).
  clearbody n m s. field. intros X. lra.
Qed.

Lemma mean_nonneg l : (forall x, In x l -> (0 <= x)%Q) -> (0 <= mean_of l)%Q.
Proof.
  intros H. destruct l as [|a l]; [unfold mean_of, length_Q; cbn; discriminate|].
  unfold mean_of. apply Qle_shift_div_l; [apply length_Q_pos; discriminate|]. rewrite Qmult_0_l.
  revert H. generalize (a :: l). clear. induction l as [|x l IH]; intros H; cbn [Qsum]; [lra|].
  pose proof (H x (or_introl eq_refl)). specialize (IH (fun y Hy => H y (or_intror Hy))). lra.
Qed.

Lemma square_nonneg x : (0 <= square x)%Q.
Proof. unfold square. nra. Qed.

Lemma variance_nonneg l : (0 <= variance_of l)%Q.
Proof.
  unfold variance_of. apply mean_nonneg. intros x Hx. apply in_map_iff in Hx. destruct Hx as [y [<- _]].
  exact (square_nonneg (y - mean_of l)).
Qed.

Lemma mean_le l l' : length l = length l' -> Forall2 Qle l l' -> (mean_of l <= mean_of l')%Q.
Proof.
  intros El H. unfold mean_of, length_Q. rewrite El.
  assert (S : (Qsum l <= Qsum l')%Q) by (induction H; cbn [Qsum]; [lra|]; cbn in El; specialize (IHForall2 ltac:(lia)); lra).
  destruct l' as [|a l']; [destruct l; [lra|discriminate]|].
  unfold Qdiv. apply Qmult_le_compat_r; [exact S|]. apply Qinv_le_0_compat.
  change 0%Q with (inject_Z 0). rewrite <- Zle_Qle. lia.
Qed.

Lemma abs_spec x : ((0 <= x)%Q /\ Qabs' x = x) \/ ((x < 0)%Q /\ Qabs' x = (- x)%Q).
Proof.
  unfold Qabs'. destruct (Qleb 0 x) eqn:E.
  - left. split; [apply Qle_bool_iff; exact E|reflexivity].
  - right. split; [|reflexivity]. apply Qnot_le_lt. intros H. apply Qle_bool_iff in H. unfold Qleb in E. congruence.
Qed.
Lemma abs_nonneg x : (0 <= Qabs' x)%Q.
Proof. destruct (abs_spec x) as [[H ->]|[H ->]]; lra. Qed.
Lemma abs_ge x : (x <= Qabs' x)%Q /\ (- x <= Qabs' x)%Q.
Proof. destruct (abs_spec x) as [[H ->]|[H ->]]; split; lra. Qed.
Lemma abs_square x : (square (Qabs' x) == square x)%Q.
Proof. unfold square. destruct (abs_spec x) as [[H ->]|[H ->]]; ring. Qed.
Lemma abs_comp x y : (x == y)%Q -> (Qabs' x == Qabs' y)%Q.
Proof. intros E. destruct (abs_spec x) as [[H ->]|[H ->]], (abs_spec y) as [[H' ->]|[H' ->]]; lra. Qed.
Global Instance abs_proper : Proper (Qeq ==> Qeq) Qabs'.
Proof. intros x y E. apply abs_comp. exact E. Qed.
Lemma abs_opp x : (Qabs' (- x) == Qabs' x)%Q.
Proof. destruct (abs_spec x) as [[H ->]|[H ->]], (abs_spec (- x)) as [[H' ->]|[H' ->]]; lra. Qed.
Lemma absolute_abs x : (absolute x == Qabs' x)%Q.
Proof.
  unfold absolute, Qmax. destruct (Qleb_spec x (- x)) as [H|H], (abs_spec x) as [[H' ->]|[H' ->]]; lra.
Qed.

Lemma mean_abs_le l : (Qabs' (mean_of l) <= mean_of (map Qabs' l))%Q.
Proof.
  assert (A : (Qabs' (Qsum l) <= Qsum (map Qabs' l))%Q).
  { induction l as [|x l IH]; cbn [Qsum map]; [discriminate|].
    pose proof (abs_ge x) as [A1 A2]. pose proof (abs_ge (Qsum l)) as [B1 B2].
    destruct (abs_spec (x + Qsum l)%Q) as [[H ->]|[H ->]]; lra. }
  destruct l as [|a l]; [discriminate|].
  assert (P : (0 < / length_Q (a :: l))%Q) by (apply Qinv_lt_0_compat, length_Q_pos; discriminate).
  unfold mean_of. rewrite length_Q_map. unfold Qdiv.
  assert (E : (Qabs' (Qsum (a :: l) * / length_Q (a :: l)) == Qabs' (Qsum (a :: l)) * / length_Q (a :: l))%Q).
  { set (s := Qsum (a :: l)). set (c := (/ length_Q (a :: l))%Q) in *. clearbody s c.
    destruct (abs_spec s) as [[H ->]|[H ->]], (abs_spec (s * c)%Q) as [[H' ->]|[H' ->]]; nra. }
  rewrite E. apply Qmult_le_compat_r; [exact A|lra].
Qed.

(** ** Lists of numpy numbers *)

Lemma finite_map {A} (f : A -> Q) l : finite (map (fun x => Num (f x)) l) = Some (map f l).
Proof. induction l as [|x l IH]; [reflexivity|]. cbn [map finite]. rewrite IH. reflexivity. Qed.

Lemma finite_Num l : finite (map Num l) = Some l.
Proof. rewrite (finite_map (fun x => x)), map_id. reflexivity. Qed.

Lemma np_mean_Num l : l <> [] -> np_mean (map Num l) = Num (mean_of l).
Proof. intros H. unfold np_mean. rewrite finite_Num. destruct l; congruence. Qed.
Lemma np_var_Num l : l <> [] -> np_var (map Num l) = Num (variance_of l).
Proof. intros H. unfold np_var. rewrite finite_Num. destruct l; congruence. Qed.
Lemma np_quantile_Num l q : l <> [] -> np_quantile (map Num l) q = Ok (Num (quantile_of l q)).
Proof. intros H. unfold np_quantile. rewrite finite_Num. destruct l; [congruence|reflexivity]. Qed.

Lemma finite_none l : finite l = None <-> In NotFinite l.
Proof.
  induction l as [|[q|] l IH]; cbn [finite In].
  - split; [discriminate|intros []].
  - destruct (finite l); split; try discriminate.
    + intros [H|H]; [discriminate|]. apply IH in H. discriminate.
    + intros _. right. apply IH. reflexivity.
    + reflexivity.
  - split; auto.
Qed.

Lemma finite_perm l l' : Permutation l l' ->
  match finite l, finite l' with
  | Some a, Some b => Permutation a b
  | None, None => True
  | _, _ => False
  end.
Proof.
  induction 1 as [|x a b H IH|x y a|a b c H1 IH1 H2 IH2]; cbn [finite].
  - apply Permutation_refl.
  - destruct x as [q|]; [|exact Logic.I].
    destruct (finite a), (finite b); try (exact IH). apply perm_skip. exact IH.
  - destruct x as [q|], y as [p|]; destruct (finite a); try exact Logic.I. apply perm_swap.
  - destruct (finite a), (finite b), (finite c); try tauto. eapply Permutation_trans; eauto.
Qed.

Lemma div_all {A} (f g : A -> Q) l : (forall x, In x l -> ~ (g x == 0)%Q) ->
  map (fun x => np_div (f x) (g x)) l = map Num (map (fun x => (f x / g x)%Q) l).
Proof.
  intros H. rewrite map_map. apply map_ext_in. intros x Hx. unfold np_div, Qeqb.
  destruct (Qeq_bool (g x) 0) eqn:E; [|reflexivity]. apply Qeq_bool_eq in E. destruct (H x Hx E).
Qed.

Lemma div_some {A} (f g : A -> Q) l x : In x l -> (g x == 0)%Q ->
  finite (map (fun x => np_div (f x) (g x)) l) = None.
Proof.
  intros H E. apply finite_none. apply in_map_iff. exists x. split; [|exact H]. unfold np_div, Qeqb.
  apply Qeq_bool_iff in E. rewrite E. reflexivity.
Qed.

(** ** Sorting and quantiles *)

Lemma insert_Q_perm x l : Permutation (x :: l) (insert_Q x l).
Proof.
  induction l as [|y l IH]; cbn [insert_Q]; [apply Permutation_refl|].
  destruct (Qleb x y); [apply Permutation_refl|].
  eapply Permutation_trans; [apply perm_swap|]. apply perm_skip. exact IH.
Qed.
Lemma sort_Q_perm l : Permutation l (sort_Q l).
Proof.
  induction l as [|x l IH]; [apply Permutation_refl|]. cbn [sort_Q fold_right].
  eapply Permutation_trans; [apply perm_skip; exact IH|]. apply insert_Q_perm.
Qed.
Lemma sort_Q_length l : length (sort_Q l) = length l.
Proof. symmetry. apply Permutation_length, sort_Q_perm. Qed.
Lemma insert_Q_sorted x l : StronglySorted Qle l -> StronglySorted Qle (insert_Q x l).
Proof.
  induction 1 as [|y l H IH Hf]; cbn [insert_Q]; [constructor; constructor|].
  destruct (Qleb_spec x y) as [E|E].
  - constructor; [constructor; assumption|]. constructor; [exact E|].
    eapply Forall_impl; [|exact Hf]. intros z Hz. cbv beta in Hz. lra.
  - constructor; [exact IH|]. eapply Permutation_Forall; [apply insert_Q_perm|]. constructor; [lra|exact Hf].
Qed.
Lemma sort_Q_sorted l : StronglySorted Qle (sort_Q l).
Proof. induction l as [|x l IH]; [constructor|]. apply insert_Q_sorted. exact IH. Qed.

Lemma sorted_nth l i j d : StronglySorted Qle l -> (i <= j)%nat -> (j < length l)%nat ->
  (nth i l d <= nth j l d)%Q.
Proof.
  intros H. revert i j. induction H as [|x l H IH Hf]; intros i j Hij Hj; cbn [length] in Hj; [lia|].
  destruct i as [|i], j as [|j]; cbn [nth]; try lia; [lra| |apply IH; lia].
  rewrite Forall_forall in Hf. apply Hf. apply nth_In. lia.
Qed.

Definition count (f : Q -> bool) (l : list Q) : nat := length (filter f l).
Lemma count_perm f l l' : Permutation l l' -> count f l = count f l'.
Proof.
  unfold count. induction 1 as [|x a b H IH|x y a|a b c H1 IH1 H2 IH2]; cbn [filter]; try lia;
    [destruct (f x)|destruct (f x), (f y)]; cbn [length]; lia.
Qed.
Lemma count_app f l l' : count f (l ++ l') = (count f l + count f l')%nat.
Proof. unfold count. rewrite filter_app, app_length. reflexivity. Qed.
Lemma count_all f l : (forall x, In x l -> f x = true) -> count f l = length l.
Proof.
  unfold count. induction l as [|x l IH]; intros H; [reflexivity|]. cbn [filter]. rewrite (H x (or_introl eq_refl)).
  cbn [length]. rewrite IH; [reflexivity|]. intros; apply H; right; assumption.
Qed.
Lemma count_none f l : (forall x, In x l -> f x = false) -> count f l = O.
Proof.
  unfold count. induction l as [|x l IH]; intros H; [reflexivity|]. cbn [filter]. rewrite (H x (or_introl eq_refl)).
  apply IH. intros; apply H; right; assumption.
Qed.
Lemma count_le f l : (count f l <= length l)%nat.
Proof. unfold count. induction l as [|x l IH]; cbn [filter]; [lia|]. destruct (f x); cbn [length]; lia. Qed.

Lemma In_firstn_nth l k (x : Q) : In x (firstn k l) -> exists i, (i < k)%nat /\ (i < length l)%nat /\ nth i l 0%Q = x.
Proof.
  revert k. induction l as [|y l IH]; intros k H; destruct k as [|k]; cbn in H; try tauto.
  destruct H as [<-|H]; [exists O; cbn; split; [lia|split; [lia|reflexivity]]|].
  destruct (IH k H) as [i [H1 [H2 H3]]]. exists (S i). cbn. split; [lia|]. split; [lia|exact H3].
Qed.
Lemma In_skipn_nth l k (x : Q) : In x (skipn k l) -> exists i, (k <= i)%nat /\ (i < length l)%nat /\ nth i l 0%Q = x.
Proof.
  revert k. induction l as [|y l IH]; intros k H; destruct k as [|k]; cbn [skipn] in H.
  - destruct H.
  - destruct H.
  - apply (In_nth _ _ 0%Q) in H. destruct H as [i [H1 H2]]. exists i. split; [lia|]. split; [exact H1|exact H2].
  - destruct (IH k H) as [i [H1 [H2 H3]]]. exists (S i). cbn. split; [lia|]. split; [lia|exact H3].
Qed.

Lemma sorted_count_le l k v : StronglySorted Qle l -> (k < length l)%nat -> (nth k l 0 <= v)%Q ->
  (k + 1 <= count (fun x => Qleb x v) l)%nat.
Proof.
  intros Hs Hk Hv. rewrite <- (firstn_skipn (k + 1) l), count_app, count_all.
  - rewrite firstn_length. lia.
  - intros x Hx. apply In_firstn_nth in Hx. destruct Hx as [i [H1 [H2 <-]]]. apply Qle_bool_iff.
    pose proof (sorted_nth l i k 0%Q Hs ltac:(lia) Hk). lra.
Qed.
Lemma sorted_count_lt l k v : StronglySorted Qle l -> (v <= nth k l 0)%Q ->
  (count (fun x => Qltb x v) l <= k)%nat.
Proof.
  intros Hs Hv. rewrite <- (firstn_skipn k l), count_app, (count_none _ (skipn k l)).
  - pose proof (count_le (fun x => Qltb x v) (firstn k l)). rewrite firstn_length in H. lia.
  - intros x Hx. apply In_skipn_nth in Hx. destruct Hx as [i [H1 [H2 <-]]].
    pose proof (sorted_nth l k i 0%Q Hs H1 H2). destruct (Qltb_spec (nth i l 0%Q) v); [lra|reflexivity].
Qed.

Lemma sorted_perm_nth l l' k : StronglySorted Qle l -> StronglySorted Qle l' -> Permutation l l' ->
  (nth k l 0 == nth k l' 0)%Q.
Proof.
  assert (G : forall l l', StronglySorted Qle l -> StronglySorted Qle l' -> Permutation l l' ->
    (k < length l)%nat -> (nth k l 0 <= nth k l' 0)%Q).
  { clear. intros l l' H H' P Hk. apply Qnot_lt_le. intros Hlt.
    pose proof (Permutation_length P) as El.
    pose proof (sorted_count_le l' k (nth k l' 0%Q) H' ltac:(lia) ltac:(lra)) as C.
    rewrite <- (count_perm _ _ _ P) in C.
    assert (C2 : (count (fun x => Qleb x (nth k l' 0%Q)) l <= count (fun x => Qltb x (nth k l 0%Q)) l)%nat).
    { clear -Hlt. unfold count. set (v := nth k l' 0%Q) in *. set (w := nth k l 0%Q) in *. clearbody v w.
      induction l as [|x l IH]; cbn [filter]; [lia|].
      destruct (Qleb_spec x v), (Qltb_spec x w); cbn [length]; try lia. exfalso. lra. }
    pose proof (sorted_count_lt l k (nth k l 0%Q) H ltac:(lra)). lia. }
  intros H H' P. destruct (Nat.lt_ge_cases k (length l)) as [Hk|Hk].
  - apply Qle_antisym; [apply G; assumption|].
    apply G; try assumption; [apply Permutation_sym; exact P|]. rewrite <- (Permutation_length P). exact Hk.
  - rewrite !nth_overflow; [reflexivity| |exact Hk]. rewrite <- (Permutation_length P). exact Hk.
Qed.

Lemma quantile_perm l l' q : Permutation l l' -> (quantile_of l q == quantile_of l' q)%Q.
Proof.
  intros P. unfold quantile_of, length_Q. rewrite <- (Permutation_length P).
  assert (N : forall k, (nth k (sort_Q l) 0 == nth k (sort_Q l') 0)%Q).
  { intros k. apply sorted_perm_nth; try apply sort_Q_sorted.
    eapply Permutation_trans; [apply Permutation_sym, sort_Q_perm|].
    eapply Permutation_trans; [exact P|apply sort_Q_perm]. }
  rewrite !N. reflexivity.
Qed.

(** Position and value of a quantile. *)
Lemma quantile_spec l q : l <> [] -> (0 <= q <= 1)%Q ->
  let n := length l in
  let h := (q * (length_Q l - 1))%Q in
  exists lo f, (lo < n)%nat /\ (0 <= f /\ f < 1)%Q /\ (h == inject_Z (Z.of_nat lo) + f)%Q /\
    (quantile_of l q == nth lo (sort_Q l) 0 +
       f * (nth (Nat.min (lo + 1) (n - 1)) (sort_Q l) 0 - nth lo (sort_Q l) 0))%Q.
Proof.
  intros Hl Hq n h. pose proof (length_Q_pos l Hl) as Hp.
  assert (Hn : (1 <= n)%nat) by (unfold n; destruct l; [congruence|cbn; lia]).
  assert (Hh : (0 <= h /\ h <= inject_Z (Z.of_nat n - 1))%Q).
  { assert (E : (length_Q l - 1 == inject_Z (Z.of_nat n - 1))%Q).
    { unfold length_Q, n, Z.sub. rewrite inject_Z_plus. reflexivity. }
    unfold h. rewrite E. assert (0 <= inject_Z (Z.of_nat n - 1))%Q.
    { change 0%Q with (inject_Z 0). rewrite <- Zle_Qle. lia. }
    split; nra. }
  pose proof (Qfloor_le h) as F1. pose proof (Qlt_floor h) as F2.
  set (L := Qfloor h) in *. assert (HL : 0 <= L <= Z.of_nat n - 1).
  { split.
    - assert (X : (inject_Z (-1) < inject_Z L)%Q).
      { rewrite inject_Z_plus in F2. change (inject_Z 1) with 1%Q in F2. change (inject_Z (-1)) with (-1)%Q. lra. }
      rewrite <- Zlt_Qlt in X. lia.
    - assert (X : (inject_Z L <= inject_Z (Z.of_nat n - 1))%Q) by lra. rewrite <- Zle_Qle in X. exact X. }
  exists (Z.to_nat L), (h - inject_Z L)%Q.
  split; [lia|]. split; [|split].
  - rewrite inject_Z_plus in F2. change (inject_Z 1) with 1%Q in F2. split; lra.
  - rewrite Z2Nat.id by lia. ring.
  - unfold quantile_of. fold h. fold L. fold n.
    replace (Nat.min (Z.to_nat L + 1) (n - 1)) with (Z.to_nat (Z.min (L + 1) (Z.of_nat n - 1))) by lia.
    reflexivity.
Qed.

Lemma quantile_mono l q q' : l <> [] -> (0 <= q)%Q -> (q <= q')%Q -> (q' <= 1)%Q ->
  (quantile_of l q <= quantile_of l q')%Q.
Proof.
  intros Hl H0 H1 H2. pose proof (sort_Q_sorted l) as Hs. pose proof (sort_Q_length l) as El.
  destruct (quantile_spec l q Hl ltac:(lra)) as [lo [f [A1 [A2 [A3 A4]]]]].
  destruct (quantile_spec l q' Hl ltac:(lra)) as [lo' [f' [B1 [B2 [B3 B4]]]]].
  rewrite A4, B4. clear A4 B4. rewrite <- El in *. set (s := sort_Q l) in *.
  assert (Hh : (q * (length_Q l - 1) <= q' * (length_Q l - 1))%Q).
  { apply Qmult_le_compat_r; [exact H1|]. unfold length_Q.
    assert (X : (inject_Z 1 <= inject_Z (Z.of_nat (length l)))%Q) by (rewrite <- Zle_Qle; destruct l; [congruence|cbn [length]; lia]).
    change (inject_Z 1) with 1%Q in X. lra. }
  rewrite A3, B3 in Hh.
  assert (Hlo : (lo <= lo')%nat).
  { assert (X : (inject_Z (Z.of_nat lo) < inject_Z (Z.of_nat (lo' + 1)))%Q).
    { rewrite Nat2Z.inj_add, inject_Z_plus. change (inject_Z (Z.of_nat 1)) with 1%Q. lra. }
    rewrite <- Zlt_Qlt in X. lia. }
  destruct (Nat.eq_dec lo lo') as [->|Hne].
  - pose proof (sorted_nth s lo' (Nat.min (lo' + 1) (length s - 1)) 0%Q Hs ltac:(lia) ltac:(lia)) as M.
    set (a := nth lo' s 0%Q) in *. set (b := nth (Nat.min (lo' + 1) (length s - 1)) s 0%Q) in *.
    clearbody a b. assert (f <= f')%Q by lra. nra.
  - pose proof (sorted_nth s lo (Nat.min (lo + 1) (length s - 1)) 0%Q Hs ltac:(lia) ltac:(lia)) as M1.
    pose proof (sorted_nth s (Nat.min (lo + 1) (length s - 1)) lo' 0%Q Hs ltac:(lia) ltac:(lia)) as M2.
    pose proof (sorted_nth s lo' (Nat.min (lo' + 1) (length s - 1)) 0%Q Hs ltac:(lia) ltac:(lia)) as M3.
    set (a := nth lo s 0%Q) in *. set (b := nth (Nat.min (lo + 1) (length s - 1)) s 0%Q) in *.
    set (c := nth lo' s 0%Q) in *. set (d := nth (Nat.min (lo' + 1) (length s - 1)) s 0%Q) in *.
    clearbody a b c d. nra.
Qed.

(** How many entries are below a quantile. *)
Lemma quantile_counts l q : l <> [] -> (0 <= q <= 1)%Q ->
  let h := (q * (length_Q l - 1))%Q in
  (h < inject_Z (Z.of_nat (count (fun x => Qleb x (quantile_of l q)) l)))%Q /\
  (inject_Z (Z.of_nat (count (fun x => Qltb x (quantile_of l q)) l)) <= h + 1)%Q.
Proof.
  intros Hl Hq h. pose proof (sort_Q_sorted l) as Hs. pose proof (sort_Q_length l) as El.
  destruct (quantile_spec l q Hl Hq) as [lo [f [A1 [A2 [A3 A4]]]]]. fold h in A3.
  rewrite (count_perm _ _ _ (sort_Q_perm l)), (count_perm (fun x => Qltb x (quantile_of l q)) _ _ (sort_Q_perm l)).
  rewrite <- El in *. set (s := sort_Q l) in *. set (v := quantile_of l q) in *.
  pose proof (sorted_nth s lo (Nat.min (lo + 1) (length s - 1)) 0%Q Hs ltac:(lia) ltac:(lia)) as M.
  split.
  - assert (V : (nth lo s 0 <= v)%Q).
    { rewrite A4. set (a := nth lo s 0%Q) in *. set (b := nth (Nat.min (lo + 1) (length s - 1)) s 0%Q) in *.
      clearbody a b. nra. }
    pose proof (sorted_count_le s lo v Hs A1 V) as C.
    assert (X : (inject_Z (Z.of_nat (lo + 1)) <= inject_Z (Z.of_nat (count (fun x => Qleb x v) s)))%Q) by (rewrite <- Zle_Qle; lia).
    rewrite Nat2Z.inj_add, inject_Z_plus in X. change (inject_Z (Z.of_nat 1)) with 1%Q in X. lra.
  - assert (C : (count (fun x => Qltb x v) s <= lo + 1)%nat).
    { destruct (Nat.lt_ge_cases (lo + 1) (length s)) as [Hlt|Hge].
      - apply sorted_count_lt; [exact Hs|]. replace (Nat.min (lo + 1) (length s - 1)) with (lo + 1)%nat in * by lia.
        rewrite A4. set (a := nth lo s 0%Q) in *. set (b := nth (lo + 1) s 0%Q) in *. clearbody a b. nra.
      - pose proof (count_le (fun x => Qltb x v) s). lia. }
    assert (X : (inject_Z (Z.of_nat (count (fun x => Qltb x v) s)) <= inject_Z (Z.of_nat (lo + 1)))%Q) by (rewrite <- Zle_Qle; lia).
    rewrite Nat2Z.inj_add, inject_Z_plus in X. change (inject_Z (Z.of_nat 1)) with 1%Q in X. lra.
Qed.

Lemma quantile_between l q : l <> [] -> (0 <= q <= 1)%Q ->
  (exists x, In x l /\ (x <= quantile_of l q)%Q) /\ (exists x, In x l /\ (quantile_of l q <= x)%Q).
Proof.
  intros Hl Hq. pose proof (sort_Q_sorted l) as Hs. pose proof (sort_Q_length l) as El.
  destruct (quantile_spec l q Hl Hq) as [lo [f [A1 [A2 [A3 A4]]]]].
  rewrite <- El in *. set (s := sort_Q l) in *.
  pose proof (sorted_nth s lo (Nat.min (lo + 1) (length s - 1)) 0%Q Hs ltac:(lia) ltac:(lia)) as M.
  assert (I1 : forall k, (k < length s)%nat -> In (nth k s 0%Q) l).
  { intros k Hk. apply (Permutation_in _ (Permutation_sym (sort_Q_perm l))). apply nth_In. exact Hk. }
  set (b := nth (Nat.min (lo + 1) (length s - 1)) s 0%Q) in *.
  split.
  - exists (nth lo s 0%Q). split; [apply I1; exact A1|]. rewrite A4. set (a := nth lo s 0%Q) in *. clearbody a b. nra.
  - exists b. split; [apply I1; lia|]. rewrite A4. set (a := nth lo s 0%Q) in *. clearbody a b. nra.
Qed.
