(** C01, C02, C03: ReachPoint. *)
From Verif Require Import Prelude ModelReachPoint ReachPointLemmas.
Open Scope Z_scope.

(** ** C01 *)

Theorem C01_reach_reads_kplus : forall (I A : Type) (ops : num_ops A) (imps : list I) (kp : list A) sp u p k x,
  mk_reach_point ops imps kp sp u = Ok p ->
  (reach p k = Ok x <->
   1 <= k <= Z.of_nat (length kp) /\ nth_error kp (Z.to_nat (k - 1)) = Some x).
Proof.
  intros I A ops imps kp sp u p k x H. apply mk_reach_point_ok in H.
  destruct H as [_ [H _]]. rewrite reach_spec. unfold max_frequency. rewrite H. tauto.
Qed.
Print Assumptions C01_reach_reads_kplus.

Theorem C01_frequency_is_difference : forall (I : Type) (imps : list I) (kp : list Z) sp u p k,
  mk_reach_point Zops imps kp sp u = Ok p ->
  1 <= k < Z.of_nat (length kp) ->
  exists a b, reach p k = Ok a /\ reach p (k + 1) = Ok b /\ frequency p k = Ok (a - b).
Proof.
  intros I imps kp sp u p k H Hk. apply mk_reach_point_ok in H.
  destruct H as [_ [Hkp [Hf _]]].
  destruct (nth_error kp (Z.to_nat (k - 1))) as [a|] eqn:Ea.
  2:{ apply nth_error_None in Ea. lia. }
  destruct (nth_error kp (S (Z.to_nat (k - 1)))) as [b|] eqn:Eb.
  2:{ apply nth_error_None in Eb. lia. }
  exists a, b. repeat split.
  - apply reach_spec. unfold max_frequency. rewrite Hkp. split; [lia|auto].
  - apply reach_spec. unfold max_frequency. rewrite Hkp. split; [lia|].
    replace (Z.to_nat (k + 1 - 1)) with (S (Z.to_nat (k - 1))) by lia. auto.
  - unfold frequency, max_frequency. rewrite Hkp.
    destruct (Z.ltb_spec 0 k); [|lia].
    destruct (Z.ltb_spec k (Z.of_nat (length kp))); [|lia]. simpl.
    rewrite py_index_nonneg by lia. rewrite Hf, (diffs_nth Zops kp _ a b Ea Eb). reflexivity.
Qed.
Print Assumptions C01_frequency_is_difference.

(** Which arguments are accepted, and that all others raise ValueError. *)
Theorem C01_argument_ranges : forall (I A : Type) (ops : num_ops A) (imps : list I) (kp : list A) sp u p k,
  mk_reach_point ops imps kp sp u = Ok p ->
  (1 <= k <= Z.of_nat (length kp) -> exists x, reach p k = Ok x) /\
  (~ 1 <= k <= Z.of_nat (length kp) -> reach p k = Err ValueError) /\
  (1 <= k < Z.of_nat (length kp) -> exists x, frequency p k = Ok x) /\
  (~ 1 <= k < Z.of_nat (length kp) -> frequency p k = Err ValueError).
Proof.
  intros I A ops imps kp sp u p k H. apply mk_reach_point_ok in H.
  destruct H as [_ [Hkp [Hf _]]]. unfold reach, frequency, max_frequency. rewrite Hkp.
  split; [|split; [|split]]; intros Hk.
  - destruct (Z.ltb_spec 0 k); [|lia].
    destruct (Z.leb_spec k (Z.of_nat (length kp))); [|lia]. simpl.
    rewrite py_index_nonneg by lia.
    destruct (nth_error kp (Z.to_nat (k - 1))) eqn:E; eauto.
    apply nth_error_None in E. lia.
  - destruct (Z.ltb_spec 0 k); [|auto].
    destruct (Z.leb_spec k (Z.of_nat (length kp))); [lia|auto].
  - destruct (Z.ltb_spec 0 k); [|lia].
    destruct (Z.ltb_spec k (Z.of_nat (length kp))); [|lia]. simpl.
    rewrite py_index_nonneg by lia. rewrite Hf.
    destruct (nth_error (diffs ops kp) (Z.to_nat (k - 1))) eqn:E; eauto.
    apply nth_error_None in E. rewrite diffs_length in E. lia.
  - destruct (Z.ltb_spec 0 k); [|auto].
    destruct (Z.ltb_spec k (Z.of_nat (length kp))); [lia|auto].
Qed.
Print Assumptions C01_argument_ranges.

Lemma diffs_snoc_last l a : diffs Zops (l ++ [a]) ++ [a] =
  match l with [] => [a] | x :: r => diffs Zops (x :: r ++ [a]) ++ [a] end.
Proof. destruct l; reflexivity. Qed.

Lemma suffix_acc_diffs_cons kp x :
  suffix_acc Zops (diffs Zops (kp ++ [x]) ++ [x]) = kp ++ [x].
Proof.
  induction kp as [|a kp IH]; simpl; auto.
  destruct (kp ++ [x]) as [|b t] eqn:E; [destruct kp; discriminate|].
  simpl. simpl in IH. rewrite IH. f_equal. lia.
Qed.

(** k+ reaches -> frequencies -> k+ reaches is the identity. *)
Theorem C01_kplus_roundtrip : forall (I : Type) (imps : list I) (kp : list Z) sp u p,
  mk_reach_point Zops imps kp sp u = Ok p -> kp <> [] ->
  exists f, frequencies_with_kplus_bucket p = Ok f /\ frequencies_to_kplus_reaches Zops f = kp.
Proof.
  intros I imps kp sp u p H Hne. apply mk_reach_point_ok in H.
  destruct H as [_ [Hkp [Hf _]]].
  destruct (exists_last Hne) as [l [x ->]].
  unfold frequencies_with_kplus_bucket. rewrite Hkp, py_index_last. simpl.
  eexists; split; [reflexivity|]. rewrite Hf.
  unfold frequencies_to_kplus_reaches. rewrite fold_accumulate. apply suffix_acc_diffs_cons.
Qed.
Print Assumptions C01_kplus_roundtrip.

Lemma diffs_suffix_acc f x :
  exists k, suffix_acc Zops (f ++ [x]) = k ++ [x] /\ diffs Zops (k ++ [x]) = f.
Proof.
  induction f as [|a f [k [E1 E2]]].
  - exists []. auto.
  - simpl. rewrite E1. destruct (k ++ [x]) as [|y t] eqn:Ek; [destruct k; discriminate|].
    exists ((a + y) :: k). simpl. rewrite Ek. split; auto. rewrite E2. f_equal. lia.
Qed.

(** frequencies -> k+ reaches -> frequencies is the identity. *)
Theorem C01_frequencies_roundtrip : forall (I : Type) (imps : list I) (f : list Z) sp u p,
  f <> [] -> mk_reach_point Zops imps (frequencies_to_kplus_reaches Zops f) sp u = Ok p ->
  frequencies_with_kplus_bucket p = Ok f.
Proof.
  intros I imps f sp u p Hne H. apply mk_reach_point_ok in H.
  destruct H as [_ [Hkp [Hf _]]].
  destruct (exists_last Hne) as [l [x ->]].
  unfold frequencies_to_kplus_reaches in *. rewrite fold_accumulate in *.
  destruct (diffs_suffix_acc l x) as [k [E1 E2]]. rewrite E1 in *.
  unfold frequencies_with_kplus_bucket. rewrite Hkp, py_index_last. simpl.
  rewrite Hf, E2. reflexivity.
Qed.
Print Assumptions C01_frequencies_roundtrip.

(** The constructor raises exactly when non-empty spends have the wrong length. *)
Theorem C01_constructor_rejects : forall (I A : Type) (ops : num_ops A) (imps : list I) (kp : list A) sp u,
  (exists p, mk_reach_point ops imps kp sp u = Ok p) <->
  (forall s, sp = Some s -> s <> [] -> length imps = length s).
Proof.
  intros I A ops imps kp sp u. unfold mk_reach_point. destruct sp as [[|a s]|].
  - split; [intros _ s' H; inversion H; congruence|]. intros _. eauto.
  - destruct (Nat.eqb_spec (length imps) (length (a :: s))) as [E|E]; cbn [negb].
    + split; [intros _ s' H; inversion H; auto|]. eauto.
    + split; [intros [p H]; discriminate|]. intros H. exfalso. apply E. apply H; congruence.
  - split; [discriminate|]. eauto.
Qed.
Print Assumptions C01_constructor_rejects.

Example C01_example : exists p, mk_reach_point Zops [100; 200] [5; 3; 1] (Some [1%Q; 2%Q]) None = Ok p
  /\ reach p 1 = Ok 5 /\ frequency p 2 = Ok 2 /\ frequency p 3 = Err ValueError
  /\ frequencies_with_kplus_bucket p = Ok [2; 2; 1].
Proof. eexists. split; [reflexivity|]. repeat split; reflexivity. Qed.

(** ** C02 *)

Definition non_increasing (l : list Z) : Prop :=
  forall i x y, nth_error l i = Some x -> nth_error l (S i) = Some y -> y <= x.

Lemma Zsum_diffs l x : forall a, Zsum (diffs Zops (a :: l ++ [x])) = a - x.
Proof.
  induction l as [|b l IH]; intros a; simpl; [lia|]. specialize (IH b). simpl in IH.
  destruct (l ++ [x]); simpl in *; lia.
Qed.

Theorem C02_histogram_accounts_for_universe : forall (I : Type) (imps : list I) (kp : list Z) sp u p,
  mk_reach_point Zops imps kp sp (Some u) = Ok p -> kp <> [] ->
  exists h, zero_included_histogram p = Ok h /\ length h = S (length kp) /\ Zsum h = u.
Proof.
  intros I imps kp sp u p H Hne. apply mk_reach_point_ok in H.
  destruct H as [_ [Hkp [Hf [Hu _]]]].
  unfold zero_included_histogram. rewrite Hu.
  destruct (exists_last Hne) as [l [x ->]].
  unfold reach, max_frequency. rewrite Hkp.
  destruct (Z.leb_spec 1 (Z.of_nat (length (l ++ [x])))).
  2:{ rewrite app_length in *. simpl in *. lia. }
  replace (0 <? 1) with true by reflexivity. cbn [andb].
  rewrite py_index_nonneg by lia. simpl (Z.to_nat (1 - 1)).
  destruct l as [|a l].
  - unfold frequencies_with_kplus_bucket. rewrite Hkp, (py_index_last [] x), Hf. simpl.
    eexists; split; [reflexivity|]. split; auto. simpl. lia.
  - unfold frequencies_with_kplus_bucket. rewrite Hkp, py_index_last, Hf.
    cbn [bind nth_error app].
    eexists; split; [reflexivity|]. split.
    + cbn [length]. rewrite app_length, diffs_length. cbn [length]. lia.
    + cbn [Zsum]. rewrite Zsum_app, Zsum_diffs. simpl. lia.
Qed.
Print Assumptions C02_histogram_accounts_for_universe.

Lemma diffs_nonneg l : (forall x, In x (diffs Zops l) -> 0 <= x) <-> non_increasing l.
Proof.
  unfold non_increasing. induction l as [|a l IH].
  - simpl. split; [intros _ i x y H; destruct i; discriminate|intros _ x []].
  - destruct l as [|b l].
    + simpl. split; [intros _ i x y H1 H2; destruct i as [|[|]]; discriminate|intros _ x []].
    + change (diffs Zops (a :: b :: l)) with ((a - b) :: diffs Zops (b :: l)).
      split.
      * intros H i x y H1 H2. destruct i.
        -- simpl in *. inversion H1; inversion H2; subst.
           assert (0 <= x - y) by (apply H; left; auto). lia.
        -- apply (proj1 IH) with (i := i); auto. intros; apply H; right; auto.
      * intros H x [Hx|Hx].
        -- assert (b <= a) by (apply (H O); reflexivity). lia.
        -- apply (proj2 IH); auto. intros i y z H1 H2. apply (H (S i)); auto.
Qed.

Theorem C02_histogram_nonneg_iff : forall (I : Type) (imps : list I) (kp : list Z) sp u p h first last,
  mk_reach_point Zops imps kp sp (Some u) = Ok p ->
  zero_included_histogram p = Ok h ->
  nth_error kp 0 = Some first -> nth_error kp (length kp - 1) = Some last ->
  ((forall x, In x h -> 0 <= x) <-> (non_increasing kp /\ 0 <= last /\ first <= u)).
Proof.
  intros I imps kp sp u p h first last H Hh H0 Hl. apply mk_reach_point_ok in H.
  destruct H as [_ [Hkp [Hf [Hu _]]]].
  unfold zero_included_histogram in Hh. rewrite Hu in Hh.
  assert (kp <> []) as Hne by (intros ->; discriminate).
  destruct (exists_last Hne) as [l [x ->]].
  replace (length (l ++ [x]) - 1)%nat with (length l) in Hl by (rewrite app_length; simpl; lia).
  rewrite nth_error_app2, Nat.sub_diag in Hl by lia. simpl in Hl. inversion Hl; subst last.
  assert (reach p 1 = Ok first) as Hr.
  { apply reach_spec. unfold max_frequency. rewrite Hkp, app_length. simpl. split; [lia|auto]. }
  rewrite Hr in Hh. cbn [bind] in Hh.
  unfold frequencies_with_kplus_bucket in Hh. rewrite Hkp, py_index_last, Hf in Hh.
  cbn [bind] in Hh. inversion Hh; subst h. clear Hh.
  rewrite <- diffs_nonneg. split.
  - intros H. split; [|split].
    + intros y Hy. apply H. right. apply in_app_iff. auto.
    + apply H. right. apply in_app_iff. right. left. auto.
    + assert (0 <= u - first) by (apply H; left; auto). lia.
  - intros [H1 [H2 H3]] y [Hy|Hy]; [lia|].
    apply in_app_iff in Hy. destruct Hy as [Hy|[<-|[]]]; auto.
Qed.
Print Assumptions C02_histogram_nonneg_iff.

Theorem C02_no_universe_raises : forall (I : Type) (imps : list I) (kp : list Z) sp p,
  mk_reach_point Zops imps kp sp None = Ok p ->
  zero_included_histogram p = Err ValueError /\ universe_size p = Err ValueError.
Proof.
  intros I imps kp sp p H. apply mk_reach_point_ok in H.
  destruct H as [_ [_ [_ [Hu _]]]]. unfold zero_included_histogram, universe_size.
  rewrite Hu. auto.
Qed.
Print Assumptions C02_no_universe_raises.

Example C02_example : exists p, mk_reach_point Zops [100] [5; 3; 1] None (Some 20) = Ok p
  /\ zero_included_histogram p = Ok [15; 2; 2; 1].
Proof. eexists. split; reflexivity. Qed.

(** ** C03 *)

(** Number of users (dictionary entries) whose count satisfies [f]. *)
Definition users_with (f : Z -> bool) (counts : zdict) : Z :=
  Z.of_nat (length (filter (fun kv => f (snd kv)) counts)).

Lemma users_with_cons f u c r :
  users_with f ((u, c) :: r) = (if f c then 1 else 0) + users_with f r.
Proof. unfold users_with. simpl. destruct (f c); simpl length; lia. Qed.

Lemma count_ge_users counts k : count_ge k (dict_values counts) = users_with (Z.leb k) counts.
Proof.
  unfold count_ge, users_with, dict_values. f_equal.
  induction counts as [|[a b] c IH]; simpl; auto. destruct (k <=? b); simpl; auto.
Qed.

Theorem C03_kplus_counts_users : forall (counts : zdict) (m : Z),
  1 <= m -> (forall u c, In (u, c) counts -> 1 <= c) ->
  exists kp, user_counts_to_kplus_reaches counts m = Ok kp /\ length kp = Z.to_nat m /\
    forall k, 1 <= k <= m ->
      nth_error kp (Z.to_nat (k - 1)) = Some (users_with (fun c => k <=? c) counts).
Proof.
  intros counts m Hm Hc.
  destruct (accumulated_counts m (dict_values counts) Hm) as [fc [kp [E [F [L N]]]]].
  { intros c H. unfold dict_values in H. apply in_map_iff in H. destruct H as [[u c'] [<- H]].
    eapply Hc; eauto. }
  exists kp. unfold user_counts_to_kplus_reaches, user_counts_to_frequencies. rewrite E. simpl.
  rewrite F. split; auto. split; auto. intros k Hk.
  rewrite N by lia. rewrite count_ge_users.
  replace (Z.of_nat (Z.to_nat (k - 1)) + 1) with k by lia. reflexivity.
Qed.
Print Assumptions C03_kplus_counts_users.

(** The general behaviour on non-negative counts: users with count 0 are counted as if they
    had been reached at every frequency. *)
Lemma bump_zero m fc :
  1 <= m -> length fc = Z.to_nat m ->
  exists fc', bump m fc 0 = Ok fc' /\ length fc' = Z.to_nat m /\
    forall k, (k < Z.to_nat m)%nat -> Zsum (skipn k fc') = Zsum (skipn k fc) + 1.
Proof.
  intros Hm Hl. unfold bump. replace (Z.min 0 m - 1) with (-1) by lia.
  assert (fc <> []) as Hne by (intros ->; simpl in Hl; lia).
  destruct (exists_last Hne) as [l [x ->]]. rewrite py_index_last. simpl bind.
  unfold py_set. rewrite app_length in *. cbn [length] in *.
  change (-1 <? 0) with true. cbv beta iota zeta.
  set (n := Z.of_nat (length l + 1)). assert (n = Z.of_nat (length l) + 1) by lia.
  destruct (Z.leb_spec 0 (-1 + n)); [|lia].
  destruct (Z.ltb_spec (-1 + n) n); [|lia]. cbn [andb].
  replace (Z.to_nat (-1 + n)) with (length l) by lia.
  eexists; split; [reflexivity|]. split; [rewrite set_nth_length, app_length; simpl; lia|].
  intros k Hk. rewrite (Zsum_skipn_set_nth _ _ _ x).
  - destruct (Nat.leb_spec k (length l)); lia.
  - rewrite nth_error_app2, Nat.sub_diag by lia. reflexivity.
Qed.

Theorem C03_zero_counts_inflate : forall (counts : zdict) (m : Z),
  1 <= m -> (forall u c, In (u, c) counts -> 0 <= c) ->
  exists kp, user_counts_to_kplus_reaches counts m = Ok kp /\ length kp = Z.to_nat m /\
    forall k, 1 <= k <= m ->
      nth_error kp (Z.to_nat (k - 1)) =
      Some (users_with (fun c => k <=? c) counts + users_with (fun c => c =? 0) counts).
Proof.
  intros counts m Hm Hc.
  assert (forall fc, length fc = Z.to_nat m ->
    exists fc', bump_all m fc (dict_values counts) = Ok fc' /\ length fc' = Z.to_nat m /\
      forall k, (k < Z.to_nat m)%nat -> Zsum (skipn k fc') = Zsum (skipn k fc) +
        (users_with (fun c => Z.of_nat k + 1 <=? c) counts + users_with (fun c => c =? 0) counts)) as HB.
  { induction counts as [|[u c] counts IH]; intros fc Hl.
    - simpl. exists fc. repeat split; auto. intros. unfold users_with. simpl. lia.
    - simpl. assert (0 <= c) by (apply (Hc u); left; auto).
      assert (exists fc1, bump m fc c = Ok fc1 /\ length fc1 = Z.to_nat m /\
        forall k, (k < Z.to_nat m)%nat -> Zsum (skipn k fc1) = Zsum (skipn k fc) +
          ((if Z.of_nat k + 1 <=? c then 1 else 0) + (if c =? 0 then 1 else 0))) as [fc1 [E1 [L1 S1]]].
      { destruct (Z.eqb_spec c 0).
        - subst. destruct (bump_zero m fc Hm Hl) as [fc1 [E1 [L1 S1]]]. exists fc1.
          repeat split; auto. intros k Hk. rewrite S1 by auto.
          destruct (Z.leb_spec (Z.of_nat k + 1) 0); lia.
        - destruct (bump_ok m fc c Hm Hl ltac:(lia)) as [fc1 [E1 [L1 S1]]]. exists fc1.
          repeat split; auto. intros k Hk. rewrite S1 by auto. lia. }
      rewrite E1. simpl.
      destruct (IH (fun u' c' H' => Hc u' c' (or_intror H')) fc1 L1) as [fc2 [E2 [L2 S2]]].
      exists fc2. repeat split; auto. intros k Hk. rewrite S2, S1 by auto.
      rewrite !users_with_cons. lia. }
  destruct (HB (repeat 0 (Z.to_nat m)) (repeat_length _ _)) as [fc [E [L S]]].
  unfold user_counts_to_kplus_reaches, user_counts_to_frequencies. rewrite E. simpl.
  exists (suffix_acc Zops fc). split.
  { rewrite <- fold_accumulate. do 2 f_equal. f_equal. lia. }
  split; [rewrite suffix_acc_length; auto|].
  intros k Hk. rewrite suffix_acc_nth by lia. f_equal. rewrite S by lia.
  rewrite skipn_repeat, Zsum_repeat0.
  replace (Z.of_nat (Z.to_nat (k - 1)) + 1) with k by lia. lia.
Qed.
Print Assumptions C03_zero_counts_inflate.

(** So a user that was never reached is reported as reached (at every frequency). *)
Theorem C03_zero_count_refuted : exists counts m kp,
  1 <= m /\ user_counts_to_kplus_reaches counts m = Ok kp /\
  users_with (fun c => 1 <=? c) counts = 0 /\ nth_error kp 0 = Some 1.
Proof. exists [(7, 0)], 2, [1; 1]. repeat split; reflexivity || lia. Qed.
Print Assumptions C03_zero_count_refuted.

Theorem C03_no_frequencies_raises : forall (counts : zdict) (m : Z),
  m <= 0 -> counts <> [] -> user_counts_to_kplus_reaches counts m = Err IndexError.
Proof.
  intros counts m Hm Hc. destruct counts as [|[u c] r]; [congruence|].
  unfold user_counts_to_kplus_reaches, user_counts_to_frequencies.
  replace (Z.to_nat m) with O by lia. simpl. unfold bump.
  assert (py_index [] (Z.min c m - 1) = @Err Z IndexError) as ->; [|reflexivity].
  destruct (py_index [] (Z.min c m - 1)) eqn:E.
  - assert (is_ok (py_index (@nil Z) (Z.min c m - 1)) = true) as H by (rewrite E; auto).
    apply py_index_ok_iff in H. simpl in H. lia.
  - unfold py_index in E. destruct ((0 <=? _) && _) in E; [|congruence].
    destruct (nth_error _ _) in E; congruence.
Qed.
Print Assumptions C03_no_frequencies_raises.

Example C03_example : user_counts_to_kplus_reaches [(1, 3); (2, 1); (5, 7)] 3 = Ok [3; 2; 2].
Proof. reflexivity. Qed.
