(** Proofs about publisher logs and data sets. *)
From Coq Require Import String Permutation Sorted.
From Verif Require Import Prelude ModelReachPoint ModelData SpecData ReachPointLemmas.
Open Scope Z_scope.
Notation length := List.length.

Lemma Qleb_le x y : Qleb x y = true <-> (x <= y)%Q.
Proof. apply Qle_bool_iff. Qed.
Lemma Qleb_gt x y : Qleb x y = false <-> (y < x)%Q.
Proof.
  unfold Qleb. rewrite <- not_true_iff_false, Qle_bool_iff. split.
  - apply Qnot_le_lt.
  - apply Qlt_not_le.
Qed.
Lemma Qltb_lt x y : Qltb x y = true <-> (x < y)%Q.
Proof. unfold Qltb. rewrite negb_true_iff. apply Qleb_gt. Qed.
Lemma Qltb_ge x y : Qltb x y = false <-> (y <= x)%Q.
Proof. unfold Qltb. rewrite negb_false_iff. apply Qle_bool_iff. Qed.

(** ** Dictionaries *)

Fixpoint dict_get (d : zdict) (k : Z) : Z :=
  match d with [] => 0 | (k', v) :: r => if k =? k' then v else dict_get r k end.

Lemma dict_get_incr d k v k' :
  dict_get (dict_incr d k v) k' = dict_get d k' + (if k' =? k then v else 0).
Proof.
  induction d as [|[a b] d IH]; simpl.
  - destruct (k' =? k); lia.
  - destruct (Z.eqb_spec k a); simpl.
    + subst. destruct (k' =? a); lia.
    + rewrite IH. destruct (Z.eqb_spec k' a); destruct (Z.eqb_spec k' k); subst; lia.
Qed.

Lemma dict_incr_keys d k v k' :
  In k' (dict_keys (dict_incr d k v)) <-> k' = k \/ In k' (dict_keys d).
Proof.
  unfold dict_keys. induction d as [|[a b] d IH]; simpl.
  - intuition.
  - destruct (Z.eqb_spec k a); simpl; intuition congruence.
Qed.

Lemma dict_incr_nodup d k v : NoDup (dict_keys d) -> NoDup (dict_keys (dict_incr d k v)).
Proof.
  unfold dict_keys. induction d as [|[a b] d IH]; simpl; intros H.
  - repeat constructor. intros [].
  - destruct (Z.eqb_spec k a); simpl; auto.
    inversion H; subst. constructor; auto.
    fold (dict_keys (dict_incr d k v)). rewrite dict_incr_keys. intuition.
Qed.

Lemma dict_get_notin d k : ~ In k (dict_keys d) -> dict_get d k = 0.
Proof.
  induction d as [|[a b] d IH]; simpl; intros H; auto.
  destruct (Z.eqb_spec k a); [exfalso; intuition|]. apply IH. intuition.
Qed.

Lemma dict_get_in d k v : NoDup (dict_keys d) -> In (k, v) d -> dict_get d k = v.
Proof.
  induction d as [|[a b] d IH]; simpl; intros Hn H; [destruct H|].
  inversion Hn; subst. destruct H as [H|H].
  - inversion H; subst. rewrite Z.eqb_refl. auto.
  - destruct (Z.eqb_spec k a); auto. subst. exfalso. apply H2.
    change (In a (map fst d)). apply in_map_iff. exists (a, v); auto.
Qed.

Lemma in_keys_get d k : In k (dict_keys d) -> In (k, dict_get d k) d.
Proof.
  induction d as [|[a b] d IH]; simpl; intros H; [destruct H|].
  destruct (Z.eqb_spec k a); [subst; auto|]. destruct H; [congruence|]. auto.
Qed.

Definition dict_wf (d : zdict) : Prop :=
  NoDup (dict_keys d) /\ forall v, In v (dict_values d) -> 1 <= v.

Lemma dict_get_nonneg d k : dict_wf d -> 0 <= dict_get d k.
Proof.
  intros [Hn Hv]. destruct (in_dec Z.eq_dec k (dict_keys d)) as [H|H].
  - apply in_keys_get in H. assert (1 <= dict_get d k); [|lia].
    apply Hv. unfold dict_values. apply in_map_iff. eexists; split; [|eassumption]. auto.
  - rewrite dict_get_notin; auto. lia.
Qed.

Lemma dict_incr_values_pos d k v :
  1 <= v -> (forall w, In w (dict_values d) -> 1 <= w) ->
  forall w, In w (dict_values (dict_incr d k v)) -> 1 <= w.
Proof.
  unfold dict_values. intros Hv. induction d as [|[a b] d IH]; simpl; intros Hd w H.
  - intuition; subst; auto.
  - destruct (k =? a); simpl in *.
    + destruct H; [|apply Hd; auto]. subst.
      assert (1 <= b) by auto. lia.
    + destruct H; [apply Hd; auto|]. apply IH; auto.
Qed.

Lemma dict_incr_wf d k v : dict_wf d -> 1 <= v -> dict_wf (dict_incr d k v).
Proof.
  intros [Hn Hp] Hv. split; [apply dict_incr_nodup; auto|].
  apply dict_incr_values_pos; auto.
Qed.

Lemma dict_nil_wf : dict_wf [].
Proof. split; [constructor|]. intros v []. Qed.

(** number of occurrences *)
Definition occ (u : Z) (ids : list Z) : Z :=
  Z.of_nat (length (filter (fun x => x =? u) ids)).

Lemma counter_fold ids d :
  dict_wf d ->
  dict_wf (fold_left (fun d u => dict_incr d u 1) ids d) /\
  forall u, dict_get (fold_left (fun d u => dict_incr d u 1) ids d) u =
            dict_get d u + occ u ids.
Proof.
  revert d; induction ids as [|a ids IH]; simpl; intros d Hd.
  - split; auto. intros. unfold occ. simpl. lia.
  - destruct (IH (dict_incr d a 1)) as [Hw Hg]; [apply dict_incr_wf; auto; lia|].
    split; auto. intros u. rewrite Hg, dict_get_incr. unfold occ. simpl.
    rewrite (Z.eqb_sym a u). destruct (u =? a); simpl length; lia.
Qed.

Lemma counter_wf ids : dict_wf (counter ids).
Proof. apply counter_fold, dict_nil_wf. Qed.
Lemma counter_get ids u : dict_get (counter ids) u = occ u ids.
Proof. unfold counter. rewrite (proj2 (counter_fold ids [] dict_nil_wf)). reflexivity. Qed.

Lemma merge_counts_spec counts uc :
  dict_wf counts -> (forall v, In v (dict_values uc) -> 1 <= v) -> NoDup (dict_keys uc) ->
  dict_wf (merge_counts counts uc) /\
  forall u, dict_get (merge_counts counts uc) u = dict_get counts u + dict_get uc u.
Proof.
  unfold merge_counts. revert counts; induction uc as [|[k v] uc IH]; simpl; intros counts Hc Hv Hn.
  - split; auto. intros; lia.
  - inversion Hn; subst. destruct (IH (dict_incr counts k v)) as [Hw Hg]; auto.
    { apply dict_incr_wf; auto. }
    split; auto. intros u. rewrite Hg, dict_get_incr.
    destruct (Z.eqb_spec u k); [|lia]. subst.
    rewrite (dict_get_notin uc k) by auto. lia.
Qed.

Lemma dict_values_sum d : NoDup (dict_keys d) ->
  Zsum (dict_values d) = Zsum (map (dict_get d) (dict_keys d)).
Proof.
  induction d as [|[k v] d IH]; simpl; intros H; auto.
  inversion H; subst. rewrite Z.eqb_refl, IH by auto. f_equal. f_equal.
  apply map_ext_in. intros a Ha. destruct (Z.eqb_spec a k); auto. congruence.
Qed.

Lemma Zsum_dict_incr d k v : Zsum (dict_values (dict_incr d k v)) = Zsum (dict_values d) + v.
Proof.
  unfold dict_values. induction d as [|[a b] d IH]; simpl; [lia|].
  destruct (k =? a); simpl; lia.
Qed.

Lemma counter_sum ids : Zsum (dict_values (counter ids)) = Z.of_nat (length ids).
Proof.
  unfold counter. assert (forall d, Zsum (dict_values (fold_left (fun d u => dict_incr d u 1) ids d))
    = Zsum (dict_values d) + Z.of_nat (length ids)) as H.
  { induction ids as [|a ids IH]; simpl; intros d; [lia|].
    rewrite IH, Zsum_dict_incr. lia. }
  rewrite H. reflexivity.
Qed.

(** The number of dictionary entries with value at least [k] is the number of keys whose
    looked-up value is at least [k]. *)
Lemma count_ge_card d k :
  dict_wf d -> 1 <= k -> card_is (fun u => k <= dict_get d u) (count_ge k (dict_values d)).
Proof.
  intros [Hn Hp] Hk.
  exists (filter (fun u => k <=? dict_get d u) (dict_keys d)). split; [|split].
  - apply NoDup_filter. auto.
  - intros u. rewrite filter_In, Z.leb_le. split; [tauto|]. intros H. split; auto.
    destruct (in_dec Z.eq_dec u (dict_keys d)); auto.
    rewrite dict_get_notin in H by auto. lia.
  - unfold count_ge. f_equal.
    assert (dict_values d = map (dict_get d) (dict_keys d)) as ->.
    { clear -Hn. induction d as [|[a b] d IH]; simpl; auto.
      inversion Hn; subst. rewrite Z.eqb_refl. f_equal. unfold dict_values in *. simpl.
      rewrite IH by auto. apply map_ext_in. intros x Hx.
      destruct (Z.eqb_spec x a); auto. congruence. }
    generalize (dict_keys d) as l. induction l; simpl; auto.
    destruct (k <=? dict_get d a); simpl; auto.
Qed.

(** ** Cardinalities *)

Lemma card_is_unique P n m : card_is P n -> card_is P m -> n = m.
Proof.
  intros [S [HS [HP <-]]] [T [HT [HQ <-]]]. f_equal.
  apply Permutation_length. apply NoDup_Permutation; auto.
  intros x. rewrite HP, HQ. tauto.
Qed.

Lemma card_is_ext (P Q : Z -> Prop) n : (forall u, P u <-> Q u) -> card_is P n -> card_is Q n.
Proof.
  intros H [S [HS [HP <-]]]. exists S. repeat split; auto.
  - intros; apply H, HP; auto.
  - intros; apply HP, H; auto.
Qed.

Lemma card_is_le (P Q : Z -> Prop) n m : (forall u, P u -> Q u) -> card_is P n -> card_is Q m -> n <= m.
Proof.
  intros H [S [HS [HP <-]]] [T [HT [HQ <-]]].
  apply inj_le. apply NoDup_incl_length; auto.
  intros u Hu. apply HQ, H, HP; auto.
Qed.

Lemma card_is_nonneg P n : card_is P n -> 0 <= n.
Proof. intros [S [_ [_ <-]]]. lia. Qed.

(** [P] within a union of two sets *)
Lemma card_is_union (P Q R : Z -> Prop) n m l :
  (forall u, P u -> Q u \/ R u) -> card_is P n -> card_is Q m -> card_is R l -> n <= m + l.
Proof.
  intros H [S [HS [HP <-]]] [T [HT [HQ <-]]] [U [HU [HR <-]]].
  assert (length S <= length (T ++ U))%nat; [|rewrite app_length in *; lia].
  apply NoDup_incl_length; auto. intros u Hu. apply in_app_iff.
  apply HP in Hu. destruct (H u Hu); [left; apply HQ | right; apply HR]; auto.
Qed.

Lemma card_is_false (P : Z -> Prop) : (forall u, ~ P u) -> card_is P 0.
Proof.
  intros H. exists []. repeat split; [constructor|intros []|intros Hu; apply (H u Hu)].
Qed.

Lemma count_distinct_card l : card_is (fun u => In u l) (Z.of_nat (count_distinct l)).
Proof.
  exists (nodup Z.eq_dec l). repeat split.
  - apply NoDup_nodup.
  - intros H. apply nodup_In in H. auto.
  - intros H. apply nodup_In. auto.
Qed.

(** ** Sorting *)

Lemma insert_row_perm x l : Permutation (insert_row x l) (x :: l).
Proof.
  induction l as [|y l IH]; simpl; auto.
  destruct (Qleb (snd x) (snd y)); auto.
  rewrite IH. apply perm_swap.
Qed.

Lemma sort_rows_perm l : Permutation (sort_rows l) l.
Proof. induction l; simpl; auto. rewrite insert_row_perm. auto. Qed.

Lemma sort_rows_length l : length (sort_rows l) = length l.
Proof. apply Permutation_length, sort_rows_perm. Qed.

Definition row_le (x y : row) : Prop := (snd x <= snd y)%Q.

Lemma row_le_trans : forall x y z, row_le x y -> row_le y z -> row_le x z.
Proof. unfold row_le. intros. eapply Qle_trans; eauto. Qed.

Lemma insert_row_sorted x l : StronglySorted row_le l -> StronglySorted row_le (insert_row x l).
Proof.
  induction l as [|y l IH]; simpl; intros H.
  - repeat constructor.
  - inversion H; subst. destruct (Qleb (snd x) (snd y)) eqn:E.
    + apply Qleb_le in E. constructor; auto. constructor; auto.
      eapply Forall_impl; [|eassumption]. intros a Ha. eapply row_le_trans; eauto.
    + apply Qleb_gt in E. constructor; [apply IH; auto|].
      rewrite Forall_forall. intros a Ha.
      apply (Permutation_in _ (insert_row_perm x l)) in Ha. destruct Ha as [->|Ha].
      * unfold row_le. apply Qlt_le_weak; auto.
      * rewrite Forall_forall in H3. auto.
Qed.

Lemma sort_rows_sorted l : StronglySorted row_le (sort_rows l).
Proof. induction l; simpl; [constructor|]. apply insert_row_sorted; auto. Qed.

Lemma sort_rows_id l : increasing_prices l -> sort_rows l = l.
Proof.
  induction l as [|x l IH]; simpl; auto. destruct l as [|y l].
  - reflexivity.
  - intros [H1 H2]. rewrite (IH H2). simpl.
    rewrite (proj2 (Qleb_le _ _) H1). reflexivity.
Qed.

Lemma filter_perm {A} (f : A -> bool) l l' :
  Permutation l l' -> Permutation (filter f l) (filter f l').
Proof.
  induction 1; simpl; auto.
  - destruct (f x); auto.
  - destruct (f x), (f y); auto. apply perm_swap.
  - etransitivity; eauto.
Qed.

(** ** Counts of one publisher *)

Lemma occ_perm u l l' : Permutation l l' -> occ u l = occ u l'.
Proof.
  intros H. unfold occ. f_equal. apply Permutation_length, filter_perm; auto.
Qed.

Lemma occ_map_filter u s log :
  occ u (map fst (filter (fun r => Qleb (snd r) s) log)) = seen_at_spend u log s.
Proof.
  unfold occ, seen_at_spend. f_equal.
  induction log as [|[a q] log IH]; simpl; auto.
  unfold Qleb in *. destruct (Qle_bool q s); simpl.
  - rewrite andb_true_r. destruct (a =? u); simpl; rewrite IH; auto.
  - rewrite andb_false_r. auto.
Qed.

Lemma publisher_fields rn log name p :
  mk_publisher rn log name = Ok p ->
  pd_data p = sort_rows log /\ pd_spends p = map snd log /\
  py_maxQ (map snd log) = Ok (pd_max_spend p) /\
  pd_max_reach p = Z.of_nat (count_distinct (map fst log)).
Proof.
  unfold mk_publisher. destruct (py_maxQ (map snd log)) eqn:E; simpl; intros H; inversion H.
  simpl. auto.
Qed.

Lemma seen_at_spend_perm u l l' s :
  Permutation l l' -> seen_at_spend u l s = seen_at_spend u l' s.
Proof.
  intros H. unfold seen_at_spend. f_equal. apply Permutation_length, filter_perm; auto.
Qed.

Lemma user_counts_by_spend_get log p u s :
  is_publisher_of log p ->
  dict_get (user_counts_by_spend p s) u = seen_at_spend u log s.
Proof.
  intros [rn [nm H]]. apply publisher_fields in H. destruct H as [Hd _].
  unfold user_counts_by_spend. rewrite counter_get, Hd, occ_map_filter.
  apply seen_at_spend_perm, sort_rows_perm.
Qed.

(** ** Counts over publishers *)

Lemma rbs_loop_spec logs pubs spends imps counts :
  Forall2 is_publisher_of logs pubs -> length spends = length logs -> dict_wf counts ->
  exists imps' counts',
    rbs_loop pubs spends imps counts = (imps', counts') /\ dict_wf counts' /\
    (forall u, dict_get counts' u = dict_get counts u + total_seen (seen_at_spend u) logs spends) /\
    imps' = imps ++ map (fun ps => Zsum (dict_values (user_counts_by_spend (fst ps) (snd ps))))
                        (combine pubs spends).
Proof.
  intros H. revert spends imps counts. induction H as [|log p logs pubs Hp H IH];
    intros spends imps counts Hl Hw.
  - simpl. exists imps, counts. repeat split; try apply Hw; auto.
    + intros; destruct spends; simpl; lia.
    + rewrite app_nil_r. reflexivity.
  - destruct spends as [|s spends]; [simpl in Hl; lia|]. simpl.
    destruct (merge_counts_spec counts (user_counts_by_spend p s)) as [Hw' Hg']; auto.
    { apply counter_wf. } { apply counter_wf. }
    simpl in Hl. edestruct (IH spends) as [i' [c' [E [W [G I]]]]]; [lia|apply Hw'|].
    exists i', c'. split; [apply E|]. split; auto. split.
    + intros u. rewrite G, Hg', (user_counts_by_spend_get log p u s Hp). lia.
    + rewrite I, <- app_assoc. reflexivity.
Qed.

Lemma counts_to_histogram_spec counts m :
  dict_wf counts -> 1 <= m ->
  exists kp, counts_to_histogram counts m = Ok kp /\ length kp = Z.to_nat m /\
    forall k, (k < Z.to_nat m)%nat ->
      nth_error kp k = Some (count_ge (Z.of_nat k + 1) (dict_values counts)).
Proof.
  intros Hw Hm.
  destruct (accumulated_counts m (dict_values counts) Hm) as [fc [kp [E [F [L N]]]]].
  { apply Hw. }
  exists kp. unfold counts_to_histogram. rewrite E. simpl. rewrite F. auto.
Qed.

Lemma data_set_fields pubs name u d :
  mk_data_set pubs name u = Ok d ->
  ds_data d = pubs /\
  ds_maximum_reach d = Z.of_nat (count_distinct (total_audience pubs)) /\
  ds_universe d = match u with None => 2 * ds_maximum_reach d | Some x => x end.
Proof.
  unfold mk_data_set. destruct name as [n|]; simpl; [|discriminate].
  destruct (truthy n); simpl; intros H; inversion H; simpl. auto.
Qed.

Lemma Forall2_len {A B} (R : A -> B -> Prop) l l' : Forall2 R l l' -> length l = length l'.
Proof. induction 1; simpl; auto. Qed.

Lemma reach_by_spend_ok logs d spends m :
  is_data_set_of logs d -> length spends = length logs -> 1 <= m ->
  exists p counts imps,
    reach_by_spend d spends m = Ok p /\
    dict_wf counts /\
    (forall u, dict_get counts u = total_seen (seen_at_spend u) logs spends) /\
    max_frequency p = m /\
    rp_impressions p = imps /\
    imps = map (fun ps => Zsum (dict_values (user_counts_by_spend (fst ps) (snd ps))))
                        (combine (ds_data d) spends) /\
    rp_universe p = Some (ds_universe d) /\
    rp_spends p = match spends with [] => None | s => Some s end /\
    forall k, 1 <= k <= m -> reach p k = Ok (count_ge k (dict_values counts)).
Proof.
  intros [pubs [nm [un [Hp Hd]]]] Hl Hm.
  apply data_set_fields in Hd. destruct Hd as [Hdata [Hmr Hu]].
  unfold reach_by_spend, publisher_count. rewrite Hdata.
  rewrite <- (Forall2_len _ _ _ Hp), Hl, Nat.eqb_refl. simpl.
  destruct (rbs_loop_spec logs pubs spends [] [] Hp Hl dict_nil_wf)
    as [imps [counts [E [W [G I]]]]].
  rewrite E.
  destruct (counts_to_histogram_spec counts m W Hm) as [kp [E1 [L1 N1]]].
  rewrite E1. simpl bind. simpl in I.
  assert (length imps = length spends) as HL.
  { rewrite I, map_length, combine_length, Hl, <- (Forall2_len _ _ _ Hp). lia. }
  destruct (mk_reach_point_same_length Zops imps kp spends (Some (ds_universe d)) HL) as [p Ep].
  exists p, counts, imps. rewrite Ep. apply mk_reach_point_ok in Ep.
  destruct Ep as [P1 [P2 [P3 [P4 P5]]]].
  split; auto. split; auto. split; [intros; rewrite G; reflexivity|].
  assert (max_frequency p = m) as HM by (unfold max_frequency; rewrite P2, L1; lia).
  split; auto. split; auto. split; auto. split; auto. split.
  { rewrite P5. destruct spends; auto. }
  intros k Hk. apply reach_spec. split; [lia|].
  rewrite P2, N1 by lia. do 2 f_equal. lia.
Qed.

Lemma reach_by_spend_card logs d spends m k :
  is_data_set_of logs d -> length spends = length logs -> 1 <= k <= m ->
  exists p r, reach_by_spend d spends m = Ok p /\ reach p k = Ok r /\
    card_is (fun u => k <= total_seen (seen_at_spend u) logs spends) r.
Proof.
  intros Hd Hl Hk.
  destruct (reach_by_spend_ok logs d spends m Hd Hl ltac:(lia))
    as [p [counts [imps [E [W [G [M [I1 [I2 [U [S R]]]]]]]]]]].
  exists p, (count_ge k (dict_values counts)). repeat split; auto.
  eapply card_is_ext; [|apply count_ge_card; auto; lia].
  intros u. simpl. rewrite G. tauto.
Qed.
