(** More proofs about publisher logs: the n cheapest rows, bisect, spend/impression
    conversions. *)
From Coq Require Import String Permutation Sorted.
From Verif Require Import Prelude ModelReachPoint ModelData SpecData ReachPointLemmas DataLemmas.
Open Scope Z_scope.

Lemma filter_length_le {A} (f g : A -> bool) l :
  (forall x, In x l -> f x = true -> g x = true) ->
  (length (filter f l) <= length (filter g l))%nat.
Proof.
  induction l as [|a l IH]; simpl; intros H; auto.
  specialize (IH (fun x Hx => H x (or_intror Hx))).
  specialize (H a (or_introl eq_refl)).
  destruct (f a), (g a); simpl; try lia; exfalso; intuition discriminate.
Qed.

Lemma filter_length_lt {A} (f g : A -> bool) l x :
  (forall x, In x l -> f x = true -> g x = true) -> In x l -> f x = false -> g x = true ->
  (length (filter f l) < length (filter g l))%nat.
Proof.
  intros H Hx Hf Hg. induction l as [|a l IH]; simpl; [destruct Hx|].
  destruct Hx as [->|Hx].
  - rewrite Hf, Hg. simpl.
    pose proof (filter_length_le f g l (fun y Hy => H y (or_intror Hy))). lia.
  - specialize (IH (fun y Hy => H y (or_intror Hy)) Hx).
    specialize (H a (or_introl eq_refl)).
    destruct (f a), (g a); simpl; try lia; exfalso; intuition discriminate.
Qed.

Lemma filter_map_length {A B} (f : B -> bool) (g : A -> B) l :
  length (filter f (map g l)) = length (filter (fun x => f (g x)) l).
Proof. induction l; simpl; auto. destruct (f (g a)); simpl; auto. Qed.

Lemma filter_nth_seq {A} (f : A -> bool) (l : list A) d :
  length (filter (fun i => f (nth i l d)) (seq 0 (length l))) = length (filter f l).
Proof.
  induction l as [|a l IH]; simpl; auto.
  rewrite <- seq_shift. destruct (f a); simpl;
    rewrite filter_map_length; simpl; rewrite IH; auto.
Qed.

Lemma filter_ext_len {A} (f g : A -> bool) l :
  (forall x, In x l -> f x = g x) -> length (filter f l) = length (filter g l).
Proof. intros H. f_equal. apply filter_ext_in; auto. Qed.

(** number of rows strictly cheaper than [x] *)
Definition lt_count (x : row) (l : list row) : nat :=
  length (filter (fun y => Qltb (snd y) (snd x)) l).

Lemma lt_count_perm x l l' : Permutation l l' -> lt_count x l = lt_count x l'.
Proof. intros H. apply Permutation_length, filter_perm; auto. Qed.

Lemma rank_cons_0 x l : rank (x :: l) 0 = Z.of_nat (lt_count x l).
Proof.
  unfold rank, lt_count. f_equal. simpl.
  unfold bought_before at 1. simpl.
  replace (Qle_bool (snd x) (snd x)) with true by (symmetry; apply Qle_bool_iff, Qle_refl).
  simpl. rewrite <- seq_shift, filter_map_length. simpl.
  rewrite <- (filter_nth_seq _ l (0%Z, 0%Q)). reflexivity.
Qed.

Lemma rank_cons_S x l i :
  rank (x :: l) (S i) =
  (if Qleb (snd x) (snd (nth i l (0%Z, 0%Q))) then 1 else 0) + rank l i.
Proof.
  unfold rank. simpl. unfold bought_before at 1. simpl. unfold Qleb.
  rewrite <- seq_shift.
  assert (length (filter (fun j => bought_before (x :: l) j (S i)) (map S (seq 0 (length l)))) =
          length (filter (fun j => bought_before l j i) (seq 0 (length l)))) as E.
  { rewrite filter_map_length. apply filter_ext_len. intros j _. unfold bought_before. simpl.
    replace (S j <? S i)%nat with (j <? i)%nat by (destruct (Nat.ltb_spec j i), (Nat.ltb_spec (S j) (S i)); auto; lia).
    reflexivity. }
  destruct (Qle_bool (snd x) (snd (nth i l (0%Z, 0%Q)))); cbn [length]; rewrite E; lia.
Qed.

Lemma rank_nonneg l i : 0 <= rank l i.
Proof. unfold rank. lia. Qed.

Lemma lt_count_seq x l :
  lt_count x l =
  length (filter (fun i => Qltb (snd (nth i l (0%Z, 0%Q))) (snd x)) (seq 0 (length l))).
Proof.
  unfold lt_count. symmetry.
  apply (filter_nth_seq (fun y => Qltb (snd y) (snd x)) l (0%Z, 0%Q)).
Qed.

Lemma rank_lt_of_cheaper x l j :
  (j < length l)%nat -> (snd (nth j l (0%Z, 0%Q)) < snd x)%Q -> rank l j < Z.of_nat (lt_count x l).
Proof.
  intros Hj Hlt. unfold rank. rewrite lt_count_seq. apply inj_lt.
  apply filter_length_lt with (x := j).
  - intros k _ Hb. apply Qltb_lt. unfold bought_before in Hb.
    destruct (k <? j)%nat.
    + apply Qle_bool_iff in Hb. eapply Qle_lt_trans; eauto.
    + change (negb (Qle_bool (snd (nth j l (0%Z, 0%Q))) (snd (nth k l (0%Z, 0%Q))))) with (Qltb (snd (nth k l (0%Z, 0%Q))) (snd (nth j l (0%Z, 0%Q)))) in Hb.
      apply Qltb_lt in Hb. eapply Qlt_trans; eauto.
  - apply in_seq; simpl; split; [apply Nat.le_0_l|exact Hj].
  - unfold bought_before. rewrite Nat.ltb_irrefl.
    replace (Qle_bool _ _) with true; auto. symmetry. apply Qle_bool_iff, Qle_refl.
  - apply Qltb_lt. auto.
Qed.

Lemma rank_ge_of_dearer x l j :
  (snd x <= snd (nth j l (0%Z, 0%Q)))%Q -> Z.of_nat (lt_count x l) <= rank l j.
Proof.
  intros Hle. unfold rank. rewrite lt_count_seq. apply inj_le.
  apply filter_length_le. intros k _ Hk. apply Qltb_lt in Hk.
  assert (snd (nth k l (0%Z, 0%Q)) < snd (nth j l (0%Z, 0%Q)))%Q as Hlt
      by (eapply Qlt_le_trans; eauto).
  unfold bought_before. destruct (k <? j)%nat.
  - apply Qle_bool_iff, Qlt_le_weak; auto.
  - change (Qltb (snd (nth k l (0%Z, 0%Q))) (snd (nth j l (0%Z, 0%Q))) = true).
    apply Qltb_lt; auto.
Qed.

Lemma insert_row_split x s :
  StronglySorted row_le s ->
  insert_row x s = firstn (lt_count x s) s ++ x :: skipn (lt_count x s) s.
Proof.
  induction s as [|y s IH]; simpl; intros H; [reflexivity|].
  inversion H; subst. unfold lt_count. simpl.
  destruct (Qleb (snd x) (snd y)) eqn:E.
  - assert (Qltb (snd y) (snd x) = false) as ->.
    { apply Qltb_ge. apply Qleb_le; auto. }
    assert (length (filter (fun y0 => Qltb (snd y0) (snd x)) s) = O) as ->; [|reflexivity].
    apply Qleb_le in E. clear -E H3.
    induction s as [|z s IH]; simpl; auto.
    inversion H3; subst. replace (Qltb (snd z) (snd x)) with false; auto.
    symmetry. apply Qltb_ge. eapply Qle_trans; eauto.
  - apply Qleb_gt in E. rewrite (proj2 (Qltb_lt _ _) E). simpl. f_equal.
    apply IH; auto.
Qed.

Lemma lt_count_le x l : (lt_count x l <= length l)%nat.
Proof. unfold lt_count. induction l as [|a l IH]; simpl; auto. destruct (Qltb (snd a) (snd x)); simpl; lia. Qed.

Lemma firstn_insert_lt x s n :
  StronglySorted row_le s -> (lt_count x s < n)%nat ->
  Permutation (firstn n (insert_row x s)) (x :: firstn (n - 1) s).
Proof.
  intros Hs Hn. rewrite (insert_row_split x s Hs).
  assert (lt_count x s <= length s)%nat as Hq by (apply lt_count_le).
  revert Hn Hq. generalize (lt_count x s) as q. intros q Hn Hq.
  rewrite firstn_app, firstn_length.
  rewrite firstn_all2 by (rewrite firstn_length; lia).
  replace (n - Nat.min q (length s))%nat with (S (n - 1 - q)) by lia.
  cbn [firstn].
  rewrite <- Permutation_middle. constructor.
  rewrite <- (firstn_skipn q s) at 3.
  rewrite firstn_app, firstn_length.
  rewrite (firstn_all2 (firstn q s)) by (rewrite firstn_length; lia).
  replace (n - 1 - Nat.min q (length s))%nat with (n - 1 - q)%nat by lia. reflexivity.
Qed.

Lemma firstn_insert_ge x s n :
  StronglySorted row_le s -> (n <= lt_count x s)%nat ->
  firstn n (insert_row x s) = firstn n s.
Proof.
  intros Hs Hn. rewrite (insert_row_split x s Hs).
  assert (lt_count x s <= length s)%nat as Hq by (apply lt_count_le).
  revert Hn Hq. generalize (lt_count x s) as q. intros q Hn Hq.
  rewrite firstn_app, firstn_length.
  replace (n - Nat.min q (length s))%nat with O by lia.
  cbn [firstn]. rewrite app_nil_r, firstn_firstn, Nat.min_l by lia. reflexivity.
Qed.

(** The first [n] rows of the sorted log are the rows of rank below [n]. *)
Lemma cheapest_spec (f : row -> bool) log n :
  length (filter f (firstn n (sort_rows log))) =
  length (filter (fun i => f (nth i log (0%Z, 0%Q)) && (rank log i <? Z.of_nat n))
                 (seq 0 (length log))).
Proof.
  revert n; induction log as [|x l IH]; intros n.
  - simpl. rewrite firstn_nil. reflexivity.
  - cbn [sort_rows]. cbn [length]. rewrite <- cons_seq. cbn [filter nth].
    rewrite rank_cons_0, <- seq_shift.
    assert (forall (b : bool) (r : list nat),
      length (if b then O :: r else r) = ((if b then 1 else 0) + length r)%nat) as Hb
        by (intros [] r; reflexivity).
    rewrite Hb, filter_map_length. cbn [nth]. clear Hb.
    pose proof (sort_rows_sorted l) as Hs.
    pose proof (lt_count_perm x _ _ (sort_rows_perm l)) as Hq.
    destruct (Nat.lt_ge_cases (lt_count x l) n) as [Hlt|Hge].
    + rewrite (Permutation_length (filter_perm f _ _ (firstn_insert_lt x _ n Hs ltac:(lia)))).
      cbn [filter].
      replace (Z.of_nat (lt_count x l) <? Z.of_nat n) with true by (symmetry; apply Z.ltb_lt; lia).
      rewrite andb_true_r.
      assert (length (filter f (firstn (n - 1) (sort_rows l))) =
        length (filter (fun i => f (nth i l (0%Z, 0%Q)) && (rank (x :: l) (S i) <? Z.of_nat n))
                       (seq 0 (length l)))) as E.
      { rewrite IH. apply filter_ext_len. intros i Hi. apply in_seq in Hi.
        f_equal. rewrite rank_cons_S.
        destruct (Qleb (snd x) (snd (nth i l (0%Z, 0%Q)))) eqn:Eq.
        - destruct (Z.ltb_spec (rank l i) (Z.of_nat (n - 1)));
          destruct (Z.ltb_spec (1 + rank l i) (Z.of_nat n)); auto; lia.
        - apply Qleb_gt in Eq. pose proof (rank_lt_of_cheaper x l i (proj2 Hi) Eq).
          destruct (Z.ltb_spec (rank l i) (Z.of_nat (n - 1)));
          destruct (Z.ltb_spec (0 + rank l i) (Z.of_nat n)); auto; lia. }
      destruct (f x); cbn [length]; rewrite E; reflexivity.
    + rewrite firstn_insert_ge by (auto; lia). rewrite IH.
      replace (Z.of_nat (lt_count x l) <? Z.of_nat n) with false by (symmetry; apply Z.ltb_ge; lia).
      rewrite andb_false_r. simpl. apply filter_ext_len. intros i Hi. f_equal.
      rewrite rank_cons_S. destruct (Qleb (snd x) (snd (nth i l (0%Z, 0%Q)))) eqn:Eq; auto.
      apply Qleb_le in Eq. pose proof (rank_ge_of_dearer x l i Eq).
      destruct (Z.ltb_spec (rank l i) (Z.of_nat n));
      destruct (Z.ltb_spec (1 + rank l i) (Z.of_nat n)); auto; lia.
Qed.

Lemma user_counts_by_impressions_get log p u n :
  is_publisher_of log p -> 0 <= n ->
  dict_get (user_counts_by_impressions p n) u = seen_at_impressions u log n.
Proof.
  intros [rn [nm H]] Hn. apply publisher_fields in H. destruct H as [Hd _].
  unfold user_counts_by_impressions, py_slice_to.
  replace (n <? 0) with false by (symmetry; apply Z.ltb_ge; lia).
  rewrite counter_get, Hd. unfold occ, seen_at_impressions. f_equal.
  rewrite filter_map_length.
  rewrite (cheapest_spec (fun r => fst r =? u) log (Z.to_nat n)).
  rewrite Z2Nat.id by lia. reflexivity.
Qed.

(** ** reach by impressions *)

Lemma spend_by_impressions_ok log p n :
  is_publisher_of log p -> 0 <= n ->
  exists s, spend_by_impressions p n = Ok s /\
    ((n = 0 /\ s = 0%Q) \/
     (1 <= n /\ exists r, nth_error (sort_rows log) (Z.to_nat (Z.min (Z.of_nat (length log)) n - 1)) = Some r
                     /\ snd r = s)).
Proof.
  intros [rn [nm H]] Hn.
  assert (log <> []) as Hne by (intros ->; discriminate).
  apply publisher_fields in H. destruct H as [Hd _].
  unfold spend_by_impressions. destruct (Z.eqb_spec n 0).
  - subst. exists 0%Q. auto.
  - unfold max_impressions. rewrite Hd, sort_rows_length.
    assert (1 <= length log)%nat by (destruct log; simpl; [congruence|lia]).
    rewrite py_index_nonneg by lia.
    destruct (nth_error (sort_rows log) _) as [r|] eqn:E.
    + simpl. exists (snd r). split; auto. right. split; [lia|]. exists r. auto.
    + apply nth_error_None in E. rewrite sort_rows_length in E. lia.
Qed.

Lemma rbi_loop_spec logs pubs imps spends counts :
  Forall2 is_publisher_of logs pubs -> length imps = length logs -> dict_wf counts ->
  Forall (fun n => 0 <= n) imps ->
  exists spends' counts',
    rbi_loop pubs imps spends counts = Ok (spends ++ spends', counts') /\ dict_wf counts' /\
    (forall u, dict_get counts' u = dict_get counts u + total_seen (seen_at_impressions u) logs imps) /\
    length spends' = length imps /\
    Forall2 (fun pn s => spend_by_impressions (fst pn) (snd pn) = Ok s) (combine pubs imps) spends'.
Proof.
  intros H. revert imps spends counts. induction H as [|log p logs pubs Hp H IH];
    intros imps spends counts Hl Hw Hn.
  - destruct imps; [|discriminate]. simpl. exists [], counts. rewrite app_nil_r.
    repeat split; try apply Hw; auto. intros; lia.
  - destruct imps as [|n imps]; [discriminate|]. simpl.
    inversion Hn; subst.
    destruct (spend_by_impressions_ok log p n Hp H2) as [s [Es _]]. rewrite Es. simpl.
    destruct (merge_counts_spec counts (user_counts_by_impressions p n)) as [Hw' Hg']; auto.
    { apply counter_wf. } { apply counter_wf. }
    simpl in Hl. edestruct (IH imps) as [s' [c' [E [W [G [L F]]]]]]; [lia|apply Hw'|auto|].
    exists (s :: s'), c'. split; [rewrite E, <- app_assoc; reflexivity|]. split; auto. split.
    + intros u. rewrite G, Hg', (user_counts_by_impressions_get log p u n Hp) by auto. lia.
    + split; [simpl; lia|]. constructor; auto.
Qed.

Lemma reach_by_impressions_ok logs d imps m :
  is_data_set_of logs d -> length imps = length logs -> Forall (fun n => 0 <= n) imps -> 1 <= m ->
  exists p counts spends,
    reach_by_impressions d imps m = Ok p /\
    dict_wf counts /\
    (forall u, dict_get counts u = total_seen (seen_at_impressions u) logs imps) /\
    max_frequency p = m /\
    rp_impressions p = imps /\
    rp_universe p = Some (ds_universe d) /\
    rp_spends p = (match spends with [] => None | s => Some s end) /\
    Forall2 (fun pn s => spend_by_impressions (fst pn) (snd pn) = Ok s)
            (combine (ds_data d) imps) spends /\
    length spends = length imps /\
    forall k, 1 <= k <= m -> reach p k = Ok (count_ge k (dict_values counts)).
Proof.
  intros [pubs [nm [un [Hp Hd]]]] Hl Hn Hm.
  apply data_set_fields in Hd. destruct Hd as [Hdata [Hmr Hu]].
  unfold reach_by_impressions, publisher_count. rewrite Hdata.
  rewrite <- (Forall2_len _ _ _ Hp), Hl, Nat.eqb_refl. cbn [negb].
  destruct (rbi_loop_spec logs pubs imps [] [] Hp Hl dict_nil_wf Hn)
    as [spends [counts [E [W [G [L F]]]]]].
  rewrite E. cbn [bind app].
  destruct (counts_to_histogram_spec counts m W Hm) as [kp [E1 [L1 N1]]].
  rewrite E1. cbn [bind].
  destruct (mk_reach_point_same_length Zops imps kp spends (Some (ds_universe d)) ltac:(lia)) as [p Ep].
  exists p, counts, spends. rewrite Ep. apply mk_reach_point_ok in Ep.
  destruct Ep as [P1 [P2 [P3 [P4 P5]]]].
  split; auto. split; auto. split; [intros; rewrite G; reflexivity|].
  assert (max_frequency p = m) as HM by (unfold max_frequency; rewrite P2, L1; lia).
  split; auto. split; auto. split; auto. split.
  { rewrite P5. destruct spends; auto. }
  split; auto. split; [lia|].
  intros k Hk. apply reach_spec. split; [lia|].
  rewrite P2, N1 by lia. do 2 f_equal. lia.
Qed.

Lemma reach_by_impressions_card logs d imps m k :
  is_data_set_of logs d -> length imps = length logs -> Forall (fun n => 0 <= n) imps ->
  1 <= k <= m ->
  exists p r, reach_by_impressions d imps m = Ok p /\ reach p k = Ok r /\
    card_is (fun u => k <= total_seen (seen_at_impressions u) logs imps) r.
Proof.
  intros Hd Hl Hn Hk.
  destruct (reach_by_impressions_ok logs d imps m Hd Hl Hn ltac:(lia))
    as [p [counts [spends [E [W [G [M [I [U [S [F [L R]]]]]]]]]]]].
  exists p, (count_ge k (dict_values counts)). repeat split; auto.
  eapply card_is_ext; [|apply count_ge_card; auto; lia].
  intros u. simpl. rewrite G. tauto.
Qed.

(** ** bisect_right on sorted lists *)

Definition q_sorted (l : list Q) : Prop := StronglySorted Qle l.

Lemma q_sorted_nth l i j x y :
  q_sorted l -> (i <= j)%nat -> nth_error l i = Some x -> nth_error l j = Some y -> (x <= y)%Q.
Proof.
  intros H. revert i j. induction H as [|a l H IH Hf]; intros i j Hij Hi Hj.
  - destruct i; discriminate.
  - destruct i, j; simpl in *; try lia.
    + inversion Hi; inversion Hj; subst. apply Qle_refl.
    + inversion Hi; subst. rewrite Forall_forall in Hf. apply Hf. eapply nth_error_In; eauto.
    + apply (IH i j); auto. lia.
Qed.

Lemma count_le_split l x k :
  (k <= length l)%nat ->
  (forall i y, (i < k)%nat -> nth_error l i = Some y -> (y <= x)%Q) ->
  (forall i y, (k <= i)%nat -> nth_error l i = Some y -> (x < y)%Q) ->
  length (filter (fun y => Qleb y x) l) = k.
Proof.
  revert k; induction l as [|a l IH]; intros k Hk H1 H2; simpl in *; [lia|].
  destruct k as [|k].
  - assert (Qleb a x = false) as -> by (apply Qleb_gt; apply (H2 O); auto).
    apply (IH O); [lia|intros; lia|]. intros i y _ Hy. apply (H2 (S i)); auto. lia.
  - assert (Qleb a x = true) as -> by (apply Qleb_le; apply (H1 O); auto; lia).
    simpl. f_equal. apply IH; [lia| |].
    + intros i y Hi Hy. apply (H1 (S i)); auto. lia.
    + intros i y Hi Hy. apply (H2 (S i)); auto. lia.
Qed.

Lemma div2_bounds lo hi : (lo < hi)%nat -> (lo <= Nat.div2 (lo + hi) < hi)%nat.
Proof.
  intros H. rewrite Nat.div2_div.
  pose proof (Nat.div_mod (lo + hi) 2 ltac:(lia)).
  pose proof (Nat.mod_upper_bound (lo + hi) 2 ltac:(lia)). lia.
Qed.

Lemma bisect_loop_spec fuel l x lo hi :
  q_sorted l -> (hi - lo <= fuel)%nat -> (lo <= hi <= length l)%nat ->
  (forall i y, (i < lo)%nat -> nth_error l i = Some y -> (y <= x)%Q) ->
  (forall i y, (hi <= i)%nat -> nth_error l i = Some y -> (x < y)%Q) ->
  bisect_loop fuel l x lo hi = length (filter (fun y => Qleb y x) l).
Proof.
  intros Hs. revert lo hi; induction fuel as [|f IH]; intros lo hi Hf Hb H1 H2.
  - simpl. symmetry. apply count_le_split; try lia; auto.
    intros i y Hi; apply H2; lia.
  - simpl. destruct (Nat.ltb_spec lo hi).
    + pose proof (div2_bounds lo hi ltac:(lia)) as Hm.
      destruct (nth_error l (Nat.div2 (lo + hi))) as [y|] eqn:E.
      2:{ apply nth_error_None in E. lia. }
      destruct (Qltb x y) eqn:Eq.
      * apply Qltb_lt in Eq. apply IH; [lia|lia|auto|].
        intros i z Hi Hz. eapply Qlt_le_trans; [apply Eq|].
        eapply q_sorted_nth; [eauto| |eauto|eauto]; lia.
      * apply Qltb_ge in Eq. apply IH; [lia|lia| |auto].
        intros i z Hi Hz. eapply Qle_trans; [|apply Eq].
        eapply q_sorted_nth; [eauto| |eauto|eauto]; lia.
    + symmetry. apply count_le_split; try lia; auto.
      intros i y Hi; apply H2; lia.
Qed.

Lemma bisect_right_sorted l x :
  q_sorted l -> bisect_right l x = length (filter (fun y => Qleb y x) l).
Proof.
  intros H. apply bisect_loop_spec; auto; try lia.
  intros i y Hi Hy. assert (nth_error l i = None) by (apply nth_error_None; lia). congruence.
Qed.

Lemma sorted_rows_q_sorted l : StronglySorted row_le l -> q_sorted (map snd l).
Proof.
  unfold q_sorted. induction 1; simpl; constructor; auto.
  rewrite Forall_forall in *. intros x Hx. apply in_map_iff in Hx.
  destruct Hx as [r [<- Hr]]. apply H0; auto.
Qed.

Lemma increasing_q_sorted l : increasing_prices l -> q_sorted (map snd l).
Proof.
  intros H. rewrite <- (sort_rows_id l H). apply sorted_rows_q_sorted, sort_rows_sorted.
Qed.


Lemma impressions_by_spend_sorted log p s :
  is_publisher_of log p -> increasing_prices log ->
  impressions_by_spend p s = bought_at_spend log s.
Proof.
  intros [rn [nm H]] Hi. apply publisher_fields in H. destruct H as [_ [Hs _]].
  unfold impressions_by_spend. rewrite Hs, bisect_right_sorted by (apply increasing_q_sorted; auto).
  unfold bought_at_spend. f_equal. apply filter_map_length.
Qed.

Lemma user_counts_total log p s :
  is_publisher_of log p ->
  Zsum (dict_values (user_counts_by_spend p s)) = bought_at_spend log s.
Proof.
  intros [rn [nm H]]. apply publisher_fields in H. destruct H as [Hd _].
  unfold user_counts_by_spend. rewrite counter_sum, map_length, Hd.
  unfold bought_at_spend. f_equal. apply Permutation_length, filter_perm, sort_rows_perm.
Qed.

(** In a sorted list, the n-th element is at most [s] iff at least n elements are. *)
Lemma sorted_nth_count l s i x :
  q_sorted l -> nth_error l i = Some x ->
  ((x <= s)%Q <-> (S i <= length (filter (fun y => Qleb y s) l))%nat).
Proof.
  intros H. revert i. induction H as [|a l H IH Hf]; intros i Hx; [destruct i; discriminate|].
  rewrite Forall_forall in Hf. simpl.
  destruct (Qleb a s) eqn:Ea.
  - destruct i; simpl in Hx.
    + inversion Hx; subst. apply Qleb_le in Ea. simpl. split; auto. lia.
    + rewrite (IH i Hx). simpl. lia.
  - assert (length (filter (fun y => Qleb y s) l) = O) as ->.
    { clear -Ea Hf. induction l as [|b l IH]; simpl; auto.
      assert (a <= b)%Q by (apply Hf; left; auto).
      apply Qleb_gt in Ea.
      replace (Qleb b s) with false; [apply IH; intros; apply Hf; right; auto|].
      symmetry. apply Qleb_gt. eapply Qlt_le_trans; eauto. }
    split; [|lia]. intros Hxs. exfalso.
    assert (a <= x)%Q.
    { destruct i; simpl in Hx; [inversion Hx; apply Qle_refl|].
      apply Hf. eapply nth_error_In; eauto. }
    apply Qleb_gt in Ea. apply (Qlt_not_le s a); auto. eapply Qle_trans; eauto.
Qed.

Lemma spend_galois log p n s :
  is_publisher_of log p -> 1 <= n <= Z.of_nat (length log) ->
  exists c, spend_by_impressions p n = Ok c /\
    ((c <= s)%Q <-> n <= bought_at_spend log s).
Proof.
  intros Hp Hn. destruct (spend_by_impressions_ok log p n Hp ltac:(lia)) as [c [E [H|[_ [r [Hr Hc]]]]]];
    [lia|].
  exists c. split; auto.
  rewrite Z.min_r in Hr by lia.
  assert (nth_error (map snd (sort_rows log)) (Z.to_nat (n - 1)) = Some c) as Hnth.
  { rewrite nth_error_map, Hr. simpl. congruence. }
  rewrite (sorted_nth_count _ s _ _ (sorted_rows_q_sorted _ (sort_rows_sorted log)) Hnth).
  rewrite filter_map_length.
  rewrite (Permutation_length (filter_perm (fun x => Qleb (snd x) s) _ _ (sort_rows_perm log))).
  unfold bought_at_spend, Qleb. lia.
Qed.
