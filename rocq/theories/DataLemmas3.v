(** Monotonicity, union bounds, permutation invariance and spend/impression agreement. *)
From Coq Require Import String Permutation Sorted.
From Verif Require Import Prelude ModelReachPoint ModelData SpecData ReachPointLemmas
  DataLemmas DataLemmas2.
Open Scope Z_scope.

(** ** Monotonicity *)

Lemma seen_at_spend_mono u log s s' :
  (s <= s')%Q -> seen_at_spend u log s <= seen_at_spend u log s'.
Proof.
  intros H. unfold seen_at_spend. apply inj_le, filter_length_le. intros r _ Hr.
  apply andb_true_iff in Hr. destruct Hr as [H1 H2]. rewrite H1. simpl.
  apply Qle_bool_iff. apply Qle_bool_iff in H2. eapply Qle_trans; eauto.
Qed.

Lemma seen_at_impressions_mono u log n n' :
  n <= n' -> seen_at_impressions u log n <= seen_at_impressions u log n'.
Proof.
  intros H. unfold seen_at_impressions. apply inj_le, filter_length_le. intros i _ Hr.
  apply andb_true_iff in Hr. destruct Hr as [H1 H2]. rewrite H1. simpl.
  apply Z.ltb_lt. apply Z.ltb_lt in H2. lia.
Qed.

Lemma total_seen_mono {B} (seen : list row -> B -> Z) (R : B -> B -> Prop) logs v v' :
  (forall log b b', R b b' -> seen log b <= seen log b') ->
  Forall2 R v v' -> total_seen seen logs v <= total_seen seen logs v'.
Proof.
  intros Hs H. revert logs. induction H as [|x y v v' H H0 IH]; intros logs;
    destruct logs as [|log logs]; simpl; try lia.
  specialize (IH logs). specialize (Hs log x y H). lia.
Qed.

Lemma seen_at_spend_nonneg u log s : 0 <= seen_at_spend u log s.
Proof. unfold seen_at_spend. lia. Qed.
Lemma seen_at_impressions_nonneg u log n : 0 <= seen_at_impressions u log n.
Proof. unfold seen_at_impressions. lia. Qed.

Lemma total_seen_nonneg {B} (seen : list row -> B -> Z) logs v :
  (forall log b, 0 <= seen log b) -> 0 <= total_seen seen logs v.
Proof.
  intros H. revert v. induction logs; intros [|b v]; simpl; try lia.
  specialize (IHlogs v). specialize (H a b). lia.
Qed.

Lemma total_seen_component {B} (seen : list row -> B -> Z) logs v log b :
  (forall log b, 0 <= seen log b) -> In (log, b) (combine logs v) ->
  seen log b <= total_seen seen logs v.
Proof.
  intros Hn. revert v. induction logs; intros [|b' v] H; simpl in *; try tauto.
  destruct H as [H|H].
  - inversion H; subst. pose proof (total_seen_nonneg seen logs v Hn). lia.
  - specialize (IHlogs v H). specialize (Hn a b'). lia.
Qed.

Lemma total_seen_pos_component {B} (seen : list row -> B -> Z) logs v :
  (forall log b, 0 <= seen log b) -> 1 <= total_seen seen logs v ->
  exists log b, In (log, b) (combine logs v) /\ 1 <= seen log b.
Proof.
  intros Hn. revert v. induction logs; intros [|b' v] H; simpl in *; try lia.
  destruct (Z.le_gt_cases 1 (seen a b')).
  - exists a, b'. auto.
  - specialize (Hn a b'). destruct (IHlogs v ltac:(lia)) as [l [b [Hin Hb]]]. exists l, b. auto.
Qed.

Lemma seen_at_spend_in u log s :
  1 <= seen_at_spend u log s <-> exists q, In (u, q) log /\ (q <= s)%Q.
Proof.
  unfold seen_at_spend. split.
  - intros H. destruct (filter _ log) as [|[a q] t] eqn:E; [simpl in H; lia|].
    assert (In (a, q) ((a, q) :: t)) as Hin by (left; auto). rewrite <- E in Hin.
    apply filter_In in Hin. simpl in Hin. destruct Hin as [Hin Hb].
    apply andb_true_iff in Hb. destruct Hb as [Hu Hq]. apply Z.eqb_eq in Hu. subst.
    exists q. split; auto. apply Qle_bool_iff; auto.
  - intros [q [Hin Hq]].
    assert (In (u, q) (filter (fun r => (fst r =? u) && Qle_bool (snd r) s) log)) as H.
    { apply filter_In. split; auto. simpl. rewrite Z.eqb_refl. simpl. apply Qle_bool_iff; auto. }
    destruct (filter _ log); [destruct H|]. simpl length. lia.
Qed.

(** ** Sums of dictionaries *)

Lemma Zsum_merge counts uc :
  Zsum (dict_values (merge_counts counts uc)) = Zsum (dict_values counts) + Zsum (dict_values uc).
Proof.
  unfold merge_counts. revert counts; induction uc as [|[k v] uc IH]; simpl; intros counts.
  - lia.
  - rewrite IH, Zsum_dict_incr. lia.
Qed.

Lemma rbs_loop_sum pubs spends imps counts imps' counts' :
  rbs_loop pubs spends imps counts = (imps', counts') ->
  Zsum imps' - Zsum (dict_values counts') = Zsum imps - Zsum (dict_values counts).
Proof.
  revert spends imps counts; induction pubs as [|p pubs IH]; intros spends imps counts H.
  - destruct spends; inversion H; auto.
  - destruct spends as [|s spends]; simpl in H; [inversion H; auto|].
    apply IH in H. rewrite H, Zsum_app, Zsum_merge. simpl. lia.
Qed.

Lemma markov k l : (forall c, In c l -> 0 <= c) -> 0 <= k -> k * count_ge k l <= Zsum l.
Proof.
  unfold count_ge. intros H Hk. induction l as [|a l IH]; simpl; [lia|].
  assert (0 <= a) by (apply H; left; auto).
  specialize (IH (fun c Hc => H c (or_intror Hc))).
  destruct (Z.leb_spec k a); simpl length; [rewrite Nat2Z.inj_succ|]; nia.
Qed.

(** ** maximum of a list *)

Lemma fold_max_ge l : forall m,
  (m <= fold_left (fun m y => if Qltb m y then y else m) l m)%Q /\
  forall x, In x l -> (x <= fold_left (fun m y => if Qltb m y then y else m) l m)%Q.
Proof.
  induction l as [|a l IH]; simpl; intros m.
  - split; [apply Qle_refl|intros x []].
  - destruct (IH (if Qltb m a then a else m)) as [H1 H2].
    assert (m <= (if Qltb m a then a else m) /\ a <= (if Qltb m a then a else m))%Q as [H3 H4].
    { destruct (Qltb m a) eqn:E.
      - apply Qltb_lt in E. split; [apply Qlt_le_weak; auto|apply Qle_refl].
      - apply Qltb_ge in E. split; [apply Qle_refl|auto]. }
    split; [eapply Qle_trans; eauto|].
    intros x [->|Hx]; auto. eapply Qle_trans; eauto.
Qed.

Lemma fold_max_in l : forall m,
  In (fold_left (fun m y => if Qltb m y then y else m) l m) (m :: l).
Proof.
  induction l as [|a l IH]; simpl; intros m; auto.
  destruct (IH (if Qltb m a then a else m)) as [H|H].
  - rewrite <- H. destruct (Qltb m a); auto.
  - auto.
Qed.

Lemma py_maxQ_ge l m x : py_maxQ l = Ok m -> In x l -> (x <= m)%Q.
Proof.
  destruct l as [|a l]; simpl; [discriminate|]. intros H. inversion H; subst.
  destruct (fold_max_ge l a) as [H1 H2]. intros [->|Hx]; auto.
Qed.

Lemma py_maxQ_in l m : py_maxQ l = Ok m -> In m l.
Proof.
  destruct l as [|a l]; simpl; [discriminate|]. intros H. inversion H; subst.
  apply fold_max_in.
Qed.

(** ** maximum reach *)

Lemma total_audience_in logs pubs u :
  Forall2 is_publisher_of logs pubs ->
  (In u (total_audience pubs) <-> exists log q, In log logs /\ In (u, q) log).
Proof.
  unfold total_audience. induction 1 as [|log p logs pubs [rn [nm Hp]] H IH]; simpl.
  - split; [intros []|intros [log [q [[] _]]]].
  - rewrite in_app_iff, IH. apply publisher_fields in Hp. destruct Hp as [Hd _]. rewrite Hd.
    assert (In u (map fst (sort_rows log)) <-> exists q, In (u, q) log) as ->.
    { rewrite in_map_iff. split.
      - intros [[a q] [<- Hin]]. exists q.
        eapply Permutation_in; [apply sort_rows_perm|]. auto.
      - intros [q Hin]. exists (u, q). split; auto.
        eapply Permutation_in; [symmetry; apply sort_rows_perm|]. auto. }
    split.
    + intros [[q Hq]|[l [q [Hl Hq]]]]; [exists log, q|exists l, q]; auto.
    + intros [l [q [[<-|Hl] Hq]]]; [left; eauto|right; eauto].
Qed.

Lemma maximum_reach_card logs d :
  is_data_set_of logs d ->
  card_is (fun u => exists log q, In log logs /\ In (u, q) log) (ds_maximum_reach d).
Proof.
  intros [pubs [nm [un [Hp Hd]]]]. apply data_set_fields in Hd. destruct Hd as [_ [Hm _]].
  rewrite Hm. eapply card_is_ext; [|apply count_distinct_card].
  intros u. apply total_audience_in; auto.
Qed.

Lemma combine_in_l {A B} (l : list A) (l' : list B) a b : In (a, b) (combine l l') -> In a l.
Proof. apply in_combine_l. Qed.

Lemma total_seen_spend_in u logs spends :
  1 <= total_seen (seen_at_spend u) logs spends ->
  exists log q, In log logs /\ In (u, q) log.
Proof.
  intros H. apply total_seen_pos_component in H; [|intros; apply seen_at_spend_nonneg].
  destruct H as [log [s [Hin Hs]]]. apply seen_at_spend_in in Hs. destruct Hs as [q [Hq _]].
  exists log, q. split; auto. eapply in_combine_l; eauto.
Qed.

Lemma seen_at_impressions_in u log n :
  1 <= seen_at_impressions u log n -> exists q, In (u, q) log.
Proof.
  unfold seen_at_impressions. intros H.
  destruct (filter _ (seq 0 (length log))) as [|i t] eqn:E; [simpl in H; lia|].
  assert (In i (i :: t)) as Hin by (left; auto). rewrite <- E in Hin.
  apply filter_In in Hin. destruct Hin as [Hi Hb]. apply in_seq in Hi.
  apply andb_true_iff in Hb. destruct Hb as [Hu _]. apply Z.eqb_eq in Hu.
  exists (snd (nth i log (0%Z, 0%Q))). rewrite <- Hu, <- surjective_pairing.
  apply nth_In. lia.
Qed.

Lemma total_seen_impressions_in u logs imps :
  1 <= total_seen (seen_at_impressions u) logs imps ->
  exists log q, In log logs /\ In (u, q) log.
Proof.
  intros H. apply total_seen_pos_component in H; [|intros; apply seen_at_impressions_nonneg].
  destruct H as [log [s [Hin Hs]]]. apply seen_at_impressions_in in Hs. destruct Hs as [q Hq].
  exists log, q. split; auto. eapply in_combine_l; eauto.
Qed.

(** ** Union bound *)

Lemma union_bound {B} (f : list row -> B -> Z -> Prop) logs (v : list B) singles (P : Z -> Prop) r :
  (forall u, P u -> exists log b, In (log, b) (combine logs v) /\ f log b u) ->
  Forall2 (fun lb n => card_is (f (fst lb) (snd lb)) n) (combine logs v) singles ->
  card_is P r -> r <= Zsum singles.
Proof.
  intros HP HF Hc.
  assert (exists T, length T = Z.to_nat (Zsum singles) /\ 0 <= Zsum singles /\
    forall log b u, In (log, b) (combine logs v) -> f log b u -> In u T) as [T [HT [Hpos HTin]]].
  { clear HP Hc. induction HF as [|[log b] n l ns H HF IH].
    - exists []. split; auto. split; [simpl; lia|]. intros ? ? ? [].
    - destruct IH as [T [HT [Hp Hin]]]. destruct H as [S [HS [HSin HSl]]].
      exists (S ++ T). rewrite app_length. simpl Zsum. split; [lia|]. split; [lia|].
      intros log' b' u [E|Hi] Hf; apply in_app_iff.
      + inversion E; subst. left. apply HSin. auto.
      + right. eapply Hin; eauto. }
  destruct Hc as [S [HS [HSin <-]]].
  assert (length S <= length T)%nat; [|lia].
  apply NoDup_incl_length; auto. intros u Hu. apply HSin in Hu.
  destruct (HP u Hu) as [log [b [Hi Hf]]]. eapply HTin; eauto.
Qed.

(** ** Permutation and renaming *)

Lemma total_seen_combine {B} (seen : list row -> B -> Z) logs v :
  total_seen seen logs v = Zsum (map (fun lb => seen (fst lb) (snd lb)) (combine logs v)).
Proof.
  revert v; induction logs; intros [|b v]; simpl; auto. rewrite IHlogs. auto.
Qed.

Lemma Zsum_perm l l' : Permutation l l' -> Zsum l = Zsum l'.
Proof. induction 1; simpl; lia. Qed.

Lemma total_seen_perm {B} (seen : list row -> B -> Z) logs v logs' v' :
  Permutation (combine logs v) (combine logs' v') ->
  total_seen seen logs v = total_seen seen logs' v'.
Proof.
  intros H. rewrite !total_seen_combine. apply Zsum_perm, Permutation_map; auto.
Qed.

Lemma total_seen_log_perm u logs logs' spends :
  Forall2 (@Permutation row) logs logs' ->
  total_seen (seen_at_spend u) logs spends = total_seen (seen_at_spend u) logs' spends.
Proof.
  intros H. revert spends. induction H; intros [|s spends]; simpl; auto.
  rewrite IHForall2, (seen_at_spend_perm u x y s) by auto. auto.
Qed.

Definition rename_log (f : Z -> Z) (log : list row) : list row :=
  map (fun r => (f (fst r), snd r)) log.

Lemma seen_at_spend_rename f u log s :
  (forall x y, f x = f y -> x = y) ->
  seen_at_spend (f u) (rename_log f log) s = seen_at_spend u log s.
Proof.
  intros Hinj. unfold seen_at_spend, rename_log. f_equal.
  induction log as [|[a q] log IH]; simpl; auto.
  assert ((f a =? f u) = (a =? u)) as ->.
  { destruct (Z.eqb_spec a u); destruct (Z.eqb_spec (f a) (f u)); auto.
    - subst; congruence.
    - apply Hinj in e. congruence. }
  destruct ((a =? u) && Qle_bool q s); simpl; auto.
Qed.

Lemma total_seen_rename f u logs spends :
  (forall x y, f x = f y -> x = y) ->
  total_seen (seen_at_spend (f u)) (map (rename_log f) logs) spends =
  total_seen (seen_at_spend u) logs spends.
Proof.
  intros Hinj. revert spends; induction logs; intros [|s spends]; simpl; auto.
  rewrite IHlogs, seen_at_spend_rename; auto.
Qed.

Lemma card_is_image f (P Q : Z -> Prop) n :
  (forall x y, f x = f y -> x = y) ->
  (forall v, Q v <-> exists u, v = f u /\ P u) -> card_is P n -> card_is Q n.
Proof.
  intros Hinj HQ [S [HS [HP <-]]]. exists (map f S). rewrite map_length.
  split; [|split; auto].
  - clear HP. induction HS; simpl; constructor; auto.
    rewrite in_map_iff. intros [y [Hy Hin]]. apply Hinj in Hy. congruence.
  - intros v. rewrite HQ, in_map_iff. split.
    + intros [u [<- Hu]]. exists u. split; auto. apply HP; auto.
    + intros [u [-> Hu]]. exists u. split; auto. apply HP; auto.
Qed.

(** ** Spend matching an impression buy *)

Lemma firstn_sorted_le s n c :
  StronglySorted row_le s -> (1 <= n)%nat ->
  (exists r, nth_error s (Nat.min (length s) n - 1) = Some r /\ snd r = c) ->
  forall x, In x (firstn n s) -> (snd x <= c)%Q.
Proof.
  intros Hs Hn [r [Hr Hc]] x Hx.
  apply In_nth_error in Hx. destruct Hx as [i Hi].
  assert (i < length (firstn n s))%nat as Hlt by (apply nth_error_Some; congruence).
  rewrite firstn_length in Hlt.
  assert (nth_error s i = Some x) as Hi'.
  { rewrite <- (firstn_skipn n s). rewrite nth_error_app1; auto. rewrite firstn_length; auto. }
  subst c.
  assert (nth_error (map snd s) i = Some (snd x)) as H1 by (rewrite nth_error_map, Hi'; auto).
  assert (nth_error (map snd s) (Nat.min (length s) n - 1) = Some (snd r)) as H2
      by (rewrite nth_error_map, Hr; auto).
  eapply q_sorted_nth; [apply sorted_rows_q_sorted; eauto| |eauto|eauto]. lia.
Qed.

Lemma count_sublist_le {A} (f g : A -> bool) (s : list A) n :
  (forall x, In x (firstn n s) -> g x = true) ->
  (length (filter f (firstn n s)) <= length (filter (fun x => f x && g x) s))%nat.
Proof.
  intros H. rewrite <- (firstn_skipn n s) at 2. rewrite filter_app, app_length.
  assert (length (filter f (firstn n s)) = length (filter (fun x => f x && g x) (firstn n s))) as ->.
  { apply filter_ext_len. intros x Hx. rewrite (H x Hx), andb_true_r. auto. }
  lia.
Qed.

(** Counting over the sorted log. *)
Lemma seen_at_impressions_sorted u log n :
  0 <= n ->
  seen_at_impressions u log n =
  Z.of_nat (length (filter (fun r => fst r =? u) (firstn (Z.to_nat n) (sort_rows log)))).
Proof.
  intros Hn. unfold seen_at_impressions. f_equal.
  rewrite (cheapest_spec (fun r => fst r =? u) log (Z.to_nat n)), Z2Nat.id by lia. reflexivity.
Qed.

Lemma seen_impressions_le_spend log p u n c :
  is_publisher_of log p -> 0 <= n -> spend_by_impressions p n = Ok c ->
  seen_at_impressions u log n <= seen_at_spend u log c.
Proof.
  intros Hp Hn Hc.
  destruct (spend_by_impressions_ok log p n Hp Hn) as [c' [E H]].
  rewrite Hc in E. inversion E; subst c'. clear E.
  destruct H as [[-> _]|[Hn1 [r [Hr Hrc]]]].
  - assert (seen_at_impressions u log 0 = 0) as ->; [|apply seen_at_spend_nonneg].
    rewrite seen_at_impressions_sorted by lia. reflexivity.
  - rewrite seen_at_impressions_sorted by lia.
    rewrite <- (seen_at_spend_perm u _ _ c (sort_rows_perm log)).
    unfold seen_at_spend. apply inj_le. apply count_sublist_le.
    intros x Hx. apply Qle_bool_iff.
    apply (firstn_sorted_le (sort_rows log) (Z.to_nat n) c); auto.
    + apply sort_rows_sorted.
    + lia.
    + exists r. split; auto. rewrite sort_rows_length.
      replace (Nat.min (length log) (Z.to_nat n) - 1)%nat
        with (Z.to_nat (Z.min (Z.of_nat (length log)) n - 1)) by lia. auto.
Qed.

Lemma distinct_prices_perm l l' : Permutation l l' -> distinct_prices l -> distinct_prices l'.
Proof.
  unfold distinct_prices.
  induction 1; intros H1; auto.
  - inversion H1; subst. constructor; auto. rewrite Forall_forall in *. intros y Hy.
    apply H3. eapply Permutation_in; [symmetry|]; eauto.
  - inversion H1; subst. inversion H2; subst. inversion H3; subst. constructor.
    + constructor; auto. intros E. apply H4. symmetry. auto.
    + constructor; auto.
Qed.

Lemma strictly_sorted_filter s : StronglySorted row_le s -> distinct_prices s ->
  forall i r, nth_error s i = Some r ->
  filter (fun x => Qleb (snd x) (snd r)) s = firstn (S i) s.
Proof.
  intros Hs Hd. induction Hs as [|a s Hs IH Hf]; intros i r Hr; [destruct i; discriminate|].
  inversion Hd; subst. rewrite Forall_forall in *.
  assert (snd a <= snd r)%Q as Har.
  { destruct i; simpl in Hr; [inversion Hr; apply Qle_refl|]. apply Hf.
    eapply nth_error_In; eauto. }
  cbn [filter firstn]. rewrite (proj2 (Qleb_le _ _) Har). f_equal.
  destruct i; simpl in Hr.
  - inversion Hr; subst. cbn [firstn]. clear IH Hs Hd H2 Hr.
    induction s as [|b s IH]; simpl; auto.
    assert (snd r < snd b)%Q as Hlt.
    { assert (snd r <= snd b)%Q by (apply Hf; left; auto).
      assert (~ snd r == snd b)%Q by (apply H1; left; auto).
      apply Qle_lteq in H. tauto. }
    rewrite (proj2 (Qleb_gt _ _) Hlt). apply IH; intros; [apply H1|apply Hf]; right; auto.
  - apply IH; auto.
Qed.

Lemma seen_impressions_eq_spend log p u n c :
  is_publisher_of log p -> distinct_prices log -> Forall (fun r => (0 < snd r)%Q) log ->
  0 <= n -> spend_by_impressions p n = Ok c ->
  seen_at_impressions u log n = seen_at_spend u log c /\
  bought_at_spend log c = Z.min n (Z.of_nat (length log)).
Proof.
  intros Hp Hdist Hpos Hn Hc.
  destruct (spend_by_impressions_ok log p n Hp Hn) as [c' [E H]].
  rewrite Hc in E. inversion E; subst c'. clear E.
  destruct H as [[-> ->]|[Hn1 [r [Hr Hrc]]]].
  - rewrite Forall_forall in Hpos.
    assert (forall f : row -> bool, filter (fun r => f r && Qle_bool (snd r) 0) log = []) as HF.
    { intros f. clear -Hpos. induction log as [|a log IH]; simpl; auto.
      replace (Qle_bool (snd a) 0) with false.
      - rewrite andb_false_r. apply IH. intros; apply Hpos; right; auto.
      - symmetry. apply Qleb_gt. apply Hpos. left; auto. }
    split.
    + rewrite seen_at_impressions_sorted by lia. unfold seen_at_spend. rewrite HF. reflexivity.
    + unfold bought_at_spend. specialize (HF (fun _ => true)). simpl in HF. rewrite HF. simpl. lia.
  - subst c.
    pose proof (strictly_sorted_filter (sort_rows log) (sort_rows_sorted log)
      (distinct_prices_perm _ _ (Permutation_sym (sort_rows_perm log)) Hdist) _ _ Hr) as HF.
    assert (length log <> O) as Hne.
    { intros E. destruct log; [|discriminate]. simpl in Hr. destruct (Z.to_nat _) in Hr; discriminate. }
    replace (S (Z.to_nat (Z.min (Z.of_nat (length log)) n - 1)))
      with (Nat.min (length log) (Z.to_nat n)) in HF by lia.
    assert (firstn (Nat.min (length log) (Z.to_nat n)) (sort_rows log) =
            firstn (Z.to_nat n) (sort_rows log)) as HFN.
    { destruct (Nat.le_ge_cases (length log) (Z.to_nat n)).
      - rewrite Nat.min_l by auto. rewrite !firstn_all2; auto; rewrite sort_rows_length; lia.
      - rewrite Nat.min_r by auto. auto. }
    rewrite HFN in HF. split.
    + rewrite seen_at_impressions_sorted by lia. rewrite <- HF.
      rewrite <- (seen_at_spend_perm u _ _ _ (sort_rows_perm log)).
      unfold seen_at_spend. f_equal.
      clear. generalize (sort_rows log) as s. induction s as [|a s IH]; simpl; auto.
      unfold Qleb. destruct (Qle_bool (snd a) (snd r)); simpl; destruct (fst a =? u); simpl; auto.
    + unfold bought_at_spend.
      rewrite <- (Permutation_length (filter_perm (fun x => Qle_bool (snd x) (snd r)) _ _ (sort_rows_perm log))).
      unfold Qleb in HF. rewrite HF, firstn_length, sort_rows_length. lia.
Qed.
