(** C04-C11, C42: ground truth of publisher logs and data sets. *)
From Coq Require Import String Permutation Sorted.
From Verif Require Import Prelude ModelReachPoint ModelData SpecData ReachPointLemmas
  DataLemmas DataLemmas2 DataLemmas3 PropsReachPoint.
Open Scope Z_scope.

(** A data set used by the examples: two publishers with overlapping users. *)
Definition ex_log1 : list row := [(1, (1#100)%Q); (2, (2#100)%Q); (1, (4#100)%Q); (3, (5#100)%Q)].
Definition ex_log2 : list row := [(2, (3#100)%Q); (4, (6#100)%Q)].
Definition ex_data_set : data_set :=
  match mapM (fun l => mk_publisher "r" l (Some "p"%string)) [ex_log1; ex_log2] with
  | Ok pubs => match mk_data_set pubs (Some "d"%string) None with
               | Ok d => d | Err _ => {| ds_data := []; ds_maximum_reach := 0; ds_name := ""; ds_universe := 0 |} end
  | Err _ => {| ds_data := []; ds_maximum_reach := 0; ds_name := ""; ds_universe := 0 |}
  end.
Lemma ex_is_data_set : is_data_set_of [ex_log1; ex_log2] ex_data_set.
Proof.
  eexists; exists (Some "d"%string), None. split; [|reflexivity].
  repeat constructor; exists "r"%string, (Some "p"%string); reflexivity.
Qed.

(** ** C04 *)

Theorem C04_reach_by_spend_counts_users : forall logs d spends m k,
  is_data_set_of logs d -> length spends = length logs -> 1 <= k <= m ->
  exists p r, reach_by_spend d spends m = Ok p /\ reach p k = Ok r /\
    card_is (fun u => k <= total_seen (seen_at_spend u) logs spends) r.
Proof. exact reach_by_spend_card. Qed.
Print Assumptions C04_reach_by_spend_counts_users.

Example C04_example : exists p, reach_by_spend ex_data_set [4#100; 4#100]%Q 3 = Ok p
  /\ reach p 1 = Ok 2 /\ reach p 2 = Ok 2 /\ reach p 3 = Ok 0 /\ rp_universe p = Some 8.
Proof. eexists. split; [vm_compute; reflexivity|]. repeat split. Qed.

(** ** C05 *)

Theorem C05_reach_by_impressions_counts_users : forall logs d imps m k,
  is_data_set_of logs d -> length imps = length logs -> Forall (fun n => 0 <= n) imps ->
  1 <= k <= m ->
  exists p r, reach_by_impressions d imps m = Ok p /\ reach p k = Ok r /\
    card_is (fun u => k <= total_seen (seen_at_impressions u) logs imps) r.
Proof. exact reach_by_impressions_card. Qed.
Print Assumptions C05_reach_by_impressions_counts_users.

(** Buying at least the whole log shows the whole log. *)
Theorem C05_whole_log : forall u log n, Z.of_nat (length log) <= n ->
  seen_at_impressions u log n =
  Z.of_nat (length (filter (fun r => fst r =? u) log)).
Proof.
  intros u log n H. rewrite seen_at_impressions_sorted by lia. f_equal.
  rewrite firstn_all2 by (rewrite sort_rows_length; lia).
  apply Permutation_length, filter_perm, sort_rows_perm.
Qed.
Print Assumptions C05_whole_log.

Example C05_example : exists p, reach_by_impressions ex_data_set [3; 1] 2 = Ok p
  /\ reach p 1 = Ok 2 /\ reach p 2 = Ok 2 /\ rp_spends p = Some [4#100; 3#100]%Q.
Proof. eexists. split; [vm_compute; reflexivity|]. repeat split. Qed.

(** ** C06 *)

Theorem C06_monotone_in_spend : forall logs d s s' m k p p' r r',
  is_data_set_of logs d -> length s = length logs -> 1 <= k <= m ->
  Forall2 Qle s s' ->
  reach_by_spend d s m = Ok p -> reach_by_spend d s' m = Ok p' ->
  reach p k = Ok r -> reach p' k = Ok r' -> r <= r'.
Proof.
  intros logs d s s' m k p p' r r' Hd Hl Hk HF Hp Hp' Hr Hr'.
  destruct (reach_by_spend_card logs d s m k Hd Hl Hk) as [q [x [E1 [E2 C]]]].
  destruct (reach_by_spend_card logs d s' m k Hd ltac:(rewrite <- (Forall2_len _ _ _ HF); auto) Hk)
    as [q' [x' [E1' [E2' C']]]].
  rewrite Hp in E1. inversion E1; subst q. rewrite Hr in E2. inversion E2; subst x.
  rewrite Hp' in E1'. inversion E1'; subst q'. rewrite Hr' in E2'. inversion E2'; subst x'.
  eapply card_is_le; [|exact C|exact C']. simpl. intros u Hu.
  eapply Z.le_trans; [exact Hu|].
  eapply total_seen_mono; [|exact HF]. intros. apply seen_at_spend_mono; auto.
Qed.
Print Assumptions C06_monotone_in_spend.

Theorem C06_monotone_in_impressions : forall logs d n n' m k p p' r r',
  is_data_set_of logs d -> length n = length logs -> 1 <= k <= m ->
  Forall (fun x => 0 <= x) n -> Forall2 Z.le n n' ->
  reach_by_impressions d n m = Ok p -> reach_by_impressions d n' m = Ok p' ->
  reach p k = Ok r -> reach p' k = Ok r' -> r <= r'.
Proof.
  intros logs d n n' m k p p' r r' Hd Hl Hk Hpos HF Hp Hp' Hr Hr'.
  assert (Forall (fun x => 0 <= x) n') as Hpos'.
  { clear -HF Hpos. induction HF; inversion Hpos; subst; constructor; auto. lia. }
  destruct (reach_by_impressions_card logs d n m k Hd Hl Hpos Hk) as [q [x [E1 [E2 C]]]].
  destruct (reach_by_impressions_card logs d n' m k Hd ltac:(rewrite <- (Forall2_len _ _ _ HF); auto) Hpos' Hk)
    as [q' [x' [E1' [E2' C']]]].
  rewrite Hp in E1. inversion E1; subst q. rewrite Hr in E2. inversion E2; subst x.
  rewrite Hp' in E1'. inversion E1'; subst q'. rewrite Hr' in E2'. inversion E2'; subst x'.
  eapply card_is_le; [|exact C|exact C']. simpl. intros u Hu.
  eapply Z.le_trans; [exact Hu|].
  eapply total_seen_mono; [|exact HF]. intros. apply seen_at_impressions_mono; auto.
Qed.
Print Assumptions C06_monotone_in_impressions.

Theorem C06_antitone_in_frequency : forall logs d spends m k k' p r r',
  is_data_set_of logs d -> length spends = length logs -> 1 <= k -> k <= k' -> k' <= m ->
  reach_by_spend d spends m = Ok p -> reach p k = Ok r -> reach p k' = Ok r' ->
  0 <= r' <= r.
Proof.
  intros logs d spends m k k' p r r' Hd Hl Hk Hkk Hkm Hp Hr Hr'.
  destruct (reach_by_spend_card logs d spends m k Hd Hl ltac:(lia)) as [q [x [E1 [E2 C]]]].
  destruct (reach_by_spend_card logs d spends m k' Hd Hl ltac:(lia)) as [q' [x' [E1' [E2' C']]]].
  rewrite Hp in E1. inversion E1; subst q. rewrite Hr in E2. inversion E2; subst x.
  rewrite Hp in E1'. inversion E1'; subst q'. rewrite Hr' in E2'. inversion E2'; subst x'.
  split; [eapply card_is_nonneg; eauto|].
  eapply card_is_le; [|exact C'|exact C]. simpl. intros u Hu. lia.
Qed.
Print Assumptions C06_antitone_in_frequency.

Example C06_example : exists p p', reach_by_spend ex_data_set [1#100; 4#100]%Q 2 = Ok p
  /\ reach_by_spend ex_data_set [5#100; 4#100]%Q 2 = Ok p'
  /\ rp_kplus p = [2; 0] /\ rp_kplus p' = [3; 2].
Proof. do 2 eexists. repeat split; vm_compute; reflexivity. Qed.

(** ** C07 *)

(** [singles] are the reaches of buying each publisher alone: the numbers of users with at
    least one impression priced within that publisher's spend. *)
Theorem C07_union_bounds : forall logs d spends m p r singles,
  is_data_set_of logs d -> length spends = length logs -> 1 <= m ->
  reach_by_spend d spends m = Ok p -> reach p 1 = Ok r ->
  Forall2 (fun ls n => card_is (fun u => 1 <= seen_at_spend u (fst ls) (snd ls)) n)
          (combine logs spends) singles ->
  (forall n, In n singles -> n <= r) /\ r <= Zsum singles /\
  r <= Zsum (rp_impressions p) /\ r <= ds_maximum_reach d.
Proof.
  intros logs d spends m p r singles Hd Hl Hm Hp Hr HF.
  destruct (reach_by_spend_ok logs d spends m Hd Hl Hm)
    as [q [counts [imps [E [W [G [M [I1 [I2 [U [Sp R]]]]]]]]]]].
  rewrite Hp in E. inversion E; subst q. clear E.
  assert (r = count_ge 1 (dict_values counts)) as Hreq.
  { specialize (R 1 ltac:(lia)). congruence. }
  assert (card_is (fun u => 1 <= total_seen (seen_at_spend u) logs spends) r) as C.
  { rewrite Hreq. eapply card_is_ext; [|apply count_ge_card; [auto|lia]].
    intros u; simpl. rewrite G. tauto. }
  split; [|split; [|split]].
  - intros n Hn. clear -C Hn HF Hl.
    destruct (In_nth_error _ _ Hn) as [i Hi].
    assert (exists ls, nth_error (combine logs spends) i = Some ls /\
      card_is (fun u => 1 <= seen_at_spend u (fst ls) (snd ls)) n) as [[log s] [Hls Hc]].
    { clear -HF Hi. revert i Hi. induction HF; intros i Hi; destruct i; simpl in *; try discriminate.
      - inversion Hi; subst. eauto.
      - eauto. }
    eapply card_is_le; [|exact Hc|exact C]. simpl. intros u Hu.
    eapply Z.le_trans; [exact Hu|].
    apply (total_seen_component (seen_at_spend u)); [intros; apply seen_at_spend_nonneg|].
    eapply nth_error_In; eauto.
  - eapply (union_bound (fun log s u => 1 <= seen_at_spend u log s)); [|exact HF|exact C].
    simpl. intros u Hu. apply total_seen_pos_component in Hu;
      [exact Hu|intros; apply seen_at_spend_nonneg].
  - assert (Zsum (rp_impressions p) = Zsum (dict_values counts)) as HS.
    { (* the impressions of the point are the values summed into the counts *)
      clear -Hp Hl Hd R I1 I2 G W M.
      unfold reach_by_spend in Hp. destruct (negb _); [discriminate|].
      destruct (rbs_loop (ds_data d) spends [] []) as [i0 c0] eqn:EL.
      pose proof (rbs_loop_sum _ _ _ _ _ _ EL) as HS. simpl in HS.
      destruct (counts_to_histogram c0 m) eqn:EH; [|discriminate]. cbn [bind] in Hp.
      apply mk_reach_point_ok in Hp. destruct Hp as [P1 _]. rewrite P1.
      (* counts have the same lookup, hence the same sum *)
      destruct Hd as [pubs [nm [un [Hp' Hd]]]]. apply data_set_fields in Hd.
      destruct Hd as [Hdata _]. rewrite Hdata in EL.
      destruct (rbs_loop_spec logs pubs spends [] [] Hp' Hl dict_nil_wf) as [i1 [c1 [E1 [W1 [G1 _]]]]].
      rewrite EL in E1. inversion E1; subst i1 c1.
      assert (forall u, dict_get c0 u = dict_get counts u) as HG.
      { intros u. rewrite G, G1. reflexivity. }
      assert (Zsum (dict_values c0) = Zsum (dict_values counts)); [|lia].
      destruct W as [W W'], W1 as [W1 W1'].
      rewrite !dict_values_sum by auto.
      transitivity (Zsum (map (dict_get counts) (dict_keys c0))).
      { f_equal. apply map_ext. auto. }
      apply Zsum_perm, Permutation_map, NoDup_Permutation; auto.
      assert (forall c u, (forall v, In v (dict_values c) -> 1 <= v) ->
        (In u (dict_keys c) <-> 1 <= dict_get c u)) as HK.
      { clear. intros c u Hv. split.
        - intros H. apply in_keys_get in H. apply Hv. unfold dict_values.
          apply in_map_iff. eexists; split; [|exact H]. reflexivity.
        - intros H. destruct (in_dec Z.eq_dec u (dict_keys c)); auto.
          rewrite dict_get_notin in H by auto. lia. }
      intros u. rewrite !HK by auto. rewrite HG. tauto. }
    rewrite HS, Hreq. pose proof (markov 1 (dict_values counts)) as HM.
    assert (1 * count_ge 1 (dict_values counts) <= Zsum (dict_values counts)); [|lia].
    apply HM; [|lia]. intros c Hc. destruct W as [_ W]. specialize (W c Hc). lia.
  - eapply card_is_le; [|exact C|apply maximum_reach_card; eauto].
    simpl. intros u Hu. eapply total_seen_spend_in; eauto.
Qed.
Print Assumptions C07_union_bounds.

(** The k+ reach of a combined buy is at least that of any publisher alone. *)
Theorem C07_component_lower_bound : forall logs d spends m k p r log s n,
  is_data_set_of logs d -> length spends = length logs -> 1 <= k <= m ->
  reach_by_spend d spends m = Ok p -> reach p k = Ok r ->
  In (log, s) (combine logs spends) ->
  card_is (fun u => k <= seen_at_spend u log s) n -> n <= r.
Proof.
  intros logs d spends m k p r log s n Hd Hl Hk Hp Hr Hin Hc.
  destruct (reach_by_spend_card logs d spends m k Hd Hl Hk) as [q [x [E1 [E2 C]]]].
  rewrite Hp in E1. inversion E1; subst q. rewrite Hr in E2. inversion E2; subst x.
  eapply card_is_le; [|exact Hc|exact C]. simpl. intros u Hu. eapply Z.le_trans; [exact Hu|].
  apply (total_seen_component (seen_at_spend u)); auto. intros; apply seen_at_spend_nonneg.
Qed.
Print Assumptions C07_component_lower_bound.

(** Spending at least every publisher's maximum reaches everyone. *)
Theorem C07_full_spend_reaches_everyone : forall logs d spends m p r,
  is_data_set_of logs d -> length spends = length logs -> 1 <= m ->
  Forall2 (fun pub s => (pd_max_spend pub <= s)%Q) (ds_data d) spends ->
  reach_by_spend d spends m = Ok p -> reach p 1 = Ok r -> r = ds_maximum_reach d.
Proof.
  intros logs d spends m p r Hd Hl Hm HF Hp Hr.
  destruct (reach_by_spend_card logs d spends m 1 Hd Hl ltac:(lia)) as [q [x [E1 [E2 C]]]].
  rewrite Hp in E1. inversion E1; subst q. rewrite Hr in E2. inversion E2; subst x.
  eapply card_is_unique; [exact C|].
  eapply card_is_ext; [|apply maximum_reach_card; eauto]. simpl. intros u. split.
  2: apply total_seen_spend_in.
  intros [log [q' [Hlog Hq]]].
  destruct Hd as [pubs [nm [un [HP Hd]]]]. apply data_set_fields in Hd.
  destruct Hd as [Hdata _]. rewrite Hdata in HF. clear -Hlog Hq HF HP.
  revert spends HF Hlog. induction HP as [|log0 p0 logs pubs H HP IH]; intros spends HF Hlog;
    [destruct Hlog|].
  inversion HF; subst. simpl. destruct Hlog as [->|Hlog].
  - assert (1 <= seen_at_spend u log y).
    { apply seen_at_spend_in. exists q'. split; auto.
      eapply Qle_trans; [|eassumption]. destruct H as [rn [nm H]].
      apply publisher_fields in H. destruct H as [_ [_ [H _]]].
      eapply py_maxQ_ge; [exact H|]. change q' with (snd (u, q')). apply in_map; auto. }
    pose proof (total_seen_nonneg (seen_at_spend u) logs l' (fun l s => seen_at_spend_nonneg u l s)). lia.
  - specialize (IH l' H4 Hlog). pose proof (seen_at_spend_nonneg u log0 y). lia.
Qed.
Print Assumptions C07_full_spend_reaches_everyone.

(** max_spend is the largest price in the log and max_reach the number of distinct users. *)
Theorem C07_publisher_maxima : forall log p, is_publisher_of log p ->
  In (pd_max_spend p) (map snd log) /\ (forall r, In r log -> (snd r <= pd_max_spend p)%Q) /\
  card_is (fun u => exists q, In (u, q) log) (pd_max_reach p) /\
  max_impressions p = Z.of_nat (length log).
Proof.
  intros log p [rn [nm H]]. apply publisher_fields in H. destruct H as [Hd [Hs [Hm Hr]]].
  split; [eapply py_maxQ_in; eauto|]. split.
  { intros r Hin. eapply py_maxQ_ge; eauto. apply in_map; auto. }
  split.
  - rewrite Hr. eapply card_is_ext; [|apply count_distinct_card]. intros u; simpl.
    rewrite in_map_iff. split.
    + intros [[a q] [<- Hin]]. eauto.
    + intros [q Hin]. exists (u, q). auto.
  - unfold max_impressions. rewrite Hd, sort_rows_length. auto.
Qed.
Print Assumptions C07_publisher_maxima.

Example C07_example : exists p, reach_by_spend ex_data_set [5#100; 6#100]%Q 1 = Ok p
  /\ reach p 1 = Ok 4 /\ ds_maximum_reach ex_data_set = 4 /\ rp_impressions p = [4; 2].
Proof. eexists. split; [vm_compute; reflexivity|]. repeat split. Qed.

(** ** C08 *)

(** The least spend that buys [n] impressions. *)
Theorem C08_spend_by_impressions_least : forall log p n,
  is_publisher_of log p -> 1 <= n <= Z.of_nat (length log) ->
  exists c, spend_by_impressions p n = Ok c /\
    forall s, (c <= s)%Q <-> n <= bought_at_spend log s.
Proof.
  intros log p n Hp Hn. destruct (spend_galois log p n 0 Hp Hn) as [c [E _]].
  exists c. split; auto. intros s. destruct (spend_galois log p n s Hp Hn) as [c' [E' H]].
  rewrite E in E'. inversion E'; subst. auto.
Qed.
Print Assumptions C08_spend_by_impressions_least.

Theorem C08_zero_and_overflow : forall log p n,
  is_publisher_of log p ->
  spend_by_impressions p 0 = Ok 0%Q /\
  (Z.of_nat (length log) <= n -> spend_by_impressions p n = spend_by_impressions p (Z.of_nat (length log))).
Proof.
  intros log p n Hp. split; [reflexivity|]. intros Hn. destruct Hp as [rn [nm H]].
  assert (log <> []) as Hne by (intros ->; discriminate).
  assert (length log <> O) by (destruct log; simpl; congruence).
  apply publisher_fields in H. destruct H as [Hd _].
  unfold spend_by_impressions, max_impressions. rewrite Hd, sort_rows_length.
  destruct (Z.eqb_spec n 0); [lia|]. destruct (Z.eqb_spec (Z.of_nat (length log)) 0); [lia|].
  rewrite !Z.min_l by lia. reflexivity.
Qed.
Print Assumptions C08_zero_and_overflow.

(** What impressions_by_spend should return; it does for logs already sorted by price. *)
Theorem C08_impressions_by_spend_sorted : forall log p s,
  is_publisher_of log p -> increasing_prices log ->
  impressions_by_spend p s = bought_at_spend log s /\
  Zsum (dict_values (user_counts_by_spend p s)) = impressions_by_spend p s.
Proof.
  intros log p s Hp Hi. rewrite (impressions_by_spend_sorted log p s Hp Hi).
  split; auto. apply user_counts_total; auto.
Qed.
Print Assumptions C08_impressions_by_spend_sorted.

Theorem C08_galois_sorted : forall log p n s,
  is_publisher_of log p -> increasing_prices log -> 1 <= n <= Z.of_nat (length log) ->
  exists c, spend_by_impressions p n = Ok c /\
    ((c <= s)%Q <-> n <= impressions_by_spend p s).
Proof.
  intros log p n s Hp Hi Hn. destruct (spend_galois log p n s Hp Hn) as [c [E H]].
  exists c. split; auto. rewrite (impressions_by_spend_sorted log p s Hp Hi). auto.
Qed.
Print Assumptions C08_galois_sorted.

(** For an unsorted log the code is wrong: [_spends] keeps the input order but is searched
    by bisection. *)
Theorem C08_unsorted_log_refuted : exists log p s,
  is_publisher_of log p /\ impressions_by_spend p s <> bought_at_spend log s /\
  Zsum (dict_values (user_counts_by_spend p s)) <> impressions_by_spend p s.
Proof.
  exists [(1, (4#100)%Q); (2, (1#100)%Q); (3, (2#100)%Q)].
  eexists. exists (1#100)%Q. split.
  - exists "r"%string, None. vm_compute. reflexivity.
  - split; vm_compute; discriminate.
Qed.
Print Assumptions C08_unsorted_log_refuted.

Example C08_example : exists p, mk_publisher "r" ex_log1 None = Ok p /\
  spend_by_impressions p 3 = Ok (4#100)%Q /\ impressions_by_spend p (4#100)%Q = 3 /\
  impressions_by_spend p (39#1000)%Q = 2.
Proof. eexists. split; [vm_compute; reflexivity|]. repeat split. Qed.

(** ** C09 *)

Lemma total_seen_spend_of_impressions u logs pubs imps spends :
  Forall2 is_publisher_of logs pubs -> Forall (fun n => 0 <= n) imps ->
  Forall2 (fun pn s => spend_by_impressions (fst pn) (snd pn) = Ok s) (combine pubs imps) spends ->
  length imps = length logs ->
  total_seen (seen_at_impressions u) logs imps <= total_seen (seen_at_spend u) logs spends /\
  (Forall distinct_prices logs -> Forall (Forall (fun r => (0 < snd r)%Q)) logs ->
   total_seen (seen_at_impressions u) logs imps = total_seen (seen_at_spend u) logs spends).
Proof.
  intros HP. revert imps spends. induction HP as [|log p logs pubs Hp HP IH];
    intros imps spends Hn HF Hl.
  - destruct imps; [|discriminate]. inversion HF; subst. simpl. split; auto. lia.
  - destruct imps as [|n imps]; [discriminate|]. simpl in HF. inversion HF; subst. simpl in *.
    inversion Hn; subst. destruct (IH imps l' H4 H3 ltac:(lia)) as [IH1 IH2]. split.
    + pose proof (seen_impressions_le_spend log p u n y Hp H2 H1). lia.
    + intros Hd Hpos. inversion Hd; inversion Hpos; subst.
      rewrite IH2 by auto.
      destruct (seen_impressions_eq_spend log p u n y Hp) as [-> _]; auto.
Qed.

Lemma ds_spend_by_impressions_ok d imps spends :
  Forall2 (fun pn s => spend_by_impressions (fst pn) (snd pn) = Ok s) (combine (ds_data d) imps) spends ->
  length (ds_data d) = length imps ->
  ds_spend_by_impressions d imps = Ok spends.
Proof.
  unfold ds_spend_by_impressions. generalize (ds_data d) as pubs. intros pubs HF Hlen. clear d.
    assert (forall off, mapM (fun ip : nat * publisher_data =>
       n <- py_index (repeat 0 off ++ imps) (Z.of_nat (fst ip));; spend_by_impressions (snd ip) n)
       (combine (seq off (length pubs)) pubs) = Ok spends) as HG; [|apply (HG O)].
    revert imps spends HF Hlen. induction pubs as [|p pubs IH]; intros imps spends HF Hlen off.
    - destruct imps; [|discriminate]. inversion HF. reflexivity.
    - destruct imps as [|n imps]; [discriminate|]. simpl in HF. inversion HF; subst.
      simpl. rewrite py_index_nonneg by lia. rewrite Nat2Z.id.
      rewrite nth_error_app2 by (rewrite repeat_length; lia).
      rewrite repeat_length, Nat.sub_diag. simpl in *. rewrite H1. simpl.
      assert (repeat 0 off ++ n :: imps = (repeat 0 off ++ [n]) ++ imps) as Hre
          by (rewrite <- app_assoc; auto).
      rewrite Hre.
      (* the prefix only matters through its length *)
      assert (forall pre, length pre = S off -> mapM (fun ip : nat * publisher_data =>
         n0 <- py_index (pre ++ imps) (Z.of_nat (fst ip));; spend_by_impressions (snd ip) n0)
         (combine (seq (S off) (length pubs)) pubs) = Ok l') as HG.
      { intros pre Hpre. rewrite <- (IH imps l' H3 ltac:(simpl in Hlen; lia) (S off)).
        clear -Hpre.
        assert (forall l, (forall ip, In ip l -> (S off <= fst ip)%nat) ->
          mapM (fun ip : nat * publisher_data =>
            n0 <- py_index (pre ++ imps) (Z.of_nat (fst ip));; spend_by_impressions (snd ip) n0) l =
          mapM (fun ip : nat * publisher_data =>
            n0 <- py_index (repeat 0 (S off) ++ imps) (Z.of_nat (fst ip));; spend_by_impressions (snd ip) n0) l) as HX.
        { induction l as [|[i q] l IHl]; intros H; simpl; auto.
          assert (py_index (pre ++ imps) (Z.of_nat i) = py_index (repeat 0 (S off) ++ imps) (Z.of_nat i)) as E.
          { rewrite !py_index_nonneg by lia. rewrite Nat2Z.id.
            specialize (H (i, q) (or_introl eq_refl)). simpl in H.
            rewrite !nth_error_app2 by (try rewrite repeat_length; lia).
            rewrite repeat_length, Hpre. reflexivity. }
          simpl in E. rewrite E. rewrite IHl; auto. intros ip Hip. apply H. right; auto. }
        apply HX. intros [i q] Hin. apply in_combine_l in Hin. apply in_seq in Hin. simpl. lia. }
      rewrite HG; [reflexivity|]. rewrite app_length, repeat_length. simpl. lia.
Qed.

(** Buying the matching spend reaches at least as many users at each frequency, and exactly as
    many when the prices in each log are distinct and positive. *)
Theorem C09_matching_spend : forall logs d imps m k p r,
  is_data_set_of logs d -> length imps = length logs -> Forall (fun n => 0 <= n) imps ->
  1 <= k <= m ->
  reach_by_impressions d imps m = Ok p -> reach p k = Ok r ->
  exists spends p' r',
    ds_spend_by_impressions d imps = Ok spends /\
    reach_by_spend d spends m = Ok p' /\ reach p' k = Ok r' /\ r <= r' /\
    (Forall distinct_prices logs -> Forall (Forall (fun x => (0 < snd x)%Q)) logs ->
     r' = r).
Proof.
  intros logs d imps m k p r Hd Hl Hn Hk Hp Hr.
  destruct (reach_by_impressions_card logs d imps m k Hd Hl Hn Hk) as [q [x [E1 [E2 C]]]].
  rewrite Hp in E1. inversion E1; subst q. rewrite Hr in E2. inversion E2; subst x. clear E1 E2.
  pose proof Hd as Hd0. destruct Hd0 as [pubs [nm [un [HP Hds]]]].
  apply data_set_fields in Hds. destruct Hds as [Hdata _].
  destruct (rbi_loop_spec logs pubs imps [] [] HP Hl dict_nil_wf Hn)
    as [spends [counts [_ [_ [_ [LS HF]]]]]].
  assert (ds_spend_by_impressions d imps = Ok spends) as Hspend.
  { apply ds_spend_by_impressions_ok; rewrite Hdata; auto.
    rewrite Hl. symmetry. apply (Forall2_len _ _ _ HP). }
  destruct (reach_by_spend_card logs d spends m k Hd ltac:(lia) Hk) as [p' [r' [E1 [E2 C']]]].
  exists spends, p', r'. repeat split; auto.
  - eapply card_is_le; [|exact C|exact C']. simpl. intros u Hu.
    destruct (total_seen_spend_of_impressions u logs pubs imps spends HP Hn HF Hl). lia.
  - intros Hdist Hpos. eapply card_is_unique; [exact C'|].
    eapply card_is_ext; [|exact C]. intros u. simpl.
    destruct (total_seen_spend_of_impressions u logs pubs imps spends HP Hn HF Hl) as [_ ->]; auto.
    tauto.
Qed.
Print Assumptions C09_matching_spend.

Example C09_example : distinct_prices ex_log1 /\ distinct_prices ex_log2 /\
  ds_spend_by_impressions ex_data_set [2; 7] = Ok [2#100; 6#100]%Q.
Proof.
  split; [|split]; [| |vm_compute; reflexivity]; unfold distinct_prices;
    repeat constructor; vm_compute; discriminate.
Qed.

(** With tied prices the two can differ. *)
Example C09_ties : exists p d pt q,
  mk_publisher "r" [(1, (1#1)%Q); (2, (1#1)%Q)] (Some "p"%string) = Ok p /\
  mk_data_set [p] (Some "d"%string) None = Ok d /\
  reach_by_impressions d [1] 1 = Ok pt /\ reach pt 1 = Ok 1 /\
  reach_by_spend d [1#1]%Q 1 = Ok q /\ reach q 1 = Ok 2.
Proof. do 4 eexists. repeat split; vm_compute; reflexivity. Qed.

(** ** C10 *)

Theorem C10_spend_vector_length : forall logs d spends m,
  is_data_set_of logs d -> 1 <= m ->
  ((exists p, reach_by_spend d spends m = Ok p) <-> length spends = length logs) /\
  (length spends <> length logs -> reach_by_spend d spends m = Err ValueError).
Proof.
  intros logs d spends m Hd Hm.
  assert (length spends <> length logs -> reach_by_spend d spends m = Err ValueError) as H.
  { intros H. destruct Hd as [pubs [nm [un [HP Hd]]]]. apply data_set_fields in Hd.
    destruct Hd as [Hdata _]. unfold reach_by_spend, publisher_count. rewrite Hdata.
    rewrite <- (Forall2_len _ _ _ HP). apply Nat.eqb_neq in H. rewrite H. reflexivity. }
  split; auto. split.
  - intros [p Hp]. destruct (Nat.eq_dec (length spends) (length logs)); auto.
    rewrite H in Hp by auto. discriminate.
  - intros Hl. destruct (reach_by_spend_ok logs d spends m Hd Hl Hm) as [p [c [i [E _]]]]. eauto.
Qed.
Print Assumptions C10_spend_vector_length.

Theorem C10_impression_vector_length : forall logs d imps m,
  is_data_set_of logs d -> 1 <= m -> Forall (fun n => 0 <= n) imps ->
  ((exists p, reach_by_impressions d imps m = Ok p) <-> length imps = length logs) /\
  (length imps <> length logs -> reach_by_impressions d imps m = Err ValueError).
Proof.
  intros logs d imps m Hd Hm Hn.
  assert (length imps <> length logs -> reach_by_impressions d imps m = Err ValueError) as H.
  { intros H. destruct Hd as [pubs [nm [un [HP Hd]]]]. apply data_set_fields in Hd.
    destruct Hd as [Hdata _]. unfold reach_by_impressions, publisher_count. rewrite Hdata.
    rewrite <- (Forall2_len _ _ _ HP). apply Nat.eqb_neq in H. rewrite H. reflexivity. }
  split; auto. split.
  - intros [p Hp]. destruct (Nat.eq_dec (length imps) (length logs)); auto.
    rewrite H in Hp by auto. discriminate.
  - intros Hl. destruct (reach_by_impressions_ok logs d imps m Hd Hl Hn Hm) as [p [c [i [E _]]]]. eauto.
Qed.
Print Assumptions C10_impression_vector_length.

(** The returned point: its frequencies, vectors, universe and histogram. *)
Theorem C10_returned_point : forall logs d spends m p,
  is_data_set_of logs d -> 1 <= m -> reach_by_spend d spends m = Ok p ->
  max_frequency p = m /\
  length (rp_impressions p) = length logs /\
  (forall i log s, nth_error logs i = Some log -> nth_error spends i = Some s ->
     nth_error (rp_impressions p) i = Some (bought_at_spend log s)) /\
  rp_spends p = (match spends with [] => None | _ => Some spends end) /\
  rp_universe p = Some (ds_universe d) /\
  (ds_maximum_reach d <= ds_universe d ->
   exists h, zero_included_histogram p = Ok h /\ Zsum h = ds_universe d /\
             forall x, In x h -> 0 <= x).
Proof.
  intros logs d spends m p Hd Hm Hp.
  assert (length spends = length logs) as Hl.
  { apply (C10_spend_vector_length logs d spends m Hd Hm). eauto. }
  destruct (reach_by_spend_ok logs d spends m Hd Hl Hm)
    as [q [counts [imps [E [W [G [M [I1 [I2 [U [Sp R]]]]]]]]]]].
  rewrite Hp in E. inversion E; subst q. clear E.
  pose proof Hd as Hd0. destruct Hd0 as [pubs [nm [un [HP Hds]]]].
  apply data_set_fields in Hds. destruct Hds as [Hdata _]. rewrite Hdata in I2.
  split; auto. split.
  { rewrite I1, I2, map_length, combine_length, Hl, <- (Forall2_len _ _ _ HP). lia. }
  split.
  { intros i log s Hlog Hs. rewrite I1, I2. rewrite nth_error_map.
    clear -HP Hlog Hs. revert i spends Hlog Hs.
    induction HP as [|l0 p0 logs pubs H HP IH]; intros i spends Hlog Hs; [destruct i; discriminate|].
    destruct spends as [|s0 spends]; [destruct i; discriminate|].
    destruct i; simpl in *.
    - inversion Hlog; inversion Hs; subst. rewrite (user_counts_total log p0 s H). auto.
    - apply IH; auto. }
  split; [rewrite Sp; auto|]. split; auto.
  intros Hu. unfold reach_by_spend in Hp. destruct (negb _); [discriminate|].
  destruct (rbs_loop (ds_data d) spends [] []) as [i0 c0] eqn:EL.
  destruct (counts_to_histogram c0 m) as [kp|] eqn:EH; [|discriminate]. cbn [bind] in Hp.
  pose proof Hp as Hp0. apply mk_reach_point_ok in Hp0. destruct Hp0 as [P1 [P2 [P3 [P4 P5]]]].
  assert (length kp = Z.to_nat m) as HLk by (unfold max_frequency in M; rewrite P2 in M; lia).
  assert (kp <> []) as Hne by (intros ->; simpl in HLk; lia).
  destruct (C02_histogram_accounts_for_universe Z i0 kp (Some spends) (ds_universe d) p Hp Hne)
    as [h [Hh [_ Hsum]]].
  exists h. split; auto. split; auto.
  assert (forall i, (i < Z.to_nat m)%nat -> nth_error kp i =
    Some (count_ge (Z.of_nat i + 1) (dict_values counts))) as HK.
  { intros i Hi. specialize (R (Z.of_nat i + 1) ltac:(lia)). apply reach_spec in R.
    destruct R as [_ R]. rewrite P2 in R.
    replace (Z.to_nat (Z.of_nat i + 1 - 1)) with i in R by lia. auto. }
  apply (proj2 (C02_histogram_nonneg_iff Z i0 kp (Some spends) (ds_universe d) p h
    (count_ge (Z.of_nat 0 + 1) (dict_values counts))
    (count_ge (Z.of_nat (length kp - 1) + 1) (dict_values counts)) Hp Hh
    (HK O ltac:(lia)) (HK (length kp - 1)%nat ltac:(lia)))).
  split; [|split].
  - intros i x y Hx Hy.
    assert (i < length kp)%nat by (apply nth_error_Some; congruence).
    assert (S i < length kp)%nat by (apply nth_error_Some; congruence).
    rewrite HK in Hx, Hy by lia. inversion Hx; inversion Hy; subst.
    unfold count_ge. apply inj_le, filter_length_le. intros c _ Hc.
    apply Z.leb_le in Hc. apply Z.leb_le. lia.
  - unfold count_ge. lia.
  - eapply Z.le_trans; [|exact Hu].
    eapply card_is_le; [|apply count_ge_card; [exact W|lia]|apply maximum_reach_card; eauto].
    simpl. intros u Hu'. rewrite G in Hu'. eapply total_seen_spend_in. exact Hu'.
Qed.
Print Assumptions C10_returned_point.

Theorem C10_returned_point_impressions : forall logs d imps m p,
  is_data_set_of logs d -> 1 <= m -> Forall (fun n => 0 <= n) imps ->
  reach_by_impressions d imps m = Ok p ->
  max_frequency p = m /\ rp_impressions p = imps /\ length imps = length logs /\
  (forall spends, ds_spend_by_impressions d imps = Ok spends ->
     rp_spends p = (match spends with [] => None | _ => Some spends end)) /\
  rp_universe p = Some (ds_universe d) /\
  (ds_maximum_reach d <= ds_universe d ->
   exists h, zero_included_histogram p = Ok h /\ Zsum h = ds_universe d /\
             forall x, In x h -> 0 <= x).
Proof.
  intros logs d imps m p Hd Hm Hn Hp.
  assert (length imps = length logs) as Hl.
  { apply (C10_impression_vector_length logs d imps m Hd Hm Hn). eauto. }
  destruct (reach_by_impressions_ok logs d imps m Hd Hl Hn Hm)
    as [q [counts [spends [E [W [G [M [I1 [U [Sp [SF [SL R]]]]]]]]]]]].
  rewrite Hp in E. inversion E; subst q. clear E.
  split; auto. split; auto. split; auto. split.
  { intros spends' E. rewrite Sp.
    assert (ds_spend_by_impressions d imps = Ok spends) as E'; [|rewrite E' in E; inversion E; reflexivity].
    apply ds_spend_by_impressions_ok; auto. rewrite Hl.
    destruct Hd as [pubs [nm [un [HP Hds]]]]. apply data_set_fields in Hds.
    destruct Hds as [-> _]. symmetry. apply (Forall2_len _ _ _ HP). }
  split; auto.
  intros Hu. unfold reach_by_impressions in Hp. destruct (negb _); [discriminate|].
  destruct (rbi_loop (ds_data d) imps [] []) as [[s0 c0]|] eqn:EL; [|discriminate].
  cbn [bind] in Hp.
  destruct (counts_to_histogram c0 m) as [kp|] eqn:EH; [|discriminate]. cbn [bind] in Hp.
  pose proof Hp as Hp0. apply mk_reach_point_ok in Hp0. destruct Hp0 as [P1 [P2 [P3 [P4 P5]]]].
  assert (length kp = Z.to_nat m) as HLk by (unfold max_frequency in M; rewrite P2 in M; lia).
  assert (kp <> []) as Hne by (intros ->; simpl in HLk; lia).
  destruct (C02_histogram_accounts_for_universe Z imps kp (Some s0) (ds_universe d) p Hp Hne)
    as [h [Hh [_ Hsum]]].
  exists h. split; auto. split; auto.
  assert (forall i, (i < Z.to_nat m)%nat -> nth_error kp i =
    Some (count_ge (Z.of_nat i + 1) (dict_values counts))) as HK.
  { intros i Hi. specialize (R (Z.of_nat i + 1) ltac:(lia)). apply reach_spec in R.
    destruct R as [_ R]. rewrite P2 in R.
    replace (Z.to_nat (Z.of_nat i + 1 - 1)) with i in R by lia. auto. }
  apply (proj2 (C02_histogram_nonneg_iff Z imps kp (Some s0) (ds_universe d) p h
    (count_ge (Z.of_nat 0 + 1) (dict_values counts))
    (count_ge (Z.of_nat (length kp - 1) + 1) (dict_values counts)) Hp Hh
    (HK O ltac:(lia)) (HK (length kp - 1)%nat ltac:(lia)))).
  split; [|split].
  - intros i x y Hx Hy.
    assert (i < length kp)%nat by (apply nth_error_Some; congruence).
    assert (S i < length kp)%nat by (apply nth_error_Some; congruence).
    rewrite HK in Hx, Hy by lia. inversion Hx; inversion Hy; subst.
    unfold count_ge. apply inj_le, filter_length_le. intros c _ Hc.
    apply Z.leb_le in Hc. apply Z.leb_le. lia.
  - unfold count_ge. lia.
  - eapply Z.le_trans; [|exact Hu].
    eapply card_is_le; [|apply count_ge_card; [exact W|lia]|apply maximum_reach_card; eauto].
    simpl. intros u Hu'. rewrite G in Hu'. eapply total_seen_impressions_in. exact Hu'.
Qed.
Print Assumptions C10_returned_point_impressions.

(** A negative impression count, although of the right length, can raise. *)
Theorem C10_negative_impressions_refuted : exists logs d,
  is_data_set_of logs d /\ length logs = 1%nat /\
  reach_by_impressions d [-5] 1 = Err IndexError.
Proof.
  exists [[(1, 1%Q); (2, 2%Q)]]. eexists. split; [|split; [reflexivity|]].
  - eexists; exists (Some "d"%string), None. split.
    + repeat constructor; exists "r"%string, (Some "p"%string); reflexivity.
    + reflexivity.
  - vm_compute. reflexivity.
Qed.
Print Assumptions C10_negative_impressions_refuted.

(** C09, impressions: the matching spend delivers the same impressions, capped by the log. *)
Theorem C09_matching_impressions : forall logs d imps m spends p,
  is_data_set_of logs d -> length imps = length logs -> Forall (fun n => 0 <= n) imps ->
  1 <= m -> Forall distinct_prices logs -> Forall (Forall (fun x => (0 < snd x)%Q)) logs ->
  ds_spend_by_impressions d imps = Ok spends -> reach_by_spend d spends m = Ok p ->
  forall i log n, nth_error logs i = Some log -> nth_error imps i = Some n ->
    nth_error (rp_impressions p) i = Some (Z.min n (Z.of_nat (length log))).
Proof.
  intros logs d imps m spends p Hd Hl Hn Hm Hdist Hpos Hs Hp i log n Hlog Hi.
  destruct (C10_returned_point logs d spends m p Hd Hm Hp) as [_ [_ [HI _]]].
  pose proof Hd as Hd0. destruct Hd0 as [pubs [nm [un [HP Hds]]]].
  apply data_set_fields in Hds. destruct Hds as [Hdata _].
  destruct (rbi_loop_spec logs pubs imps [] [] HP Hl dict_nil_wf Hn)
    as [sp [counts [_ [_ [_ [LS HF]]]]]].
  assert (spends = sp) as ->.
  { assert (ds_spend_by_impressions d imps = Ok sp); [|congruence].
    apply ds_spend_by_impressions_ok; rewrite Hdata; auto.
    rewrite Hl. symmetry. apply (Forall2_len _ _ _ HP). }
  assert (exists s p0, nth_error sp i = Some s /\ is_publisher_of log p0 /\
    spend_by_impressions p0 n = Ok s) as [s [p0 [Hsi [Hp0 Hsp]]]].
  { clear -HF HP Hlog Hi. revert i imps sp HF Hlog Hi.
    induction HP as [|l0 p0 logs pubs H HP IH]; intros i imps sp HF Hlog Hi; [destruct i; discriminate|].
    destruct imps as [|n0 imps]; [destruct i; discriminate|]. inversion HF; subst.
    destruct i; simpl in *.
    - inversion Hlog; inversion Hi; subst. eauto.
    - eauto. }
  rewrite (HI i log s Hlog Hsi). f_equal.
  eapply seen_impressions_eq_spend; eauto.
  - rewrite Forall_forall in Hdist. apply Hdist. eapply nth_error_In; eauto.
  - rewrite Forall_forall in Hpos. apply Hpos. eapply nth_error_In; eauto.
  - rewrite Forall_forall in Hn. apply Hn. eapply nth_error_In; eauto.
Qed.
Print Assumptions C09_matching_impressions.

(** The default universe is twice the maximum reach, so the condition above holds. *)
Theorem C10_default_universe : forall pubs name d,
  mk_data_set pubs name None = Ok d ->
  ds_universe d = 2 * ds_maximum_reach d /\ ds_maximum_reach d <= ds_universe d.
Proof.
  intros pubs name d H. apply data_set_fields in H. destruct H as [_ [Hm Hu]].
  rewrite Hu. split; auto. rewrite Hm. lia.
Qed.
Print Assumptions C10_default_universe.

(** Without a name the constructor raises, although its documentation promises a random name. *)
Theorem C10_default_name_refuted : forall pubs universe,
  mk_data_set pubs None universe = Err NameError.
Proof. reflexivity. Qed.
Print Assumptions C10_default_name_refuted.

Example C10_example : exists p, reach_by_spend ex_data_set [4#100; 4#100]%Q 3 = Ok p
  /\ zero_included_histogram p = Ok [6; 0; 2; 0]
  /\ reach_by_spend ex_data_set [4#100]%Q 3 = Err ValueError.
Proof. eexists. split; [vm_compute; reflexivity|]. split; vm_compute; reflexivity. Qed.

(** ** C11 *)

Theorem C11_log_order_irrelevant : forall logs logs' d d' spends m k p p' r r',
  is_data_set_of logs d -> is_data_set_of logs' d' ->
  Forall2 (@Permutation row) logs logs' -> length spends = length logs -> 1 <= k <= m ->
  reach_by_spend d spends m = Ok p -> reach_by_spend d' spends m = Ok p' ->
  reach p k = Ok r -> reach p' k = Ok r' -> r = r'.
Proof.
  intros logs logs' d d' spends m k p p' r r' Hd Hd' HF Hl Hk Hp Hp' Hr Hr'.
  destruct (reach_by_spend_card logs d spends m k Hd Hl Hk) as [q [x [E1 [E2 C]]]].
  destruct (reach_by_spend_card logs' d' spends m k Hd' ltac:(rewrite <- (Forall2_len _ _ _ HF); auto) Hk)
    as [q' [x' [E1' [E2' C']]]].
  rewrite Hp in E1. inversion E1; subst q. rewrite Hr in E2. inversion E2; subst x.
  rewrite Hp' in E1'. inversion E1'; subst q'. rewrite Hr' in E2'. inversion E2'; subst x'.
  eapply card_is_unique; [exact C|]. eapply card_is_ext; [|exact C'].
  intros u. simpl. rewrite (total_seen_log_perm u logs logs' spends HF). tauto.
Qed.
Print Assumptions C11_log_order_irrelevant.

Theorem C11_publisher_order_irrelevant : forall logs logs' d d' spends spends' m k p p' r r',
  is_data_set_of logs d -> is_data_set_of logs' d' ->
  length spends = length logs -> length spends' = length logs' ->
  Permutation (combine logs spends) (combine logs' spends') -> 1 <= k <= m ->
  reach_by_spend d spends m = Ok p -> reach_by_spend d' spends' m = Ok p' ->
  reach p k = Ok r -> reach p' k = Ok r' -> r = r'.
Proof.
  intros logs logs' d d' spends spends' m k p p' r r' Hd Hd' Hl Hl' HF Hk Hp Hp' Hr Hr'.
  destruct (reach_by_spend_card logs d spends m k Hd Hl Hk) as [q [x [E1 [E2 C]]]].
  destruct (reach_by_spend_card logs' d' spends' m k Hd' Hl' Hk) as [q' [x' [E1' [E2' C']]]].
  rewrite Hp in E1. inversion E1; subst q. rewrite Hr in E2. inversion E2; subst x.
  rewrite Hp' in E1'. inversion E1'; subst q'. rewrite Hr' in E2'. inversion E2'; subst x'.
  eapply card_is_unique; [exact C|]. eapply card_is_ext; [|exact C'].
  intros u. simpl. rewrite (total_seen_perm (seen_at_spend u) _ _ _ _ HF). tauto.
Qed.
Print Assumptions C11_publisher_order_irrelevant.

(** Renaming every user id by an injective function. *)
Theorem C11_user_names_irrelevant : forall f logs d d' spends m k p p' r r',
  (forall x y : Z, f x = f y -> x = y) ->
  is_data_set_of logs d ->
  is_data_set_of (map (map (fun row => (f (fst row), snd row))) logs) d' ->
  length spends = length logs -> 1 <= k <= m ->
  reach_by_spend d spends m = Ok p -> reach_by_spend d' spends m = Ok p' ->
  reach p k = Ok r -> reach p' k = Ok r' -> r = r'.
Proof.
  intros f logs d d' spends m k p p' r r' Hinj Hd Hd' Hl Hk Hp Hp' Hr Hr'.
  destruct (reach_by_spend_card logs d spends m k Hd Hl Hk) as [q [x [E1 [E2 C]]]].
  destruct (reach_by_spend_card _ d' spends m k Hd' ltac:(rewrite map_length; auto) Hk)
    as [q' [x' [E1' [E2' C']]]].
  rewrite Hp in E1. inversion E1; subst q. rewrite Hr in E2. inversion E2; subst x.
  rewrite Hp' in E1'. inversion E1'; subst q'. rewrite Hr' in E2'. inversion E2'; subst x'.
  eapply card_is_unique; [|exact C'].
  eapply (card_is_image f); [exact Hinj| |exact C]. simpl. intros v. split.
  - intros Hv.
    assert (1 <= total_seen (seen_at_spend v) (map (rename_log f) logs) spends) as Hv1
      by (eapply Z.le_trans; [|exact Hv]; lia).
    destruct (total_seen_spend_in v _ spends Hv1) as [log [c [Hlog Hin]]].
    apply in_map_iff in Hlog. destruct Hlog as [log0 [<- Hlog0]].
    apply in_map_iff in Hin. destruct Hin as [[u c'] [Eq Hin]]. inversion Eq; subst.
    exists u. split; auto. rewrite <- (total_seen_rename f u logs spends Hinj). exact Hv.
  - intros [u [-> Hu]]. rewrite <- (total_seen_rename f u logs spends Hinj) in Hu. auto.
Qed.
Print Assumptions C11_user_names_irrelevant.

Example C11_example : exists d p, is_data_set_of [ex_log2; rev ex_log1] d /\
  reach_by_spend d [4#100; 4#100]%Q 3 = Ok p /\ rp_kplus p = [2; 2; 0].
Proof.
  eexists; eexists. split; [|split].
  - eexists; exists (Some "d"%string), None. split.
    + repeat constructor; exists "r"%string, (Some "p"%string); reflexivity.
    + reflexivity.
  - vm_compute; reflexivity.
  - reflexivity.
Qed.

(** ** C42 *)

Lemma set_nth_repeat_total {B} (seen : list row -> B -> Z) (z b : B) logs i log :
  nth_error logs i = Some log -> (forall j l, j <> i -> nth_error logs j = Some l -> seen l z = 0) ->
  total_seen seen logs (set_nth i b (repeat z (length logs))) = seen log b.
Proof.
  revert i; induction logs as [|l logs IH]; intros i Hi Hz; [destruct i; discriminate|].
  destruct i; simpl in *.
  - inversion Hi; subst.
    assert (total_seen seen logs (repeat z (length logs)) = 0) as ->; [|lia].
    assert (forall l, In l logs -> seen l z = 0) as Hz'.
    { intros l Hl. apply In_nth_error in Hl. destruct Hl as [j Hj]. apply (Hz (S j) l); [discriminate|exact Hj]. }
    clear -Hz'.
    induction logs as [|a logs IH]; simpl; auto.
    rewrite IH by (intros; apply Hz'; right; auto). rewrite Hz' by (left; auto). reflexivity.
  - rewrite (IH i Hi); [|intros j l' Hj; apply (Hz (S j)); congruence]. rewrite (Hz O l) by (try discriminate; reflexivity). lia.
Qed.

Lemma py_set_ok {A} (l : list A) i x :
  0 <= i < Z.of_nat (length l) -> py_set l i x = Ok (set_nth (Z.to_nat i) x l).
Proof.
  intros H. unfold py_set. destruct (Z.ltb_spec i 0); [lia|].
  destruct (Z.leb_spec 0 i); [|lia]. destruct (Z.ltb_spec i (Z.of_nat (length l))); [|lia].
  reflexivity.
Qed.

Lemma set_nth_Forall {A} (P : A -> Prop) i x l : Forall P l -> P x -> Forall P (set_nth i x l).
Proof.
  intros H Hx. revert i. induction H; intros i; destruct i; simpl; constructor; auto.
Qed.

(** Queries of the curve are ground truth queries with every other publisher at zero. *)
Theorem C42_other_publishers_at_zero : forall logs d i g n s m,
  is_data_set_of logs d -> 0 <= i < Z.of_nat (length logs) -> mk_ground_truth d i = Ok g ->
  exists vi vs,
    length vi = length logs /\ length vs = length logs /\
    (forall j, (j < length logs)%nat ->
       nth j vi 0 = (if (Z.of_nat j =? i) then n else 0) /\
       nth j vs 0%Q = (if (Z.of_nat j =? i) then s else 0%Q)) /\
    gt_by_impressions g [n] m = reach_by_impressions d vi m /\
    gt_by_spend g [s] m = reach_by_spend d vs m.
Proof.
  intros logs d i g n s m Hd Hi Hg.
  unfold mk_ground_truth in Hg. destruct (py_index (ds_data d) i); [|discriminate].
  simpl in Hg. inversion Hg; subst. clear Hg.
  assert (publisher_count d = length logs) as Hc.
  { destruct Hd as [pubs [nm [un [HP Hds]]]]. apply data_set_fields in Hds.
    destruct Hds as [Hdata _]. unfold publisher_count. rewrite Hdata.
    symmetry. apply (Forall2_len _ _ _ HP). }
  exists (set_nth (Z.to_nat i) n (repeat 0 (length logs))),
         (set_nth (Z.to_nat i) s (repeat 0%Q (length logs))).
  rewrite !set_nth_length, !repeat_length. split; auto. split; auto.
  assert (forall {A} (x z : A) k j, (j < k)%nat -> (Z.to_nat i < k)%nat ->
    nth j (set_nth (Z.to_nat i) x (repeat z k)) z = if (Z.of_nat j =? i) then x else z) as HS.
  { intros A x z k j Hj Hik.
    replace (Z.of_nat j =? i) with (Nat.eqb j (Z.to_nat i)).
    2:{ destruct (Nat.eqb_spec j (Z.to_nat i)), (Z.eqb_spec (Z.of_nat j) i); auto; lia. }
    generalize dependent (Z.to_nat i). revert j Hj. induction k; intros j Hj i0 Hi0; [lia|].
    destruct i0, j; simpl; auto.
    - rewrite nth_repeat. auto.
    - apply IHk; lia. }
  split.
  { intros j Hj. split; apply HS; lia. }
  unfold gt_by_impressions, gt_by_spend. simpl. rewrite Hc.
  rewrite !py_set_ok by (rewrite repeat_length; lia). auto.
Qed.
Print Assumptions C42_other_publishers_at_zero.

(** The ground truth curve of publisher [i] counts the users of that publisher. *)
Theorem C42_by_impressions_is_single_publisher : forall logs d i log g n m k,
  is_data_set_of logs d -> 0 <= i -> nth_error logs (Z.to_nat i) = Some log ->
  mk_ground_truth d i = Ok g -> 0 <= n -> 1 <= k <= m ->
  exists p r, gt_by_impressions g [n] m = Ok p /\ reach p k = Ok r /\
    card_is (fun u => k <= seen_at_impressions u log n) r.
Proof.
  intros logs d i log g n m k Hd Hi Hlog Hg Hn Hk.
  unfold mk_ground_truth in Hg. destruct (py_index (ds_data d) i); [|discriminate].
  simpl in Hg. inversion Hg; subst. clear Hg.
  assert (publisher_count d = length logs) as Hc.
  { destruct Hd as [pubs [nm [un [HP Hds]]]]. apply data_set_fields in Hds.
    destruct Hds as [Hdata _]. unfold publisher_count. rewrite Hdata.
    symmetry. apply (Forall2_len _ _ _ HP). }
  assert (Z.to_nat i < length logs)%nat as Hlt by (apply nth_error_Some; congruence).
  unfold gt_by_impressions. simpl. rewrite Hc, py_set_ok by (rewrite repeat_length; lia). simpl.
  destruct (reach_by_impressions_card logs d (set_nth (Z.to_nat i) n (repeat 0 (length logs))) m k Hd)
    as [p [r [E1 [E2 C]]]]; auto.
  { rewrite set_nth_length, repeat_length. auto. }
  { apply set_nth_Forall; auto. clear. induction (length logs); simpl; constructor; auto. lia. }
  exists p, r. split; auto. split; auto.
  eapply card_is_ext; [|exact C]. intros u. simpl.
  rewrite (set_nth_repeat_total (seen_at_impressions u) 0 n logs (Z.to_nat i) log Hlog); [tauto|].
  intros j l _ _. rewrite seen_at_impressions_sorted by lia. reflexivity.
Qed.
Print Assumptions C42_by_impressions_is_single_publisher.

(** By spend this needs that no other publisher shows impressions for free; see
    [C42_free_impressions_refuted]. *)
Theorem C42_by_spend_is_single_publisher : forall logs d i log g s m k,
  is_data_set_of logs d -> 0 <= i -> nth_error logs (Z.to_nat i) = Some log ->
  mk_ground_truth d i = Ok g -> 1 <= k <= m ->
  (forall j l r, j <> Z.to_nat i -> nth_error logs j = Some l -> In r l -> (0 < snd r)%Q) ->
  exists p r, gt_by_spend g [s] m = Ok p /\ reach p k = Ok r /\
    card_is (fun u => k <= seen_at_spend u log s) r.
Proof.
  intros logs d i log g s m k Hd Hi Hlog Hg Hk Hpos.
  unfold mk_ground_truth in Hg. destruct (py_index (ds_data d) i); [|discriminate].
  simpl in Hg. inversion Hg; subst. clear Hg.
  assert (publisher_count d = length logs) as Hc.
  { destruct Hd as [pubs [nm [un [HP Hds]]]]. apply data_set_fields in Hds.
    destruct Hds as [Hdata _]. unfold publisher_count. rewrite Hdata.
    symmetry. apply (Forall2_len _ _ _ HP). }
  assert (Z.to_nat i < length logs)%nat as Hlt by (apply nth_error_Some; congruence).
  unfold gt_by_spend. simpl. rewrite Hc, py_set_ok by (rewrite repeat_length; lia). simpl.
  destruct (reach_by_spend_card logs d (set_nth (Z.to_nat i) s (repeat 0%Q (length logs))) m k Hd)
    as [p [r [E1 [E2 C]]]]; auto.
  { rewrite set_nth_length, repeat_length. auto. }
  exists p, r. split; auto. split; auto.
  eapply card_is_ext; [|exact C]. intros u. simpl.
  rewrite (set_nth_repeat_total (seen_at_spend u) 0%Q s logs (Z.to_nat i) log Hlog); [tauto|].
  intros j l Hj Hl. destruct (Z.le_gt_cases 1 (seen_at_spend u l 0)) as [H|H].
  - apply seen_at_spend_in in H. destruct H as [q [Hin Hq]].
    specialize (Hpos j l (u, q) Hj Hl Hin). simpl in Hpos. exfalso. apply (Qlt_not_le _ _ Hpos Hq).
  - pose proof (seen_at_spend_nonneg u l 0). lia.
Qed.
Print Assumptions C42_by_spend_is_single_publisher.

(** Free impressions of another publisher leak into the ground truth curve. *)
Theorem C42_free_impressions_refuted : exists logs d g log p,
  is_data_set_of logs d /\ nth_error logs 0 = Some log /\ mk_ground_truth d 0 = Ok g /\
  gt_by_spend g [1%Q] 1 = Ok p /\ reach p 1 = Ok 2 /\
  card_is (fun u => 1 <= seen_at_spend u log 1%Q) 1.
Proof.
  exists [[(1, 1%Q)]; [(2, 0%Q)]]. eexists. eexists. exists [(1, 1%Q)]. eexists.
  split; [|split; [reflexivity|split; [|split; [|split]]]].
  - eexists; exists (Some "d"%string), None. split.
    + repeat constructor; exists "r"%string, (Some "p"%string); reflexivity.
    + reflexivity.
  - vm_compute. reflexivity.
  - vm_compute. reflexivity.
  - reflexivity.
  - exists [1]. split; [constructor; [intros []|constructor]|]. split; [|reflexivity].
    intros u. rewrite seen_at_spend_in. split.
    + intros [<-|[]]. exists 1%Q. split; [left; reflexivity|apply Qle_refl].
    + intros [q [[H|[]] _]]. inversion H. left; auto.
Qed.
Print Assumptions C42_free_impressions_refuted.

Example C42_example : exists g p, mk_ground_truth ex_data_set 0 = Ok g /\ gt_max_reach g = 3 /\
  gt_by_spend g [4#100]%Q 2 = Ok p /\ rp_kplus p = [2; 1] /\
  gt_by_spend g [1%Q; 2%Q] 2 = Err ValueError.
Proof. do 2 eexists. repeat split; vm_compute; reflexivity. Qed.
