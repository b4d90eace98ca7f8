From Coq Require Import String Lqa Qround.
From Verif Require Import Prelude ModelReachPoint ModelData SpecData ModelPrivacy SpecPrivacy
  PrivacyLemmas ModelHalo SpecHalo ModelStrategy ReachPointLemmas DataLemmas DataLemmas2
  DataLemmas3 HaloLemmas SpecVenn VennLemmas HaloLemmas2 SpecExact.
Open Scope Z_scope.

Lemma py_round_int x n : (x == inject_Z n)%Q -> py_round x = n.
Proof.
  intros H. unfold py_round. assert (Qfloor x = n) as E by (rewrite H; apply Qfloor_Z).
  rewrite E. assert (x - inject_Z n == 0)%Q as E2 by (rewrite H; ring).
  destruct (Qltb (x - inject_Z n) (1#2)) eqn:C; auto. exfalso.
  apply Qltb_ge in C. rewrite E2 in C. lra.
Qed.

Lemma min_accumulate_id l : descending l -> min_accumulate l = l.
Proof.
  destruct l as [|a l]; auto. simpl min_accumulate. intros H. f_equal. revert a H.
  induction l as [|b l IH]; intros a H; auto. cbn [descending] in H. destruct H as [H1 H2].
  cbn [min_accumulate_from]. rewrite Z.min_r by lia. f_equal. auto.
Qed.

Lemma simulated_reach_sketch {X} h spends b split m (w w' : world X) p :
  simulated_reach_by_spend h spends b split m w = (Ok p, w') ->
  exists p0 s0 cfg sk est imps r1 (w2 w3 : world X),
    py_index (h_publishers h) 0 = Ok p0 /\ py_index spends 0 = Ok s0 /\
    mfold (merge_step h spends) (py_range 1 (Z.of_nat (length spends)))
      (liquid_legions_sketch X (h_ll h) p0 s0) w2 = (Ok sk, w3) /\
    ec_max_freq cfg = m /\ estimate X cfg sk = Ok est /\
    let kp := min_accumulate (map (fun x => Z.max x 0) (map py_round est)) in
    ds_impressions_by_spend (h_data_set h) spends = Ok imps /\
    py_index kp 0 = Ok r1 /\
    mk_reach_point Zops imps
     (if Zsum imps <=? r1 then Z.max (Zsum imps - 1) 1 :: repeat 0 (Z.to_nat (Z.max 0 (m - 1))) else kp)
     (Some spends) (Some (ds_universe (h_data_set h))) = Ok p.
Proof.
  unfold simulated_reach_by_spend. intros H.
  unfold mbind at 1, mlift at 1 in H. destruct (py_index (h_publishers h) 0) as [p0|] eqn:E0; [|discriminate].
  unfold mbind at 1, mlift at 1 in H. destruct (py_index spends 0) as [s0|] eqn:Es0; [|discriminate].
  cbv zeta in H.
  unfold mbind at 1 in H. destruct (draw_seed w) as [[seed1|] w1]; [|discriminate].
  unfold mbind at 1 in H. destruct (draw_seed w1) as [[seed2|] w2]; [|discriminate].
  unfold mbind at 1 in H. destruct (mfold _ _ _ w2) as [[sk|] w3] eqn:Ef; [|discriminate].
  unfold mbind at 1, mlift at 1 in H.
  match type of H with context [estimate X ?c sk] => set (cfg := c) in * end.
  destruct (estimate X cfg sk) as [est|] eqn:Eest; [|discriminate].
  unfold mbind at 1 in H. destruct (mfold _ _ tt w3) as [[[]|] w4]; [|discriminate].
  unfold mbind at 1, mlift at 1 in H.
  destruct (ds_impressions_by_spend (h_data_set h) spends) as [imps|] eqn:Ei; [|discriminate].
  unfold mbind at 1, mlift at 1 in H.
  destruct (py_index (min_accumulate _) 0) as [r1|] eqn:Er; [|discriminate].
  unfold mlift in H.
  exists p0, s0, cfg, sk, est, imps, r1, w2, w3.
  split; auto. split; auto. split; [exact Ef|]. split; [reflexivity|]. split; [exact Eest|].
  cbv zeta. split; auto. split; [exact Er|]. inversion H. reflexivity.
Qed.

Lemma count_occ_repeat (u v : Z) n :
  Z.of_nat (count_occ Z.eq_dec (repeat v n) u) = if u =? v then Z.of_nat n else 0.
Proof.
  destruct (Z.eqb_spec u v) as [->|Hn].
  - induction n; simpl repeat; cbn [count_occ]; auto. destruct (Z.eq_dec v v); lia.
  - induction n; simpl repeat; cbn [count_occ]; auto. destruct (Z.eq_dec v u); [congruence|auto].
Qed.

Section exact.
Variable X : externals.
Variable times : sketch X -> Z -> Z.
Hypothesis HX : exact_sketches X times.

Lemma sketch_fold_times uc sk u : dict_wf uc ->
  times (fold_left (fun sk kv => sketch_add X sk (repeat (fst kv) (Z.to_nat (snd kv)))) uc sk) u =
  times sk u + dict_get uc u.
Proof.
  destruct HX as [_ [Hadd _]].
  revert sk. induction uc as [|[k v] uc IH]; intros sk [Hn Hv]; simpl; [lia|].
  unfold dict_keys, dict_values in *. simpl in Hn, Hv. inversion Hn; subst.
  rewrite IH by (split; auto). cbn [fst snd]. rewrite Hadd, count_occ_repeat.
  rewrite Z2Nat.id by (specialize (Hv v (or_introl eq_refl)); lia).
  destruct (Z.eqb_spec u k) as [->|]; [|lia].
  rewrite (dict_get_notin uc k) by auto. lia.
Qed.

Lemma sketch_times ll log p s u : is_publisher_of log (pub_data p) ->
  times (liquid_legions_sketch X ll p s) u =
  seen_at_spend u log (py_min2 s (pub_campaign_spend p)).
Proof.
  intros H. unfold liquid_legions_sketch. rewrite sketch_fold_times by apply counter_wf.
  rewrite (proj1 HX). rewrite (user_counts_by_spend_get log) by auto. lia.
Qed.

(** Merging the publishers with positions in [from, from + n). *)
Definition part_seen (u : Z) (logs : list (list row)) (pubs : list publisher) (spends : list Q) : Z :=
  total_seen (seen_at_spend u) logs (map (fun ps => py_min2 (snd ps) (pub_campaign_spend (fst ps))) (combine pubs spends)).

Lemma merge_times h logs spends : 
  Forall2 (fun log p => is_publisher_of log (pub_data p)) logs (h_publishers h) ->
  length spends = length logs ->
  forall n from sk sk' (w w' : world X), (from + n = length logs)%nat ->
  mfold (merge_step h spends) (map Z.of_nat (seq from n)) sk w = (Ok sk', w') ->
  forall u, times sk' u = times sk u +
    part_seen u (skipn from logs) (skipn from (h_publishers h)) (skipn from spends).
Proof.
  intros HF HL. pose proof (Forall2_len _ _ _ HF) as HL2.
  induction n as [|n IH]; intros from sk sk' w w' Hn H u.
  - simpl in H. inversion H; subst. rewrite skipn_all2 by lia. unfold part_seen. simpl. lia.
  - simpl in H. unfold mbind at 1 in H.
    destruct (merge_step h spends sk (Z.of_nat from) w) as [[sk1|] w1] eqn:E; [|discriminate].
    unfold merge_step, mbind, mlift in E.
    destruct (nth_error logs from) as [log|] eqn:E1; [|apply nth_error_None in E1; lia].
    destruct (nth_error (h_publishers h) from) as [p|] eqn:E2; [|apply nth_error_None in E2; lia].
    destruct (nth_error spends from) as [s|] eqn:E3; [|apply nth_error_None in E3; lia].
    rewrite !py_index_nonneg in E by lia. rewrite Nat2Z.id, E2, E3 in E.
    injection E as E Ew. destruct HX as [_ [_ [Hm _]]].
    rewrite (IH (S from) sk1 sk' w1 w' ltac:(lia) H u).
    rewrite (Hm _ _ _ u E).
    assert (is_publisher_of log (pub_data p)) as Hp.
    { clear -HF E1 E2. revert from E1 E2. induction HF; intros [|n] E1 E2; simpl in *; try discriminate.
      - congruence.
      - eauto. }
    rewrite (sketch_times _ log) by auto.
    assert (forall A (l : list A) i x, nth_error l i = Some x -> skipn i l = x :: skipn (S i) l) as Hsk.
    { clear. induction l as [|a l IH]; intros [|i] x H; simpl in *; try discriminate; [congruence|]. auto. }
    rewrite (Hsk _ _ _ _ E1), (Hsk _ _ _ _ E2), (Hsk _ _ _ _ E3).
    unfold part_seen. cbn [combine map total_seen fst snd]. lia.
Qed.

Lemma simulated_reach_exact h logs spends b split m (w w' : world X) p :
  Forall2 (fun log p => is_publisher_of log (pub_data p)) logs (h_publishers h) ->
  length spends = length logs -> 1 <= m ->
  simulated_reach_by_spend h spends b split m w = (Ok p, w') ->
  exact_reaches (fun u => part_seen u logs (h_publishers h) spends) (Zsum (rp_impressions p)) m p.
Proof.
  intros HF HL Hm H. pose proof (Forall2_len _ _ _ HF) as HL2.
  destruct (simulated_reach_sketch _ _ _ _ _ _ _ _ H)
    as [p0 [s0 [cfg [sk [est [imps [r1 [w2 [w3 [E0 [Es0 [Ef [Ecfg [Eest [Ei [Er Ep]]]]]]]]]]]]]]]].
  assert (forall u, times sk u = part_seen u logs (h_publishers h) spends) as Htimes.
  { intros u. destruct logs as [|log logs]; [destruct spends; discriminate|].
    destruct spends as [|s spends]; [discriminate|].
    destruct (h_publishers h) as [|q pubs] eqn:EP; [discriminate|].
    rewrite py_index_nonneg in E0 by lia. rewrite py_index_nonneg in Es0 by lia. simpl in E0, Es0. inversion E0; inversion Es0; subst.
    unfold py_range in Ef.
    replace (map (fun i => 1 + Z.of_nat i) (seq 0 (Z.to_nat (Z.of_nat (length (s0 :: spends)) - 1))))
      with (map Z.of_nat (seq 1 (length logs))) in Ef.
    - assert (is_publisher_of log (pub_data p0)) as Hq by (inversion HF; auto).
      rewrite <- EP in HF. pose proof (merge_times h (log :: logs) (s0 :: spends) HF HL (length logs) 1%nat _ _ _ _ eq_refl Ef u) as Hu.
      rewrite Hu, EP.
      rewrite (sketch_times _ log) by auto. unfold part_seen. simpl. lia.
    - replace (Z.to_nat (Z.of_nat (length (s0 :: spends)) - 1)) with (length logs)
        by (clear -HL; cbn [length] in *; lia).
      rewrite <- seq_shift, map_map. apply map_ext. intros. lia. }
  destruct HX as [_ [_ [_ Hest]]].
  destruct (Hest cfg sk est ltac:(lia) Eest) as [Hlen Hn]. rewrite Ecfg in Hlen.
  set (kp0 := map (fun x => Z.max x 0) (map py_round est)) in *.
  assert (length kp0 = length est) as HLk by (unfold kp0; rewrite !map_length; auto).
  assert (forall k x, nth_error kp0 k = Some x -> card_is (fun u => Z.of_nat k + 1 <= times sk u) x) as Hk.
  { intros k x Hx. unfold kp0 in Hx. rewrite map_map, nth_error_map in Hx.
    destruct (nth_error est k) as [q|] eqn:E; [|discriminate]. simpl in Hx. inversion Hx; subst.
    destruct (Hn k q E) as [n [C Eq]]. rewrite (py_round_int _ _ Eq).
    pose proof (card_is_nonneg _ _ C). rewrite Z.max_l by lia. auto. }
  assert (descending kp0) as HD.
  { clear -Hk. assert (forall i x y, nth_error kp0 i = Some x -> nth_error kp0 (S i) = Some y -> y <= x) as HH.
    { intros i x y H1 H2. apply Hk in H1. apply Hk in H2. eapply card_is_le; [|exact H2|exact H1].
      intros u Hu; cbv beta in Hu |- *; lia. }
    clear Hk. induction kp0 as [|a l IH]; simpl; auto. destruct l as [|c l]; auto. split.
    - apply (HH 0%nat); reflexivity.
    - apply IH. intros i x y H1 H2. apply (HH (S i) x y); auto. }
  rewrite (min_accumulate_id _ HD) in *. cbv zeta in *.
  apply mk_reach_point_ok in Ep. destruct Ep as [E1 [E2 _]]. rewrite E1.
  split.
  { unfold max_frequency. rewrite E2. destruct (Zsum imps <=? r1); [|lia].
    cbn [length]. rewrite repeat_length. lia. }
  rewrite py_index_nonneg in Er by lia.
  destruct (nth_error kp0 (Z.to_nat 0)) as [r|] eqn:E; [|discriminate]. inversion Er; subst r1. clear Er.
  pose proof (Hk _ _ E) as Hr. simpl Z.of_nat in Hr.
  exists r. split; [eapply card_is_ext; [|exact Hr]; intros u; simpl; rewrite Htimes; lia|].
  assert (forall l k x, rp_kplus p = l -> 1 <= k -> nth_error l (Z.to_nat (k - 1)) = Some x -> reach p k = Ok x) as Hreach.
  { intros l k x El Hk1 Hx. unfold reach, max_frequency. rewrite El.
    assert (Z.to_nat (k - 1) < length l)%nat by (apply nth_error_Some; congruence).
    destruct (Z.ltb_spec 0 k); [|lia]. destruct (Z.leb_spec k (Z.of_nat (length l))); [|lia].
    cbn [andb]. rewrite py_index_nonneg by lia. rewrite Hx. reflexivity. }
  split; intros Hlt.
  - destruct (Z.leb_spec (Zsum imps) r); [lia|]. intros k Hkm.
    destruct (nth_error kp0 (Z.to_nat (k - 1))) as [n|] eqn:En; [|apply nth_error_None in En; lia].
    exists n. split; [|eapply Hreach; eauto; lia].
    eapply card_is_ext; [|apply (Hk _ _ En)]. intros u. simpl. rewrite Htimes. lia.
  - destruct (Z.leb_spec (Zsum imps) r); [|lia]. split.
    + eapply Hreach; [exact E2|lia|reflexivity].
    + intros k Hkm. eapply Hreach; [exact E2|lia|].
      replace (Z.to_nat (k - 1)) with (S (Z.to_nat (k - 2))) by lia. cbn [nth_error].
      rewrite (nth_error_nth' _ 0) by (rewrite repeat_length; lia).
      f_equal. apply nth_repeat.
Qed.
End exact.
