(** C44, C45: what the simulator measures and what the M3 strategy is trained on, when the
    sketch library makes no error. *)
From Coq Require Import String Lqa.
From Verif Require Import Prelude ModelReachPoint ModelData SpecData ModelPrivacy SpecPrivacy
  PrivacyLemmas ModelHalo SpecHalo ModelStrategy ReachPointLemmas DataLemmas DataLemmas2
  DataLemmas3 PropsReachPoint PropsData HaloLemmas SpecVenn VennLemmas HaloLemmas2 PropsHalo
  SpecExact ExactLemmas ExactLemmas2.
Open Scope Z_scope.

(** ** C44 *)

(** The campaign spend of a publisher is its fraction of its largest possible spend. *)
Theorem C44_campaign_spends : forall logs fractions h,
  is_halo_with logs fractions h -> campaigns_of logs fractions (campaign_spends h).
Proof. exact campaigns_are. Qed.
Print Assumptions C44_campaign_spends.

(** With an exact sketch library, a request reports the users that the publishers together
    show at least k impressions, each at its spend or its campaign spend if that is less. *)
Theorem C44_reach_of_campaign : forall X times logs fractions campaigns h spends b split m
    (w w' : world X) p,
  exact_sketches X times -> is_halo_with logs fractions h ->
  campaigns_of logs fractions campaigns -> length spends = length logs -> 1 <= m ->
  simulated_reach_by_spend h spends b split m w = (Ok p, w') ->
  exact_reaches (fun u => total_seen (seen_at_spend u) logs (at_most campaigns spends))
    (Zsum (rp_impressions p)) m p.
Proof.
  intros X times logs fractions campaigns h spends b split m w w' p HX Hh Hc HL Hm H.
  destruct (halo_fields _ _ (halo_with_of _ _ _ Hh)) as [_ [HF _]].
  pose proof (Forall2_len _ _ _ HF) as HL2.
  eapply exact_reaches_ext; [|eapply simulated_reach_exact; eauto].
  intros u. cbv beta. rewrite part_seen_at_most by congruence.
  apply total_seen_Qeq, at_most_Qeq. eapply campaigns_unique; eauto. apply campaigns_are; auto.
Qed.
Print Assumptions C44_reach_of_campaign.

(** Within the campaign spends this is the true reach, provided it is below the number of
    impressions. *)
Theorem C44_matches_truth : forall X times logs fractions campaigns h spends b split m
    (w w' : world X) p q r k,
  exact_sketches X times -> is_halo_with logs fractions h ->
  campaigns_of logs fractions campaigns -> length spends = length logs ->
  (forall i c s, nth_error campaigns i = Some c -> nth_error spends i = Some s -> (s <= c)%Q) ->
  simulated_reach_by_spend h spends b split m w = (Ok p, w') ->
  true_reach_by_spend h spends m = Ok q ->
  reach q 1 = Ok r -> r < Zsum (rp_impressions p) -> 1 <= k <= m ->
  reach p k = reach q k.
Proof.
  intros X times logs fractions campaigns h spends b split m w w' p q r k HX Hh Hc HL Hle H Hq Hr Hlt Hk.
  pose proof (C44_reach_of_campaign X times logs fractions campaigns h spends b split m w w' p HX Hh Hc HL ltac:(lia) H) as HE.
  rewrite at_most_same in HE; [|destruct Hc; congruence|eauto].
  destruct (halo_fields _ _ (halo_with_of _ _ _ Hh)) as [Hd _].
  destruct (reach_by_spend_card logs _ spends m 1 Hd HL ltac:(lia)) as [q1 [r1 [E1 [E2 C1]]]].
  destruct (reach_by_spend_card logs _ spends m k Hd HL Hk) as [qk [rk [F1 [F2 Ck]]]].
  unfold true_reach_by_spend in Hq. rewrite E1 in Hq. injection Hq as ->.
  rewrite E1 in F1. injection F1 as <-. rewrite E2 in Hr. injection Hr as ->.
  destruct HE as [_ [n1 [D1 [G _]]]]. assert (n1 = r) by (eapply card_is_unique; eauto). subst n1.
  destruct (G Hlt k Hk) as [n [D R]]. rewrite R, F2. f_equal. eapply card_is_unique; eauto.
Qed.
Print Assumptions C44_matches_truth.

(** A publisher asked for more than its campaign spend only reports its campaign. *)
Theorem C44_spend_is_capped : forall X times logs fractions campaigns h spends spends' b b' split split' m
    (w w' v v' : world X) p p' k r r',
  exact_sketches X times -> is_halo_with logs fractions h ->
  campaigns_of logs fractions campaigns ->
  length spends = length logs -> length spends' = length logs ->
  at_most campaigns spends = at_most campaigns spends' ->
  simulated_reach_by_spend h spends b split m w = (Ok p, w') ->
  simulated_reach_by_spend h spends' b' split' m v = (Ok p', v') ->
  1 <= k <= m -> reach p 1 = Ok r -> reach p' 1 = Ok r' ->
  r < Zsum (rp_impressions p) - 1 -> r' < Zsum (rp_impressions p') - 1 ->
  reach p k = reach p' k.
Proof.
  intros X times logs fractions campaigns h spends spends' b b' split split' m w w' v v' p p' k r r'
    HX Hh Hc HL HL' Heq H H' Hk Hr Hr' Hlt Hlt'.
  assert (1 <= m) as Hm by lia.
  pose proof (C44_reach_of_campaign _ _ _ _ _ _ _ _ _ _ _ _ _ HX Hh Hc HL Hm H) as HE.
  pose proof (C44_reach_of_campaign _ _ _ _ _ _ _ _ _ _ _ _ _ HX Hh Hc HL' Hm H') as HE'.
  rewrite <- Heq in HE'.
  destruct HE as [_ [n1 [D1 [G1 G2]]]]. destruct HE' as [_ [n1' [D1' [G1' G2']]]].
  destruct (Z_lt_le_dec n1 (Zsum (rp_impressions p))) as [L1|L1].
  2: { destruct (G2 L1) as [E _]. rewrite Hr in E. injection E as E. lia. }
  destruct (Z_lt_le_dec n1' (Zsum (rp_impressions p'))) as [L2|L2].
  2: { destruct (G2' L2) as [E _]. rewrite Hr' in E. injection E as E. lia. }
  destruct (G1 L1 k Hk) as [n [A B]]. destruct (G1' L2 k Hk) as [n' [A' B']].
  rewrite B, B'. f_equal. eapply card_is_unique; eauto.
Qed.
Print Assumptions C44_spend_is_capped.

(** The sketches of the examples are exact. *)
Lemma ex_exact : exact_sketches ex_externals (fun sk u => Z.of_nat (count_occ Z.eq_dec sk u)).
Proof.
  assert (forall l u, Z.of_nat (count_occ Z.eq_dec l u) = dict_get (counter l) u) as HC.
  { intros l u. rewrite counter_get. unfold occ. induction l as [|a l IH]; auto.
    cbn [count_occ filter]. destruct (Z.eq_dec a u) as [->|N].
    - rewrite Z.eqb_refl. cbn [length]. lia.
    - destruct (Z.eqb_spec a u); [congruence|]. auto. }
  split; [reflexivity|]. split.
  { intros sk ids u. simpl. rewrite count_occ_app. lia. }
  split.
  { intros a b s u E. inversion E. rewrite count_occ_app. lia. }
  intros cfg sk l Hm E. inversion E; subst l. clear E. split.
  { rewrite map_length, seq_length. lia. }
  intros k x Hx. rewrite nth_error_map in Hx.
  destruct (nth_error (seq 1 _) k) as [n|] eqn:En; [|discriminate]. simpl in Hx. inversion Hx; subst x.
  assert (n = S k) as ->.
  { assert (k < Z.to_nat (Z.max 0 (ec_max_freq cfg)))%nat as Hlt
      by (rewrite <- (seq_length (Z.to_nat (Z.max 0 (ec_max_freq cfg))) 1); apply nth_error_Some; congruence).
    pose proof (nth_error_nth _ _ 0%nat En) as E. rewrite seq_nth in E by auto. lia. }
  eexists. split; [|reflexivity].
  eapply card_is_ext; [|apply (count_ge_card (counter sk) (Z.of_nat (S k)))].
  - intros u. cbv beta. rewrite HC. lia.
  - apply counter_wf.
  - lia.
Qed.

Lemma ex_is_halo_with : is_halo_with [ex_log1; ex_log2] [1; 1]%Q ex_halo.
Proof. exists ex_data_set, ex_ll. split; [apply ex_is_data_set|reflexivity]. Qed.
Definition ex_half : halo :=
  match mk_halo ex_data_set [1; 1#2]%Q ex_ll with Ok h => h | Err _ => ex_halo end.
Lemma ex_half_with : is_halo_with [ex_log1; ex_log2] [1; 1#2]%Q ex_half.
Proof. exists ex_data_set, ex_ll. split; [apply ex_is_data_set|reflexivity]. Qed.

(** Publisher 2 spends half of 6/100, so user 4 is not reached although the request allows
    for it. *)
Example C44_example : exists p w',
  simulated_reach_by_spend ex_half [5#100; 6#100]%Q ex_budget (1#2) 2 ex_world = (Ok p, w') /\
  map Qred (campaign_spends ex_half) = [1#20; 3#100]%Q /\
  reach p 1 = Ok 3 /\ reach p 2 = Ok 2 /\ rp_impressions p = [4; 2].
Proof. do 2 eexists. split; [vm_compute; reflexivity|]. repeat split. Qed.

(** ** C45 *)

Lemma mmap_Forall2 {X A B} (f : A -> M X B) l : forall ys (w w' : world X),
  mmap f l w = (Ok ys, w') -> Forall2 (fun x y => exists v v', f x v = (Ok y, v')) l ys.
Proof.
  induction l as [|x l IH]; intros ys w w' H; simpl in H.
  - inversion H. constructor.
  - unfold mbind at 1 in H. destruct (f x w) as [[y|] w1] eqn:E; [|discriminate].
    unfold mbind at 1 in H. destruct (mmap f l w1) as [[r|] w2] eqn:E2; [|discriminate].
    inversion H; subst. constructor; eauto.
Qed.

Lemma Forall2_nth {A B} (R : A -> B -> Prop) l l' : Forall2 R l l' ->
  forall i x y, nth_error l i = Some x -> nth_error l' i = Some y -> R x y.
Proof. induction 1; intros [|i] a b E1 E2; simpl in *; try discriminate; [congruence|eauto]. Qed.

Lemma range_nth n i : (i < n)%nat -> nth_error (py_range 0 (Z.of_nat n)) i = Some (Z.of_nat i).
Proof.
  intros H. unfold py_range. rewrite Z.sub_0_r, Nat2Z.id, nth_error_map.
  rewrite (nth_error_nth' _ 0%nat) by (rewrite seq_length; auto). rewrite seq_nth by auto. reflexivity.
Qed.
Lemma range_length n : length (py_range 0 (Z.of_nat n)) = n.
Proof. unfold py_range. rewrite map_length, seq_length. lia. Qed.

Lemma campaign_nonneg log f c : Forall (fun r => (0 < snd r)%Q) log -> (0 <= f)%Q ->
  campaign_of log f c -> (0 <= c)%Q.
Proof.
  intros Hp Hf [t [H1 [_ H2]]]. rewrite H2. apply in_map_iff in H1. destruct H1 as [r [<- H1]].
  rewrite Forall_forall in Hp. apply Hp in H1. apply Qmult_le_0_compat; [auto|]. apply Qlt_le_weak; auto.
Qed.

Lemma request_measured {X} times logs fractions h spends b split m (w w' : world X) p :
  exact_sketches X times -> is_halo_with logs fractions h -> Forall increasing_prices logs ->
  length spends = length logs -> 1 <= m ->
  (forall i c s, nth_error (campaign_spends h) i = Some c -> nth_error spends i = Some s -> (s <= c)%Q) ->
  simulated_reach_by_spend h spends b split m w = (Ok p, w') ->
  measured logs spends m p.
Proof.
  intros HX Hh Hi HL Hm Hle H.
  assert (logs <> []) as Hne.
  { intros ->. destruct (campaigns_index _ _ _ Hh) as [_ [E _]].
    unfold simulated_reach_by_spend, mbind, mlift in H. destruct (h_publishers h); discriminate. }
  pose proof (C44_reach_of_campaign X times logs fractions _ h spends b split m w w' p HX Hh (campaigns_are _ _ _ Hh) HL Hm H) as HE.
  rewrite at_most_same in HE; [|destruct (campaigns_are _ _ _ Hh); congruence|eauto].
  pose proof (C20_impressions_bought X logs h spends b split m w w' p (halo_with_of _ _ _ Hh) HL Hi H) as HB.
  apply C20_simulated_reach_well_formed in H. destruct H as [_ [_ [_ [_ [Hs _]]]]].
  split; [auto|]. split; [auto|]. rewrite <- HB. auto.
Qed.

Lemma seen_zero u log : Forall (fun r => (0 < snd r)%Q) log -> seen_at_spend u log 0 = 0.
Proof.
  intros H. pose proof (seen_at_spend_nonneg u log 0).
  destruct (Z_le_gt_dec 1 (seen_at_spend u log 0)) as [C|]; [|lia].
  apply seen_at_spend_in in C. destruct C as [q [Hin Hq]]. rewrite Forall_forall in H.
  apply H in Hin. simpl in Hin. lra.
Qed.
Lemma bought_zero log : Forall (fun r => (0 < snd r)%Q) log -> bought_at_spend log 0 = 0.
Proof.
  unfold bought_at_spend. induction 1 as [|r log Hr H IH]; auto. simpl filter.
  destruct (Qle_bool (snd r) 0) eqn:E; auto. apply Qle_bool_iff in E. lra.
Qed.

Lemma one_active_seen u logs i log c : positive_prices logs -> nth_error logs i = Some log ->
  total_seen (seen_at_spend u) logs (set_nth i c (repeat 0%Q (length logs))) = seen_at_spend u log c.
Proof.
  intros H. assert (forall l, positive_prices l -> total_seen (seen_at_spend u) l (repeat 0%Q (length l)) = 0) as HZ.
  { induction 1; simpl; auto. rewrite seen_zero, IHForall by auto. auto. }
  revert i. induction H as [|l logs Hl H IH]; intros [|i] E; simpl in *; try discriminate.
  - injection E as ->. rewrite HZ by auto. lia.
  - rewrite IH, seen_zero by auto. lia.
Qed.
Lemma one_active_bought logs i log c : positive_prices logs -> nth_error logs i = Some log ->
  nth_error (bought logs (set_nth i c (repeat 0%Q (length logs)))) i = Some (bought_at_spend log c) /\
  Zsum (bought logs (set_nth i c (repeat 0%Q (length logs)))) = bought_at_spend log c.
Proof.
  intros H. assert (forall l, positive_prices l -> Zsum (bought l (repeat 0%Q (length l))) = 0) as HZ.
  { induction 1; unfold bought in *; simpl; auto. rewrite bought_zero by auto. rewrite IHForall. reflexivity. }
  revert i. unfold bought in *. induction H as [|l logs Hl H IH]; intros [|i] E; simpl in *; try discriminate.
  - injection E as ->. split; auto. rewrite HZ by auto. lia.
  - destruct (IH i E) as [IH1 IH2]. split; auto. rewrite IH2, bought_zero by auto. lia.
Qed.

Lemma list_ext {A} (l l' : list A) : (forall i, nth_error l i = nth_error l' i) -> l = l'.
Proof.
  revert l'. induction l as [|x l IH]; intros [|y l'] H; auto.
  - specialize (H 0%nat). discriminate.
  - specialize (H 0%nat). discriminate.
  - f_equal; [specialize (H 0%nat); simpl in H; congruence|]. apply IH. intros i. apply (H (S i)).
Qed.

Lemma mapM_reach (p : reach_point Z Z) kp :
  mapM (fun k => reach p k) (py_range 1 (max_frequency p + 1)) = Ok kp -> kp = rp_kplus p.
Proof.
  intros H. apply mapM_Forall2 in H. unfold max_frequency in H.
  assert (py_range 1 (Z.of_nat (length (rp_kplus p)) + 1) = map (fun i => Z.of_nat i + 1) (seq 0 (length (rp_kplus p)))) as E.
  { unfold py_range. replace (Z.to_nat (Z.of_nat (length (rp_kplus p)) + 1 - 1)) with (length (rp_kplus p)) by lia.
    apply map_ext. intros; lia. }
  rewrite E in H. pose proof (Forall2_len _ _ _ H) as L. rewrite map_length, seq_length in L.
  apply list_ext. intros i. destruct (le_lt_dec (length kp) i) as [G|G].
  - rewrite !(proj2 (nth_error_None _ _)) by lia. reflexivity.
  - destruct (nth_error kp i) as [x|] eqn:Ex; [|apply nth_error_None in Ex; lia].
    assert (nth_error (map (fun i => Z.of_nat i + 1) (seq 0 (length (rp_kplus p)))) i = Some (Z.of_nat i + 1)) as E1.
    { rewrite nth_error_map, (nth_error_nth' _ 0%nat) by (rewrite seq_length; lia).
      rewrite seq_nth by lia. reflexivity. }
    pose proof (Forall2_nth _ _ _ H _ _ _ E1 Ex) as R. cbv beta in R. apply reach_spec in R.
    destruct R as [_ R]. replace (Z.to_nat (Z.of_nat i + 1 - 1)) with i in R by lia. auto.
Qed.

(** For every exact sketch library and every single and multi publisher models, a successful
    M3 fit has measured the whole campaign, each publisher's campaign alone and, if there are
    more than two publishers, the campaign without each publisher in turn. The curves are
    fitted to the single measurements (or are the ground truth), and the surface to the curves
    and the other measurements. *)
Theorem C45_m3_training_data : forall X times S (gt : bool) logs fractions h b (w w' : world X) r,
  exact_sketches X times -> is_halo_with logs fractions h ->
  Forall increasing_prices logs -> positive_prices logs -> Forall (fun f => (0 <= f)%Q) fractions ->
  m3_fit S gt h b w = (Ok r, w') ->
  exists campaigns total singles others curves,
    campaigns_of logs fractions campaigns /\
    measured logs campaigns 1 total /\
    length singles = length logs /\
    (forall i log c p, nth_error logs i = Some log -> nth_error campaigns i = Some c ->
       nth_error singles i = Some p ->
       rp_spends p = Some [c] /\ rp_impressions p = [bought_at_spend log c] /\
       exact_reaches (fun u => seen_at_spend u log c) (bought_at_spend log c) 10 p) /\
    length others = (if (2 <? length logs)%nat then length logs else 0%nat) /\
    (forall i p, nth_error others i = Some p ->
       exists spends, zeroed i campaigns spends /\ measured logs spends 1 p) /\
    length curves = length logs /\
    (forall i p c, nth_error singles i = Some p -> nth_error curves i = Some c ->
       if gt then ground_truth_curve_of S (h_data_set h) (Z.of_nat i) = Ok c
       else fit_single S p = Ok c) /\
    match r with
    | inl c => length logs = 1%nat /\ curves = [c]
    | inr s => length logs <> 1%nat /\ fit_multi S curves (others ++ [total]) = Ok s
    end.
Proof.
  intros X times S gt logs fractions h b w w' r HX Hh Hi Hpos Hfr H.
  pose proof (campaigns_are _ _ _ Hh) as Hc. destruct (campaigns_index _ _ _ Hh) as [HLf [HLp _]].
  assert (h_publisher_count h = length logs) as HP by exact HLp.
  set (cs := campaign_spends h) in *. assert (length cs = length logs) as HLc by (destruct Hc; auto).
  assert (forall i c, nth_error cs i = Some c -> (0 <= c)%Q) as Hnn.
  { intros i c E. assert (i < length cs)%nat by (apply nth_error_Some; congruence).
    destruct (nth_error logs i) as [log|] eqn:E1; [|apply nth_error_None in E1; lia].
    destruct (nth_error fractions i) as [f|] eqn:E2; [|apply nth_error_None in E2; lia].
    destruct Hc as [_ [_ Hc]]. eapply (campaign_nonneg log f); eauto.
    - unfold positive_prices in Hpos. rewrite Forall_forall in Hpos. apply Hpos. eapply nth_error_In; eauto.
    - rewrite Forall_forall in Hfr. apply Hfr. eapply nth_error_In; eauto. }
  unfold m3_fit in H. rewrite HP in H. cbv zeta in H. set (pb := per_request_budget b (length logs)) in *.
  fold cs in H.
  unfold mbind at 1 in H. destruct (simulated_reach_by_spend h cs pb (1#2) 1 w) as [[total|] w1] eqn:Et; [|discriminate].
  unfold mbind at 1 in H. destruct (mmap (single_pub_request h pb (length logs)) _ w1) as [[singles|] w2] eqn:Es; [|discriminate].
  unfold mbind at 1 in H.
  match type of H with context [match ?e w2 with _ => _ end] =>
    destruct (e w2) as [[others|] w3] eqn:Eo; [|discriminate] end.
  unfold mbind at 1, mlift at 1 in H.
  match type of H with context [match ?e with Ok _ => _ | Err _ => _ end] =>
    destruct e as [curves|] eqn:Ec; [|discriminate] end.
  exists cs, total, singles, others, curves.
  split; [auto|]. split.
  { eapply request_measured; eauto; [lia|]. intros i c s E1 E2.
    assert (c = s) as -> by (unfold cs in *; congruence). apply Qle_refl. }
  apply mmap_Forall2 in Es. pose proof (Forall2_len _ _ _ Es) as Ls. rewrite range_length in Ls.
  split; [auto|]. split.
  { intros i log c p E1 E2 E3.
    assert (i < length logs)%nat as Hil by (apply nth_error_Some; congruence).
    pose proof (Forall2_nth _ _ _ Es _ _ _ (range_nth _ _ Hil) E3) as [v [v' R]].
    unfold single_pub_request in R. fold cs in R.
    unfold mbind at 1, mlift at 1 in R. rewrite py_index_nonneg in R by lia. rewrite Nat2Z.id, E2 in R.
    unfold mbind at 1, mlift at 1 in R.
    rewrite py_set_ok in R by (rewrite repeat_length; lia). rewrite Nat2Z.id in R.
    set (vec := set_nth i c (repeat 0%Q (length logs))) in *.
    unfold mbind at 1 in R. destruct (simulated_reach_by_spend h vec pb (1#2) 10 v) as [[rp|] v1] eqn:Er; [|discriminate].
    unfold mbind at 1, mlift at 1 in R.
    match type of R with context [mapM ?f ?l] => destruct (mapM f l) as [kp|] eqn:Ek; [|discriminate] end.
    apply mapM_reach in Ek. subst kp.
    assert (measured logs vec 10 rp) as [M1 [M2 M3]].
    { eapply request_measured; eauto; [unfold vec; rewrite set_nth_length, repeat_length; auto|lia|].
      intros j x s F1 F2. unfold vec in F2. fold cs in F1. destruct (Nat.eq_dec i j) as [<-|N].
      - rewrite nth_error_set_nth_eq in F2 by (rewrite repeat_length; auto).
        assert (x = s) as -> by congruence. apply Qle_refl.
      - rewrite nth_error_set_nth_neq in F2 by auto. apply nth_error_In, repeat_spec in F2. subst s.
        eapply Hnn; eauto. }
    destruct (one_active_bought logs i log c Hpos E1) as [B1 B2]. fold vec in B1, B2.
    unfold mbind at 1, mlift at 1 in R. rewrite M2 in R. rewrite py_index_nonneg in R by lia.
    rewrite Nat2Z.id, B1 in R. unfold mbind at 1, mlift at 1 in R. rewrite M1 in R.
    rewrite py_index_nonneg in R by lia. rewrite Nat2Z.id in R. unfold vec in R.
    rewrite nth_error_set_nth_eq in R by (rewrite repeat_length; auto).
    unfold mlift in R. injection R as R _.
    assert (rp_impressions p = [bought_at_spend log c] /\ rp_kplus p = rp_kplus rp /\ rp_spends p = Some [c])
      as [R1 [R2 R5]] by (rewrite <- R; auto). split; [auto|]. split; [auto|].
    rewrite B2 in M3.
    assert (forall k, reach p k = reach rp k) as HR by (intros k; unfold reach, max_frequency; rewrite R2; auto).
    apply (exact_reaches_ext _ (fun u => seen_at_spend u log c)) in M3;
      [|intros u; cbv beta; apply one_active_seen; auto].
    destruct M3 as [N1 [n1 [N2 [N3 N4]]]]. split.
    { unfold max_frequency in *. rewrite R2. auto. }
    exists n1. split; [auto|]. split.
    - intros Hl k Hk. destruct (N3 Hl k Hk) as [n [C1 C2]]. exists n. rewrite HR. auto.
    - intros Hl. destruct (N4 Hl) as [C1 C2]. split; [rewrite HR; auto|]. intros k Hk. rewrite HR. auto. }
  assert (length others = (if (2 <? length logs)%nat then length logs else 0%nat)) as Lo.
  { destruct (2 <? length logs)%nat.
    - apply mmap_Forall2, Forall2_len in Eo. rewrite range_length in Eo. auto.
    - inversion Eo. reflexivity. }
  split; [exact Lo|]. split.
  { intros i p E. assert (i < length others)%nat as Hio by (apply nth_error_Some; congruence).
    destruct (2 <? length logs)%nat eqn:E2; [|lia]. rewrite Lo in Hio.
    apply mmap_Forall2 in Eo.
    pose proof (Forall2_nth _ _ _ Eo _ _ _ (range_nth _ _ Hio) E) as [v [v' R]].
    unfold all_but_one_request in R. fold cs in R. unfold mbind at 1, mlift at 1 in R.
    rewrite py_set_ok in R by lia. rewrite Nat2Z.id in R.
    exists (set_nth i 0%Q cs). split.
    - split; [apply set_nth_length|]. split; [apply nth_error_set_nth_eq; lia|].
      intros j Hj. apply nth_error_set_nth_neq; auto.
    - eapply request_measured; eauto; [rewrite set_nth_length; auto|lia|].
      fold cs. intros j c s F1 F2. destruct (Nat.eq_dec i j) as [<-|N].
      + rewrite nth_error_set_nth_eq in F2 by lia. assert (s = 0%Q) as -> by congruence. eapply Hnn; eauto.
      + rewrite nth_error_set_nth_neq in F2 by auto. assert (c = s) as -> by congruence. apply Qle_refl. }
  apply mapM_Forall2 in Ec. pose proof (Forall2_len _ _ _ Ec) as Lc. rewrite range_length in Lc.
  split; [auto|]. split.
  { intros i p c E1 E2. assert (i < length logs)%nat as Hil by (rewrite Lc; apply nth_error_Some; congruence).
    pose proof (Forall2_nth _ _ _ Ec _ _ _ (range_nth _ _ Hil) E2) as R. cbv beta in R.
    destruct gt; auto. rewrite py_index_nonneg in R by lia. rewrite Nat2Z.id, E1 in R. auto. }
  destruct (Nat.eqb_spec (length logs) 1) as [E1|E1].
  - destruct curves as [|c [|? ?]]; simpl in Lc; try lia.
    unfold mbind, mlift, mret in H. simpl in H. inversion H; subst. auto.
  - unfold mbind, mlift, mret in H. destruct (fit_multi S curves (others ++ [total])) as [s|] eqn:Ef; [|discriminate].
    inversion H; subst. auto.
Qed.
Print Assumptions C45_m3_training_data.

(** The single publisher strategy fits its curve to the whole campaign, measured up to
    frequency 20. *)
Theorem C45_single_publisher_training_data : forall X times S logs fractions h b (w w' : world X) c,
  exact_sketches X times -> is_halo_with logs fractions h -> Forall increasing_prices logs ->
  single_publisher_fit S h b w = (Ok c, w') ->
  exists log spend p, logs = [log] /\ campaign_of log (nth 0 fractions 0%Q) spend /\
    measured [log] [spend] 20 p /\ fit_single S p = Ok c.
Proof.
  intros X times S logs fractions h b w w' c HX Hh Hi H. unfold single_publisher_fit in H.
  destruct (campaigns_index _ _ _ Hh) as [HLf [HLp _]].
  destruct (Nat.eqb_spec (h_publisher_count h) 1) as [E|E]; [|discriminate]. simpl in H.
  unfold h_publisher_count in E. rewrite HLp in E. destruct logs as [|log [|? ?]]; try discriminate.
  unfold mbind at 1 in H.
  destruct (simulated_reach_by_spend h (campaign_spends h) b (1#2) 20 w) as [[p|] w1] eqn:Et; [|discriminate].
  pose proof (campaigns_are _ _ _ Hh) as Hc. destruct Hc as [L1 [L2 L3]].
  destruct (campaign_spends h) as [|s [|? ?]] eqn:Ecs; try discriminate.
  destruct fractions as [|f fs]; [simpl in L2; lia|].
  exists log, s, p. split; [auto|]. split; [apply (L3 0%nat); reflexivity|]. split.
  - eapply request_measured; eauto; [lia|]. rewrite Ecs. intros i x y E1 E2.
    assert (x = y) as -> by congruence. apply Qle_refl.
  - unfold mlift in H. inversion H. auto.
Qed.
Print Assumptions C45_single_publisher_training_data.

Lemma ex_halo3_with : is_halo_with [ex_log1; ex_log2; ex_log3] [1; 1; 1#2]%Q ex_halo3.
Proof.
  unfold is_halo_with, ex_halo3.
  destruct (mapM (fun l => mk_publisher "r" l (Some "p"%string)) [ex_log1; ex_log2; ex_log3]) as [pubs|] eqn:E; [|discriminate].
  cbn [bind]. destruct (mk_data_set pubs (Some "d"%string) None) as [d|] eqn:Ed; [|discriminate].
  exists d, ex_ll. split.
  - exists pubs, (Some "d"%string), None. split; auto. apply mapM_Forall2 in E.
    clear -E. induction E; constructor; auto. exists "r"%string, (Some "p"%string). auto.
  - cbn [bind].
    assert (exists h, mk_halo d [1; 1; 1#2]%Q ex_ll = Ok h) as [h ->].
    { vm_compute in E. inversion E; subst pubs. vm_compute in Ed. inversion Ed; subst d.
      eexists. vm_compute. reflexivity. }
    reflexivity.
Qed.

(** The points the strategy of the example is trained on. *)
Example C45_example : exists s w',
  m3_fit ex_modelers false ex_halo3 ex_budget ex_world = (Ok (inr s), w') /\
  Forall increasing_prices [ex_log1; ex_log2; ex_log3] /\
  positive_prices [ex_log1; ex_log2; ex_log3] /\
  map (fun p => (rp_impressions p, rp_kplus p)) s =
    [([0; 2; 1], [2]); ([4; 0; 1], [3]); ([4; 2; 0], [4]); ([4; 2; 1], [4])].
Proof.
  do 2 eexists. split; [vm_compute; reflexivity|]. split; [|split; [|vm_compute; reflexivity]].
  - repeat constructor; vm_compute; discriminate.
  - repeat constructor.
Qed.

(** ** C46 *)

(** A publisher's own true reach counts the users it shows at least k impressions at the
    spend, whatever its campaign spend is. *)
Theorem C46_publisher_true_reach : forall logs h i log pub s m,
  is_halo_of logs h -> nth_error logs i = Some log -> nth_error (h_publishers h) i = Some pub ->
  1 <= m ->
  exists p, pub_true_reach_by_spend pub s m = Ok p /\
    rp_spends p = Some [s] /\ rp_impressions p = [bought_at_spend log s] /\ max_frequency p = m /\
    forall k, 1 <= k <= m -> exists n, reach p k = Ok n /\ card_is (fun u => k <= seen_at_spend u log s) n.
Proof.
  intros logs h i log pub s m Hh E1 E2 Hm.
  destruct (halo_fields _ _ Hh) as [_ [HF _]].
  pose proof (Forall2_nth _ _ _ HF _ _ _ E1 E2) as Hp. cbv beta in Hp.
  unfold pub_true_reach_by_spend.
  assert (dict_wf (user_counts_by_spend (pub_data pub) s)) as W by apply counter_wf.
  destruct (C03_kplus_counts_users (user_counts_by_spend (pub_data pub) s) m Hm) as [kp [Ek [Lk Nk]]].
  { intros u c Hin. apply W. unfold dict_values. apply in_map_iff. exists (u, c). auto. }
  rewrite Ek. cbn [bind]. rewrite (user_counts_total log) by auto.
  destruct (mk_reach_point_same_length Zops [bought_at_spend log s] kp [s] None eq_refl) as [p Ep].
  exists p. split; [auto|]. apply mk_reach_point_ok in Ep. destruct Ep as [P1 [P2 [_ [_ P5]]]].
  split; [auto|]. split; [auto|].
  assert (max_frequency p = m) as HM by (unfold max_frequency; rewrite P2, Lk; lia).
  split; [auto|]. intros k Hk.
  eexists. split; [apply reach_spec; rewrite P2; split; [lia|apply Nk; auto]|].
  rewrite <- count_ge_users. eapply card_is_ext; [|apply (count_ge_card _ k W); lia].
  intros u. cbv beta. rewrite (user_counts_by_spend_get log) by auto. tauto.
Qed.
Print Assumptions C46_publisher_true_reach.

(** It agrees with the simulator's true reach when no other publisher spends. *)
Theorem C46_agrees_with_data_set : forall logs h i pub s m k p q spends,
  is_halo_of logs h -> positive_prices logs -> nth_error (h_publishers h) i = Some pub ->
  spends = set_nth i s (repeat 0%Q (length logs)) ->
  1 <= k <= m -> pub_true_reach_by_spend pub s m = Ok p -> true_reach_by_spend h spends m = Ok q ->
  reach p k = reach q k /\ Zsum (rp_impressions p) = Zsum (rp_impressions q).
Proof.
  intros logs h i pub s m k p q spends Hh Hpos E2 -> Hk Hp Hq.
  destruct (halo_fields _ _ Hh) as [Hd [HF Hdata]]. pose proof (Forall2_len _ _ _ HF) as HL.
  assert (i < length logs)%nat as Hi by (rewrite HL; apply nth_error_Some; congruence).
  destruct (nth_error logs i) as [log|] eqn:E1; [|apply nth_error_None in E1; lia].
  destruct (C46_publisher_true_reach logs h i log pub s m Hh E1 E2 ltac:(lia)) as [p' [F1 [_ [F3 [_ F5]]]]].
  rewrite Hp in F1. injection F1 as <-. destruct (F5 k Hk) as [n [R C]].
  set (v := set_nth i s (repeat 0%Q (length logs))) in *.
  assert (length v = length logs) as Lv by (unfold v; rewrite set_nth_length, repeat_length; auto).
  destruct (reach_by_spend_ok logs _ v m Hd Lv ltac:(lia))
    as [q' [counts [imps [G1 [W [G [_ [I1 [I2 [_ [_ GR]]]]]]]]]]].
  unfold true_reach_by_spend in Hq. rewrite Hq in G1. injection G1 as <-.
  split.
  - rewrite R, (GR k Hk). f_equal. eapply card_is_unique; [exact C|].
    eapply card_is_ext; [|apply (count_ge_card _ k W); lia].
    intros u. cbv beta. rewrite G. unfold v. rewrite (one_active_seen u logs i log s) by auto. tauto.
  - rewrite F3, I1, I2. destruct (one_active_bought logs i log s Hpos E1) as [_ B]. fold v in B.
    replace (Zsum [bought_at_spend log s]) with (bought_at_spend log s) by (simpl; lia).
    rewrite <- B. f_equal. rewrite <- Hdata. unfold bought. clear -HF.
    generalize v. induction HF as [|l p ls ps Hp HF IH]; intros [|x v0]; simpl; auto.
    f_equal; [|apply IH]. symmetry. apply user_counts_total; auto.
Qed.
Print Assumptions C46_agrees_with_data_set.

(** With free impressions the other publishers reach users without spending. *)
Theorem C46_free_impressions_refuted : exists logs h i pub s spends p q,
  is_halo_of logs h /\ nth_error (h_publishers h) i = Some pub /\
  spends = set_nth i s (repeat 0%Q (length logs)) /\
  pub_true_reach_by_spend pub s 1 = Ok p /\ true_reach_by_spend h spends 1 = Ok q /\
  reach p 1 <> reach q 1.
Proof.
  set (logs := [[(1, (1#100)%Q)]; [(2, 0%Q)]]).
  set (pubs := match mapM (fun l => mk_publisher "r" l (Some "p"%string)) logs with Ok l => l | Err _ => [] end).
  set (d := match mk_data_set pubs (Some "d"%string) None with Ok d => d | Err _ => ex_data_set end).
  set (h := match mk_halo d [1; 1]%Q ex_ll with Ok h => h | Err _ => ex_halo end).
  exists logs, h, 0%nat. eexists. exists (1#100)%Q. do 3 eexists.
  split.
  { exists d, [1; 1]%Q, ex_ll. split; [|reflexivity]. exists pubs, (Some "d"%string), None.
    split; [|reflexivity]. repeat constructor; exists "r"%string, (Some "p"%string); reflexivity. }
  split; [reflexivity|]. split; [reflexivity|]. split; [vm_compute; reflexivity|].
  split; [vm_compute; reflexivity|]. vm_compute. discriminate.
Qed.
Print Assumptions C46_free_impressions_refuted.

Example C46_example : exists pub p q,
  nth_error (h_publishers ex_halo) 0 = Some pub /\ positive_prices [ex_log1; ex_log2] /\
  pub_true_reach_by_spend pub (4#100) 2 = Ok p /\
  true_reach_by_spend ex_halo [4#100; 0]%Q 2 = Ok q /\
  reach p 1 = Ok 2 /\ reach p 2 = Ok 1 /\ reach q 2 = Ok 1 /\ rp_impressions p = [3].
Proof.
  do 3 eexists. split; [reflexivity|]. split; [repeat constructor|].
  split; [vm_compute; reflexivity|]. split; [vm_compute; reflexivity|]. repeat split.
Qed.
