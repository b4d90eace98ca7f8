(** C20-C23: simulated reach and privacy budgets of the Halo simulator and strategies. *)
From Coq Require Import String Lqa.
From Verif Require Import Prelude ModelReachPoint ModelData SpecData ModelPrivacy SpecPrivacy
  PrivacyLemmas ModelHalo SpecHalo ModelStrategy ReachPointLemmas DataLemmas DataLemmas2
  DataLemmas3 PropsReachPoint PropsData HaloLemmas SpecVenn VennLemmas HaloLemmas2.
Open Scope Z_scope.

(** External code used by the examples: sketches that remember every id, an estimator that
    counts users exactly, and no noise. *)
Definition ex_externals : externals := {|
  rng := Z;
  rng_integers := fun g => (g, g + 1);
  rng_multinomial := fun g n _ => (Ok (repeat 1 (Z.to_nat n)), g + 1);
  rng_hypergeometric := fun g pop n => (Ok pop, g + 1);
  rng_normal := fun g mean _ => (Ok (inject_Z mean), g + 1);
  geometric_noise := fun _ _ _ => Ok 0;
  sketch := list Z;
  sketch_new := fun _ => [];
  sketch_add := fun sk ids => sk ++ ids;
  sketch_merge := fun a b => Ok (a ++ b);
  estimate := fun cfg sk =>
    Ok (map (fun k => inject_Z (Z.of_nat (List.length
          (filter (fun c => Z.of_nat k <=? c) (dict_values (counter sk))))))
        (seq 1 (Z.to_nat (Z.max 0 (ec_max_freq cfg)))));
  output_privacy_parameters := fun cfg =>
    [(ec_reach_epsilon cfg, ec_reach_delta cfg); (ec_frequency_epsilon cfg, ec_frequency_delta cfg)];
  ll_std := fun _ _ => Ok 1%Q |}.

Definition ex_ll : liquid_legions := {| ll_decay_rate := 13; ll_sketch_size := 1000; ll_random_seed := 1 |}.
Definition ex_halo : halo :=
  match mk_halo ex_data_set [1; 1]%Q ex_ll with
  | Ok h => h
  | Err _ => {| h_data_set := ex_data_set; h_ll := ex_ll; h_publishers := [] |}
  end.
Lemma ex_is_halo : is_halo_of [ex_log1; ex_log2] ex_halo.
Proof. exists ex_data_set, [1; 1]%Q, ex_ll. split; [apply ex_is_data_set|reflexivity]. Qed.
Definition ex_world : world ex_externals := {| w_tracker := new_tracker; w_rng := 0 : rng ex_externals |}.
Definition ex_budget : budget := {| epsilon := 1; delta := 1#100 |}.

Lemma ex_honest : honest_estimator ex_externals.
Proof.
  intros cfg. simpl. split; [split; ring|]. intros [H1 [H2 [H3 H4]]] ed [<-|[<-|[]]]; auto.
Qed.
Lemma ex_all_frequencies cfg sk l :
  1 <= ec_max_freq cfg -> estimate ex_externals cfg sk = Ok l -> Z.of_nat (length l) = ec_max_freq cfg.
Proof. intros H E. inversion E. rewrite map_length, seq_length. lia. Qed.

(** ** C20 *)

(** For every behaviour of sketches, estimator and random generator: a returned point has
    non-negative k+ reaches that do not increase with k, carries the spends, the impressions
    that the data set reports for them, and the universe size. *)
Theorem C20_simulated_reach_well_formed : forall X h spends b split m (w w' : world X) p,
  simulated_reach_by_spend h spends b split m w = (Ok p, w') ->
  1 <= max_frequency p /\
  (forall k, 1 <= k <= max_frequency p -> exists r, reach p k = Ok r /\ 0 <= r) /\
  (forall k r r', 1 <= k < max_frequency p -> reach p k = Ok r -> reach p (k + 1) = Ok r' -> r' <= r) /\
  ds_impressions_by_spend (h_data_set h) spends = Ok (rp_impressions p) /\
  rp_spends p = Some spends /\
  universe_size p = Ok (ds_universe (h_data_set h)).
Proof.
  intros X h spends b split m w w' p H.
  assert (spends <> []) as Hne.
  { intros ->. unfold simulated_reach_by_spend, mbind, mlift in H.
    destruct (py_index (h_publishers h) 0); simpl in H; discriminate. }
  destruct (simulated_reach_inv _ _ _ _ _ _ _ _ H)
    as [cfg [sk [est [kp [imps [kp' [r1 [_ [_ [Ekp [Ei [Er [Ekp' Ep]]]]]]]]]]]]].
  assert (Hmin := min_accumulate_spec (map (fun x => Z.max x 0) (map py_round est))).
  destruct Hmin as [L1 [P1 D1]].
  { intros x Hx. apply in_map_iff in Hx. destruct Hx as [y [<- _]]. lia. }
  rewrite <- Ekp in *.
  assert (kp <> []) as Hkp by (intros ->; discriminate).
  assert ((forall x, In x kp' -> 0 <= x) /\ descending kp' /\ kp' <> []) as [P2 [D2 N2]].
  { subst kp'. destruct (Zsum imps <=? r1); auto. split; [|split; [|discriminate]].
    - intros x [<-|Hx]; [lia|]. apply repeat_spec in Hx. lia.
    - apply descending_repeat. lia. }
  apply mk_reach_point_ok in Ep. destruct Ep as [E1 [E2 [E3 [E4 E5]]]].
  assert (forall l i a c, descending l -> nth_error l i = Some a -> nth_error l (S i) = Some c -> c <= a) as Hdesc.
  { induction l as [|x l IH]; intros i a c Hd Ha Hc; [destruct i; discriminate|].
    apply descending_cons in Hd. destruct Hd as [Hh Hd]. destruct i; simpl in *.
    - inversion Ha; subst. destruct l; [discriminate|]. simpl in Hc. inversion Hc; subst.
      apply Hh. reflexivity.
    - eauto. }
  split. { unfold max_frequency. rewrite E2. destruct kp'; [congruence|]. cbn [length]. lia. }
  split.
  { intros k Hk. unfold reach. destruct (Z.ltb_spec 0 k); [|lia].
    destruct (Z.leb_spec k (max_frequency p)); [|lia]. cbn [andb]. rewrite py_index_nonneg by lia.
    unfold max_frequency in *. rewrite E2 in *.
    destruct (nth_error kp' (Z.to_nat (k - 1))) as [x|] eqn:En.
    - exists x. split; auto. apply P2. eapply nth_error_In; eauto.
    - apply nth_error_None in En. lia. }
  split.
  { intros k r r' Hk H1 H2. apply reach_spec in H1. apply reach_spec in H2.
    destruct H1 as [_ H1], H2 as [_ H2]. rewrite E2 in *.
    replace (Z.to_nat (k + 1 - 1)) with (S (Z.to_nat (k - 1))) in H2 by lia.
    eapply Hdesc; eauto. }
  split; [congruence|]. split; [|unfold universe_size; rewrite E4; reflexivity].
  rewrite E5. destruct spends; [congruence|]. reflexivity.
Qed.
Print Assumptions C20_simulated_reach_well_formed.

(** The number of k+ reaches is the requested one if the estimator honours its own argument. *)
Theorem C20_requested_frequencies : forall X h spends b split m (w w' : world X) p,
  (forall cfg sk l, ec_max_freq cfg = m -> estimate X cfg sk = Ok l -> Z.of_nat (length l) = m) ->
  1 <= m ->
  simulated_reach_by_spend h spends b split m w = (Ok p, w') -> max_frequency p = m.
Proof.
  intros X h spends b split m w w' p HX Hm H.
  destruct (simulated_reach_inv _ _ _ _ _ _ _ _ H)
    as [cfg [sk [est [kp [imps [kp' [r1 [Ecfg [Eest [Ekp [Ei [Er [Ekp' Ep]]]]]]]]]]]]].
  apply HX in Eest; auto.
  apply mk_reach_point_ok in Ep. destruct Ep as [_ [E2 _]]. unfold max_frequency. rewrite E2. subst kp'.
  destruct (Zsum imps <=? r1).
  - cbn [length]. rewrite repeat_length. lia.
  - subst kp. destruct (min_accumulate_spec (map (fun x => Z.max x 0) (map py_round est))) as [L _].
    { intros x Hx. apply in_map_iff in Hx. destruct Hx as [y [<- _]]. lia. }
    rewrite L, !map_length. auto.
Qed.
Print Assumptions C20_requested_frequencies.

(** The impressions of the point are those priced at most the spend, when logs are kept in
    price order. *)
Theorem C20_impressions_bought : forall X logs h spends b split m (w w' : world X) p,
  is_halo_of logs h -> length spends = length logs -> Forall increasing_prices logs ->
  simulated_reach_by_spend h spends b split m w = (Ok p, w') ->
  rp_impressions p = bought logs spends.
Proof.
  intros X logs h spends b split m w w' p Hh Hl Hi H.
  apply C20_simulated_reach_well_formed in H. destruct H as [_ [_ [_ [H _]]]].
  destruct (halo_fields logs h Hh) as [Hd _].
  rewrite (ds_impressions_bought logs _ spends Hd Hl Hi) in H. inversion H. auto.
Qed.
Print Assumptions C20_impressions_bought.

(** A request succeeds whenever the spends match the publishers and the sketch library does
    not fail. *)
Theorem C20_request_succeeds : forall X logs h spends b split m (w : world X),
  is_halo_of logs h -> logs <> [] -> length spends = length logs ->
  (forall a c, exists s, sketch_merge X a c = Ok s) ->
  (forall cfg sk, exists x l, estimate X cfg sk = Ok (x :: l)) ->
  exists p w', simulated_reach_by_spend h spends b split m w = (Ok p, w').
Proof.
  intros X logs h spends b split m w Hh Hne Hl Hmerge Hest.
  destruct (halo_fields logs h Hh) as [Hd [HP Hdata]].
  pose proof (Forall2_len _ _ _ HP) as HL.
  assert (forall i, 0 <= i < Z.of_nat (length spends) ->
    (exists p, py_index (h_publishers h) i = Ok p) /\ exists s, py_index spends i = Ok s) as Hidx.
  { intros i Hi. rewrite !py_index_nonneg by lia. split.
    - destruct (nth_error (h_publishers h) (Z.to_nat i)) eqn:E; [eauto|]. apply nth_error_None in E. lia.
    - destruct (nth_error spends (Z.to_nat i)) eqn:E; [eauto|]. apply nth_error_None in E. lia. }
  assert (0 < length spends)%nat by (destruct logs; [congruence|simpl in Hl; lia]).
  unfold simulated_reach_by_spend.
  destruct (Hidx 0 ltac:(lia)) as [[p0 E0] [s0 Es0]].
  unfold mbind at 1, mlift at 1. rewrite E0. unfold mbind at 1, mlift at 1. rewrite Es0. cbv zeta.
  assert (forall w : world X, exists z w', draw_seed w = (Ok z, w')) as Hseed.
  { intros w0. unfold draw_seed, mdraw. destruct (rng_integers X (w_rng w0)). eauto. }
  unfold mbind at 1. destruct (Hseed w) as [z1 [w1 E1]]. rewrite E1.
  unfold mbind at 1. destruct (Hseed w1) as [z2 [w2 E2]]. rewrite E2.
  assert (forall l a (w : world X), (forall i, In i l -> 0 <= i < Z.of_nat (length spends)) ->
    exists sk, mfold (merge_step h spends) l a w = (Ok sk, w)) as Hfold.
  { induction l as [|i l IH]; intros a w0 Hin; simpl; [unfold mret; eauto|].
    destruct (Hidx i (Hin i (or_introl eq_refl))) as [[pi Ei] [si Esi]].
    unfold merge_step at 1, mbind, mlift. rewrite Ei, Esi.
    destruct (Hmerge a (liquid_legions_sketch X (h_ll h) pi si)) as [sk Em]. rewrite Em.
    apply IH. intros j Hj. apply Hin. right; auto. }
  unfold mbind at 1.
  destruct (Hfold (py_range 1 (Z.of_nat (length spends))) (liquid_legions_sketch X (h_ll h) p0 s0) w2) as [sk Esk].
  { intros i Hi. unfold py_range in Hi. apply in_map_iff in Hi. destruct Hi as [n [<- Hn]].
    apply in_seq in Hn. lia. }
  rewrite Esk. unfold mbind at 1, mlift at 1.
  match goal with |- context [estimate X ?c sk] => destruct (Hest c sk) as [x [l Eest]] end.
  rewrite Eest. unfold mbind at 1.
  assert (forall evs (w : world X), exists w', mfold (fun (_ : unit) ed => mappend (halo_event (fst ed) (snd ed) "Discrete Gaussian")) evs tt w = (Ok tt, w')) as Hev.
  { induction evs as [|ed evs IH]; intros w0; simpl; [unfold mret; eauto|].
    unfold mbind at 1, mappend at 1. apply IH. }
  match goal with |- context [mfold _ ?evs tt w2] => destruct (Hev evs w2) as [w3 Ew3] end.
  rewrite Ew3. unfold mbind at 1, mlift at 1.
  assert (length spends = publisher_count (h_data_set h)) as Hpc.
  { unfold publisher_count. rewrite <- Hdata, map_length. congruence. }
  rewrite (ds_impressions_ok _ _ Hpc).
  unfold mbind at 1, mlift at 1. simpl map at 1. cbn [map min_accumulate].
  rewrite py_index_nonneg by lia. cbn [Z.to_nat nth_error].
  unfold mlift. unfold publisher_count in Hpc. 
  match goal with |- context [mk_reach_point Zops ?i ?k (Some spends) ?u] =>
    destruct (mk_reach_point_same_length Zops i k spends u) as [p Ep];
      [rewrite map_length, combine_length; lia|] end.
  rewrite Ep. eauto.
Qed.
Print Assumptions C20_request_succeeds.

Example C20_example : exists p w',
  simulated_reach_by_spend ex_halo [4#100; 4#100]%Q ex_budget (1#2) 3 ex_world = (Ok p, w') /\
  reach p 1 = Ok 2 /\ reach p 2 = Ok 2 /\ reach p 3 = Ok 0 /\ max_frequency p = 3 /\
  rp_impressions p = [3; 1].
Proof. do 2 eexists. split; [vm_compute; reflexivity|]. repeat split. Qed.

(** ** C21 *)

(** The claim holds as soon as at least two impressions are shown. *)
Theorem C21_reach_below_impressions : forall X h spends b split m (w w' : world X) p r,
  simulated_reach_by_spend h spends b split m w = (Ok p, w') ->
  2 <= Zsum (rp_impressions p) -> reach p 1 = Ok r -> r < Zsum (rp_impressions p).
Proof.
  intros X h spends b split m w w' p r H H2 Hr.
  destruct (simulated_reach_inv _ _ _ _ _ _ _ _ H)
    as [cfg [sk [est [kp [imps [kp' [r1 [_ [_ [Ekp [Ei [Er [Ekp' Ep]]]]]]]]]]]]].
  apply mk_reach_point_ok in Ep. destruct Ep as [E1 [E2 _]].
  apply reach_spec in Hr. destruct Hr as [_ Hr]. rewrite E1 in *. rewrite E2 in Hr.
  simpl in Hr. subst kp'. destruct (Z.leb_spec (Zsum imps) r1).
  - simpl in Hr. inversion Hr. lia.
  - rewrite py_index_nonneg in Er by lia. simpl in Er. destruct kp; [discriminate|].
    simpl in *. inversion Er; inversion Hr; subst. auto.
Qed.
Print Assumptions C21_reach_below_impressions.

(** It fails for spends that buy no impression or one: the code returns reach 1. *)
Theorem C21_no_impressions_refuted : exists X h spends b split m (w w' : world X) p r,
  is_halo_of [ex_log1; ex_log2] h /\ Forall (fun s => 0 < s)%Q spends /\
  simulated_reach_by_spend h spends b split m w = (Ok p, w') /\
  Zsum (rp_impressions p) = 0 /\ reach p 1 = Ok r /\ ~ r < Zsum (rp_impressions p).
Proof.
  exists ex_externals, ex_halo, [1#1000; 1#1000]%Q, ex_budget, (1#2)%Q, 1, ex_world.
  do 3 eexists. split; [apply ex_is_halo|]. split; [repeat constructor|].
  split; [vm_compute; reflexivity|]. split; [reflexivity|]. split; [reflexivity|].
  vm_compute. discriminate.
Qed.
Print Assumptions C21_no_impressions_refuted.

Theorem C21_one_impression_refuted : exists X h spends b split m (w w' : world X) p r,
  is_halo_of [ex_log1; ex_log2] h /\ Forall (fun s => 0 < s)%Q spends /\
  simulated_reach_by_spend h spends b split m w = (Ok p, w') /\
  Zsum (rp_impressions p) = 1 /\ reach p 1 = Ok r /\ ~ r < Zsum (rp_impressions p).
Proof.
  exists ex_externals, ex_halo, [1#100; 1#1000]%Q, ex_budget, (1#2)%Q, 1, ex_world.
  do 3 eexists. split; [apply ex_is_halo|]. split; [repeat constructor|].
  split; [vm_compute; reflexivity|]. split; [reflexivity|]. split; [reflexivity|].
  vm_compute. discriminate.
Qed.
Print Assumptions C21_one_impression_refuted.

Example C21_example : exists p w',
  simulated_reach_by_spend ex_halo [2#100; 0]%Q ex_budget (1#2) 1 ex_world = (Ok p, w') /\
  Zsum (rp_impressions p) = 2 /\ reach p 1 = Ok 1.
Proof. do 2 eexists. split; [vm_compute; reflexivity|]. repeat split. Qed.

(** ** C22 *)

Theorem C22_reach_request_charges_budget : forall X h spends b split m,
  honest_estimator X -> sensible_budget b -> (0 <= split <= 1)%Q ->
  charges (X:=X) (simulated_reach_by_spend h spends b split m) (epsilon b) (delta b).
Proof. intros. apply chg_charges, chg_simulated_reach; auto. Qed.
Print Assumptions C22_reach_request_charges_budget.

Theorem C22_venn_request_charges_budget : forall X h spends b split m,
  sensible_budget b -> (0 <= split <= 1)%Q -> Exists (fun s => ~ (s == 0)%Q) spends ->
  charges (X:=X) (simulated_venn h spends b split m) (epsilon b) (delta b).
Proof. intros. apply chg_charges, chg_venn; auto. Qed.
Print Assumptions C22_venn_request_charges_budget.

(** With only zero spends nothing is charged, nothing is drawn and nothing is returned. *)
Theorem C22_venn_zero_spends_free : forall X h spends b split (w : world X),
  Forall (fun s => (s == 0)%Q) spends ->
  simulated_venn h spends b split 1 w = (Ok [], w).
Proof. intros. apply venn_zero; auto. Qed.
Print Assumptions C22_venn_zero_spends_free.

(** A Venn request for another maximum frequency raises and charges nothing. *)
Theorem C22_venn_frequency_refused : forall X h spends b split m (w : world X),
  m <> 1 -> simulated_venn h spends b split m w = (Err ValueError, w).
Proof.
  intros. unfold simulated_venn. apply Z.eqb_neq in H. rewrite H. reflexivity.
Qed.
Print Assumptions C22_venn_frequency_refused.

Example C22_example :
  honest_estimator ex_externals /\ sensible_budget ex_budget /\
  let w' := snd (simulated_reach_by_spend ex_halo [4#100; 4#100]%Q ex_budget (1#4) 3 ex_world) in
  (epsilon (privacy_consumption (w_tracker w')) == 1 /\
   delta (privacy_consumption (w_tracker w')) == 1#100)%Q.
Proof.
  split; [apply ex_honest|]. split; [unfold sensible_budget, ex_budget; simpl; split; lra|].
  vm_compute. auto.
Qed.
Example C22_venn_example : exists pts w',
  simulated_venn ex_halo [4#100; 4#100]%Q ex_budget (1#4) 1 ex_world = (Ok pts, w') /\
  length pts = 3%nat /\
  (epsilon (privacy_consumption (w_tracker w')) == 1 /\
   delta (privacy_consumption (w_tracker w')) == 1#100)%Q.
Proof. do 2 eexists. split; [vm_compute; reflexivity|]. split; [reflexivity|]. vm_compute. auto. Qed.

(** ** C23 *)

(** During and after an M3 fit, successful or not, the consumption never exceeds what was
    there before plus the budget. *)
Theorem C23_m3_within_budget : forall X S gt h b,
  honest_estimator X -> sensible_budget b ->
  stays_within (X:=X) (m3_fit S gt h b) (epsilon b) (delta b).
Proof.
  intros X S gt h b HX Hb. pose proof Hb as [He Hd].
  eapply chg_stays; [apply (chg_m3 S gt h b HX Hb)| |];
  set (p := h_publisher_count h); unfold m3_requests; simpl epsilon; simpl delta.
  - rewrite (div_share (epsilon b) p) at 2. pose proof (div_nonneg _ p He).
    destruct (2 <? p)%nat; [apply Qle_refl|]. apply Qmult_le_compat_r; auto.
    rewrite <- Zle_Qle. lia.
  - rewrite (div_share (delta b) p) at 2. pose proof (div_nonneg _ p Hd).
    destruct (2 <? p)%nat; [apply Qle_refl|]. apply Qmult_le_compat_r; auto.
    rewrite <- Zle_Qle. lia.
Qed.
Print Assumptions C23_m3_within_budget.

(** A successful fit with more than two publishers consumes exactly the budget. *)
Theorem C23_m3_exact : forall X S gt h b,
  honest_estimator X -> sensible_budget b -> (2 < h_publisher_count h)%nat ->
  charges (X:=X) (m3_fit S gt h b) (epsilon b) (delta b).
Proof.
  intros X S gt h b HX Hb Hp. apply chg_charges.
  eapply chg_weaken; [| |apply (chg_m3 S gt h b HX Hb)];
  unfold m3_requests; apply Nat.ltb_lt in Hp; rewrite Hp; symmetry; apply div_share.
Qed.
Print Assumptions C23_m3_exact.

(** With one or two publishers it consumes the share (p+1)/(2p+1) of the budget. *)
Theorem C23_m3_few_publishers : forall X S gt h b,
  honest_estimator X -> sensible_budget b -> (h_publisher_count h <= 2)%nat ->
  let p := Z.of_nat (h_publisher_count h) in
  let share := (inject_Z (p + 1) / inject_Z (2 * p + 1))%Q in
  charges (X:=X) (m3_fit S gt h b) (share * epsilon b) (share * delta b).
Proof.
  intros X S gt h b HX Hb Hp p share. apply chg_charges.
  pose proof (inject_pos (h_publisher_count h)) as Hpos. fold p in Hpos.
  assert (~ inject_Z (2 * p + 1) == 0)%Q by (intros C; rewrite C in Hpos; lra).
  eapply chg_weaken; [| |apply (chg_m3 S gt h b HX Hb)];
  unfold m3_requests; apply Nat.ltb_ge in Hp; rewrite Hp; unfold share; simpl; fold p; field; auto.
Qed.
Print Assumptions C23_m3_few_publishers.

Theorem C23_single_publisher_exact : forall X S h b,
  honest_estimator X -> sensible_budget b ->
  charges (X:=X) (single_publisher_fit S h b) (epsilon b) (delta b).
Proof. intros. apply chg_charges, chg_single_publisher; auto. Qed.
Print Assumptions C23_single_publisher_exact.

Theorem C23_single_publisher_within_budget : forall X S h b,
  honest_estimator X -> sensible_budget b ->
  stays_within (X:=X) (single_publisher_fit S h b) (epsilon b) (delta b).
Proof. intros. eapply chg_stays; [apply chg_single_publisher; auto|lra|lra]. Qed.
Print Assumptions C23_single_publisher_within_budget.

Definition ex_modelers : modelers := {|
  curve := reach_point Z Z; surface := list (reach_point Z Z);
  fit_single := fun p => Ok p;
  ground_truth_curve_of := fun d i => reach_by_spend d (repeat 0%Q (publisher_count d)) 1;
  fit_multi := fun _ pts => Ok pts |}.
Example C23_example : exists s w',
  m3_fit ex_modelers false ex_halo ex_budget ex_world = (Ok (inr s), w') /\
  length s = 1%nat /\
  (epsilon (privacy_consumption (w_tracker w')) == 3#5)%Q.
Proof. do 2 eexists. split; [vm_compute; reflexivity|]. split; vm_compute; auto. Qed.

(** Three publishers: all-but-one requests are made and the whole budget is consumed. *)
Definition ex_log3 : list row := [(1, (1#100)%Q); (5, (2#100)%Q); (6, (3#100)%Q)].
Definition ex_halo3 : halo :=
  match (pubs <- mapM (fun l => mk_publisher "r" l (Some "p"%string)) [ex_log1; ex_log2; ex_log3] ;;
         d <- mk_data_set pubs (Some "d"%string) None ;; mk_halo d [1; 1; 1#2]%Q ex_ll) with
  | Ok h => h
  | Err _ => ex_halo
  end.
Example C23_example3 : exists s w',
  m3_fit ex_modelers false ex_halo3 ex_budget ex_world = (Ok (inr s), w') /\
  length s = 4%nat /\
  (epsilon (privacy_consumption (w_tracker w')) == 1 /\
   delta (privacy_consumption (w_tracker w')) == 1#100)%Q.
Proof. do 2 eexists. split; [vm_compute; reflexivity|]. vm_compute. auto. Qed.
