From Coq Require Import String Lqa.
From Verif Require Import Prelude ModelReachPoint ModelData SpecData ModelPrivacy SpecPrivacy
  PrivacyLemmas ModelHalo SpecHalo ModelStrategy ReachPointLemmas DataLemmas DataLemmas2
  DataLemmas3 HaloLemmas SpecVenn VennLemmas.
Open Scope Z_scope.

Lemma total_sel_nonneg sel es : is_sel sel -> Forall valid_event es -> (0 <= total_sel sel es)%Q.
Proof.
  intros Hs. induction 1 as [|e es He Hes IH]; unfold total_sel in *; simpl; [lra|].
  pose proof (valid_sel sel e Hs He). lra.
Qed.

Lemma total_sel_firstn sel es k : is_sel sel -> Forall valid_event es ->
  (total_sel sel (firstn k es) <= total_sel sel es)%Q.
Proof.
  intros Hs Hv. rewrite <- (firstn_skipn k es) at 2. rewrite total_sel_app.
  pose proof (total_sel_nonneg sel (skipn k es) Hs).
  assert (Forall valid_event (skipn k es)) as Hk.
  { rewrite Forall_forall in *. intros x Hx. apply Hv. rewrite <- (firstn_skipn k es). apply in_or_app; auto. }
  specialize (H Hk). lra.
Qed.

Lemma Forall_firstn {A} (P : A -> Prop) l k : Forall P l -> Forall P (firstn k l).
Proof.
  intros H. rewrite Forall_forall in *. intros x Hx. apply H.
  rewrite <- (firstn_skipn k l). apply in_or_app; auto.
Qed.

Lemma chg_stays {X A} (m : M X A) e d e' d' : chg m e d -> (e <= e')%Q -> (d <= d')%Q ->
  stays_within m e' d'.
Proof.
  intros H He Hd w es0 Hv Hw. destruct (H w) as [es [E [Hve [Hf [Hee [Hdd Hok]]]]]].
  exists es. split; auto. split.
  { rewrite E, Hw. unfold tracker_of. rewrite fold_left_app. reflexivity. }
  intros k. rewrite Hw.
  assert (forall sel, is_sel sel -> (sel (privacy_consumption (tracker_of (es0 ++ firstn k es))) ==
    sel (privacy_consumption (tracker_of es0)) + total_sel sel (firstn k es))%Q) as HA.
  { intros sel Hs. apply consumption_add_full; auto; apply Forall_firstn; auto. }
  rewrite (HA epsilon (or_introl eq_refl)), (HA delta (or_intror eq_refl)).
  pose proof (total_sel_firstn epsilon es k (or_introl eq_refl) Hve).
  pose proof (total_sel_firstn delta es k (or_intror eq_refl) Hve). lra.
Qed.

Lemma chg_run {X A} (m m' : M X A) e d : (forall w, m w = m' w) -> chg m e d -> chg m' e d.
Proof. intros E H w. rewrite <- E. apply H. Qed.

(** ** Venn requests *)

Lemma bump_region_keys d k i d' : bump_region d k i = Ok d' -> map fst d' = map fst d.
Proof.
  revert d'. induction d as [|[a l] d IH]; intros d' H; simpl in H; [discriminate|].
  destruct (k =? a).
  - destruct (py_index l i); [|discriminate]. simpl in H. destruct (py_set l i _); [|discriminate].
    inversion H. reflexivity.
  - destruct (bump_region d k i) as [r|]; [|discriminate]. inversion H. simpl. f_equal. auto.
Qed.
Lemma bump_regions_keys m I users d d' : bump_regions m I users d = Ok d' -> map fst d' = map fst d.
Proof.
  revert d. induction users as [|[u r] users IH]; intros d H; simpl in H; [inversion H; auto|].
  destruct (bump_region d r _) as [d1|] eqn:E; [|discriminate]. simpl in H.
  rewrite (IH _ H). eapply bump_region_keys; eauto.
Qed.

Lemma nonempty_subsets_nil {A} (l : list A) : nonempty_subsets l = [] -> l = [].
Proof.
  intros H. destruct l as [|x l]; auto. exfalso.
  assert (In (filter (fun _ => true) (x :: l)) (nonempty_subsets (x :: l))) as Hin
    by (apply nonempty_subsets_filter; simpl; congruence).
  rewrite H in Hin. destruct Hin.
Qed.

Lemma active_counts_nil pubs spends i : 0 <= i ->
  active_counts_from pubs i spends = Ok [] <-> Forall (fun s => (s == 0)%Q) spends.
Proof.
  revert i. induction spends as [|s spends IH]; intros i Hi; simpl.
  - split; auto.
  - destruct (Qeqb s 0) eqn:E.
    + apply Qeq_bool_iff in E. rewrite IH by lia. split; intros H; [constructor; auto|inversion H; auto].
    + apply Qeq_bool_neq in E. split.
      * intros H. destruct (py_index pubs i); [|discriminate]. simpl in H.
        destruct (active_counts_from pubs (i + 1) spends); discriminate.
      * intros H. inversion H; subst. contradiction.
Qed.

Lemma form_regions_nil h spends m : 
  form_venn_diagram_regions h spends m = Ok [] <-> Forall (fun s => (s == 0)%Q) spends.
Proof.
  unfold form_venn_diagram_regions. split.
  - intros H. destruct (active_counts_from (h_publishers h) 0 spends) as [act|] eqn:Ea; [|discriminate].
    simpl in H. destruct (_ <? length act)%nat; [discriminate|].
    destruct (fold_left locate_users act ([], [])) as [R I].
    destruct (bump_regions _ _ _ _) as [d|] eqn:Eb; [|discriminate]. simpl in H.
    inversion H as [Hd]. apply map_eq_nil in Hd. subst d.
    apply bump_regions_keys in Eb. simpl in Eb. symmetry in Eb. apply map_eq_nil in Eb.
    apply map_eq_nil in Eb. apply map_eq_nil in Eb. apply nonempty_subsets_nil in Eb.
    apply map_eq_nil in Eb. subst act. apply active_counts_nil in Ea; auto; lia.
  - intros H. apply (active_counts_nil (h_publishers h) spends 0 ltac:(lia)) in H.
    rewrite H. reflexivity.
Qed.

Lemma chg_venn {X} h spends b split m : sensible_budget b -> (0 <= split <= 1)%Q ->
  Exists (fun s => ~ (s == 0)%Q) spends ->
  chg (X:=X) (simulated_venn h spends b split m) (epsilon b) (delta b).
Proof.
  intros Hb Hs Hex. unfold simulated_venn.
  destruct (negb (m =? 1)).
  { eapply chg_weaken with (e := (epsilon b)) (d := delta b); try reflexivity.
    destruct Hb. intros w. exists []. unfold total_sel. simpl. repeat split; auto; try lra; discriminate. }
  destruct (form_venn_diagram_regions h spends m) as [regions|e] eqn:E.
  - destruct regions as [|r rs].
    + exfalso. apply form_regions_nil in E. apply Exists_exists in Hex. destruct Hex as [s [H1 H2]].
      rewrite Forall_forall in E. auto.
    + pose proof Hb as [He Hd].
      apply (chg_run (p <~ mlift (true_reach_by_spend h spends 1) ;;
        card <~ mlift (reach p 1) ;;
        size <~ num_active_regions h card ;;
        sampled <~ sample_venn_diagram (r :: rs) size ;;
        noisy <~ add_dp_noise sampled b split ;;
        std <~ mlift (ll_std X (h_ll h) card) ;;
        scaled <~ scale_up noisy card std b (1 - split) ;;
        mlift (generate_reach_points h spends scaled)) _); [reflexivity|].
      apply chg_bind0; auto using chg_lift. intros p.
      apply chg_bind0; auto using chg_lift. intros card.
      apply chg_venn_tail; auto.
  - destruct Hb. intros w. exists []. unfold total_sel. simpl. repeat split; auto; try lra; discriminate.
Qed.

Lemma venn_zero {X} h spends b split (w : world X) : Forall (fun s => (s == 0)%Q) spends ->
  simulated_venn h spends b split 1 w = (Ok [], w).
Proof.
  intros H. unfold simulated_venn. cbn [negb Z.eqb Pos.eqb].
  apply (form_regions_nil h spends 1) in H. rewrite H. reflexivity.
Qed.

(** ** Strategies *)

Lemma inject_pos n : (0 < inject_Z (2 * Z.of_nat n + 1))%Q.
Proof. change 0%Q with (inject_Z 0). rewrite <- Zlt_Qlt. lia. Qed.

Lemma div_share x n : (x == inject_Z (2 * Z.of_nat n + 1) * (x / inject_Z (2 * Z.of_nat n + 1)))%Q.
Proof. pose proof (inject_pos n). field. intros C. rewrite C in H. lra. Qed.

Lemma div_nonneg x n : (0 <= x)%Q -> (0 <= x / inject_Z (2 * Z.of_nat n + 1))%Q.
Proof. intros H. apply Qle_shift_div_l; [apply inject_pos|]. lra. Qed.

(** Number of requests M3 makes. *)
Definition m3_requests (p : nat) : Z := if (2 <? p)%nat then 2 * Z.of_nat p + 1 else Z.of_nat p + 1.

Lemma chg_m3 {X} S gt h b : honest_estimator X -> sensible_budget b ->
  let pb := per_request_budget b (h_publisher_count h) in
  let n := inject_Z (m3_requests (h_publisher_count h)) in
  chg (X:=X) (m3_fit S gt h b) (n * epsilon pb) (n * delta pb).
Proof.
  intros HX [He Hd] pb n. unfold m3_fit. set (p := h_publisher_count h) in *. fold pb.
  assert (sensible_budget pb) as [He' Hd'] by (split; simpl; apply div_nonneg; auto).
  assert (forall x, 0 <= x -> 0 <= inject_Z (Z.of_nat p) * x)%Q as Hmul.
  { intros x Hx. apply Qmul_nonneg; auto. unfold Qle, inject_Z; simpl; lia. }
  assert (Hlen : length (py_range 0 (Z.of_nat p)) = p) by (rewrite py_range_length; lia).
  set (k := if (2 <? p)%nat then inject_Z (Z.of_nat p) else 0%Q).
  assert (0 <= k * epsilon pb /\ 0 <= k * delta pb)%Q as [Hk1 Hk2].
  { unfold k. destruct (2 <? p)%nat; auto. split; lra. }
  assert (n == 1 + (inject_Z (Z.of_nat p) + k))%Q as En.
  { unfold n, m3_requests, k. destruct (2 <? p)%nat.
    - rewrite <- inject_Z_plus. change 1%Q with (inject_Z 1). rewrite <- inject_Z_plus.
      replace (2 * Z.of_nat p + 1) with (1 + (Z.of_nat p + Z.of_nat p)) by lia. reflexivity.
    - rewrite Z.add_comm, inject_Z_plus. change (inject_Z 1) with 1%Q. ring. }
  pose proof (Hmul _ He') as Hm1. pose proof (Hmul _ Hd') as Hm2.
  eapply chg_weaken with
    (e := (epsilon pb + (inject_Z (Z.of_nat p) * epsilon pb + (k * epsilon pb + 0)))%Q)
    (d := (delta pb + (inject_Z (Z.of_nat p) * delta pb + (k * delta pb + 0)))%Q);
    [rewrite En; ring|rewrite En; ring|].
  apply chg_bind; [lra|lra|apply chg_simulated_reach; auto; [split; auto|lra]|].
  intros total. apply chg_bind; [lra|lra| |].
  { pose proof (chg_mmap (X:=X) (single_pub_request h pb p) (py_range 0 (Z.of_nat p)) _ _ He' Hd') as HH.
    rewrite Hlen in HH. apply HH. intros i. apply chg_single_pub; auto. split; auto. }
  intros singles. apply chg_bind; [lra|lra| |].
  { unfold k. destruct (2 <? p)%nat.
    - pose proof (chg_mmap (X:=X) (all_but_one_request h pb) (py_range 0 (Z.of_nat p)) _ _ He' Hd') as HH.
      rewrite Hlen in HH. apply HH. intros i. apply chg_all_but_one; auto. split; auto.
    - eapply chg_weaken; [| |apply chg_ret]; ring. }
  intros abo. apply chg_bind0; [lra|lra|apply chg_lift|]. intros curves.
  destruct (Nat.eqb p 1); (apply chg_bind0; [lra|lra|apply chg_lift|]; intros; apply chg_ret).
Qed.

Lemma chg_single_publisher {X} S h b : honest_estimator X -> sensible_budget b ->
  chg (X:=X) (single_publisher_fit S h b) (epsilon b) (delta b).
Proof.
  intros HX [He Hd]. unfold single_publisher_fit. destruct (negb _).
  - intros w. exists []. unfold total_sel. simpl. repeat split; auto; try lra; discriminate.
  - eapply chg_weaken with (e := (epsilon b + 0)%Q) (d := (delta b + 0)%Q); [ring|ring|].
    apply chg_bind; [lra|lra| |intros; apply chg_lift].
    apply chg_simulated_reach; auto; [split; auto|lra].
Qed.

(** ** Impressions *)

Lemma py_index_combine {A B} (f : A -> Q -> B) (l : list A) (s : list Q) : length s = length l ->
  mapM (fun ip => x <- py_index s (Z.of_nat (fst ip)) ;; Ok (f (snd ip) x))
       (combine (seq 0 (length l)) l) =
  Ok (map (fun ls => f (fst ls) (snd ls)) (combine l s)).
Proof.
  intros Hl.
  assert (forall pre l s, length s = length l ->
    mapM (fun ip => x <- py_index (pre ++ s) (Z.of_nat (fst ip)) ;; Ok (f (snd ip) x))
       (combine (seq (length pre) (length l)) l) =
    Ok (map (fun ls => f (fst ls) (snd ls)) (combine l s))) as HG; [|apply (HG [] l s Hl)].
  clear. intros pre l. revert pre. induction l as [|a l IH]; intros pre s Hl; [reflexivity|].
  destruct s as [|x s]; [discriminate|]. simpl seq. cbn [combine mapM fst snd map].
  rewrite py_index_nonneg by lia. rewrite Nat2Z.id, nth_error_app2, Nat.sub_diag by lia. cbn [nth_error bind].
  specialize (IH (pre ++ [x]) s). rewrite <- app_assoc in IH. simpl app in IH.
  rewrite app_length in IH. simpl length in IH.
  replace (length pre + 1)%nat with (S (length pre)) in IH by lia.
  rewrite IH by (simpl in Hl; lia). reflexivity.
Qed.

Lemma ds_impressions_ok d spends : length spends = publisher_count d ->
  ds_impressions_by_spend d spends =
    Ok (map (fun ps => impressions_by_spend (fst ps) (snd ps)) (combine (ds_data d) spends)).
Proof.
  intros H. unfold ds_impressions_by_spend.
  apply (py_index_combine (fun p s => impressions_by_spend p s) (ds_data d) spends H).
Qed.

Lemma ds_impressions_bought logs d spends : is_data_set_of logs d ->
  length spends = length logs -> Forall increasing_prices logs ->
  ds_impressions_by_spend d spends = Ok (bought logs spends).
Proof.
  intros Hd Hl Hi. destruct Hd as [pubs [nm [un [HP E]]]]. apply data_set_fields in E.
  destruct E as [E _]. pose proof (Forall2_len _ _ _ HP) as HL.
  rewrite ds_impressions_ok by (unfold publisher_count; rewrite E; congruence).
  f_equal. rewrite E. unfold bought. clear -HP Hi Hl. revert spends Hl.
  induction HP as [|log p logs ps Hp HP IH]; intros spends Hl; [reflexivity|].
  destruct spends as [|s spends]; [discriminate|]. inversion Hi; subst. simpl.
  rewrite (impressions_by_spend_sorted log p s Hp) by auto. f_equal. apply IH; auto.
Qed.
