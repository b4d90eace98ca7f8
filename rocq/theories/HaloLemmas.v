From Coq Require Import String Lqa.
From Verif Require Import Prelude ModelReachPoint ModelData ModelPrivacy SpecPrivacy
  PrivacyLemmas ModelHalo SpecHalo ModelStrategy DataLemmas ReachPointLemmas.
Notation length := List.length.
Open Scope Z_scope.

(** Internal form of [charges]: the appended events are valid, full range, and sum up. *)
Definition chg {X A} (m : M X A) (e d : Q) : Prop :=
  forall w, exists es,
    w_tracker (snd (m w)) = fold_left append es (w_tracker w) /\
    Forall valid_event es /\ Forall full_range es /\
    (total_sel epsilon es <= e)%Q /\ (total_sel delta es <= d)%Q /\
    (forall a, fst (m w) = Ok a -> (total_sel epsilon es == e /\ total_sel delta es == d)%Q).

Lemma chg_charges {X A} (m : M X A) e d : chg m e d -> charges m e d.
Proof.
  intros H w es0 Hv Hw. destruct (H w) as [es [E [Hve [Hf [He [Hd Hok]]]]]].
  exists es. split; auto.
  assert (w_tracker (snd (m w)) = tracker_of (es0 ++ es)) as E'.
  { rewrite E, Hw. unfold tracker_of. rewrite fold_left_app. reflexivity. }
  split; auto. rewrite E', Hw.
  pose proof (consumption_add_full epsilon es0 es (or_introl eq_refl) Hv Hve Hf) as He'.
  pose proof (consumption_add_full delta es0 es (or_intror eq_refl) Hv Hve Hf) as Hd'.
  split; [lra|]. split; [lra|]. intros a Ha. destruct (Hok a Ha). lra.
Qed.

Lemma chg_weaken {X A} (m : M X A) e d e' d' : (e == e')%Q -> (d == d')%Q -> chg m e d -> chg m e' d'.
Proof.
  intros He Hd H w. destruct (H w) as [es [E [Hve [Hf [He' [Hd' Hok]]]]]].
  exists es. repeat split; auto; try lra; destruct (Hok a H0); lra.
Qed.

Lemma chg_ret {X A} (a : A) : chg (X:=X) (mret a) 0 0.
Proof. intros w. exists []. simpl. repeat split; auto; lra. Qed.
Lemma chg_lift {X A} (r : result A) : chg (X:=X) (mlift r) 0 0.
Proof. intros w. exists []. simpl. repeat split; auto; lra. Qed.
Lemma chg_draw {X A} (f : rng X -> result A * rng X) : chg (mdraw f) 0 0.
Proof.
  intros w. exists []. unfold mdraw. destruct (f (w_rng w)); simpl. repeat split; auto; lra.
Qed.
Lemma chg_seed {X} : chg (X:=X) draw_seed 0 0.
Proof. apply chg_draw. Qed.

Lemma chg_bind {X A B} (m : M X A) (f : A -> M X B) e1 d1 e2 d2 :
  (0 <= e2)%Q -> (0 <= d2)%Q ->
  chg m e1 d1 -> (forall a, chg (f a) e2 d2) -> chg (mbind m f) (e1 + e2) (d1 + d2).
Proof.
  intros He Hd Hm Hf w. destruct (Hm w) as [es [E [Hv [Hr [He1 [Hd1 Hok]]]]]].
  unfold mbind. destruct (m w) as [[a|err] w'] eqn:Em; simpl in *.
  - destruct (Hf a w') as [es2 [E2 [Hv2 [Hr2 [He2 [Hd2 Hok2]]]]]].
    exists (es ++ es2). rewrite fold_left_app, <- E. split; auto.
    split; [apply Forall_app; auto|]. split; [apply Forall_app; auto|].
    rewrite !total_sel_app. destruct (Hok a eq_refl). split; [lra|]. split; [lra|].
    intros b Hb. destruct (Hok2 b Hb). rewrite !total_sel_app. lra.
  - exists es. repeat split; auto; try lra; discriminate.
Qed.

Lemma chg_bind0 {X A B} (m : M X A) (f : A -> M X B) e d :
  (0 <= e)%Q -> (0 <= d)%Q ->
  chg m 0 0 -> (forall a, chg (f a) e d) -> chg (mbind m f) e d.
Proof.
  intros He Hd Hm Hf. eapply chg_weaken; [| |apply (chg_bind m f 0 0 e d)]; auto; lra.
Qed.

Lemma chg_append {X} e d mech : (0 <= e)%Q -> (0 <= d)%Q ->
  chg (X:=X) (mappend (halo_event e d mech)) e d.
Proof.
  intros He Hd w. exists [halo_event e d mech]. simpl. split; auto.
  split.
  { constructor; auto. unfold valid_event, full_buckets; simpl. repeat split; auto; lra. }
  split.
  { constructor; auto. unfold full_range; simpl. split; reflexivity. }
  repeat split; lra.
Qed.

Lemma chg_mfold0 {X A B} (f : A -> B -> M X A) l a :
  (forall a b, chg (f a b) 0 0) -> chg (mfold f l a) 0 0.
Proof.
  intros H. revert a. induction l as [|x l IH]; intros a; simpl; [apply chg_ret|].
  apply chg_bind0; auto; lra.
Qed.

Lemma Qsum_nonneg l : (forall x, In x l -> (0 <= x)%Q) -> (0 <= Qsum l)%Q.
Proof.
  induction l as [|x l IH]; intros H; simpl; [lra|].
  pose proof (H x (or_introl eq_refl)). specialize (IH (fun y Hy => H y (or_intror Hy))). lra.
Qed.

Lemma chg_append_all {X} mech (l : list (Q * Q)) :
  (forall ed, In ed l -> (0 <= fst ed /\ 0 <= snd ed)%Q) ->
  chg (X:=X) (mfold (fun _ ed => mappend (halo_event (fst ed) (snd ed) mech)) l tt)
      (Qsum (map fst l)) (Qsum (map snd l)).
Proof.
  induction l as [|x l IH]; intros H; simpl; [apply chg_ret|].
  destruct (H x (or_introl eq_refl)).
  apply chg_bind.
  - apply Qsum_nonneg. intros y Hy. apply in_map_iff in Hy. destruct Hy as [z [<- Hz]].
    apply H; right; auto.
  - apply Qsum_nonneg. intros y Hy. apply in_map_iff in Hy. destruct Hy as [z [<- Hz]].
    apply H; right; auto.
  - apply chg_append; auto.
  - intros []. apply IH. intros ed Hed. apply H; right; auto.
Qed.

Lemma Qmul_nonneg x y : (0 <= x)%Q -> (0 <= y)%Q -> (0 <= x * y)%Q.
Proof. intros. apply Qmult_le_0_compat; auto. Qed.

Lemma chg_simulated_reach {X} h spends b split m :
  honest_estimator X -> sensible_budget b -> (0 <= split <= 1)%Q ->
  chg (X:=X) (simulated_reach_by_spend h spends b split m) (epsilon b) (delta b).
Proof.
  intros HX [He Hd] Hs. unfold simulated_reach_by_spend.
  apply chg_bind0; auto using chg_lift. intros p0.
  apply chg_bind0; auto using chg_lift. intros s0.
  apply chg_bind0; auto using chg_seed. intros seed1.
  apply chg_bind0; auto using chg_seed. intros seed2.
  apply chg_bind0; auto.
  { apply chg_mfold0. intros sk i. unfold merge_step.
    apply chg_bind0; try lra; auto using chg_lift. intros p.
    apply chg_bind0; try lra; auto using chg_lift. }
  intros sk. apply chg_bind0; auto using chg_lift. intros est. cbv zeta.
  set (cfg := {| ec_max_freq := m |}).
  destruct (HX cfg) as [[E1 E2] Hpos]. simpl in E1, E2.
  assert (0 <= epsilon b * split)%Q by (apply Qmul_nonneg; lra).
  assert (0 <= epsilon b * (1 - split))%Q by (apply Qmul_nonneg; lra).
  assert (0 <= delta b * split)%Q by (apply Qmul_nonneg; lra).
  assert (0 <= delta b * (1 - split))%Q by (apply Qmul_nonneg; lra).
  eapply chg_weaken; [| |eapply chg_bind with (e2 := 0%Q) (d2 := 0%Q);
    [lra|lra|apply chg_append_all, Hpos; simpl; auto|]].
  - rewrite E1. ring.
  - rewrite E2. ring.
  - intros []. apply chg_bind0; try lra; auto using chg_lift. intros imps.
    apply chg_bind0; try lra; auto using chg_lift.
Qed.

Lemma chg_venn_tail {X} h regions spends card b split :
  sensible_budget b -> (0 <= split <= 1)%Q ->
  chg (X:=X)
   (size <~ num_active_regions h card ;;
    sampled <~ sample_venn_diagram regions size ;;
    noisy <~ add_dp_noise sampled b split ;;
    std <~ mlift (ll_std X (h_ll h) card) ;;
    scaled <~ scale_up noisy card std b (1 - split) ;;
    mlift (generate_reach_points h spends scaled)) (epsilon b) (delta b).
Proof.
  intros [He Hd] Hs.
  assert (0 <= epsilon b * split)%Q by (apply Qmul_nonneg; lra).
  assert (0 <= epsilon b * (1 - split))%Q by (apply Qmul_nonneg; lra).
  assert (0 <= delta b * split)%Q by (apply Qmul_nonneg; lra).
  assert (0 <= delta b * (1 - split))%Q by (apply Qmul_nonneg; lra).
  apply chg_bind0; auto.
  { unfold num_active_regions. apply chg_bind0; try lra; auto using chg_draw, chg_lift. }
  intros size. apply chg_bind0; auto.
  { unfold sample_venn_diagram. apply chg_bind0; try lra; auto using chg_lift.
    intros [|pr prs]; auto using chg_lift.
    destruct (Zsum _ <? size); auto using chg_lift.
    apply chg_bind0; try lra; auto using chg_draw, chg_ret. }
  intros sampled.
  apply (chg_weaken _ (epsilon b * split + epsilon b * (1 - split)) (delta b * split + delta b * (1 - split)));
    [ring|ring|].
  apply chg_bind; auto.
  { unfold add_dp_noise. apply chg_bind0; auto using chg_seed. intros seed.
    apply chg_bind0; auto using chg_lift. intros r.
    eapply chg_weaken; [| |apply chg_bind with (e2 := 0%Q) (d2 := 0%Q);
      [lra|lra|apply chg_append; auto|intros; apply chg_ret]]; ring. }
  intros noisy. apply chg_bind0; auto using chg_lift. intros std.
  eapply chg_weaken with (e := (epsilon b * (1 - split) + 0)%Q) (d := (delta b * (1 - split) + 0)%Q);
    [ring|ring|].
  apply chg_bind; [lra|lra| |intros; apply chg_lift].
  unfold scale_up. apply chg_bind0; auto using chg_seed. intros seed.
  apply chg_bind0; auto using chg_draw. intros x.
  apply chg_bind0; auto using chg_lift. intros c.
  eapply chg_weaken; [| |apply chg_bind with (e2 := 0%Q) (d2 := 0%Q);
      [lra|lra|apply chg_append; auto|intros; apply chg_ret]]; ring.
Qed.

(** A computation that leaves the tracker alone but may fail; used where the exact charge
    depends on the path. *)
Lemma chg_mmap {X A B} (f : A -> M X B) l e d :
  (0 <= e)%Q -> (0 <= d)%Q -> (forall a, chg (f a) e d) ->
  chg (mmap f l) (inject_Z (Z.of_nat (length l)) * e) (inject_Z (Z.of_nat (length l)) * d).
Proof.
  intros He Hd H. induction l as [|x l IH].
  - simpl. eapply chg_weaken; [| |apply chg_ret]; ring.
  - cbn [mmap]. assert (inject_Z (Z.of_nat (length (x :: l))) == 1 + inject_Z (Z.of_nat (length l)))%Q as E.
    { cbn [length]. rewrite Nat2Z.inj_succ, <- Z.add_1_l, inject_Z_plus. reflexivity. }
    assert (0 <= inject_Z (Z.of_nat (length l)))%Q as Hl by (change 0%Q with (inject_Z 0); rewrite <- Zle_Qle; lia).
    apply (chg_weaken _ (e + (inject_Z (Z.of_nat (length l)) * e + 0)) (d + (inject_Z (Z.of_nat (length l)) * d + 0)));
      [rewrite E; ring|rewrite E; ring|].
    apply chg_bind; [pose proof (Qmul_nonneg _ _ Hl He); lra|pose proof (Qmul_nonneg _ _ Hl Hd); lra|auto|].
    intros y. apply chg_bind; [lra|lra|auto|]. intros; apply chg_ret.
Qed.

Lemma py_range_length a b : length (py_range a b) = Z.to_nat (b - a).
Proof. unfold py_range. rewrite map_length, seq_length. auto. Qed.

Lemma chg_single_pub {X} h b p i : honest_estimator X -> sensible_budget b ->
  chg (X:=X) (single_pub_request h b p i) (epsilon b) (delta b).
Proof.
  intros HX [He Hd]. unfold single_pub_request.
  apply chg_bind0; auto using chg_lift. intros s.
  apply chg_bind0; auto using chg_lift. intros vec.
  apply (chg_weaken _ (epsilon b + 0) (delta b + 0)); [ring|ring|].
  apply chg_bind; [lra|lra|apply chg_simulated_reach; auto; [split; auto|lra]|].
  intros rp. repeat (apply chg_bind0; [lra|lra|apply chg_lift|intros]). apply chg_lift.
Qed.

Lemma chg_all_but_one {X} h b i : honest_estimator X -> sensible_budget b ->
  chg (X:=X) (all_but_one_request h b i) (epsilon b) (delta b).
Proof.
  intros HX [He Hd]. unfold all_but_one_request.
  apply chg_bind0; auto using chg_lift. intros vec.
  apply chg_simulated_reach; auto; [split; auto|lra].
Qed.

(** ** Shape of the simulated reach *)

Lemma descending_cons x l : descending (x :: l) <-> (forall y, hd_error l = Some y -> y <= x) /\ descending l.
Proof.
  destruct l as [|y l]; simpl.
  - split; auto. intros _. split; auto. intros; discriminate.
  - split.
    + intros [H1 H2]. split; auto. intros z Hz. inversion Hz; subst; auto.
    + intros [H1 H2]. split; auto.
Qed.

Lemma min_accumulate_from_spec l a : 0 <= a -> (forall x, In x l -> 0 <= x) ->
  length (min_accumulate_from a l) = length l /\
  (forall x, In x (min_accumulate_from a l) -> 0 <= x <= a) /\
  descending (a :: min_accumulate_from a l).
Proof.
  revert a. induction l as [|x l IH]; intros a Ha H; simpl.
  - split; auto. split; [intros x []|auto].
  - pose proof (H x (or_introl eq_refl)).
    destruct (IH (Z.min a x) ltac:(lia) (fun y Hy => H y (or_intror Hy))) as [H1 [H2 H3]].
    split; [lia|]. split.
    + intros y [<-|Hy]; [lia|]. specialize (H2 y Hy). lia.
    + split; [lia|]. exact H3.
Qed.

Lemma min_accumulate_spec l : (forall x, In x l -> 0 <= x) ->
  length (min_accumulate l) = length l /\ (forall x, In x (min_accumulate l) -> 0 <= x) /\
  descending (min_accumulate l).
Proof.
  destruct l as [|a l]; intros H; simpl; [auto|].
  pose proof (H a (or_introl eq_refl)).
  destruct (min_accumulate_from_spec l a ltac:(lia) (fun y Hy => H y (or_intror Hy))) as [H1 [H2 H3]].
  split; [lia|]. split; auto. intros x [<-|Hx]; auto. apply H2 in Hx. lia.
Qed.

Lemma descending_repeat a n : 0 <= a -> descending (a :: repeat 0 n).
Proof.
  revert a; induction n; intros a Ha; simpl; auto. split; auto. apply IHn. lia.
Qed.

(** What a successful call returned. *)
Lemma simulated_reach_inv {X} h spends b split m (w w' : world X) p :
  simulated_reach_by_spend h spends b split m w = (Ok p, w') ->
  exists cfg sk est kp imps kp' r1,
    ec_max_freq cfg = m /\ estimate X cfg sk = Ok est /\
    kp = min_accumulate (map (fun x => Z.max x 0) (map py_round est)) /\
    ds_impressions_by_spend (h_data_set h) spends = Ok imps /\
    py_index kp 0 = Ok r1 /\
    kp' = (if Zsum imps <=? r1 then Z.max (Zsum imps - 1) 1 :: repeat 0 (Z.to_nat (Z.max 0 (m - 1))) else kp) /\
    mk_reach_point Zops imps kp' (Some spends) (Some (ds_universe (h_data_set h))) = Ok p.
Proof.
  unfold simulated_reach_by_spend. intros H.
  unfold mbind at 1, mlift at 1 in H. destruct (py_index (h_publishers h) 0) as [p0|]; [|discriminate].
  unfold mbind at 1, mlift at 1 in H. destruct (py_index spends 0) as [s0|]; [|discriminate].
  cbv zeta in H.
  unfold mbind at 1 in H. destruct (draw_seed w) as [[seed1|] w1]; [|discriminate].
  unfold mbind at 1 in H. destruct (draw_seed w1) as [[seed2|] w2]; [|discriminate].
  unfold mbind at 1 in H. destruct (mfold _ _ _ w2) as [[sk|] w3]; [|discriminate].
  unfold mbind at 1, mlift at 1 in H.
  match type of H with context [estimate X ?c sk] => set (cfg := c) in * end.
  destruct (estimate X cfg sk) as [est|] eqn:Eest; [|discriminate].
  unfold mbind at 1 in H. destruct (mfold _ _ tt w3) as [[[]|] w4]; [|discriminate].
  unfold mbind at 1, mlift at 1 in H.
  destruct (ds_impressions_by_spend (h_data_set h) spends) as [imps|] eqn:Ei; [|discriminate].
  unfold mbind at 1, mlift at 1 in H.
  destruct (py_index (min_accumulate _) 0) as [r1|] eqn:Er; [|discriminate].
  unfold mlift in H.
  exists cfg, sk, est. do 4 eexists. split; [reflexivity|]. split; [exact Eest|].
  split; [reflexivity|]. split; [reflexivity|]. split; [exact Er|]. split; [reflexivity|].
  inversion H. reflexivity.
Qed.
