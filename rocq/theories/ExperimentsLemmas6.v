(** Rows of whole designs; samples that choose the same twice. *)
From Coq Require Import String Ascii Qround Permutation Lqa.
From Verif Require Import Prelude ModelReachPoint ModelData DataLemmas ModelPrivacy ModelAggregator ModelFiles SpecFiles ModelHalo
  ModelDriver SpecDriver DriverLemmas4 DriverLemmas5 DriverLemmas6 DriverLemmas7 DriverLemmas8
  PropsDriver3 SpecTrial TrialLemmas2 ModelDesigns SpecDesigns DesignsLemmas4 DesignsLemmas5 ModelExperiments SpecExperiments
  ExperimentsLemmas ExperimentsLemmas2 ExperimentsLemmas3 ExperimentsLemmas4 ExperimentsLemmas5.
Open Scope Z_scope.

Lemma same_number_refl a : same_number a a.
Proof. destruct a; reflexivity. Qed.
Lemma same_kwargs_refl k : same_kwargs k k.
Proof.
  unfold same_kwargs. induction k as [|[a v] k IH]; constructor; [|exact IH]. split; [reflexivity|].
  destruct v; cbn; try reflexivity. apply same_number_refl.
Qed.
Lemma same_settings_refl a : same_settings a a.
Proof.
  unfold same_settings, same_strategy, same_system, same_experiment. repeat split; auto using same_number_refl, same_kwargs_refl.
  induction (sp_fractions (td_system a)); constructor; auto using same_number_refl.
Qed.
Lemma same_choice_refl F d c : clear_choice F d c -> same_choice d c c.
Proof.
  intros [Sp [Nd _]]. destruct (plays_update 0 c d Sp) as [t E].
  apply update_adapted in E; [|exact Nd]. apply adapted_plays in E. destruct E as [P _].
  exists t, t. split; [exact P|]. split; [exact P|]. apply same_settings_refl.
Qed.

(** ** Samples *)

Definition diagonal_point (n k i : nat) : list Q := repeat ((2 * Z.of_nat i + 1) # (Pos.of_nat (2 * n)))%Q k.
Definition diagonal (n k : nat) : list (list Q) := map (diagonal_point n k) (seq 0 n).

Lemma diagonal_floor n i : (i < n)%nat ->
  Qfloor (((2 * Z.of_nat i + 1) # (Pos.of_nat (2 * n))) * inject_Z (Z.of_nat n)) = Z.of_nat i.
Proof.
  intros H. assert (Hn : (Pos.of_nat (2 * n) = 2 * Pos.of_nat n)%positive) by (apply Pos2Nat.inj; lia).
  rewrite Hn. assert (E : (((2 * Z.of_nat i + 1) # 2 * Pos.of_nat n) * inject_Z (Z.of_nat n) == (2 * Z.of_nat i + 1) # 2)%Q).
  { unfold Qeq. cbn [Qmult Qnum Qden inject_Z]. rewrite !Pos2Z.inj_mul.
    replace (Z.pos (Pos.of_nat n)) with (Z.of_nat n) by (rewrite <- (Nat2Pos.id n) at 1 by lia; rewrite positive_nat_Z; reflexivity). lia. }
  rewrite E. unfold Qfloor. Z.div_mod_to_equations. lia.
Qed.

Lemma diagonal_latin n k : latin_in k (diagonal n k).
Proof.
  unfold latin_in, diagonal. rewrite map_length, seq_length. split.
  - apply Forall_forall. intros s Is. apply in_map_iff in Is. destruct Is as [i [<- Ii]]. apply in_seq in Ii.
    split; [apply repeat_length|]. apply Forall_forall. intros q Iq. apply repeat_spec in Iq. subst q.
    split; [unfold Qle; cbn [Qnum Qden]; lia|]. unfold Qlt. cbn [Qnum Qden].
    replace (Z.pos (Pos.of_nat (2 * n))) with (2 * Z.of_nat n); [lia|].
    rewrite <- (positive_nat_Z (Pos.of_nat (2 * n))), Nat2Pos.id by lia. lia.
  - intros j Hj. rewrite map_map. erewrite map_ext_in; [reflexivity|]. intros i Ii. apply in_seq in Ii.
    unfold diagonal_point. assert (En : nth j (repeat ((2 * Z.of_nat i + 1) # Pos.of_nat (2 * n)) k) 0%Q = ((2 * Z.of_nat i + 1) # Pos.of_nat (2 * n))%Q).
    { eapply repeat_spec. apply nth_In. rewrite repeat_length. exact Hj. }
    rewrite En. apply diagonal_floor. lia.
Qed.

(** Points that stand for the same levels. *)
Lemma same_levels L s s' c c' : at_levels L s c -> at_levels L s' c' ->
  index_of (length (tl_strategies L)) (nth 0 s 0%Q) = index_of (length (tl_strategies L)) (nth 0 s' 0%Q) ->
  index_of (length (tl_spends L)) (nth 1 s 0%Q) = index_of (length (tl_spends L)) (nth 1 s' 0%Q) ->
  index_of (length (tl_ll L)) (nth 2 s 0%Q) = index_of (length (tl_ll L)) (nth 2 s' 0%Q) ->
  index_of (length (tl_budgets L)) (nth 3 s 0%Q) = index_of (length (tl_budgets L)) (nth 3 s' 0%Q) ->
  index_of (length (tl_replicas L)) (nth 4 s 0%Q) = index_of (length (tl_replicas L)) (nth 4 s' 0%Q) ->
  index_of (length (tl_frequencies L)) (nth 5 s 0%Q) = index_of (length (tl_frequencies L)) (nth 5 s' 0%Q) ->
  index_of (length (tl_points L)) (nth 6 s 0%Q) = index_of (length (tl_points L)) (nth 6 s' 0%Q) -> c = c'.
Proof.
  intros [A0 A1 A2 A3 A4 A5 A6] [B0 B1 B2 B3 B4 B5 B6] E0 E1 E2 E3 E4 E5 E6.
  rewrite E0 in A0. rewrite E1 in A1. rewrite E2 in A2. rewrite E3 in A3. rewrite E4 in A4. rewrite E5 in A5. rewrite E6 in A6.
  destruct c, c'. cbn in *. f_equal; congruence.
Qed.

Lemma sample_clear F d c : combines sample_trial_levels c -> clear_choice F d c.
Proof.
  intros H. apply (product_clear F d sample_trial_levels); [reflexivity|reflexivity| |apply product_in; exact H].
  intros s Is. destruct (sample_spends s Is) as [a [b ->]]. cbn. eauto.
Qed.
Lemma choice_at_combines L s c : choice_at L s c -> combines L c.
Proof.
  intros [[? [H0 _]] [[? [H1 _]] [[? [H2 _]] [[? [H3 _]] [[? [H4 _]] [[? [H5 _]] [? [H6 _]]]]]]]].
  repeat split; eapply nth_error_In; eassumption.
Qed.
Lemma choices_in L samples cs : Forall2 (choice_at L) samples cs -> forall c, In c cs -> combines L c.
Proof. intros H c Ic. destruct (Forall2_In_r _ _ _ _ H Ic) as [s [_ Hc]]. eapply choice_at_combines. exact Hc. Qed.

(** ** Whole designs *)

Section Whole.
Variables (L : lab) (x : experimental_design) (cs : list choice).

Lemma trial_of_choice ts n i c : one_trial_each L x cs ts -> In n (dd_names (xd_data x)) -> nth_error cs i = Some c ->
  exists t, In t ts /\ runs x n i c t.
Proof.
  intros [F _] Hn Hc. apply In_nth_error in Hn. destruct Hn as [k Hk].
  assert (X : nth_error (combine (seq 0 (length cs)) cs) i = Some (i, c)) by (rewrite nth_combine_seq, Hc; reflexivity).
  destruct (Forall2_nth _ _ _ F _ _ (nth_prod _ _ _ _ _ _ Hk X)) as [t [Et Rt]].
  exists t. split; [eapply nth_error_In; exact Et|exact Rt].
Qed.
Lemma choice_of_trial ts t : one_trial_each L x cs ts -> In t ts ->
  exists n i c, In n (dd_names (xd_data x)) /\ nth_error cs i = Some c /\ runs x n i c t.
Proof.
  intros [F _] It. destruct (Forall2_In_r _ _ _ _ F It) as [[n [i c]] [Ip Rt]]. cbn [fst snd] in Rt.
  apply in_prod_iff in Ip. destruct Ip as [I1 I2]. exists n, i, c. split; [exact I1|]. split; [|exact Rt].
  apply In_nth_error in I2. destruct I2 as [k Ek]. rewrite nth_combine_seq in Ek.
  destruct (nth_error cs k) as [c'|] eqn:E; [|discriminate]. cbn in Ek. assert (i = k /\ c = c') as [-> ->] by (split; congruence). exact E.
Qed.

Lemma all_rows seed g ts : one_trial_each L x cs ts -> (forall c, In c cs -> strategy_known (ch_strategy c)) ->
  (forall t, In t ts -> exists row, fst (compute_row L t seed g) = Ok row) <->
  (forall n d c, In n (dd_names (xd_data x)) -> dd_by_name (xd_data x) n = Ok d -> In c cs ->
     exists l, spends_on (ch_spends c) d l /\ (1 <= publisher_count d <= length l)%nat).
Proof.
  intros O Sk. split.
  - intros H n d c Hn Hd Hc. apply In_nth_error in Hc. destruct Hc as [i Hi].
    destruct (trial_of_choice ts n i c O Hn Hi) as [t [It Rt]].
    apply (runs_row L seed g x n i c t d Rt Hd); [apply Sk; eapply nth_error_In; exact Hi|]. apply H. exact It.
  - intros H t It. destruct (choice_of_trial ts t O It) as [n [i [c [Hn [Hc Rt]]]]].
    pose proof Rt as [_ [_ [_ [_ [_ [d [Hd _]]]]]]].
    apply (runs_row L seed g x n i c t d Rt Hd); [apply Sk; eapply nth_error_In; exact Hc|].
    apply (H n d c Hn Hd). eapply nth_error_In. exact Hc.
Qed.

Lemma one_each_unaffected seed g ts : one_trial_each L x cs ts -> (length (dd_names (xd_data x)) <= 1)%nat -> unaffected L seed g ts.
Proof.
  intros [F _] Hl. apply own_generators_unaffected. intros t t' It It' E.
  destruct (dd_names (xd_data x)) as [|n [|m r]]; [|  |cbn in Hl; lia].
  - cbn in F. inversion F; subst. destruct It.
  - cbn [list_prod] in F. rewrite app_nil_r in F. pose proof (generator_numbers x n cs 0 ts F) as Gn.
    apply In_nth_error in It, It'. destruct It as [i Hi], It' as [j Hj].
    assert (Ei : nth_error (map (fun t => sp_generator (system_of t)) ts) i = Some (sp_generator (system_of t))) by (rewrite nth_error_map, Hi; reflexivity).
    assert (Ej : nth_error (map (fun t => sp_generator (system_of t)) ts) j = Some (sp_generator (system_of t'))) by (rewrite nth_error_map, Hj; reflexivity).
    rewrite Gn in Ei, Ej. rewrite E in Ei.
    assert (i = j); [|congruence]. apply (proj1 (NoDup_nth_error (seq 0 (length cs))) (seq_NoDup _ _)); [apply nth_error_Some; congruence|congruence].
Qed.

Lemma one_each_sane ts : sane_design L x -> dictionaries x -> generate_trials L x = Ok ts -> markers_differ L ts -> separate L ts.
Proof. intros S D E M. apply sane_separate. exact (C38_generated_sane L x ts D S E M). Qed.

(** The settings that a row repeats. *)
Lemma row_settings seed g n i c t row : runs x n i c t -> fst (compute_row L t seed g) = Ok row ->
  In ("dataset"%string, CText n) row /\ In ("replica_id"%string, CInt (ch_replica c)) row.
Proof.
  intros [_ [_ [A3 [_ [_ [d [_ [_ [_ [_ [_ [P5 _]]]]]]]]]]]] E. unfold compute_row in E. cbv zeta in E.
  match type of E with context [match ?b with Ok _ => _ | Err _ => _ end] => destruct b as [[d' h]|e] end; [|discriminate].
  destruct (lab_fit L _ h _ _ _) as [fit w]. cbn [fst] in E. unfold independent_vars in E.
  destruct (dd_by_name (tr_design t) (tr_data_set t)) as [d2|]; cbn [bind] in E; [|discriminate].
  destruct (py_max (map pd_max_reach (ds_data d2))) as [z|]; cbn [bind] in E; [|discriminate].
  injection E as <-. unfold experiment_of. rewrite A3, P5. cbn [app In]. auto.
Qed.
End Whole.

Lemma place_separate L x cs ts : xd_descriptors x = numbered cs -> tells_floats_apart (lab_float L) ->
  good_data (xd_data x) (fun d => forall c, In c cs -> clear_choice (lab_float L) d c) -> good_place L x ->
  dd_names (xd_data x) <> [] -> generate_trials L x = Ok ts -> markers_differ L ts -> separate L ts.
Proof.
  intros HD HF HN [P1 [P2 P3]] Ne E M.
  assert (D : dictionaries x) by (eapply clear_dictionaries; eassumption).
  apply (one_each_sane L x); [|exact D|exact E|exact M].
  split; [exact P1|]. split; [exact P2|]. split; [intros n Hn; apply HN; exact Hn|]. split; [|split; [exact HF|exact P3]].
  intros desc I. rewrite HD in I. apply numbered_in in I. destruct I as [i [c [Hc ->]]].
  destruct (dd_names (xd_data x)) as [|n r] eqn:En; [contradiction|].
  destruct HN as [_ G]. rewrite En in G. destruct (G n (or_introl eq_refl)) as [_ [_ [d [_ C]]]].
  apply (clear_plain _ d). apply C. eapply nth_error_In. exact Hc.
Qed.

Lemma row_by_row_nth L seed ts : forall g rows k t, row_by_row L seed g ts rows -> nth_error ts k = Some t ->
  exists row g', nth_error rows k = Some row /\ fst (compute_row L t seed g') = Ok row.
Proof.
  induction ts as [|t0 ts IH]; intros g [|row rows] [|k] t H E; try discriminate; cbn [row_by_row] in H; try contradiction; destruct H as [H1 H2].
  - assert (t0 = t) by (cbn in E; congruence). subst. exists row, g. auto.
  - cbn [nth_error] in *. eauto.
Qed.

Lemma m3_clear F d c : combines m3_trial_levels c -> clear_choice F d c.
Proof.
  intros H. apply (product_clear F d m3_trial_levels); [reflexivity|reflexivity| |apply product_in; exact H].
  intros s Is. destruct (full_spends d s _ _ Is) as [r [Sr _]]. eauto.
Qed.
Lemma analysis_clear F d c : combines analysis_trial_levels c -> clear_choice F d c.
Proof.
  intros H. apply (product_clear F d analysis_trial_levels); [reflexivity|reflexivity| |apply product_in; exact H].
  intros s Is. destruct (full_spends d s _ _ Is) as [r [Sr _]]. eauto.
Qed.
Lemma single_choice_clear F d c : combines_single single_trial_levels c -> clear_choice F d c.
Proof. intros H. apply (single_clear F d single_trial_levels); [reflexivity|apply single_in; exact H]. Qed.

Lemma good_clear x F (P : data_set -> Prop) cs : good_data x P -> (forall d c, In c cs -> clear_choice F d c) ->
  good_data x (fun d => forall c, In c cs -> clear_choice F d c).
Proof.
  intros [N G] C. split; [exact N|]. intros n Hn. destruct (G n Hn) as [G1 [G2 [d [Ed _]]]].
  split; [exact G1|]. split; [exact G2|]. exists d. auto.
Qed.

Lemma m3_row L seed g x n i c t d : combines m3_trial_levels c -> runs x n i c t -> dd_by_name (xd_data x) n = Ok d ->
  ((exists row, fst (compute_row L t seed g) = Ok row) <-> publisher_count d <> 0%nat).
Proof.
  intros C R E. rewrite (runs_row L seed g x n i c t d R E (known_checked m3_trial_levels _ eq_refl C)).
  destruct C as [_ [C _]]. destruct (full_spends d _ _ _ C) as [r [Sr El]]. split.
  - intros [l [_ Hl]]. lia.
  - intros H. exists r. split; [exact Sr|lia].
Qed.
Lemma analysis_row L seed g x n i c t d : combines analysis_trial_levels c -> runs x n i c t -> dd_by_name (xd_data x) n = Ok d ->
  ((exists row, fst (compute_row L t seed g) = Ok row) <-> publisher_count d <> 0%nat).
Proof.
  intros C R E. rewrite (runs_row L seed g x n i c t d R E (known_checked analysis_trial_levels _ eq_refl C)).
  destruct C as [_ [C _]]. destruct (full_spends d _ _ _ C) as [r [Sr El]]. split.
  - intros [l [_ Hl]]. lia.
  - intros H. exists r. split; [exact Sr|lia].
Qed.
Lemma single_row L seed g x n i c t d : combines_single single_trial_levels c -> runs x n i c t -> dd_by_name (xd_data x) n = Ok d ->
  ((exists row, fst (compute_row L t seed g) = Ok row) <-> publisher_count d = 1%nat).
Proof.
  intros C R E. rewrite (runs_row L seed g x n i c t d R E (single_known c C)).
  destruct C as [m [f [dr [ss [pt [_ [_ [_ [_ [_ [_ [_ [_ [_ [_ [_ [_ [_ [_ [_ [-> _]]]]]]]]]]]]]]]]]]]]]. cbn [spends_on]. split.
  - intros [l [-> Hl]]. cbn in Hl. lia.
  - intros H. exists [f]. split; [reflexivity|]. cbn. lia.
Qed.
Lemma sample_row L seed g x n i c t d : combines sample_trial_levels c -> runs x n i c t -> dd_by_name (xd_data x) n = Ok d ->
  ((exists row, fst (compute_row L t seed g) = Ok row) <-> (publisher_count d = 1 \/ publisher_count d = 2)%nat).
Proof.
  intros C R E. rewrite (runs_row L seed g x n i c t d R E (known_checked sample_trial_levels _ eq_refl C)).
  destruct C as [_ [C _]]. destruct (sample_spends _ C) as [a [b ->]]. cbn [spends_on]. split.
  - intros [l [-> Hl]]. cbn in Hl. lia.
  - intros H. exists [a; b]. split; [reflexivity|]. cbn. lia.
Qed.
