(** What the shipped designs ask for. *)
From Coq Require Import String Ascii Lqa.
From Verif Require Import Prelude ModelReachPoint ModelData ModelDriver SpecDriver ModelTestPoints ModelDesigns ModelExperiments
  SpecExperiments ExperimentsLemmas2 ExperimentsLemmas5.
Open Scope Z_scope.

Lemma alike_spends q : spends_alike q (all_alike (PFloat q)).
Proof.
  intros d. exists (repeat (PFloat q) (publisher_count d)). split; [reflexivity|]. split; [apply repeat_length|].
  apply Forall_forall. intros x H. exact (repeat_spec _ _ _ H).
Qed.
Lemma turns_spends q qs : spends_turns (q :: qs) (in_turn (map PFloat (q :: qs))).
Proof.
  intros d. set (l := q :: qs).
  assert (Nl : length l <> 0%nat) by discriminate. clearbody l. exists (cycled (map PFloat l) (publisher_count d)). split; [reflexivity|].
  split; [apply cycled_length|]. intros i x H. unfold cycled in H. rewrite nth_error_map, map_length in H.
  destruct (nth_error (seq 0 (publisher_count d)) i) as [k|] eqn:E; [|discriminate]. cbn [option_map] in H. injection H as <-.
  assert (Hi : (i < publisher_count d)%nat) by (rewrite <- (seq_length (publisher_count d) 0); apply nth_error_Some; congruence).
  rewrite (nth_error_nth' _ 0%nat) in E by (rewrite seq_length; exact Hi). rewrite seq_nth in E by exact Hi. injection E as <-. cbn [Nat.add].
  assert (Hm : (i mod length l < length l)%nat) by (apply Nat.mod_upper_bound; exact Nl).
  exists (nth (i mod length l) l 0%Q). split; [apply nth_error_nth'; exact Hm|].
  rewrite <- (map_nth PFloat). apply nth_indep. rewrite map_length. exact Hm.
Qed.

Lemma tenths_some x : In x tenths -> some_tenths x.
Proof.
  intros H. apply in_map_iff in H. destruct H as [k [<- Ik]]. exists k, (inject_Z k * (1 # 10))%Q.
  assert (Hk : 1 <= k <= 9).
  { unfold py_range in Ik. apply in_map_iff in Ik. destruct Ik as [j [<- Ij]]. apply in_seq in Ij. lia. }
  split; [exact Hk|]. split; [reflexivity|]. unfold Qeq. cbn [Qmult inject_Z Qnum Qden]. lia.
Qed.

Ltac one_of H := cbn [In] in H; repeat (destruct H as [H|H]; [symmetry in H|]); [..|destruct H].

Lemma m3_asks c : combines m3_trial_levels c -> m3_settings c.
Proof.
  intros [H1 [H2 [H3 [H4 [H5 [H6 H7]]]]]].
  cbn [tl_strategies tl_spends tl_ll tl_budgets tl_replicas tl_frequencies tl_points m3_trial_levels] in *. unfold m3_settings.
  split; [one_of H1; rewrite H1; [left|right; left|right; right]; repeat split|].
  split; [one_of H2; rewrite H2; [left; apply alike_spends|right; apply (turns_spends (1 # 10) [2 # 10; 3 # 10])]|].
  one_of H3; rewrite H3. split; [reflexivity|]. split; [reflexivity|]. split; [reflexivity|].
  split; [one_of H4; rewrite H4; auto|]. split; [one_of H4; rewrite H4; auto|].
  split; [one_of H5; lia|]. split; [one_of H6; auto|]. split; one_of H7; rewrite H7; auto.
Qed.
Lemma analysis_asks c : combines analysis_trial_levels c -> analysis_settings c.
Proof.
  intros [H1 [H2 [H3 [H4 [H5 [H6 H7]]]]]].
  cbn [tl_strategies tl_spends tl_ll tl_budgets tl_replicas tl_frequencies tl_points analysis_trial_levels] in *. unfold analysis_settings.
  split; [one_of H1; rewrite H1; [left|right]; repeat split|].
  split; [one_of H2; rewrite H2; [left; apply alike_spends|right; apply (turns_spends (4 # 10) [8 # 10])]|].
  one_of H3; rewrite H3. split; [reflexivity|]. split; [reflexivity|]. split; [reflexivity|].
  split; [one_of H4; rewrite H4; auto|]. split; [one_of H4; rewrite H4; auto|].
  split; [one_of H5; lia|]. split; [one_of H6; auto|]. split; one_of H7; rewrite H7; auto.
Qed.
Lemma single_asks c : combines_single single_trial_levels c -> single_settings c.
Proof.
  intros [m [f [dr [ss [pt [H1 [H2 [H3 [H4 [H5 [H6 [H7 [H8 [H9 [E1 [E2 [E3 [E4 [E5 [E6 [E7 [E8 [E9 [E10 E11]]]]]]]]]]]]]]]]]]]]]]]].
  cbn [sl_strategies sl_fractions sl_decay_rates sl_sketch_sizes sl_epsilons sl_deltas sl_replicas sl_test_points sl_frequencies single_trial_levels] in *.
  unfold single_settings. rewrite E1, E2, E3, E4, E5, E6, E8, E9, E10. split; [reflexivity|]. split; [reflexivity|].
  split; [one_of H1; rewrite H1; cbn; auto|].
  split; [one_of H1; rewrite H1; cbn; (left; reflexivity) || (right; split; [discriminate|reflexivity])|].
  split; [reflexivity|]. split; [reflexivity|]. split; [exists f; split; [exact E7|apply tenths_some; exact H2]|].
  one_of H3. one_of H4. one_of H6. one_of H7. one_of H8. one_of H9. subst. auto 10.
Qed.
Lemma sample_asks c : combines sample_trial_levels c -> sample_settings c.
Proof.
  intros [H1 [H2 [H3 [H4 [H5 [H6 H7]]]]]].
  cbn [tl_strategies tl_spends tl_ll tl_budgets tl_replicas tl_frequencies tl_points sample_trial_levels] in *. unfold sample_settings.
  split; [one_of H1; rewrite H1; [left|right]; repeat split|].
  split; [peel; eexists; eexists; split; [reflexivity|split; apply tenths_some; eassumption]|].
  split; [one_of H3; rewrite H3; cbn; auto|]. split; [one_of H3; rewrite H3; cbn; auto|]. split; [one_of H3; rewrite H3; reflexivity|].
  split; [one_of H4; rewrite H4; auto|]. split; [one_of H4; rewrite H4; auto|].
  split; [one_of H5; lia|]. split; [one_of H6; cbn; auto|]. exact H7.
Qed.
