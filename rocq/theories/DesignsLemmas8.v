(** The M3 design. *)
From Coq Require Import String Ascii Qround Permutation Lqa.
From Verif Require Import Prelude ModelReachPoint ModelData DataLemmas ModelFiles SpecFiles ModelGenerators SpecGenerators
  ModelDriver SpecDriver DriverLemmas4 DriverLemmas5
  ModelDesigns SpecDesigns DesignsLemmas DesignsLemmas2 DesignsLemmas4 DesignsLemmas5 DesignsLemmas7.
Open Scope Z_scope.

Lemma m3_has_levels : has_levels m3_levels.
Proof. repeat split; discriminate. Qed.
Lemma m3_ratios : Forall has_universe_ratio (lv_overlap m3_levels).
Proof.
  cbn [m3_levels lv_overlap]. apply Forall_forall. intros g I.
  assert (forall q seed, (0 < q)%Q -> has_universe_ratio (independent_ratio q seed)) as G.
  { intros q seed Hq _. split; [cbn [independent_ratio gen gn_params map fst]; given_once|]. split.
    - exists (PFloat q). split; [left; reflexivity|exact Hq].
    - right. left. reflexivity. }
  cbn [In] in I. intuition; subst g; try (apply G; vm_compute; reflexivity); intros E; discriminate.
Qed.
Lemma m3_largest : Forall (fun n => 0 <= n) (lv_largest m3_levels).
Proof. cbn [m3_levels lv_largest]. repeat constructor; lia. Qed.

Lemma plain_id z : plain (string_of_list_ascii (str_of_int z)).
Proof. unfold plain. rewrite list_ascii_of_string_of_list_ascii. apply str_of_int_plain. Qed.

Lemma universe_usable (A : Prop) p p' r seed : fp_overlap p = independent_ratio r seed -> (0 < r <= 1)%Q ->
  0 <= fp_largest p -> with_universe p p' -> usable_overlap A (fp_largest p) (fp_overlap p') /\ forall F, plain_generator F (fp_overlap p').
Proof.
  intros E Hr HN [_ [_ [_ [_ [_ [_ [_ [_ W]]]]]]]].
  destruct (W ltac:(rewrite E; reflexivity)) as [r' [g [u [I1 [I2 [W1 [W2 [W3 [W4 W5]]]]]]]]].
  rewrite E in I1, I2, W2. cbn [independent_ratio gen gn_params gn_class] in *.
  assert (Er : number_Q r' = r) by (destruct I1 as [I1|[I1|[]]]; inversion I1; reflexivity).
  assert (Eg : g = int seed) by (destruct I2 as [I2|[I2|[]]]; inversion I2; reflexivity).
  subst g. rewrite Er in *. split.
  - right. left. split; [exact W2|]. rewrite W3. split; [args|]. split; [|right; left; reflexivity].
    exists u. split; [left; reflexivity|].
    assert (0 <= u \/ u < 0) as [Hu|Hu] by lia.
    + assert (X : (inject_Z (fp_largest p) < inject_Z (u + 1))%Q).
      { apply Qlt_le_trans with (1 := W5). setoid_replace (inject_Z (u + 1))%Q with (inject_Z (u + 1) * 1)%Q at 2 by ring.
        rewrite !(Qmult_comm (inject_Z (u + 1))). apply Qmult_le_compat_r; [apply Hr|].
        change 0%Q with (inject_Z 0). rewrite <- Zle_Qle. lia. }
      rewrite <- Zlt_Qlt in X. lia.
    + assert (X : (inject_Z (fp_largest p) < 0)%Q).
      { apply Qlt_le_trans with (1 := W5). apply Qle_trans with (0 * r)%Q; [|lra].
        apply Qmult_le_compat_r; [|lra]. change 0%Q with (inject_Z 0). rewrite <- Zle_Qle. lia. }
      exfalso. change 0%Q with (inject_Z 0) in X. rewrite <- Zlt_Qlt in X. lia.
  - intros F. split; [rewrite W1; apply plain_checked; reflexivity|].
    rewrite W3. intros k v [Ek|[Ek|[]]]; inversion Ek; subst; (split; [apply plain_checked; reflexivity|intros s Es; discriminate]).
Qed.

(** Every sample of the M3 design can be carried out unless it asks for another order of
    publishers of different sizes. *)
Lemma m3_feasible F s p p' i : words_are_words F -> point s -> from_levels m3_levels i s p ->
  levels_at m3_levels s p -> with_universe p p' ->
  plain_set F p' /\ (order_is_kept p' -> feasible p') /\ feasible (with_overlap p' full_overlap).
Proof.
  intros W Pt Fr At Wi.
  assert (In (fp_num_publishers p) (lv_num_publishers m3_levels)) as I1 by (eapply nth_error_In; apply At).
  assert (In (fp_largest p) (lv_largest m3_levels)) as I2 by (eapply nth_error_In; apply At).
  assert (In (fp_ratio p) (lv_ratio m3_levels)) as I3 by (eapply nth_error_In; apply At).
  assert (In (fp_pricing p) (lv_pricing m3_levels)) as I4 by (eapply nth_error_In; apply At).
  assert (In (fp_impressions p) (lv_impressions m3_levels)) as I5 by (eapply nth_error_In; apply At).
  assert (In (fp_overlap p) (lv_overlap m3_levels)) as I6 by (eapply nth_error_In; apply At).
  pose proof (levels_checked F m3_levels W eq_refl) as [P1 [P2 P3]].
  rewrite Forall_forall in P1, P2, P3.
  assert (HN : 0 <= fp_largest p) by (pose proof m3_largest as M; rewrite Forall_forall in M; apply M; exact I2).
  pose proof Wi as [W1 [W2 [W3 [W4 [W5 [W6 [W7 [W8 W9]]]]]]]].
  set (A := fp_num_publishers p' = 1 \/ (number_Q (fp_ratio p') == 1)%Q).
  assert (Ov : (order_is_kept p' -> usable_overlap A (fp_largest p') (fp_overlap p')) /\ plain_generator F (fp_overlap p')).
  { rewrite W4. cbn [m3_levels lv_overlap In] in I6.
    assert (Ind : forall q seed, (0 < q <= 1)%Q -> independent_ratio q seed = fp_overlap p ->
      (order_is_kept p' -> usable_overlap A (fp_largest p) (fp_overlap p')) /\ plain_generator F (fp_overlap p')).
    { intros q seed Hq E. destruct (universe_usable A p p' q seed (eq_sym E) Hq HN Wi) as [U1 U2]. split; [auto|apply U2]. }
    assert (Seq : forall o cs q seed, (o = "original" \/ o = "random")%string -> (cs = "all" \/ cs = "one")%string -> (0 <= q <= 1)%Q ->
      sequential "Sequential" o cs q seed = fp_overlap p ->
      (order_is_kept p' -> usable_overlap A (fp_largest p) (fp_overlap p')) /\ plain_generator F (fp_overlap p')).
    { intros o cs q seed Ho Hc Hq E. assert (Eo : fp_overlap p' = fp_overlap p) by (apply W8; rewrite <- E; discriminate).
      split; [|rewrite Eo; apply P3; eapply nth_error_In; apply At].
      intros K. unfold order_is_kept in K. rewrite Eo, <- E in K. rewrite Eo, <- E. apply sequential_ok; auto.
      destruct Ho as [->| ->]; [left; reflexivity|]. right. split; [right; reflexivity|].
      destruct (K eq_refl) as [[X|[X|[X|[X|[]]]]]|X]; try discriminate. exact X. }
    destruct I6 as [E|[E|[E|[E|[E|[E|[E|[E|[E|[]]]]]]]]]].
    - assert (Eo : fp_overlap p' = fp_overlap p) by (apply W8; rewrite <- E; discriminate).
      rewrite Eo, <- E. split; [intros _; apply full_ok|]. apply P3. left. reflexivity.
    - eapply Ind; [|exact E]. split; [vm_compute; reflexivity|vm_compute; discriminate].
    - eapply Ind; [|exact E]. split; [vm_compute; reflexivity|vm_compute; discriminate].
    - eapply Ind; [|exact E]. split; [vm_compute; reflexivity|vm_compute; discriminate].
    - eapply Ind; [|exact E]. split; [vm_compute; reflexivity|vm_compute; discriminate].
    - apply (Seq "random" "all" (25 # 100)%Q 5)%string; auto. split; vm_compute; discriminate.
    - apply (Seq "original" "all" (75 # 100)%Q 6)%string; auto. split; vm_compute; discriminate.
    - apply (Seq "original" "one" (25 # 100)%Q 7)%string; auto. split; vm_compute; discriminate.
    - apply (Seq "random" "one" (75 # 100)%Q 8)%string; auto. split; vm_compute; discriminate. }
  destruct Fr as [N0 [N1 _]]. split; [|split].
  - split; [congruence|]. split; [rewrite W2, N1; apply plain_id|]. rewrite W6, W7.
    split; [apply P1; exact I4|]. split; [apply P2; exact I5|apply Ov].
  - intros K. apply (combination_feasible m3_levels m3_sizes m3_pricing_ok m3_impressions_ok); try congruence.
    apply Ov. exact K.
  - apply (combination_feasible m3_levels m3_sizes m3_pricing_ok m3_impressions_ok);
      cbn [with_overlap fp_num_publishers fp_largest fp_ratio fp_pricing fp_impressions fp_overlap]; try congruence.
    apply full_ok.
Qed.
