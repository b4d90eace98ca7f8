(** C24, C25: Venn diagram regions and reach points. *)
From Coq Require Import String Sorted Lqa.
From Verif Require Import Prelude ModelReachPoint ModelData SpecData ModelPrivacy SpecPrivacy
  ModelHalo SpecHalo ReachPointLemmas DataLemmas DataLemmas2 DataLemmas3 PropsReachPoint PropsData
  HaloLemmas SpecVenn VennLemmas HaloLemmas2 VennLemmas2 PropsHalo.
Open Scope Z_scope.

(** ** C24 *)

(** There is exactly one region for each non-empty set of publishers with non-zero spend
    (written in binary), and entry [k] of the region counts the users reached by exactly
    those publishers and at least [k] times in total. *)
Theorem C24_regions_count_users : forall logs h spends m,
  is_halo_of logs h -> length spends = length logs -> 1 <= m ->
  (length (filter (fun s => negb (Qeq_bool s 0)) spends) <= 20)%nat ->
  exists regions, form_venn_diagram_regions h spends m = Ok regions /\
    NoDup (map fst regions) /\
    (forall r, In r (map fst regions) <->
       0 < r /\ forall i, 0 <= i -> Z.testbit r i = true -> active spends i) /\
    (forall r kp, In (r, kp) regions -> length kp = Z.to_nat m /\
       forall k, 1 <= k <= m -> exists n, nth_error kp (Z.to_nat (k - 1)) = Some n /\
         card_is (fun u => in_region logs spends r u /\
                           k <= total_seen (active_seen u) logs spends) n).
Proof.
  intros logs h spends m Hh Hl Hm Hmax.
  destruct (regions_partition logs h spends m Hh Hl Hm Hmax) as [regions [E [N [K [C _]]]]].
  exists regions. auto.
Qed.
Print Assumptions C24_regions_count_users.

(** With maximum frequency 1: entry 1 counts the users reached by exactly those publishers. *)
Theorem C24_region_is_exact_reach : forall logs h spends regions r kp,
  is_halo_of logs h -> length spends = length logs ->
  form_venn_diagram_regions h spends 1 = Ok regions -> In (r, kp) regions ->
  exists n, kp = [n] /\ card_is (in_region logs spends r) n.
Proof.
  intros logs h spends regions r kp Hh Hl E Hin.
  assert (length (filter (fun s => negb (Qeq_bool s 0)) spends) <= 20)%nat as Hmax.
  { unfold form_venn_diagram_regions in E.
    destruct (active_counts_from (h_publishers h) 0 spends) as [act|] eqn:Ea; [|discriminate].
    rewrite <- (active_length _ _ _ _ Ea). simpl in E.
    destruct (Nat.ltb_spec max_active_publishers (length act)); [discriminate|]. auto. }
  destruct (regions_partition logs h spends 1 Hh Hl ltac:(lia) Hmax) as [regions' [E' [N [K [C [Hr _]]]]]].
  rewrite E in E'. inversion E'; subst regions'.
  destruct (C r kp Hin) as [L HC]. destruct (HC 1 ltac:(lia)) as [n [En Hn]].
  exists n. split.
  - destruct kp as [|x [|y kp]]; simpl in L; try discriminate. simpl in En. inversion En. auto.
  - eapply card_is_ext; [|exact Hn]. intros u. split; [tauto|]. intros H. split; auto.
    assert (In r (map fst regions)) as Hk by (change r with (fst (r, kp)); apply in_map; auto).
    apply K in Hk. destruct Hk as [Hpos _]. destruct (pos_has_bit r Hpos) as [j [Hj T]].
    apply H in T; auto. destruct T as [log [s [_ [E1 [E2 [Hs Hseen]]]]]].
    assert (In (log, s) (combine logs spends)) as Hcomb.
    { clear -E1 E2. revert logs spends E1 E2. induction (Z.to_nat j); intros logs spends E1 E2;
        destruct logs, spends; simpl in *; try discriminate.
      - inversion E1; inversion E2; auto.
      - right; auto. }
    pose proof (total_seen_component (active_seen u) logs spends log s) as Hcomp.
    assert (active_seen u log s = seen_at_spend u log s) as Ea.
    { unfold active_seen. destruct (Qeq_bool s 0) eqn:Eq; auto. apply Qeq_bool_iff in Eq. contradiction. }
    rewrite Ea in Hcomp. etransitivity; [exact Hseen|]. apply Hcomp; auto.
    intros l0 b0. unfold active_seen. destruct (Qeq_bool b0 0); [lia|apply seen_at_spend_nonneg].
Qed.
Print Assumptions C24_region_is_exact_reach.

(** The regions are disjoint and cover the users reached: their counts add up to the number
    of users reached by some publisher with non-zero spend. *)
Theorem C24_regions_add_up : forall logs h spends m regions,
  is_halo_of logs h -> length spends = length logs -> 1 <= m ->
  (length (filter (fun s => negb (Qeq_bool s 0)) spends) <= 20)%nat ->
  form_venn_diagram_regions h spends m = Ok regions ->
  card_is (fun u => exists i, reached_by logs spends u i)
          (Zsum (map (fun rk => hd 0 (snd rk)) regions)).
Proof.
  intros logs h spends m regions Hh Hl Hm Hmax E.
  destruct (regions_partition logs h spends m Hh Hl Hm Hmax) as [regions' [E' [N [K [C [Hr Hsum]]]]]].
  rewrite E in E'. inversion E'; subst regions'. specialize (Hsum (fun _ => true)).
  rewrite (filter_all (fun rk : Z * list Z => true)) in Hsum by auto.
  eapply card_is_ext; [|exact Hsum]. intros u. split.
  - intros [r [Hin [_ H]]]. apply K in Hin. destruct Hin as [Hpos _].
    destruct (pos_has_bit r Hpos) as [j [Hj T]]. exists j. apply H; auto.
  - intros [i Hi]. destruct (Hr u i Hi) as [r [Hin H]]. exists r. auto.
Qed.
Print Assumptions C24_regions_add_up.

Lemma active_seen_positive logs : positive_prices logs -> forall spends u,
  total_seen (active_seen u) logs spends = total_seen (seen_at_spend u) logs spends.
Proof.
  intros H. induction H as [|log logs Hp H IH]; intros spends u; [reflexivity|].
  destruct spends as [|s spends]; [reflexivity|]. simpl. rewrite IH. f_equal.
  unfold active_seen. destruct (Qeq_bool s 0) eqn:E; auto. apply Qeq_bool_iff in E.
  unfold seen_at_spend. replace (filter _ log) with (@nil row); auto.
  induction Hp as [|x log Hx Hp IHp]; auto. simpl.
  assert (Qle_bool (snd x) s = false) as ->.
  { apply not_true_iff_false. intros C. apply Qle_bool_iff in C. lra. }
  rewrite andb_false_r. auto.
Qed.

Lemma reached_total logs spends u : length spends = length logs ->
  ((exists i, reached_by logs spends u i) <-> 1 <= total_seen (active_seen u) logs spends).
Proof.
  intros Hl. split.
  - intros [j [log [s [_ [E1 [E2 [Hs Hseen]]]]]]].
    assert (In (log, s) (combine logs spends)) as Hcomb.
    { clear -E1 E2. revert logs spends E1 E2. induction (Z.to_nat j); intros logs spends E1 E2;
        destruct logs, spends; simpl in *; try discriminate.
      - inversion E1; inversion E2; auto.
      - right; auto. }
    pose proof (total_seen_component (active_seen u) logs spends log s) as Hcomp.
    assert (active_seen u log s = seen_at_spend u log s) as Ea.
    { unfold active_seen. destruct (Qeq_bool s 0) eqn:Eq; auto. apply Qeq_bool_iff in Eq. contradiction. }
    rewrite Ea in Hcomp. etransitivity; [exact Hseen|]. apply Hcomp; auto.
    intros l0 b0. unfold active_seen. destruct (Qeq_bool b0 0); [lia|apply seen_at_spend_nonneg].
  - revert spends Hl. induction logs as [|log logs IH]; intros spends Hl H; [simpl in H; lia|].
    destruct spends as [|s spends]; [discriminate|]. simpl in H.
    unfold active_seen at 1 in H.
    assert (1 <= total_seen (active_seen u) logs spends \/ (~ (s == 0)%Q /\ 1 <= seen_at_spend u log s)) as [Hc|[Hs Hc]].
    { destruct (Qeq_bool s 0) eqn:Eq; [left; lia|]. apply Qeq_bool_neq in Eq.
      destruct (Z.le_gt_cases 1 (total_seen (active_seen u) logs spends)); auto. right. split; auto. lia. }
    + simpl in Hl. destruct (IH spends ltac:(lia) Hc) as [i [l0 [s0 [Hi [E1 [E2 R]]]]]].
      exists (i + 1), l0, s0. split; [lia|]. replace (Z.to_nat (i + 1)) with (S (Z.to_nat i)) by lia. auto.
    + exists 0, log, s. repeat split; auto; lia.
Qed.

(** When every impression costs something, that is the ground truth union reach. *)
Theorem C24_total_is_union_reach : forall logs h spends m regions,
  is_halo_of logs h -> positive_prices logs -> length spends = length logs -> 1 <= m ->
  (length (filter (fun s => negb (Qeq_bool s 0)) spends) <= 20)%nat ->
  form_venn_diagram_regions h spends m = Ok regions ->
  exists p, true_reach_by_spend h spends m = Ok p /\
    reach p 1 = Ok (Zsum (map (fun rk => hd 0 (snd rk)) regions)).
Proof.
  intros logs h spends m regions Hh Hpp Hl Hm Hmax E.
  pose proof (C24_regions_add_up logs h spends m regions Hh Hl Hm Hmax E) as HC.
  destruct (halo_fields logs h Hh) as [Hd _].
  destruct (reach_by_spend_card logs (h_data_set h) spends m 1 Hd Hl ltac:(lia)) as [p [r [E1 [E2 E3]]]].
  exists p. split; auto. rewrite E2. f_equal. eapply card_is_unique; [exact E3|].
  eapply card_is_ext; [|exact HC]. intros u. simpl.
  rewrite (reached_total logs spends u Hl), (active_seen_positive logs Hpp). reflexivity.
Qed.
Print Assumptions C24_total_is_union_reach.

(** If some impressions are free this fails: a publisher at zero spend still reaches users,
    who are in no region. *)
Theorem C24_free_impressions_refuted : exists logs h spends regions p r,
  is_halo_of logs h /\ length spends = length logs /\
  form_venn_diagram_regions h spends 1 = Ok regions /\
  true_reach_by_spend h spends 1 = Ok p /\ reach p 1 = Ok r /\
  r <> Zsum (map (fun rk => hd 0 (snd rk)) regions).
Proof.
  set (logs := [[(1, 1%Q)]; [(2, 0%Q)]] : list (list row)).
  assert (exists h, is_halo_of logs h /\
    exists regions p r, form_venn_diagram_regions h [1; 0]%Q 1 = Ok regions /\
     true_reach_by_spend h [1; 0]%Q 1 = Ok p /\ reach p 1 = Ok r /\
     r <> Zsum (map (fun rk => hd 0 (snd rk)) regions)) as [h [Hh [regions [p [r [A [B [C D]]]]]]]].
  { eexists. split.
    - eexists; exists [1; 1]%Q, ex_ll. split.
      + eexists; exists (Some "d"%string), None. split; [|reflexivity].
        repeat constructor; exists "r"%string, (Some "p"%string); reflexivity.
      + vm_compute. reflexivity.
    - do 3 eexists. split; [vm_compute; reflexivity|]. split; [vm_compute; reflexivity|].
      split; [vm_compute; reflexivity|]. vm_compute. discriminate. }
  exists logs, h, [1; 0]%Q, regions, p, r. repeat (split; auto).
Qed.
Print Assumptions C24_free_impressions_refuted.

Theorem C24_too_many_publishers_refused : forall logs h spends m,
  is_halo_of logs h -> length spends = length logs ->
  (20 < length (filter (fun s => negb (Qeq_bool s 0)) spends))%nat ->
  form_venn_diagram_regions h spends m = Err ValueError /\
  (forall X b split (w : world X), simulated_venn h spends b split m w = (Err ValueError, w)).
Proof.
  intros logs h spends m Hh Hl Hmax.
  destruct (halo_fields logs h Hh) as [_ [HP _]]. pose proof (Forall2_len _ _ _ HP) as HL.
  destruct (active_counts_ok (h_publishers h) spends ltac:(lia)) as [act Ha].
  rewrite <- (active_length _ _ _ _ Ha) in Hmax.
  assert (forall m, form_venn_diagram_regions h spends m = Err ValueError) as H.
  { intros m'. unfold form_venn_diagram_regions. rewrite Ha. simpl.
    destruct (Nat.ltb_spec max_active_publishers (length act)); auto. unfold max_active_publishers in *. lia. }
  split; auto. intros X b split w. unfold simulated_venn. destruct (negb (m =? 1)); auto.
  unfold mbind, mlift. rewrite H. reflexivity.
Qed.
Print Assumptions C24_too_many_publishers_refused.

Example C24_example :
  is_halo_of [ex_log1; ex_log2] ex_halo /\ positive_prices [ex_log1; ex_log2] /\
  form_venn_diagram_regions ex_halo [5#100; 3#100]%Q 2 = Ok [(1, [2; 1]); (2, [0; 0]); (3, [1; 1])].
Proof.
  split; [apply ex_is_halo|]. split; [|reflexivity]. repeat constructor; unfold Qlt; simpl; lia.
Qed.

(** ** C25 *)

(** One reach point is returned for every non-empty set of publishers with non-zero spend;
    it restricts spends and impressions to the set, and its reach is the total of the
    regions that contain a publisher of the set, over one common table of regions. *)
Theorem C25_points_are_region_sums : forall X h spends b split m (w w' : world X) pts,
  simulated_venn h spends b split m w = (Ok pts, w') ->
  exists table subsets, NoDup subsets /\
    (forall ids, In ids subsets <-> buyable spends ids) /\
    (pts <> [] -> exists imps, ds_impressions_by_spend (h_data_set h) spends = Ok imps /\
       Forall2 (point_of h spends imps table) subsets pts) /\
    (pts = [] -> subsets = []).
Proof.
  intros X h spends b split m w w' pts H. apply venn_inv in H. destruct H as [[Hz ->]|H].
  - exists [], (nonempty_subsets (active_ids spends)).
    assert (active_ids spends = []) as E.
    { destruct (active_ids spends) as [|i l] eqn:E; auto. exfalso.
      assert (active spends i) as Ha by (apply active_ids_in; rewrite E; left; auto).
      destruct Ha as [s [_ [En Hs]]]. apply nth_error_In in En. rewrite Forall_forall in Hz. auto. }
    split; [rewrite E; constructor|]. split; [intros; symmetry; apply buyable_subsets|].
    split; [congruence|]. intros _. rewrite E. reflexivity.
  - destruct H as [regions [p [card [v [size [sample [noisy [x [z [table [g1 [g1' [g2 [g2' [g3 [g3' [sd [e [seed
      [Ef [Hne [_ [_ [_ [_ [_ [_ [_ [_ [_ [_ [_ Hg]]]]]]]]]]]]]]]]]]]]]]]]]]]]]]]].
    apply generate_points_spec in Hg. destruct Hg as [imps [Ei Hf]].
    exists table, (nonempty_subsets (active_ids spends)).
    split; [apply nonempty_subsets_nodup, sorted_lt_nodup, active_ids_sorted|].
    split; [intros; symmetry; apply buyable_subsets|]. split; [eauto|].
    intros ->. inversion Hf. auto.
Qed.
Print Assumptions C25_points_are_region_sums.

(** Set-union laws, for every table of non-negative regions. *)
Theorem C25_monotone : forall ids ids' table,
  Forall (fun rv => (0 <= snd rv)%Q) table -> NoDup ids -> NoDup ids' ->
  (forall i, In i ids' -> 0 <= i) -> (forall i, In i ids -> In i ids') ->
  (aggregate_reach ids table <= aggregate_reach ids' table)%Q.
Proof.
  intros ids ids' table H Hn Hn' Hp Hi.
  rewrite !aggregate_is_sum by auto. apply sum_meeting_mono; auto.
Qed.
Print Assumptions C25_monotone.

Theorem C25_subadditive : forall a b c table,
  Forall (fun rv => (0 <= snd rv)%Q) table -> NoDup a -> NoDup b -> NoDup c ->
  (forall i, In i a \/ In i b -> 0 <= i) -> (forall i, In i c -> In i a \/ In i b) ->
  (aggregate_reach c table <= aggregate_reach a table + aggregate_reach b table)%Q.
Proof.
  intros a b c table H Ha Hb Hc Hp Hi.
  rewrite !aggregate_is_sum by auto. apply sum_meeting_subadd; auto.
Qed.
Print Assumptions C25_subadditive.

Theorem C25_nonnegative : forall ids table,
  Forall (fun rv => (0 <= snd rv)%Q) table -> NoDup ids -> (forall i, In i ids -> 0 <= i) ->
  (0 <= aggregate_reach ids table)%Q.
Proof. intros. rewrite aggregate_is_sum by auto. apply sum_meeting_nonneg; auto. Qed.
Print Assumptions C25_nonnegative.

(** The points of one successful request satisfy these laws whenever the noised estimate of
    the union cardinality is not negative. *)
Theorem C25_points_consistent : forall X h spends b split m (w w' : world X) pts,
  (forall g mean sd x g' e seed z, rng_normal X g mean sd = (Ok x, g') ->
     geometric_noise X e seed 0%nat = Ok z -> (0 <= x + inject_Z z)%Q) ->
  simulated_venn h spends b split m w = (Ok pts, w') ->
  exists f : list Z -> Q,
    (forall ids, buyable spends ids -> exists p sp, In p pts /\ rp_spends p = Some sp /\
        restricted_to 0%Q ids spends sp /\ reach p 1 = Ok (f ids)) /\
    (forall ids, buyable spends ids -> (0 <= f ids)%Q) /\
    (forall ids ids', buyable spends ids -> buyable spends ids' ->
        (forall i, In i ids -> In i ids') -> (f ids <= f ids')%Q) /\
    (forall a c u, buyable spends a -> buyable spends c -> buyable spends u ->
        (forall i, In i u -> In i a \/ In i c) -> (f u <= f a + f c)%Q).
Proof.
  intros X h spends b split m w w' pts HX H.
  apply venn_inv in H. destruct H as [[Hz ->]|H].
  - exists (fun _ => 0%Q).
    assert (forall ids, ~ buyable spends ids) as Hno.
    { intros ids [Hne [_ Ha]]. destruct ids as [|i ids]; [congruence|].
      destruct (Ha i (or_introl eq_refl)) as [s [_ [En Hs]]]. apply nth_error_In in En.
      rewrite Forall_forall in Hz. auto. }
    repeat split; intros; exfalso; eapply Hno; eauto.
  - destruct H as [regions [p [card [v [size [sample [noisy [x [z [table [g1 [g1' [g2 [g2' [g3 [g3' [sd [e [seed
      [Ef [Hne [_ [_ [_ [_ [_ [_ [_ [Hnoise [Hnorm [Hz [Et Hg]]]]]]]]]]]]]]]]]]]]]]]]]]]]]]]].
    apply generate_points_spec in Hg. destruct Hg as [imps [Ei Hf]].
    assert (Forall (fun r => 0 <= snd r) noisy) as Hnn.
    { clear -Hnoise. induction Hnoise as [|a c la lc [_ [e [seed [n [z [_ E]]]]]]]; constructor; auto. lia. }
    assert (Forall (fun rv => (0 <= snd rv)%Q) table) as Hnt.
    { subst table. apply Forall_map. simpl.
      assert (0 <= Zsum (map snd noisy)) as Ht.
      { apply Zsum_nonneg. intros y Hy. apply in_map_iff in Hy. destruct Hy as [r [<- Hr]].
        rewrite Forall_forall in Hnn. auto. }
      assert (0 <= if Zsum (map snd noisy) =? 0 then 0 else (x + inject_Z z) / inject_Z (Zsum (map snd noisy)))%Q as Hfac.
      { destruct (Z.eqb_spec (Zsum (map snd noisy)) 0); [lra|].
        apply Qle_shift_div_l; [change 0%Q with (inject_Z 0); rewrite <- Zlt_Qlt; lia|].
        rewrite Qmult_0_l. eapply HX; eauto. }
      rewrite Forall_forall in *. intros r Hr. apply Qmult_le_0_compat; auto.
      change 0%Q with (inject_Z 0). rewrite <- Zle_Qle. auto. }
    exists (fun ids => sum_meeting ids table). split; [|split; [|split]].
    + intros ids Hids. apply buyable_subsets in Hids.
      assert (forall ss pts, Forall2 (point_of h spends imps table) ss pts -> In ids ss ->
        exists q, In q pts /\ point_of h spends imps table ids q) as Hin.
      { clear. induction 1; intros Hin; [destruct Hin|]. destruct Hin as [->|Hin].
        - exists y. split; auto. left; auto.
        - destruct (IHForall2 Hin) as [q [? ?]]. exists q. split; auto. right; auto. }
      destruct (Hin _ _ Hf Hids) as [q [Hq [_ [[sp [Es Hr]] [Ek _]]]]].
      exists q, sp. repeat (split; auto). unfold reach, max_frequency. rewrite Ek. reflexivity.
    + intros. apply sum_meeting_nonneg; auto.
    + intros. apply sum_meeting_mono; auto.
    + intros. apply sum_meeting_subadd; auto.
Qed.
Print Assumptions C25_points_consistent.

(** The laws fail when it is negative, which Gaussian noise allows: reaches are negative
    then. *)
Definition ex_noisy : externals := {|
  rng := Z; rng_integers := rng_integers ex_externals;
  rng_multinomial := rng_multinomial ex_externals;
  rng_hypergeometric := rng_hypergeometric ex_externals;
  rng_normal := fun g mean sd => (Ok (inject_Z mean - 4 * sd)%Q, g + 1);
  geometric_noise := fun _ _ _ => Ok 0; sketch := list Z;
  sketch_new := sketch_new ex_externals; sketch_add := sketch_add ex_externals;
  sketch_merge := sketch_merge ex_externals; estimate := estimate ex_externals;
  output_privacy_parameters := output_privacy_parameters ex_externals;
  ll_std := fun _ _ => Ok 1%Q |}.
Theorem C25_negative_reach_refuted : exists X h spends b split (w w' : world X) pts p r,
  is_halo_of [ex_log1; ex_log2] h /\
  simulated_venn h spends b split 1 w = (Ok pts, w') /\ In p pts /\ reach p 1 = Ok r /\ (r < 0)%Q.
Proof.
  exists ex_noisy, ex_halo, [2#100; 3#100]%Q, ex_budget, (1#2)%Q, {| w_tracker := new_tracker; w_rng := 0 : rng ex_noisy |}.
  do 2 eexists. do 2 eexists. split; [apply ex_is_halo|]. split; [vm_compute; reflexivity|].
  split; [left; reflexivity|]. split; [vm_compute; reflexivity|]. reflexivity.
Qed.
Print Assumptions C25_negative_reach_refuted.

(** Without sampling error and noise, every point has the true union reach of its set. *)
Theorem C25_noiseless_points_exact : forall X logs h spends b split m (w w' : world X) pts,
  noiseless X -> is_halo_of logs h -> length spends = length logs ->
  simulated_venn h spends b split m w = (Ok pts, w') ->
  forall ids, buyable spends ids -> exists p sp r n,
    In p pts /\ rp_spends p = Some sp /\ restricted_to 0%Q ids spends sp /\
    reach p 1 = Ok r /\ (r == inject_Z n)%Q /\
    card_is (fun u => exists i, In i ids /\ reached_by logs spends u i) n.
Proof.
  intros X logs h spends b split m w w' pts [N1 [N2 [N3 N4]]] Hh Hl H ids Hids.
  apply venn_inv in H. destruct H as [[Hz ->]|H].
  { exfalso. destruct Hids as [Hne [_ Ha]]. destruct ids as [|i ids]; [congruence|].
    destruct (Ha i (or_introl eq_refl)) as [s [_ [En Hs]]]. apply nth_error_In in En.
    rewrite Forall_forall in Hz. auto. }
  destruct H as [regions [p [card [v [size [sample [noisy [x [z [table [g1 [g1' [g2 [g2' [g3 [g3' [sd [e [seed
      [Ef [Hne [Ep [Ec [Em [Es [Hs0 [Hle [Eh [Hnoise [Hnorm [Hz [Et Hg]]]]]]]]]]]]]]]]]]]]]]]]]]]]]]]].
  assert (length (filter (fun s => negb (Qeq_bool s 0)) spends) <= 20)%nat as Hmax.
  { unfold form_venn_diagram_regions in Ef.
    destruct (active_counts_from (h_publishers h) 0 spends) as [act|] eqn:Ea; [|discriminate].
    rewrite <- (active_length _ _ _ _ Ea). simpl in Ef.
    destruct (Nat.ltb_spec max_active_publishers (length act)); [discriminate|]. auto. }
  destruct (regions_partition logs h spends 1 Hh Hl ltac:(lia) Hmax) as [regions' [E' [N [K [C [Hr Hsum]]]]]].
  rewrite Ef in E'. inversion E'; subst regions'. clear E'.
  destruct (halo_fields logs h Hh) as [Hd _].
  destruct (reach_by_spend_card logs (h_data_set h) spends 1 1 Hd Hl ltac:(lia)) as [p' [r' [E1 [E2 E3]]]].
  rewrite Ep in E1. inversion E1; subst p'. rewrite Ec in E2. inversion E2; subst r'.
  pose proof (card_is_nonneg _ _ E3) as Hc0.
  assert (size = card) as -> by (subst size; eapply N1; eauto).
  pose proof (C24_regions_add_up logs h spends 1 regions Hh Hl ltac:(lia) Hmax Ef) as Htot.
  set (pop := map (fun rk : Z * list Z => hd 0 (snd rk)) regions) in *.
  assert (Zsum pop = card) as Epop.
  { apply Z.le_antisymm; auto. eapply card_is_le; [|exact Htot|exact E3]. intros u Hu. simpl.
    apply reached_total in Hu; auto. etransitivity; [exact Hu|].
    clear. revert spends. induction logs as [|log logs IH]; intros [|s spends]; simpl; try lia.
    specialize (IH spends). unfold active_seen at 1. pose proof (seen_at_spend_nonneg u log s).
    destruct (Qeq_bool s 0); lia. }
  rewrite <- Epop in Eh. apply N2 in Eh. subst sample.
  assert (Forall (fun x => 0 <= x) pop) as Hpop.
  { unfold pop. apply Forall_map, Forall_forall. intros [r kp] Hin. simpl.
    destruct (C r kp Hin) as [L HC]. destruct (HC 1 ltac:(lia)) as [n [En Hn]].
    destruct kp; [discriminate|]. simpl in *. inversion En; subst. eapply card_is_nonneg; eauto. }
  assert (noisy = combine (map fst regions) pop) as En.
  { clear -Hnoise N4 Hpop.
    assert (Forall (fun a => 0 <= snd a) (combine (map fst regions) pop)) as Hall.
    { apply Forall_forall. intros [a c] Hin. apply in_combine_r in Hin. rewrite Forall_forall in Hpop. simpl. auto. }
    revert Hall Hnoise. generalize (combine (map fst regions) pop) as l. intros l Hall Hn.
    induction Hn as [|[a a'] [c c'] la lc [E [e [seed [n [z [Hz E']]]]]] Hn IH]; auto.
    inversion Hall; subst. simpl in *. apply N4 in Hz. subst z. f_equal; auto. f_equal; auto.
    rewrite E'. lia. }
  assert (map snd noisy = pop) as Esnd.
  { rewrite En. unfold pop. clear. induction regions; simpl; congruence. }
  assert (noisy = map (fun rk => (fst rk, hd 0 (snd rk))) regions) as En2.
  { rewrite En. unfold pop. clear. induction regions; simpl; congruence. }
  rewrite Esnd, Epop in Et. destruct (Z.eqb_spec card 0) as [|_]; [contradiction|].
  apply N3 in Hnorm. apply N4 in Hz. subst z.
  apply generate_points_spec in Hg. destruct Hg as [imps [Ei Hf]].
  pose proof Hids as Hids'. apply buyable_subsets in Hids.
  assert (forall ss pts, Forall2 (point_of h spends imps table) ss pts -> In ids ss ->
        exists q, In q pts /\ point_of h spends imps table ids q) as Hin.
  { clear. induction 1; intros Hin; [destruct Hin|]. destruct Hin as [->|Hin].
    - exists y. split; auto. left; auto.
    - destruct (IHForall2 Hin) as [q [? ?]]. exists q. split; auto. right; auto. }
  destruct (Hin _ _ Hf Hids) as [q [Hq [_ [[sp [Esp Hrest]] [Ek _]]]]].
  exists q, sp, (sum_meeting ids table),
    (Zsum (map (fun rk => hd 0 (snd rk)) (filter (fun rk => meets ids (fst rk)) regions))).
  split; auto. split; auto. split; auto.
  split; [unfold reach, max_frequency; rewrite Ek; reflexivity|]. split.
  - assert (~ inject_Z card == 0)%Q as Hcq.
    { intros Cq. apply Hs0. unfold Qeq, inject_Z in Cq. simpl in Cq. lia. }
    assert ((x + inject_Z 0) / inject_Z card == 1)%Q as Hone.
    { rewrite Hnorm. change (inject_Z 0) with 0%Q. field. auto. }
    subst table. rewrite En2. clear -Hone.
    set (fac := ((x + inject_Z 0) / inject_Z card)%Q) in *. clearbody fac.
    induction regions as [|[r kp] regions IH]; [reflexivity|].
    cbn [map fst snd]. rewrite sum_meeting_cons. cbn [fst snd filter].
    rewrite IH. destruct (meets ids r).
    + cbn [map snd Zsum fold_right]. rewrite Hone. rewrite Qmult_1_r.
      change (Zsum (?a :: ?l)) with (a + Zsum l). rewrite <- inject_Z_plus. reflexivity.
    + ring.
  - specialize (Hsum (meets ids)). eapply card_is_ext; [|exact Hsum]. intros u. split.
    + intros [r [Hinr [Hm' Hreg]]]. unfold meets in Hm'. apply existsb_exists in Hm'.
      destruct Hm' as [i [Hi T]]. exists i. split; auto. apply Hreg; auto.
      destruct Hids' as [_ [_ Ha]]. destruct (Ha i Hi) as [s [? _]]. auto.
    + intros [i [Hi Hreach]]. destruct (Hr u i Hreach) as [r [Hinr Hreg]]. exists r. split; auto. split; auto.
      unfold meets. apply existsb_exists. exists i. split; auto. apply Hreg; auto.
      destruct Hreach as [? [? [? _]]]. auto.
Qed.
Print Assumptions C25_noiseless_points_exact.

Lemma ex_noiseless : noiseless ex_externals.
Proof.
  split; [|split; [|split]]; simpl; intros.
  - inversion H0; subst. rewrite filter_all; [rewrite repeat_length; lia|].
    intros x Hx. apply repeat_spec in Hx. subst. reflexivity.
  - congruence.
  - inversion H; subst. reflexivity.
  - congruence.
Qed.
Example C25_example : exists pts w', 
  simulated_venn ex_halo [5#100; 3#100]%Q ex_budget (1#4) 1 ex_world = (Ok pts, w') /\
  buyable [5#100; 3#100]%Q [0; 1] /\
  map (fun p => map Qred (rp_kplus p)) pts = [[3%Q]; [1%Q]; [3%Q]] /\
  map rp_impressions pts = [[4; 0]; [0; 1]; [4; 1]].
Proof.
  do 2 eexists. split; [vm_compute; reflexivity|]. split.
  - split; [discriminate|]. split; [repeat constructor; lia|].
    intros i [<-|[<-|[]]]; eexists; (split; [lia|]); (split; [reflexivity|]); discriminate.
  - split; vm_compute; reflexivity.
Qed.
