From Coq Require Import String Permutation Sorted Lqa.
From Verif Require Import Prelude ModelReachPoint ModelData SpecData ReachPointLemmas
  DataLemmas DataLemmas2 DataLemmas3 ModelPrivacy ModelHalo SpecHalo HaloLemmas SpecVenn VennLemmas HaloLemmas2.
Open Scope Z_scope.

Lemma filter_all {A} (f : A -> bool) l : (forall x, In x l -> f x = true) -> filter f l = l.
Proof.
  induction l as [|x l IH]; intros H; simpl; auto. rewrite (H x (or_introl eq_refl)). f_equal.
  apply IH. intros y Hy. apply H. right; auto.
Qed.

Lemma pos_has_bit r : 0 < r -> exists j, 0 <= j /\ Z.testbit r j = true.
Proof.
  intros H. exists (Z.log2 r). split; [apply Z.log2_nonneg|]. apply Z.bit_log2; auto.
Qed.

Lemma active_ids_in spends i : In i (active_ids spends) <-> active spends i.
Proof.
  unfold active_ids, active. rewrite in_map_iff. split.
  - intros [[n s] [<- H]]. apply filter_In in H. destruct H as [H1 H2]. simpl in *.
    exists s. split; [lia|]. rewrite Nat2Z.id. split.
    + apply In_nth_error in H1. destruct H1 as [k Hk].
      assert (forall a (l : list Q) k n s, nth_error (combine (seq a (length l)) l) k = Some (n, s) ->
        n = (a + k)%nat /\ nth_error l k = Some s) as HG.
      { intros a l. revert a. induction l as [|x l IH]; intros a k0 n0 s0 E; [destruct k0; discriminate|].
        destruct k0; simpl in E; [inversion E; split; [lia|auto]|].
        apply IH in E. split; [lia|tauto]. }
      apply HG in Hk. destruct Hk as [-> Hk]. simpl. exact Hk.
    + apply negb_true_iff in H2. apply Qeq_bool_neq in H2. auto.
  - intros [s [Hi [E Hs]]]. exists (Z.to_nat i, s). split; [simpl; lia|]. apply filter_In. split.
    + assert (forall a l k (s : Q), nth_error l k = Some s -> In ((a + k)%nat, s) (combine (seq a (length l)) l)) as HG.
      { intros a l. revert a. induction l as [|x l IH]; intros a k s0 H; [destruct k; discriminate|].
        destruct k; simpl in *; [inversion H; left; f_equal; lia|]. right.
        replace (a + S k)%nat with (S a + k)%nat by lia. auto. }
      apply (HG 0%nat). auto.
    + simpl. apply negb_true_iff. destruct (Qeqb s 0) eqn:Eq; auto. apply Qeq_bool_iff in Eq. contradiction.
Qed.

Lemma active_ids_sorted spends : StronglySorted Z.lt (active_ids spends).
Proof.
  unfold active_ids. generalize 0%nat at 1. induction spends as [|s spends IH]; intros a; simpl; [constructor|].
  destruct (negb (Qeqb s 0)); simpl; auto. constructor; auto.
  apply Forall_forall. intros x Hx. apply in_map_iff in Hx. destruct Hx as [[n q] [<- Hx]].
  apply filter_In in Hx. destruct Hx as [Hx _]. apply in_combine_l in Hx. apply in_seq in Hx. simpl. lia.
Qed.

Lemma sorted_lt_nodup l : StronglySorted Z.lt l -> NoDup l.
Proof.
  induction 1; constructor; auto. intros C. rewrite Forall_forall in H0. specialize (H0 a C). lia.
Qed.

Lemma active_length pubs spends i act :
  active_counts_from pubs i spends = Ok act ->
  length act = length (filter (fun s => negb (Qeq_bool s 0)) spends).
Proof.
  revert i act. induction spends as [|s spends IH]; intros i act H; simpl in *; [inversion H; auto|].
  unfold Qeqb in H. destruct (Qeq_bool s 0); simpl; [eauto|].
  destruct (py_index pubs i); [|discriminate]. simpl in H.
  destruct (active_counts_from pubs (i + 1) spends) eqn:E; [|discriminate]. inversion H. simpl. f_equal. eauto.
Qed.

(** The regions, in terms of the specification. *)
Lemma regions_partition logs h spends m : is_halo_of logs h -> length spends = length logs ->
  1 <= m -> (length (filter (fun s => negb (Qeq_bool s 0)) spends) <= 20)%nat ->
  exists regions, form_venn_diagram_regions h spends m = Ok regions /\
    NoDup (map fst regions) /\
    (forall r, In r (map fst regions) <-> 0 < r /\ forall i, 0 <= i -> Z.testbit r i = true -> active spends i) /\
    (forall r kp, In (r, kp) regions -> length kp = Z.to_nat m /\
       forall k, 1 <= k <= m -> exists n, nth_error kp (Z.to_nat (k - 1)) = Some n /\
         card_is (fun u => in_region logs spends r u /\
                           k <= total_seen (active_seen u) logs spends) n) /\
    (forall u i, reached_by logs spends u i -> exists r, In r (map fst regions) /\ in_region logs spends r u) /\
    (forall sel : Z -> bool, card_is (fun u => exists r, In r (map fst regions) /\ sel r = true /\ in_region logs spends r u)
       (Zsum (map (fun rk => hd 0 (snd rk)) (filter (fun rk => sel (fst rk)) regions)))).
Proof.
  intros Hh Hl Hm Hmax.
  destruct (halo_fields logs h Hh) as [_ [HP _]]. pose proof (Forall2_len _ _ _ HP) as HL.
  destruct (active_counts_ok (h_publishers h) spends ltac:(lia)) as [act Ha].
  rewrite <- (active_length _ _ _ _ Ha) in Hmax.
  destruct (form_regions_spec logs h spends m act Hh Hl Hm Ha Hmax)
    as [regions [R [E [Ek [HRn [HK [HB [HRin HC]]]]]]]].
  destruct (active_of_logs logs h spends act Hh Ha) as [Hc [Hn [Hs [Hact _]]]]. specialize (Hact Hl).
  assert (forall i, In i (map fst act) -> 0 <= i) as Hpos.
  { intros i Hi. apply Hact in Hi. destruct Hi as [s [? _]]. auto. }
  destruct (region_keys (map fst act) Hs Hn Hpos) as [KN KI]. rewrite <- Ek in KN, KI.
  assert (forall r, In r (map fst regions) <-> 0 < r /\ forall i, 0 <= i -> Z.testbit r i = true -> active spends i) as KI'.
  { intros r. rewrite KI. split; intros [H1 H2]; split; auto; intros i Hi T.
    - apply Hact; auto.
    - apply Hact; auto. }
  exists regions. split; auto. split; auto. split; auto.
  assert (forall u r, In r (map fst regions) -> (in_region logs spends r u <-> In u (dict_keys R) /\ dict_get R u = r)) as Hreg.
  { intros u r Hr. apply KI in Hr. destruct Hr as [Hr Hbits]. split.
    - intros H. destruct (pos_has_bit r Hr) as [j [Hj Tj]].
      assert (In u (dict_keys R)) as Hu by (apply HK; exists j; apply H; auto).
      split; auto. apply testbit_ext; [|lia|].
      + apply HRin in Hu. apply KI in Hu. lia.
      + intros i Hi. rewrite (HB u i Hi), (H i Hi). tauto.
    - intros [Hu <-] i Hi. apply HB; auto. }
  assert (forall u, In u (dict_keys R) -> 1 <= total_seen (active_seen u) logs spends) as Hone.
  { intros u Hu. apply HK in Hu. destruct Hu as [i [log [s [Hi0 [E1 [E2 [Hs0 Hseen]]]]]]].
    assert (In (log, s) (combine logs spends)) as Hcomb.
    { clear -E1 E2. revert logs spends E1 E2. induction (Z.to_nat i); intros logs spends E1 E2;
        destruct logs, spends; simpl in *; try discriminate.
      - inversion E1; inversion E2; auto.
      - right; auto. }
    pose proof (total_seen_component (active_seen u) logs spends log s) as Hcomp.
    assert (active_seen u log s = seen_at_spend u log s) as Ea.
    { unfold active_seen. destruct (Qeq_bool s 0) eqn:Eq; auto. apply Qeq_bool_iff in Eq. contradiction. }
    rewrite Ea in Hcomp. etransitivity; [exact Hseen|]. apply Hcomp; auto.
    intros l0 b0. unfold active_seen. destruct (Qeq_bool b0 0); [lia|apply seen_at_spend_nonneg]. }
  split.
  - intros r kp Hin. destruct (HC r kp Hin) as [L1 N1]. split; auto. intros k Hk.
    assert (In r (map fst regions)) as Hr by (change r with (fst (r, kp)); apply in_map; auto).
    eexists. split; [apply N1; lia|].
    eexists. split; [apply NoDup_filter; exact HRn|]. split; [|reflexivity].
    intros u. rewrite filter_In, andb_true_iff, Z.eqb_eq, Z.leb_le, (Hreg u r Hr).
    replace (Z.of_nat (Z.to_nat (k - 1)) + 1) with k by lia. tauto.
  - split.
    { intros u i Hi. assert (In u (dict_keys R)) as Hu by (apply HK; eauto).
      exists (dict_get R u). split; auto. apply Hreg; auto. }
    intros sel.
    assert (Zsum (map (fun rk => hd 0 (snd rk)) (filter (fun rk => sel (fst rk)) regions)) =
      Z.of_nat (length (filter (fun u => sel (dict_get R u)) (dict_keys R)))) as ->.
    { assert (forall us regs, NoDup (map fst regs) ->
        (forall r kp, In (r, kp) regs -> hd 0 kp = Z.of_nat (length (filter (fun u => dict_get R u =? r) us))) ->
        Zsum (map (fun rk => hd 0 (snd rk)) (filter (fun rk => sel (fst rk)) regs)) =
        Z.of_nat (length (filter (fun u => sel (dict_get R u) && existsb (Z.eqb (dict_get R u)) (map fst regs)) us))) as HG.
      { intros us. induction regs as [|[r kp] regs IH]; intros Hnd Hv.
        - simpl. rewrite (filter_ext_len _ (fun _ => false)) by (intros; apply andb_false_r).
          replace (filter (fun _ : Z => false) us) with (@nil Z); auto.
          clear. induction us; auto.
        - inversion Hnd; subst. specialize (IH H2 (fun r0 k0 H => Hv r0 k0 (or_intror H))).
          specialize (Hv r kp (or_introl eq_refl)).
          assert (forall us', Z.of_nat (length (filter (fun u => sel (dict_get R u) && existsb (Z.eqb (dict_get R u)) (r :: map fst regs)) us')) =
            (if sel r then Z.of_nat (length (filter (fun u => dict_get R u =? r) us')) else 0) +
            Z.of_nat (length (filter (fun u => sel (dict_get R u) && existsb (Z.eqb (dict_get R u)) (map fst regs)) us'))) as Hsplit.
          { induction us' as [|u us' IHu]; [simpl; destruct (sel r); auto|]. cbn [filter existsb].
            destruct (Z.eqb_spec (dict_get R u) r) as [Eu|Nu].
            - rewrite Eu in *. cbn [orb].
              assert (existsb (Z.eqb r) (map fst regs) = false) as ->.
              { apply not_true_iff_false. intros C. apply existsb_exists in C. destruct C as [x [Hx Ex]].
                apply Z.eqb_eq in Ex. subst x. contradiction. }
              rewrite andb_true_r, andb_false_r.
              revert IHu; destruct (sel r); cbn [length existsb]; intros IHu; lia.
            - cbn [orb]. cbn [existsb] in IHu. destruct (sel (dict_get R u) && existsb (Z.eqb (dict_get R u)) (map fst regs)); cbn [length]; lia. }
          cbn [filter map fst]. rewrite Hsplit. destruct (sel r); cbn [map snd Zsum]; unfold Zsum in *; cbn [fold_right]; lia. }
      rewrite (HG (dict_keys R) regions KN).
      - f_equal. apply filter_ext_len. intros u Hu.
        assert (existsb (Z.eqb (dict_get R u)) (map fst regions) = true) as ->; [|apply andb_true_r].
        apply existsb_exists. exists (dict_get R u). split; auto. apply Z.eqb_refl.
      - intros r kp Hin. destruct (HC r kp Hin) as [L1 N1].
        specialize (N1 0%nat ltac:(lia)). destruct kp as [|x kp]; [discriminate|]. simpl in N1. simpl.
        inversion N1. f_equal. apply filter_ext_len. intros u Hu.
        assert ((1 <=? total_seen (active_seen u) logs spends) = true) as ->; [|apply andb_true_r].
        apply Z.leb_le. auto. }
    eexists. split; [apply NoDup_filter; exact HRn|]. split; [|reflexivity].
    intros u. rewrite filter_In. split.
    + intros [Hu Hsel]. exists (dict_get R u). split; auto. split; auto. apply Hreg; auto.
    + intros [r [Hr [Hsel H]]]. apply Hreg in H; auto. destruct H as [Hu <-]. auto.
Qed.

(** ** Aggregation *)

Lemma meets_land ids r : NoDup ids -> (forall i, In i ids -> 0 <= i) ->
  negb (Z.land r (region_repr ids) =? 0) = meets ids r.
Proof.
  intros Hn Hp. destruct (region_repr_bits ids Hn Hp) as [B0 B1]. unfold meets.
  destruct (existsb (fun i => Z.testbit r i) ids) eqn:E.
  - apply existsb_exists in E. destruct E as [i [Hi T]]. apply negb_true_iff, Z.eqb_neq. intros C.
    assert (Z.testbit (Z.land r (region_repr ids)) i = true) as T2.
    { rewrite Z.land_spec, T. apply B1; auto. }
    rewrite C, Z.bits_0 in T2. discriminate.
  - apply negb_false_iff, Z.eqb_eq. apply Z.bits_inj'. intros j Hj. rewrite Z.land_spec, Z.bits_0.
    destruct (Z.testbit r j) eqn:T; auto. simpl. destruct (Z.testbit (region_repr ids) j) eqn:T2; auto.
    apply B1 in T2; auto. exfalso. rewrite <- not_true_iff_false in E. apply E, existsb_exists. eauto.
Qed.

Lemma aggregate_is_sum ids table : NoDup ids -> (forall i, In i ids -> 0 <= i) ->
  aggregate_reach ids table = sum_meeting ids table.
Proof.
  intros Hn Hp. unfold aggregate_reach, sum_meeting. do 2 f_equal. apply filter_ext.
  intros r. apply meets_land; auto.
Qed.

Lemma sum_meeting_cons ids rv table :
  (sum_meeting ids (rv :: table) == (if meets ids (fst rv) then snd rv else 0) + sum_meeting ids table)%Q.
Proof. unfold sum_meeting. simpl. destruct (meets ids (fst rv)); simpl; ring. Qed.

Lemma sum_meeting_nonneg ids table : Forall (fun rv => (0 <= snd rv)%Q) table -> (0 <= sum_meeting ids table)%Q.
Proof.
  induction 1 as [|rv table H Ht IH]; [unfold sum_meeting; simpl; lra|].
  rewrite sum_meeting_cons. destruct (meets ids (fst rv)); lra.
Qed.

Lemma meets_mono ids ids' r : (forall i, In i ids -> In i ids') -> meets ids r = true -> meets ids' r = true.
Proof.
  unfold meets. intros H E. apply existsb_exists in E. destruct E as [i [Hi T]].
  apply existsb_exists. eauto.
Qed.

Lemma sum_meeting_mono ids ids' table : Forall (fun rv => (0 <= snd rv)%Q) table ->
  (forall i, In i ids -> In i ids') -> (sum_meeting ids table <= sum_meeting ids' table)%Q.
Proof.
  intros H Hi. induction H as [|rv table H Ht IH]; [unfold sum_meeting; simpl; lra|].
  rewrite !sum_meeting_cons. pose proof (meets_mono ids ids' (fst rv) Hi).
  destruct (meets ids (fst rv)), (meets ids' (fst rv)); try lra.
Qed.

Lemma sum_meeting_subadd a b c table : Forall (fun rv => (0 <= snd rv)%Q) table ->
  (forall i, In i c -> In i a \/ In i b) ->
  (sum_meeting c table <= sum_meeting a table + sum_meeting b table)%Q.
Proof.
  intros H Hi. induction H as [|rv table H Ht IH]; [unfold sum_meeting; simpl; lra|].
  rewrite !sum_meeting_cons.
  assert (meets c (fst rv) = true -> meets a (fst rv) = true \/ meets b (fst rv) = true) as HM.
  { unfold meets. intros E. apply existsb_exists in E. destruct E as [i [Hc T]].
    destruct (Hi i Hc); [left|right]; apply existsb_exists; eauto. }
  destruct (meets c (fst rv)), (meets a (fst rv)), (meets b (fst rv)); try lra.
Qed.

(** ** Generated points *)

Lemma masked_spec {A} (zero : A) ids l : restricted_to zero ids l (masked zero ids l).
Proof.
  unfold masked. split.
  - rewrite map_length, combine_length, seq_length. lia.
  - intros i x H.
    assert (forall a l i (x : A), nth_error l i = Some x ->
      nth_error (combine (seq a (length l)) l) i = Some ((a + i)%nat, x)) as HG.
    { intros a l0. revert a. induction l0 as [|y l0 IH]; intros a i0 x0 H0; [destruct i0; discriminate|].
      destruct i0; simpl in *; [inversion H0; do 2 f_equal; lia|].
      rewrite (IH (S a) i0 x0 H0). do 2 f_equal. lia. }
    rewrite nth_error_map, (HG 0%nat l i x H). simpl.
    split; intros Hin.
    + assert (existsb (Z.eqb (Z.of_nat i)) ids = true) as ->; auto.
      apply existsb_exists. exists (Z.of_nat i). split; auto. apply Z.eqb_refl.
    + assert (existsb (Z.eqb (Z.of_nat i)) ids = false) as ->; auto.
      apply not_true_iff_false. intros C. apply existsb_exists in C. destruct C as [j [Hj Ej]].
      apply Z.eqb_eq in Ej. subst. contradiction.
Qed.

Lemma buyable_subsets spends ids : buyable spends ids <-> In ids (nonempty_subsets (active_ids spends)).
Proof.
  split.
  - intros [Hne [Hs Ha]].
    assert (ids = filter (fun i => existsb (Z.eqb i) ids) (active_ids spends)) as E.
    { apply sorted_lt_ext; auto.
      - assert (forall f l, StronglySorted Z.lt l -> StronglySorted Z.lt (filter f l)) as HF.
        { intros f l. induction 1; simpl; [constructor|]. destruct (f a); auto. constructor; auto.
          rewrite Forall_forall in *. intros x Hx. apply filter_In in Hx. apply H0. tauto. }
        apply HF, active_ids_sorted.
      - intros x. rewrite filter_In, active_ids_in. split.
        + intros Hx. split; auto. apply existsb_exists. exists x. split; auto. apply Z.eqb_refl.
        + intros [_ Hx]. apply existsb_exists in Hx. destruct Hx as [y [Hy Ey]]. apply Z.eqb_eq in Ey. subst; auto. }
    rewrite E. apply nonempty_subsets_filter. rewrite <- E. auto.
  - intros H. destruct (nonempty_subsets_in _ _ H) as [H1 [H2 _]]. split; auto. split.
    + unfold nonempty_subsets in H. apply in_flat_map in H. destruct H as [r [_ H]].
      eapply combinations_sorted; eauto. apply active_ids_sorted.
    + intros i Hi. apply active_ids_in; auto.
Qed.

Lemma generate_points_spec h spends table pts :
  generate_reach_points h spends table = Ok pts ->
  exists imps, ds_impressions_by_spend (h_data_set h) spends = Ok imps /\
  Forall2 (point_of h spends imps table) (nonempty_subsets (active_ids spends)) pts.
Proof.
  unfold generate_reach_points. intros H.
  destruct (ds_impressions_by_spend (h_data_set h) spends) as [imps|]; [|discriminate]. simpl in H.
  exists imps. split; auto. apply mapM_Forall2 in H.
  assert (forall ids, In ids (nonempty_subsets (active_ids spends)) -> buyable spends ids) as Hb
    by (intros; apply buyable_subsets; auto).
  revert Hb H. generalize (nonempty_subsets (active_ids spends)) as ss. intros ss. revert pts.
  induction ss as [|ids ss IH]; intros pts Hb H; inversion H; subst; constructor.
  - destruct (Hb ids (or_introl eq_refl)) as [Hne [Hs Ha]].
    apply mk_reach_point_ok in H2. destruct H2 as [E1 [E2 [_ [E4 E5]]]].
    unfold point_of. rewrite E1, E2, E4, E5. split; [apply masked_spec|].
    split.
    + exists (masked 0%Q ids spends). split; [|apply masked_spec].
      destruct spends as [|s spends]; [|reflexivity].
      destruct ids as [|i ids]; [congruence|]. destruct (Ha i (or_introl eq_refl)) as [s [_ [E _]]].
      destruct (Z.to_nat i); discriminate.
    + split; auto. f_equal. apply aggregate_is_sum; [apply sorted_lt_nodup; auto|].
      intros i Hi. destruct (Ha i Hi) as [s [? _]]. auto.
  - apply IH; auto. intros. apply Hb. right; auto.
Qed.

Lemma generate_points_ok h spends table :
  length spends = publisher_count (h_data_set h) ->
  exists pts, generate_reach_points h spends table = Ok pts.
Proof.
  intros H. unfold generate_reach_points. rewrite ds_impressions_ok by auto. simpl.
  assert (forall {A B} (f : A -> result B) l, (forall x, exists y, f x = Ok y) -> exists r, mapM f l = Ok r) as HM.
  { intros A B f l Hf. induction l as [|x l [r IH]]; simpl; [eauto|]. destruct (Hf x) as [y E].
    rewrite E. simpl. rewrite IH. simpl. eauto. }
  apply HM. intros ids.
  apply mk_reach_point_same_length. unfold masked.
  rewrite !map_length, !combine_length, !seq_length, map_length, combine_length.
  unfold publisher_count in H. lia.
Qed.

(** ** What a successful Venn request did *)

Lemma mapM_snd0 (regions : list (Z * list Z)) pairs :
  mapM (fun rk => x <- py_index (snd rk) 0 ;; Ok (fst rk, x)) regions = Ok pairs ->
  pairs = map (fun rk => (fst rk, hd 0 (snd rk))) regions.
Proof.
  revert pairs. induction regions as [|[r l] regions IH]; intros pairs H; simpl in H; [inversion H; auto|].
  destruct (py_index l 0) as [x|] eqn:E; [|discriminate]. simpl in H.
  destruct (mapM _ regions) as [ps|]; [|discriminate]. simpl in H. inversion H; subst.
  simpl. rewrite <- (IH ps eq_refl). rewrite py_index_nonneg in E by lia.
  destruct l; [discriminate|]. simpl in E. inversion E. reflexivity.
Qed.

Lemma venn_inv {X} h spends b split m (w w' : world X) pts :
  simulated_venn h spends b split m w = (Ok pts, w') ->
  (Forall (fun s => (s == 0)%Q) spends /\ pts = []) \/
  exists regions p card v size sample noisy x z table g1 g1' g2 g2' g3 g3' sd e seed,
    form_venn_diagram_regions h spends 1 = Ok regions /\ regions <> [] /\
    reach_by_spend (h_data_set h) spends 1 = Ok p /\ reach p 1 = Ok card /\
    rng_multinomial X g1 card (h_ll h) = (Ok v, g1') /\
    size = Z.of_nat (length (filter (fun x => x =? 1) v)) /\ size <> 0 /\
    size <= Zsum (map (fun rk => hd 0 (snd rk)) regions) /\
    rng_hypergeometric X g2 (map (fun rk => hd 0 (snd rk)) regions) size = (Ok sample, g2') /\
    Forall2 (fun a c => fst a = fst c /\ exists e seed n z,
                geometric_noise X e seed n = Ok z /\ snd c = Z.max 0 (snd a + z))
            (combine (map fst regions) sample) noisy /\
    rng_normal X g3 card sd = (Ok x, g3') /\
    geometric_noise X e seed 0%nat = Ok z /\
    table = map (fun r => (fst r, (inject_Z (snd r) *
              (if Zsum (map snd noisy) =? 0 then 0 else (x + inject_Z z) / inject_Z (Zsum (map snd noisy))))%Q)) noisy /\
    generate_reach_points h spends table = Ok pts.
Proof.
  unfold simulated_venn. intros H. destruct (Z.eqb_spec m 1) as [->|]; [|discriminate].
  cbn [negb] in H. unfold mbind at 1, mlift at 1 in H.
  destruct (form_venn_diagram_regions h spends 1) as [regions|] eqn:Ef; [|discriminate].
  destruct regions as [|r0 rs].
  { left. apply form_regions_nil in Ef. unfold mret in H. inversion H. auto. }
  right. assert (r0 :: rs <> []) as Hne by discriminate.
  remember (r0 :: rs) as regions. clear Heqregions.
  unfold mbind at 1, mlift at 1, true_reach_by_spend in H.
  destruct (reach_by_spend (h_data_set h) spends 1) as [p|] eqn:Ep; [|discriminate].
  unfold mbind at 1, mlift at 1 in H. destruct (reach p 1) as [card|] eqn:Ec; [|discriminate].
  unfold mbind at 1, num_active_regions at 1 in H. unfold mbind at 1, mdraw at 1 in H.
  destruct (rng_multinomial X (w_rng w) card (h_ll h)) as [[v|] g1'] eqn:Em; [|discriminate].
  unfold mlift at 1 in H.
  set (size := Z.of_nat (length (filter (fun x => x =? 1) v))) in H.
  destruct (Z.eqb_spec size 0) as [|Hs0]; [discriminate|].
  unfold mbind at 1, sample_venn_diagram at 1 in H. unfold mbind at 1, mlift at 1 in H.
  destruct (mapM _ regions) as [pairs|] eqn:Epairs; [|discriminate].
  apply mapM_snd0 in Epairs.
  assert (map snd pairs = map (fun rk => hd 0 (snd rk)) regions) as Esnd.
  { rewrite Epairs, map_map. reflexivity. }
  assert (map fst pairs = map fst regions) as Efst.
  { rewrite Epairs, map_map. reflexivity. }
  destruct pairs as [|p0 ps] eqn:Epp; [discriminate|]. rewrite <- Epp in *. clear Epp p0 ps.
  rewrite Esnd, Efst in H.
  destruct (Z.ltb_spec (Zsum (map (fun rk => hd 0 (snd rk)) regions)) size) as [|Hle]; [discriminate|].
  unfold mbind at 1, mdraw at 1 in H. cbn [w_rng] in H.
  destruct (rng_hypergeometric X g1' _ size) as [[sample|] g2'] eqn:Eh; [|discriminate].
  unfold mret at 1 in H.
  unfold mbind at 1, add_dp_noise at 1 in H. unfold mbind at 1 in H.
  destruct (draw_seed _) as [[seed1|] w1]; [|discriminate].
  unfold mbind at 1, mlift at 1 in H. destruct (mapM _ _) as [noisy|] eqn:En; [|discriminate].
  unfold mbind at 1, mappend at 1, mret at 1 in H.
  unfold mbind at 1, mlift at 1 in H. destruct (ll_std X (h_ll h) card) as [sd|]; [|discriminate].
  unfold mbind at 1, scale_up at 1 in H. unfold mbind at 1 in H.
  destruct (draw_seed _) as [[seed2|] w2]; [|discriminate].
  unfold mbind at 1, mdraw at 1 in H.
  destruct (rng_normal X (w_rng w2) card sd) as [[x|] g3'] eqn:Enorm; [|discriminate].
  unfold mbind at 1, mlift at 1, noisedQ at 1 in H.
  destruct (geometric_noise X _ seed2 0%nat) as [z|] eqn:Eg; [|discriminate].
  cbn [bind] in H. unfold mbind at 1, mappend at 1, mret at 1, mlift at 1 in H.
  exists regions, p, card, v, size, sample, noisy, x, z. eexists.
  exists (w_rng w), g1', g1', g2', (w_rng w2), g3', sd. do 2 eexists.
  repeat (split; [first [reflexivity|eassumption|exact Hne|exact Hs0|exact Hle]|]).
  split.
  - clear -En. apply mapM_Forall2 in En. revert En. generalize (combine (map fst regions) sample) as l.
    intros l. generalize 0%nat at 1. revert noisy. induction l as [|a l IH]; intros noisy n0 En; simpl in En; inversion En; subst; constructor.
    + simpl in H1. unfold noised in H1.
      destruct (geometric_noise X _ seed1 n0) as [z0|] eqn:Ez; [|discriminate]. simpl in H1. inversion H1; subst. simpl.
      split; auto. do 4 eexists. split; [exact Ez|reflexivity].
    + eapply IH; eauto.
  - split; [eassumption|]. split; [eassumption|]. split; [reflexivity|]. inversion H. reflexivity.
Qed.
