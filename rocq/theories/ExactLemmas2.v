From Coq Require Import String Lqa Qround.
From Verif Require Import Prelude ModelReachPoint ModelData SpecData ModelPrivacy SpecPrivacy
  PrivacyLemmas ModelHalo SpecHalo ModelStrategy ReachPointLemmas DataLemmas DataLemmas2
  DataLemmas3 HaloLemmas SpecVenn VennLemmas HaloLemmas2 SpecExact ExactLemmas.
Open Scope Z_scope.

Lemma seen_at_spend_Qeq u log s s' : (s == s')%Q -> seen_at_spend u log s = seen_at_spend u log s'.
Proof.
  intros H. apply Z.le_antisymm; apply seen_at_spend_mono; rewrite H; apply Qle_refl.
Qed.

Lemma total_seen_Qeq u logs v v' : Forall2 Qeq v v' ->
  total_seen (seen_at_spend u) logs v = total_seen (seen_at_spend u) logs v'.
Proof.
  intros H. revert logs. induction H; intros [|log logs]; simpl; auto.
  rewrite (seen_at_spend_Qeq u log _ _ H), IHForall2. auto.
Qed.

Lemma halo_with_of logs fractions h : is_halo_with logs fractions h -> is_halo_of logs h.
Proof. intros [d [ll H]]. exists d, fractions, ll. auto. Qed.

Lemma campaigns_index logs fractions h : is_halo_with logs fractions h ->
  (length logs <= length fractions)%nat /\ length (h_publishers h) = length logs /\
  forall i log f p, nth_error logs i = Some log -> nth_error fractions i = Some f ->
    nth_error (h_publishers h) i = Some p -> campaign_of log f (pub_campaign_spend p).
Proof.
  intros Hh. pose proof (halo_with_of _ _ _ Hh) as Ho. destruct (halo_fields _ _ Ho) as [_ [HF _]].
  pose proof (Forall2_len _ _ _ HF) as HL.
  destruct Hh as [d [ll [[pubs [nm [un [HP Hds]]]] E]]].
  apply data_set_fields in Hds. destruct Hds as [Hdata _]. unfold mk_halo in E.
  destruct (mapM _ _) as [ps|] eqn:Em; [|discriminate]. inversion E; subst h; simpl in *. clear E.
  apply mapM_Forall2 in Em. unfold publisher_count in Em. rewrite Hdata in Em.
  assert (forall n pubs logs ps, Forall2 is_publisher_of logs pubs ->
    Forall2 (fun x y => bind (py_index fractions (Z.of_nat (fst x))) (fun f => Ok {| pub_data := snd x; pub_campaign_spend := (f * pd_max_spend (snd x))%Q |}) = Ok y)
      (combine (seq n (length pubs)) pubs) ps ->
    forall i log p, nth_error logs i = Some log -> nth_error ps i = Some p ->
    exists f, nth_error fractions (n + i) = Some f /\ campaign_of log f (pub_campaign_spend p)) as HH.
  { clear. intros n pubs logs ps HP. revert n ps. induction HP as [|log q logs pubs Hq HP IH];
      intros n ps HF i lg p E1 E2; simpl in HF; inversion HF; subst.
    - destruct i; discriminate.
    - destruct i as [|i]; simpl in E1, E2.
      + inversion E1; inversion E2; subst. simpl in H1. rewrite py_index_nonneg in H1 by lia.
        rewrite Nat2Z.id in H1. rewrite Nat.add_0_r.
        destruct (nth_error fractions n) as [f|] eqn:Ef; [|discriminate]. simpl in H1. inversion H1; subst.
        exists f. split; auto. simpl. destruct Hq as [rn [nm Hq]]. apply publisher_fields in Hq.
        destruct Hq as [_ [_ [Hm _]]]. exists (pd_max_spend q). split; [eapply py_maxQ_in; eauto|].
        split; [|reflexivity]. intros r Hr. eapply py_maxQ_ge; eauto. apply in_map; auto.
      + destruct (IH (S n) _ H3 i lg p E1 E2) as [f [F1 F2]]. exists f.
        replace (n + S i)%nat with (S n + i)%nat by lia. auto. }
  specialize (HH 0%nat pubs logs ps HP Em).
  split; [|split; [auto|]].
  - destruct (le_lt_dec (length logs) (length fractions)) as [|Hlt]; auto. exfalso.
    destruct (nth_error logs (length logs - 1)) as [log|] eqn:E1; [|apply nth_error_None in E1; lia].
    destruct (nth_error ps (length logs - 1)) as [p|] eqn:E2; [|apply nth_error_None in E2; lia].
    destruct (HH _ _ _ E1 E2) as [f [F1 _]]. simpl in F1.
    assert (nth_error fractions (length logs - 1) <> None) as C by congruence.
    apply nth_error_Some in C. lia.
  - intros i log f p E1 E2 E3. destruct (HH i log p E1 E3) as [f' [F1 F2]]. simpl in F1.
    rewrite E2 in F1. inversion F1; subst. auto.
Qed.

Lemma campaigns_are logs fractions h : is_halo_with logs fractions h ->
  campaigns_of logs fractions (campaign_spends h).
Proof.
  intros H. destruct (campaigns_index _ _ _ H) as [H1 [H2 H3]]. unfold campaign_spends.
  split; [rewrite map_length; auto|]. split; auto.
  intros i log f c E1 E2 E3. rewrite nth_error_map in E3.
  destruct (nth_error (h_publishers h) i) as [p|] eqn:E; [|discriminate]. inversion E3; subst. eauto.
Qed.

Lemma campaign_of_unique log f c c' : campaign_of log f c -> campaign_of log f c' -> (c == c')%Q.
Proof.
  intros [t [H1 [H2 H3]]] [t' [H1' [H2' H3']]].
  assert (t == t')%Q as E.
  { apply in_map_iff in H1. destruct H1 as [r [<- H1]]. apply in_map_iff in H1'.
    destruct H1' as [r' [<- H1']]. apply Qle_antisym; auto. }
  rewrite H3, H3', E. reflexivity.
Qed.

Lemma campaigns_unique logs fractions c c' :
  campaigns_of logs fractions c -> campaigns_of logs fractions c' -> Forall2 Qeq c c'.
Proof.
  intros [L [LF H]] [L' [_ H']].
  assert (forall i x y, nth_error c i = Some x -> nth_error c' i = Some y -> (x == y)%Q) as HH.
  { intros i x y E1 E2.
    assert (i < length c)%nat by (apply nth_error_Some; congruence).
    destruct (nth_error logs i) as [log|] eqn:E3; [|apply nth_error_None in E3; lia].
    destruct (nth_error fractions i) as [f|] eqn:E4; [|apply nth_error_None in E4; lia].
    eapply campaign_of_unique; eauto. }
  assert (length c = length c') as LL by congruence. clear -HH LL.
  revert c' HH LL. induction c as [|a c IH]; intros [|a' c'] HH LL; try discriminate; constructor.
  - apply (HH 0%nat); reflexivity.
  - apply IH; [|simpl in LL; lia]. intros i x y E1 E2. apply (HH (S i)); auto.
Qed.

Lemma part_seen_at_most u logs pubs spends : length spends = length pubs ->
  part_seen u logs pubs spends =
  total_seen (seen_at_spend u) logs (at_most (map pub_campaign_spend pubs) spends).
Proof.
  intros HL. unfold part_seen, at_most. f_equal. revert spends HL.
  induction pubs as [|p pubs IH]; intros [|s spends] HL; try discriminate; auto.
  cbn [combine map fst snd]. f_equal; [|apply IH; simpl in HL; lia].
  unfold py_min2, Qltb, Qleb. destruct (Qle_bool s (pub_campaign_spend p)); auto.
Qed.

Lemma at_most_Qeq c c' s : Forall2 Qeq c c' -> Forall2 Qeq (at_most c s) (at_most c' s).
Proof.
  intros H. revert s. induction H as [|x y c c' H H0 IH]; intros [|a s]; unfold at_most; simpl;
    constructor; auto; [|apply IH].
  destruct (Qle_bool a x) eqn:E1, (Qle_bool a y) eqn:E2; auto; try reflexivity.
  - apply Qle_bool_iff in E1. apply Qleb_gt in E2. lra.
  - apply Qle_bool_iff in E2. apply Qleb_gt in E1. lra.
Qed.

Lemma exact_reaches_ext (f g : Z -> Z) n m p : (forall u, f u = g u) ->
  exact_reaches f n m p -> exact_reaches g n m p.
Proof.
  intros E [H [n1 [H1 [H2 H3]]]]. split; auto. exists n1.
  split; [eapply card_is_ext; [|exact H1]; intros u; cbv beta; rewrite E; tauto|].
  split; auto. intros Hl k Hk. destruct (H2 Hl k Hk) as [r [C R]]. exists r. split; auto.
  eapply card_is_ext; [|exact C]; intros u; cbv beta; rewrite E; tauto.
Qed.

Lemma at_most_same c s : length c = length s ->
  (forall i x y, nth_error c i = Some x -> nth_error s i = Some y -> (y <= x)%Q) -> at_most c s = s.
Proof.
  revert s. induction c as [|x c IH]; intros [|y s] HL H; try discriminate; auto.
  unfold at_most. cbn [combine map fst snd]. f_equal.
  - destruct (Qle_bool y x) eqn:E; auto. apply Qleb_gt in E.
    specialize (H 0%nat x y eq_refl eq_refl). lra.
  - apply IH; [simpl in HL; lia|]. intros i. apply (H (S i)).
Qed.
