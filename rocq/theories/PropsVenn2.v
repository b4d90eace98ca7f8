(** C25, continued: Venn diagram requests for which there is nothing to report. *)
From Coq Require Import String Sorted Lqa.
From Verif Require Import Prelude ModelReachPoint ModelData SpecData ModelPrivacy SpecPrivacy
  ModelHalo SpecHalo ReachPointLemmas DataLemmas DataLemmas2 DataLemmas3 PropsReachPoint PropsData
  HaloLemmas SpecVenn VennLemmas HaloLemmas2 VennLemmas2 PropsHalo PropsVenn.
Open Scope Z_scope.

(** If nothing is spent there are no points; nothing is charged and nothing drawn. *)
Theorem C25_no_spend : forall X logs h spends b split (w : world X),
  is_halo_of logs h -> length spends = length logs -> Forall (fun s => (s == 0)%Q) spends ->
  simulated_venn h spends b split 1 w = (Ok [], w).
Proof.
  intros X logs h spends b split w Hh Hl Hz.
  assert (F0 : filter (fun s => negb (Qeq_bool s 0)) spends = []).
  { clear Hl. induction Hz as [|s l Hs _ IH]; [reflexivity|]. cbn [filter]. apply Qeq_bool_iff in Hs. rewrite Hs. exact IH. }
  destruct (C24_regions_count_users logs h spends 1 Hh Hl ltac:(lia) ltac:(rewrite F0; cbn; lia)) as [regions [E [_ [K _]]]].
  assert (regions = []) as ->.
  { destruct regions as [|[r kp] l]; [reflexivity|]. exfalso.
    assert (I : In r (map fst ((r, kp) :: l))) by (left; reflexivity). apply K in I. destruct I as [Pr Br].
    destruct (Br (Z.log2 r) (Z.log2_nonneg r) (Z.bit_log2 r Pr)) as [s [_ [Hs Nz]]].
    rewrite Forall_forall in Hz. apply Nz, Hz. eapply nth_error_In. exact Hs. }
  unfold simulated_venn. change (negb (1 =? 1)) with false. cbv iota. unfold mbind, mlift. rewrite E. reflexivity.
Qed.
Print Assumptions C25_no_spend.

(** If no register of the sketch holds exactly one user, the request raises a RuntimeError; no
    budget is charged. *)
Theorem C25_no_register : forall X logs h spends b split (w : world X) i v g,
  is_halo_of logs h -> positive_prices logs -> length spends = length logs -> active spends i ->
  (length (filter (fun s => negb (Qeq_bool s 0)) spends) <= 20)%nat ->
  (forall n, card_is (fun u => exists i, reached_by logs spends u i) n -> rng_multinomial X (w_rng w) n (h_ll h) = (Ok v, g)) ->
  ~ In 1 v ->
  simulated_venn h spends b split 1 w = (Err RuntimeError, {| w_tracker := w_tracker w; w_rng := g |}).
Proof.
  intros X logs h spends b split w i v g Hh Hp Hl Ha Hmax Hv N1.
  destruct (C24_regions_count_users logs h spends 1 Hh Hl ltac:(lia) Hmax) as [regions [E [_ [K _]]]].
  destruct (C24_total_is_union_reach logs h spends 1 regions Hh Hp Hl ltac:(lia) Hmax E) as [p [E1 E2]].
  pose proof (C24_regions_add_up logs h spends 1 regions Hh Hl ltac:(lia) Hmax E) as C.
  destruct regions as [|[r kp] l].
  { exfalso. destruct Ha as [s [Hi [Hs Nz]]].
    assert (I : In (2 ^ i) (map fst (@nil (Z * list Z)))).
    { apply K. split; [apply Z.pow_pos_nonneg; lia|]. intros j Hj Tj. rewrite Z.pow2_bits_eqb in Tj by lia. apply Z.eqb_eq in Tj. subst j. exists s. auto. }
    destruct I. }
  unfold simulated_venn. change (negb (1 =? 1)) with false. cbv iota. unfold mbind, mlift. rewrite E, E1, E2.
  unfold num_active_regions, mbind, mdraw, mlift. rewrite (Hv _ C).
  assert (F : filter (fun x => x =? 1) v = []).
  { clear - N1. induction v as [|a v IH]; [reflexivity|]. cbn [filter]. destruct (Z.eqb_spec a 1) as [->|_]; [contradiction N1; left; reflexivity|].
    apply IH. intros I. apply N1. right. exact I. }
  rewrite F. reflexivity.
Qed.
Print Assumptions C25_no_register.

(** In particular if spends are not zero but buy nothing: instead of reach points with reach 0
    there is a RuntimeError that blames the configuration of the sketch. *)
Theorem C25_nothing_bought_refuted : forall X logs h spends b split (w : world X) i v g,
  is_halo_of logs h -> positive_prices logs -> length spends = length logs -> active spends i ->
  (length (filter (fun s => negb (Qeq_bool s 0)) spends) <= 20)%nat ->
  (forall u j, ~ reached_by logs spends u j) ->
  rng_multinomial X (w_rng w) 0 (h_ll h) = (Ok v, g) -> Forall (fun c => c = 0) v ->
  simulated_venn h spends b split 1 w = (Err RuntimeError, {| w_tracker := w_tracker w; w_rng := g |}).
Proof.
  intros X logs h spends b split w i v g Hh Hp Hl Ha Hmax Nb Hv Zv.
  apply (C25_no_register X logs h spends b split w i v g Hh Hp Hl Ha Hmax).
  - intros n [S0 [_ [H <-]]]. destruct S0 as [|u S0]; [exact Hv|]. exfalso. destruct (proj1 (H u) (or_introl eq_refl)) as [j Hj]. exact (Nb u j Hj).
  - intros I. rewrite Forall_forall in Zv. specialize (Zv 1 I). discriminate Zv.
Qed.
Print Assumptions C25_nothing_bought_refuted.

Lemma no_sale : forall u log s, forallb (fun r => negb (Qle_bool (snd r) s)) log = true -> ~ 1 <= seen_at_spend u log s.
Proof.
  intros u log s H. unfold seen_at_spend. induction log as [|r log IH]; [cbn; lia|].
  cbn [forallb] in H. apply andb_true_iff in H. destruct H as [H1 H2]. apply negb_true_iff in H1.
  cbn [filter]. rewrite H1, andb_false_r. exact (IH H2).
Qed.

(** Each of the first impressions costs more than what is spent. *)
Example C25_nothing_bought_example :
  active [1#1000; 1#1000]%Q 0 /\
  (forall u j, ~ reached_by [ex_log1; ex_log2] [1#1000; 1#1000]%Q u j) /\
  simulated_venn ex_halo [1#1000; 1#1000]%Q ex_budget (1#4) 1 ex_world =
    (Err RuntimeError, {| w_tracker := w_tracker ex_world; w_rng := 1 : rng ex_externals |}) /\
  simulated_venn ex_halo [0; 0]%Q ex_budget (1#4) 1 ex_world = (Ok [], ex_world).
Proof.
  assert (A : active [1#1000; 1#1000]%Q 0).
  { exists (1#1000)%Q. split; [lia|]. split; [reflexivity|]. intros E. discriminate E. }
  assert (N : forall u j, ~ reached_by [ex_log1; ex_log2] [1#1000; 1#1000]%Q u j).
  { intros u j [l [s [_ [Hl [Hs [_ P]]]]]].
    destruct (Z.to_nat j) as [|[|n]]; cbn in Hl, Hs.
    - injection Hl as <-. injection Hs as <-. revert P. apply no_sale. reflexivity.
    - injection Hl as <-. injection Hs as <-. revert P. apply no_sale. reflexivity.
    - destruct n; discriminate Hl. }
  split; [exact A|]. split; [exact N|]. split.
  - apply (C25_nothing_bought_refuted ex_externals [ex_log1; ex_log2] ex_halo _ _ _ _ 0 [] _ ex_is_halo); auto.
    + repeat constructor; unfold Qlt; simpl; lia.
    + cbn. lia.
  - apply (C25_no_spend ex_externals [ex_log1; ex_log2]); [exact ex_is_halo|reflexivity|repeat constructor; reflexivity].
Qed.
