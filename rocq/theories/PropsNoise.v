(** C59: every request adds the noise it records, from fresh draws of the generator. *)
From Coq Require Import String Lqa.
From Verif Require Import Prelude ModelReachPoint ModelData DataLemmas ReachPointLemmas
  ModelPrivacy SpecPrivacy ModelHalo SpecHalo HaloLemmas ModelStrategy SpecNoise VennLemmas VennLemmas2
  HaloLemmas2 NoiseLemmas PropsHalo.
Notation length := List.length.
Open Scope Z_scope.

(** A reach request draws two seeds. The estimator is given these seeds and the two shares of
    the budget; the events recorded are those of the same estimator; and, unless the reach had
    to be cut to the number of impressions, the k+ reach is the least of its first k estimates,
    rounded to the nearest integer and not below zero. *)
Theorem C59_reach_request : forall X h spends b split m (w w' : world X) p z1 g1 z2 g2,
  simulated_reach_by_spend h spends b split m w = (Ok p, w') ->
  rng_integers X (w_rng w) = (z1, g1) -> rng_integers X g1 = (z2, g2) ->
  let cfg := {| ec_max_freq := m;
                ec_reach_epsilon := epsilon b * split; ec_frequency_epsilon := epsilon b * (1 - split);
                ec_reach_delta := delta b * split; ec_frequency_delta := delta b * (1 - split);
                ec_reach_seed := z1; ec_frequency_seed := z2 |} in
  exists sk est, estimate X cfg sk = Ok est /\ w_rng w' = g2 /\
    records (w_tracker w) (w_tracker w') (events_of "Discrete Gaussian" (output_privacy_parameters X cfg)) /\
    ((exists r, reach p 1 = Ok r /\ r < Zsum (rp_impressions p) - 1) ->
     forall k r, reach p k = Ok r -> least_of_first est (Z.to_nat k) r).
Proof.
  intros X h spends b split m w w' p z1 g1 z2 g2 H E1 E2 cfg. unfold simulated_reach_by_spend in H.
  unfold mbind at 1, mlift at 1 in H. destruct (py_index (h_publishers h) 0) as [p0|]; [|discriminate H].
  unfold mbind at 1, mlift at 1 in H. destruct (py_index spends 0) as [s0|]; [|discriminate H].
  cbv zeta in H.
  unfold mbind at 1 in H. unfold draw_seed at 1, mdraw at 1 in H. rewrite E1 in H.
  unfold mbind at 1 in H. unfold draw_seed at 1, mdraw at 1 in H. cbn [w_rng w_tracker] in H. rewrite E2 in H.
  fold cfg in H. unfold mbind at 1 in H.
  match type of H with context [mfold (merge_step h spends) ?l ?s ?v] =>
    destruct (mfold (merge_step h spends) l s v) as [[sk|] w3] eqn:Ef; [|discriminate H];
    assert (w3 = v) as -> end.
  { assert (forall l sk0 (v : world X) r v', mfold (merge_step h spends) l sk0 v = (r, v') -> v' = v) as G.
    { clear. induction l as [|i l IH]; intros sk0 v r v' H; cbn [mfold] in H.
      - unfold mret in H. injection H as _ <-. reflexivity.
      - unfold mbind at 1, merge_step at 1, mbind at 1, mlift at 1 in H.
        destruct (py_index (h_publishers h) i) as [p|]; [|injection H as _ <-; reflexivity].
        unfold mbind at 1, mlift at 1 in H.
        destruct (py_index spends i) as [s|]; [|injection H as _ <-; reflexivity].
        unfold mlift at 1 in H.
        destruct (sketch_merge X sk0 _) as [sk1|]; [|injection H as _ <-; reflexivity].
        exact (IH _ _ _ _ H). }
    exact (G _ _ _ _ _ Ef). }
  unfold mbind at 1, mlift at 1 in H. destruct (estimate X cfg sk) as [est|] eqn:Eest; [|discriminate H].
  unfold mbind at 1 in H.
  match type of H with context [mfold _ (output_privacy_parameters X cfg) tt ?v] =>
    destruct (fold_events "Discrete Gaussian" (output_privacy_parameters X cfg) X v) as [w4 [F1 [F2 F3]]] end.
  rewrite F1 in H. cbn [w_rng w_tracker] in F2, F3.
  unfold mbind at 1, mlift at 1 in H.
  destruct (ds_impressions_by_spend (h_data_set h) spends) as [imps|]; [|discriminate H].
  unfold mbind at 1, mlift at 1 in H.
  destruct (py_index (min_accumulate _) 0) as [r1|] eqn:Er; [|discriminate H].
  unfold mlift in H. injection H as H Hw. subst w4.
  exists sk, est. split; [exact Eest|]. split; [exact F2|]. split; [exact F3|].
  intros [r0 [Hr0 Lr0]] k r Hr. apply mk_reach_point_ok in H. destruct H as [Hi [Hk _]].
  apply reach_spec in Hr0. apply reach_spec in Hr. destruct Hr0 as [_ Hr0], Hr as [Rk Hr].
  rewrite Hk in Hr0, Hr. rewrite Hi in Lr0.
  destruct (Z.leb_spec (Zsum imps) r1) as [C|C].
  { cbn in Hr0. injection Hr0 as <-. lia. }
  destruct (min_accumulate_least _ _ _ Hr) as [M1 [i [Hi' M2]]].
  split.
  - intros j e n Hj Ee En. apply (M1 j); [lia|]. rewrite map_map, nth_error_map, Ee. cbn [option_map].
    f_equal. f_equal. apply (rounds_to_unique e); [apply py_round_rounds|exact En].
  - rewrite map_map, nth_error_map in M2. destruct (nth_error est i) as [e|] eqn:Ee; [|discriminate M2].
    cbn [option_map] in M2. injection M2 as <-. exists i, e, (py_round e).
    split; [lia|]. split; [exact Ee|]. split; [apply py_round_rounds|reflexivity].
Qed.
Print Assumptions C59_reach_request.

(** A Venn request for spends that are not all zero draws, in this order: the register counts,
    the sample of the users in them, a seed, another seed, and the error of the sketch. The
    first seed gives the noise of the regions, with the first share of epsilon, the second that
    of the total, with the other share; two events with just these shares are recorded; and the
    region table the points are made of is the noisy sample scaled to the noisy total. *)
Theorem C59_venn_request : forall X h spends b split m (w w' : world X) pts,
  simulated_venn h spends b split m w = (Ok pts, w') -> (exists s, In s spends /\ ~ (s == 0)%Q) ->
  exists regions card v g1 size sample g2 z1 g3 z2 g4 sd x g5 z noisy table,
    form_venn_diagram_regions h spends 1 = Ok regions /\
    rng_multinomial X (w_rng w) card (h_ll h) = (Ok v, g1) /\
    size = Z.of_nat (length (filter (fun n => n =? 1) v)) /\
    rng_hypergeometric X g1 (map (fun rk => hd 0 (snd rk)) regions) size = (Ok sample, g2) /\
    rng_integers X g2 = (z1, g3) /\
    rng_integers X g3 = (z2, g4) /\
    rng_normal X g4 card sd = (Ok x, g5) /\ w_rng w' = g5 /\
    length noisy = length (combine (map fst regions) sample) /\
    (forall i r n, nth_error (combine (map fst regions) sample) i = Some (r, n) ->
       exists e, geometric_noise X (epsilon b * split) z1 i = Ok e /\
                 nth_error noisy i = Some (r, Z.max 0 (n + e))) /\
    geometric_noise X (epsilon b * (1 - split)) z2 0 = Ok z /\
    (let total := Zsum (map snd noisy) in
     table = map (fun r => (fst r, (inject_Z (snd r) * (if (total =? 0)%Z then 0 else (x + inject_Z z) / inject_Z total))%Q)) noisy) /\
    generate_reach_points h spends table = Ok pts /\
    records (w_tracker w) (w_tracker w')
      (events_of "Discrete Laplace" [(epsilon b * split, delta b * split);
                                     (epsilon b * (1 - split), delta b * (1 - split))]%Q).
Proof.
  intros X h spends b split m w w' pts H Hs. unfold simulated_venn in H.
  destruct (Z.eqb_spec m 1) as [->|]; [|discriminate H]. cbn [negb] in H. unfold mbind at 1, mlift at 1 in H.
  destruct (form_venn_diagram_regions h spends 1) as [regions|] eqn:Ef; [|discriminate H].
  destruct regions as [|r0 rs].
  { apply form_regions_nil in Ef. destruct Hs as [s [Hin Hn]]. rewrite Forall_forall in Ef.
    exfalso. apply Hn. apply Ef. exact Hin. }
  remember (r0 :: rs) as regions. clear Heqregions.
  unfold mbind at 1, mlift at 1, true_reach_by_spend in H.
  destruct (reach_by_spend (h_data_set h) spends 1) as [p|] eqn:Ep; [|discriminate H].
  unfold mbind at 1, mlift at 1 in H. destruct (reach p 1) as [card|] eqn:Ec; [|discriminate H].
  unfold mbind at 1, num_active_regions at 1 in H. unfold mbind at 1, mdraw at 1 in H.
  destruct (rng_multinomial X (w_rng w) card (h_ll h)) as [[v|] g1] eqn:Em; [|discriminate H].
  unfold mlift at 1 in H.
  set (size := Z.of_nat (length (filter (fun x => x =? 1) v))) in H.
  destruct (Z.eqb_spec size 0) as [|Hs0]; [discriminate H|].
  unfold mbind at 1, sample_venn_diagram at 1 in H. unfold mbind at 1, mlift at 1 in H.
  destruct (mapM _ regions) as [pairs|] eqn:Epairs; [|discriminate H].
  apply mapM_snd0 in Epairs.
  assert (map snd pairs = map (fun rk => hd 0 (snd rk)) regions) as Esnd.
  { rewrite Epairs, map_map. reflexivity. }
  assert (map fst pairs = map fst regions) as Efst.
  { rewrite Epairs, map_map. reflexivity. }
  destruct pairs as [|p0 ps] eqn:Epp; [discriminate H|]. rewrite <- Epp in *. clear Epp p0 ps.
  rewrite Esnd, Efst in H.
  destruct (Z.ltb_spec (Zsum (map (fun rk => hd 0 (snd rk)) regions)) size) as [|Hle]; [discriminate H|].
  unfold mbind at 1, mdraw at 1 in H. cbn [w_rng w_tracker] in H.
  destruct (rng_hypergeometric X g1 _ size) as [[sample|] g2] eqn:Eh; [|discriminate H].
  unfold mret at 1 in H.
  unfold mbind at 1, add_dp_noise at 1 in H. unfold mbind at 1, draw_seed at 1, mdraw at 1 in H.
  cbn [w_rng w_tracker] in H. destruct (rng_integers X g2) as [z1 g3] eqn:Ez1.
  unfold mbind at 1, mlift at 1 in H.
  destruct (mapM _ (combine (seq 0 _) _)) as [noisy|] eqn:En; [|discriminate H].
  unfold mbind at 1, mappend at 1, mret at 1 in H. cbn [w_rng w_tracker] in H.
  unfold mbind at 1, mlift at 1 in H. destruct (ll_std X (h_ll h) card) as [sd|]; [|discriminate H].
  unfold mbind at 1, scale_up at 1 in H. unfold mbind at 1, draw_seed at 1, mdraw at 1 in H.
  cbn [w_rng w_tracker] in H. destruct (rng_integers X g3) as [z2 g4] eqn:Ez2.
  unfold mbind at 1, mdraw at 1 in H. cbn [w_rng w_tracker] in H.
  destruct (rng_normal X g4 card sd) as [[x|] g5] eqn:Ex; [|discriminate H].
  unfold mbind at 1, mlift at 1, noisedQ in H.
  destruct (geometric_noise X (epsilon b * (1 - split)) z2 0) as [z|] eqn:Ez; [|discriminate H].
  cbn [bind] in H. unfold mbind at 1, mappend at 1, mret at 1 in H. cbn [w_rng w_tracker] in H.
  unfold mlift in H.
  match type of H with (generate_reach_points h spends ?t, _) = _ => set (table := t) in H end.
  injection H as Hg Hw.
  apply mapM_Forall2 in En. pose proof (Forall2_len _ _ _ En) as Ln.
  rewrite combine_length, seq_length, Nat.min_id in Ln.
  exists regions, card, v, g1, size, sample, g2, z1, g3, z2, g4, sd, x, g5, z, noisy, table.
  split; [reflexivity|]. split; [exact Em|]. split; [reflexivity|]. split; [exact Eh|].
  split; [exact Ez1|]. split; [exact Ez2|]. split; [exact Ex|]. split; [rewrite <- Hw; reflexivity|].
  split; [symmetry; exact Ln|]. split; [|split; [exact Ez|]].
  - assert (forall (l : list (Z * Z)) k out, Forall2 (fun nr y =>
        (x0 <- noised X (epsilon b * split) z1 (fst nr) (snd (snd nr)) ;; Ok (fst (snd nr), Z.max 0 x0)) = Ok y)
        (combine (seq k (length l)) l) out ->
      forall i r n, nth_error l i = Some (r, n) ->
       exists e, geometric_noise X (epsilon b * split) z1 (k + i)%nat = Ok e /\
                 nth_error out i = Some (r, Z.max 0 (n + e))) as G.
    { clear. induction l as [|a l IH]; intros k out F i r n Hn; [destruct i; discriminate Hn|].
      cbn [seq length combine] in F. inversion F as [|u y us ys F1 F2]; subst.
      destruct i as [|i]; cbn [nth_error] in Hn |- *.
      - injection Hn as ->. cbn [fst snd] in F1. unfold noised in F1. rewrite Nat.add_0_r.
        destruct (geometric_noise X (epsilon b * split) z1 k) as [e|]; [|discriminate F1].
        cbn [bind] in F1. injection F1 as <-. exists e. split; reflexivity.
      - destruct (IH (S k) ys F2 i r n Hn) as [e [G1 G2]]. exists e.
        replace (k + S i)%nat with (S k + i)%nat by lia. split; [exact G1|exact G2]. }
    intros i r n Hn. destruct (G _ 0%nat _ En i r n Hn) as [e G']. exists e. exact G'.
  - split; [|split; [exact Hg|]].
    + cbv zeta. reflexivity.
    + rewrite <- Hw. unfold records. cbn [w_tracker append tr_events]. rewrite <- app_assoc. reflexivity.
Qed.
Print Assumptions C59_venn_request.

(** An M3 fit draws exactly two seeds for each of its requests and the single publisher
    strategy two, so no two requests share their randomness. *)
Theorem C59_m3_draws : forall X S gt h b (w w' : world X) a,
  m3_fit S gt h b w = (Ok a, w') ->
  let p := h_publisher_count h in
  let requests := (if (2 <? p)%nat then 2 * p + 1 else p + 1)%nat in
  w_rng w' = after X (2 * requests) (w_rng w).
Proof. intros X S gt h b w w' a H. exact (draws_m3 S gt h b w w' a H). Qed.
Print Assumptions C59_m3_draws.

Theorem C59_single_publisher_draws : forall X S h b (w w' : world X) a,
  single_publisher_fit S h b w = (Ok a, w') -> w_rng w' = after X 2 (w_rng w).
Proof.
  intros X S h b w w' a H. unfold single_publisher_fit in H.
  destruct (negb (Nat.eqb (h_publisher_count h) 1)); [discriminate H|].
  refine (draws_bind0 _ _ 2 (draws_reach h (campaign_spends h) b (1#2) 20) _ w a w' H).
  intros t. apply draws_lift.
Qed.
Print Assumptions C59_single_publisher_draws.

(** The privacy already spent never changes an answer: it is recorded, not enforced. *)
Theorem C59_spent_privacy_ignored : forall X S gt h spends b split m,
  ignores_spent_privacy (X:=X) (simulated_reach_by_spend h spends b split m) /\
  ignores_spent_privacy (X:=X) (simulated_venn h spends b split m) /\
  ignores_spent_privacy (X:=X) (m3_fit S gt h b) /\
  ignores_spent_privacy (X:=X) (single_publisher_fit S h b).
Proof.
  intros X S gt h spends b split m. split; [apply blind_reach|]. split; [apply blind_venn|].
  split; [apply blind_m3|apply blind_single].
Qed.
Print Assumptions C59_spent_privacy_ignored.

(** Requests of the examples: the seeds 0 and 1 are drawn, the events are those of the
    estimator. The Venn request leaves the generator five draws further. *)
Example C59_example : exists p w',
  simulated_reach_by_spend ex_halo [4#100; 4#100]%Q ex_budget (1#4) 3 ex_world = (Ok p, w') /\
  w_rng w' = 2 /\ tr_events (w_tracker w') =
    events_of "Discrete Gaussian" [(1 * (1#4), (1#100) * (1#4)); (1 * (1 - (1#4)), (1#100) * (1 - (1#4)))]%Q /\
  reach p 1 = Ok 2 /\ 2 < Zsum (rp_impressions p) - 1.
Proof. do 2 eexists. split; [vm_compute; reflexivity|]. repeat split. Qed.
Example C59_venn_example : exists pts w',
  simulated_venn ex_halo [4#100; 4#100]%Q ex_budget (1#4) 1 ex_world = (Ok pts, w') /\ w_rng w' = 5 /\
  (exists s, In s [4#100; 4#100]%Q /\ ~ (s == 0)%Q).
Proof.
  do 2 eexists. split; [vm_compute; reflexivity|]. split; [reflexivity|].
  exists (4#100)%Q. split; [left; reflexivity|]. intros H. discriminate H.
Qed.
Example C59_m3_example : exists a w', m3_fit ex_modelers false ex_halo3 ex_budget ex_world = (Ok a, w') /\
  h_publisher_count ex_halo3 = 3%nat /\ w_rng w' = 14.
Proof. do 2 eexists. split; [vm_compute; reflexivity|]. split; reflexivity. Qed.
