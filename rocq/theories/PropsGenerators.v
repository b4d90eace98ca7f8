(** Properties C15-C17: generated impressions, fixed prices and relabelled overlaps. *)
From Coq Require Import String Qround Permutation Sorting.Sorted Lqa.
From Verif Require Import Prelude ModelReachPoint ModelData SpecData ReachPointLemmas
  DataLemmas DataLemmas2 DataLemmas3 PropsData FilesLemmas ModelGenerators SpecGenerators
  GeneratorsLemmas GeneratorsLemmas2.
Open Scope Z_scope.

(** A numpy generator for the examples: the state counts the draws. *)
Definition ex_rng : numpy_rng Z := {|
  rng_poisson := fun l st => Ok (st mod 3, st + 1);
  rng_gamma := fun a b st => Ok (a, st + 1);
  rng_zipf := fun s st => Ok (1 + st mod 2, st + 1);
  rng_shuffle := fun l st => (rev l, st + 1);
  rng_integers := fun b st => (st mod b, st + 1) |}.

Lemma ex_rng_behaves : numpy_behaves ex_rng.
Proof.
  split.
  - intros l st x st' H. assert (st mod 3 = x) by (inversion H; auto). subst. apply Z.mod_pos_bound. lia.
  - intros s st x st' H. assert (1 + st mod 2 = x) by (inversion H; auto). subst.
    pose proof (Z.mod_pos_bound st 2). lia.
  - intros l st. simpl. symmetry. apply Permutation_rev.
Qed.

(** ** C15 *)

(** Whatever is drawn, the impressions show exactly the users 0, ..., n-1. *)
Theorem C15_exact_users {St} : forall (rng : numpy_rng St) params n st imps st',
  numpy_behaves rng -> impression_call rng params n st = Ok (imps, st') ->
  forall u, In u imps <-> 0 <= u < n.
Proof. intros. eapply impressions_ids; eauto. Qed.
Print Assumptions C15_exact_users.

(** How often each user is shown: one more than the user's Poisson draw. *)
Theorem C15_homogeneous_frequencies {St} : forall (rng : numpy_rng St) lambda n st imps st',
  numpy_behaves rng -> homogeneous_call rng n lambda st = Ok (imps, st') ->
  exists draws st1, successive (rng_poisson rng lambda) st draws st1 /\
    length draws = Z.to_nat n /\
    forall u, 0 <= u < n -> times_shown u imps = 1 + nth (Z.to_nat u) draws 0.
Proof.
  intros rng lambda n st imps st' N H.
  destruct (impressions_shown rng (Homogeneous lambda) n st imps st' N H) as [ks [st1 [H1 [H2 [_ [_ H3]]]]]].
  cbn [user_draw] in H1. unfold homogeneous_draw in H1.
  apply (successive_map (rng_poisson rng lambda) (fun x => 1 + x)) in H1.
  destruct H1 as [xs [X1 ->]]. rewrite map_length in H2. exists xs, st1. split; [auto|]. split; [auto|].
  intros u Hu. rewrite H3 by auto. rewrite (nth_indep _ 0 (1 + 0)) by (rewrite map_length; lia).
  apply (map_nth (fun x => 1 + x)).
Qed.
Print Assumptions C15_homogeneous_frequencies.

(** One Gamma draw gives the mean of one Poisson draw. *)
Definition gamma_then_poisson {St} (rng : numpy_rng St) (shape scale : Q) (st : St)
  : result (Z * St) :=
  match rng_gamma rng shape scale st with
  | Err e => Err e
  | Ok (mean, st1) => rng_poisson rng mean st1
  end.

Theorem C15_heterogeneous_frequencies {St} : forall (rng : numpy_rng St) shape scale n st imps st',
  numpy_behaves rng -> heterogeneous_call rng n shape scale st = Ok (imps, st') ->
  exists draws st1, successive (gamma_then_poisson rng shape scale) st draws st1 /\
    length draws = Z.to_nat n /\
    forall u, 0 <= u < n -> times_shown u imps = 1 + nth (Z.to_nat u) draws 0.
Proof.
  intros rng shape scale n st imps st' N H.
  destruct (impressions_shown rng (Heterogeneous shape scale) n st imps st' N H) as [ks [st1 [H1 [H2 [_ [_ H3]]]]]].
  cbn [user_draw] in H1.
  assert (successive (fun s => '(x, s') <- gamma_then_poisson rng shape scale s ;; Ok (1 + x, s')) st ks st1) as H1'.
  { clear -H1. induction H1; econstructor; eauto. unfold heterogeneous_draw in H. unfold gamma_then_poisson.
    destruct (rng_gamma rng shape scale st) as [[l s]|]; cbn [bind] in *; auto. }
  apply (successive_map (gamma_then_poisson rng shape scale) (fun x => 1 + x)) in H1'.
  destruct H1' as [xs [X1 ->]]. rewrite map_length in H2. exists xs, st1. split; [auto|]. split; [auto|].
  intros u Hu. rewrite H3 by auto. rewrite (nth_indep _ 0 (1 + 0)) by (rewrite map_length; lia).
  apply (map_nth (fun x => 1 + x)).
Qed.
Print Assumptions C15_heterogeneous_frequencies.

Theorem C15_heavy_tailed_frequencies {St} : forall (rng : numpy_rng St) s n st imps st',
  numpy_behaves rng -> heavy_tailed_call rng n s st = Ok (imps, st') ->
  (1 < s)%Q /\
  exists draws st1, successive (rng_zipf rng s) st draws st1 /\
    length draws = Z.to_nat n /\
    forall u, 0 <= u < n -> times_shown u imps = nth (Z.to_nat u) draws 0.
Proof.
  intros rng s n st imps st' N H. split.
  { unfold heavy_tailed_call in H. destruct (Qltb 1 s) eqn:E; [apply Qltb_lt; auto|discriminate]. }
  destruct (impressions_shown rng (HeavyTailed s) n st imps st' N H) as [ks [st1 [H1 [H2 [_ [_ H3]]]]]].
  exists ks, st1. auto.
Qed.
Print Assumptions C15_heavy_tailed_frequencies.

(** The power of the zeta distribution must exceed one. *)
Theorem C15_heavy_tailed_refused {St} : forall (rng : numpy_rng St) s n st,
  (s <= 1)%Q -> heavy_tailed_call rng n s st = Err AssertionError.
Proof.
  intros rng s n st H. unfold heavy_tailed_call. destruct (Qltb 1 s) eqn:E; auto.
  apply Qltb_lt in E. lra.
Qed.
Print Assumptions C15_heavy_tailed_refused.

(** The publisher made from the impressions has [n] users, and there must be some. *)
Theorem C15_publisher_reach {St} : forall (rng : numpy_rng St) params n rn cpi name st p st',
  numpy_behaves rng ->
  generate_publisher_data rn (impression_call rng params n) cpi name st = Ok (p, st') ->
  1 <= n /\ pd_max_reach p = n /\
  exists log, is_publisher_of log p /\ forall u, is_user log u <-> 0 <= u < n.
Proof.
  intros rng params n rn cpi name st p st' N H. unfold generate_publisher_data in H.
  destruct (impression_call rng params n st) as [[imps st1]|] eqn:E; cbn [bind] in H; [|discriminate].
  destruct (mk_publisher rn (fixed_price_call cpi imps) name) as [p0|] eqn:F; cbn [bind] in H; [|discriminate].
  inversion H; subst p0 st1. pose proof (impressions_ids _ _ _ _ _ _ N E) as I.
  assert (forall u, is_user (fixed_price_call cpi imps) u <-> 0 <= u < n) as U.
  { intros u. rewrite is_user_map. unfold fixed_price_call. rewrite price_from_ids. apply I. }
  assert (1 <= n) as Hn.
  { destruct imps as [|x imps]; [discriminate|]. destruct (I x) as [I1 _]. specialize (I1 (or_introl eq_refl)). lia. }
  split; [auto|]. split.
  - apply publisher_fields in F. destruct F as [_ [_ [_ Hr]]]. rewrite Hr.
    unfold fixed_price_call. rewrite price_from_ids.
    apply (card_is_unique (fun u => In u imps)); [apply count_distinct_card|].
    exists (map Z.of_nat (seq 0 (Z.to_nat n))). split; [|split].
    + apply FinFun.Injective_map_NoDup; [|apply seq_NoDup]. intros a b; lia.
    + intros u. rewrite in_map_iff, I. split.
      * intros [i [<- Hi]]. apply in_seq in Hi. lia.
      * intros Hu. exists (Z.to_nat u). split; [lia|]. apply in_seq. lia.
    + rewrite map_length, seq_length. lia.
  - exists (fixed_price_call cpi imps). split; auto. eexists; eexists; eauto.
Qed.
Print Assumptions C15_publisher_reach.

(** Generation succeeds for every positive number of users when no draw raises, and fails
    for zero users because there is no largest spend. *)
Theorem C15_generation_succeeds {St} : forall (rng : numpy_rng St) params n rn cpi name st,
  numpy_behaves rng -> numpy_total rng -> (forall s, params = HeavyTailed s -> (1 < s)%Q) ->
  (1 <= n -> exists p st', generate_publisher_data rn (impression_call rng params n) cpi name st = Ok (p, st')) /\
  (n <= 0 -> generate_publisher_data rn (impression_call rng params n) cpi name st = Err ValueError).
Proof.
  intros rng params n rn cpi name st N T HS.
  assert (exists imps st', impression_call rng params n st = Ok (imps, st')) as [imps [st' E]].
  { assert (forall draw, (forall s, exists x s', draw s = Ok (x, s')) -> exists imps st',
      ('(impressions, st1) <- extend_loop draw (py_range 0 n) [] st ;; Ok (rng_shuffle rng impressions st1)) = Ok (imps, st')) as G.
    { intros draw D. destruct (extend_loop_total draw (py_range 0 n) D [] st) as [r [st1 ->]]. cbn [bind].
      destruct (rng_shuffle rng r st1) as [i s]. eauto. }
    destruct params; cbn [impression_call].
    - apply G. intros s. unfold homogeneous_draw. destruct (nt_poisson _ T poisson_lambda s) as [x [s' ->]]. cbn [bind]. eauto.
    - apply G. intros s. unfold heterogeneous_draw. destruct (nt_gamma _ T gamma_shape gamma_scale s) as [x [s' ->]].
      cbn [bind]. destruct (nt_poisson _ T x s') as [y [s2 ->]]. cbn [bind]. eauto.
    - unfold heavy_tailed_call. assert (Qltb 1 zeta_s = true) as -> by (apply Qltb_lt; auto).
      apply G. apply (nt_zipf _ T). }
  pose proof (impressions_ids _ _ _ _ _ _ N E) as I.
  unfold generate_publisher_data. rewrite E. cbn [bind]. split; intros Hn.
  - destruct imps as [|x imps]; [exfalso; apply (proj2 (I 0)); lia|].
    unfold fixed_price_call, mk_publisher. cbn [price_from map py_maxQ bind]. eauto.
  - destruct imps as [|x imps]; [reflexivity|]. exfalso. destruct (I x) as [I1 _].
    specialize (I1 (or_introl eq_refl)). lia.
Qed.
Print Assumptions C15_generation_succeeds.

Example C15_example : exists p st', numpy_behaves ex_rng /\
  generate_publisher_data "r" (impression_call ex_rng (Homogeneous 2) 3) (1#10) None 0 = Ok (p, st') /\
  map fst (pd_data p) = [2; 2; 2; 1; 1; 0] /\ pd_max_reach p = 3.
Proof. eexists; eexists. split; [apply ex_rng_behaves|]. split; [reflexivity|]. split; reflexivity. Qed.

(** ** C16 *)

Section FixedPrice.
Context (cpi : Q) (imps : list Z) (rn : string) (name : option string) (p : publisher_data).
Hypothesis Hc : (0 < cpi)%Q.
Hypothesis Hp : mk_publisher rn (fixed_price_call cpi imps) name = Ok p.

Lemma fixed_is_publisher : is_publisher_of (fixed_price_call cpi imps) p.
Proof. eexists; eexists; eauto. Qed.

Lemma fixed_sorted : increasing_prices (fixed_price_call cpi imps).
Proof. apply price_from_increasing. apply Qlt_le_weak; auto. Qed.

Lemma fixed_spend n : 0 <= n -> exists c, spend_by_impressions p n = Ok c /\
  (c == inject_Z (Z.min n (Z.of_nat (length imps))) * cpi)%Q.
Proof.
  intros Hn. assert (imps <> []) as Hne by (intros E; subst; discriminate).
  destruct (spend_by_impressions_ok _ p n fixed_is_publisher Hn) as [c [E [[-> ->]|[Hn1 [r [E1 E2]]]]]].
  - exists 0%Q. split; auto. rewrite Z.min_l by lia. change (inject_Z 0) with 0%Q. ring.
  - exists c. split; auto. rewrite (sort_rows_id _ fixed_sorted) in E1. unfold fixed_price_call in E1.
    rewrite price_from_length in E1.
    assert (1 <= length imps)%nat by (destruct imps; simpl; [congruence|lia]).
    rewrite price_from_nth in E1 by lia. inversion E1; subst r. cbn [snd] in E2. subst c.
    apply Qmult_comp; [|reflexivity].
    replace (Z.of_nat (Z.to_nat (Z.min (Z.of_nat (length imps)) n - 1)) + 1)
      with (Z.min n (Z.of_nat (length imps))) by lia. reflexivity.
Qed.

Lemma fixed_bought s : impressions_by_spend p s =
  Z.min (Z.max 0 (Qfloor (s / cpi))) (Z.of_nat (length imps)).
Proof.
  rewrite (impressions_by_spend_sorted _ p s fixed_is_publisher fixed_sorted).
  unfold bought_at_spend, fixed_price_call.
  pose proof (price_filter cpi s (fun _ => true) imps Hc 0 ltac:(lia)) as H. cbn [andb] in H.
  rewrite H, Z.sub_0_r. assert (forall l : list Z, filter (fun _ => true) l = l) as Ft
    by (induction l; simpl; congruence).
  rewrite Ft, firstn_length. lia.
Qed.
End FixedPrice.

(** [n] impressions cost [n] times the price; all impressions cost the maximal spend. *)
Theorem C16_spend_by_impressions : forall cpi imps rn name p n,
  (0 < cpi)%Q -> mk_publisher rn (fixed_price_call cpi imps) name = Ok p -> 0 <= n ->
  exists c, spend_by_impressions p n = Ok c /\
    (n <= max_impressions p -> (c == inject_Z n * cpi)%Q) /\
    (max_impressions p <= n -> (c == pd_max_spend p)%Q).
Proof.
  intros cpi imps rn name p n Hc Hp Hn.
  destruct (fixed_spend cpi imps rn name p Hc Hp n Hn) as [c [E1 E2]]. exists c. split; auto.
  assert (max_impressions p = Z.of_nat (length imps)) as M.
  { unfold max_impressions. apply publisher_fields in Hp. destruct Hp as [-> _].
    rewrite sort_rows_length. unfold fixed_price_call. rewrite price_from_length. auto. }
  rewrite M. split; intros H.
  - rewrite E2, Z.min_l by lia. reflexivity.
  - rewrite E2, Z.min_r by lia.
    pose proof (C07_publisher_maxima _ p (fixed_is_publisher cpi imps rn name p Hp)) as [X1 [X2 _]].
    assert (imps <> []) as Hne by (intros E; subst; discriminate).
    apply in_map_iff in X1. destruct X1 as [r [X1 X3]].
    apply In_nth_error in X3. destruct X3 as [k X3].
    assert (k < length imps)%nat as Hk.
    { rewrite <- (price_from_length cpi imps 0). apply nth_error_Some. unfold fixed_price_call in X3. congruence. }
    assert (1 <= length imps)%nat by lia.
    unfold fixed_price_call in X3. rewrite price_from_nth in X3 by auto. inversion X3; subst r. cbn [snd] in X1.
    apply Qle_antisym.
    + assert (In (nth (length imps - 1) imps 0, (inject_Z (0 + Z.of_nat (length imps - 1) + 1) * cpi)%Q)
                 (fixed_price_call cpi imps)) as Hl.
      { eapply nth_error_In. unfold fixed_price_call. apply price_from_nth. lia. }
      apply X2 in Hl. cbn [snd] in Hl.
      replace (0 + Z.of_nat (length imps - 1) + 1) with (Z.of_nat (length imps)) in Hl by lia. exact Hl.
    + rewrite <- X1. apply Qmult_le_compat_r; [|apply Qlt_le_weak; auto]. rewrite <- Zle_Qle. lia.
Qed.
Print Assumptions C16_spend_by_impressions.

(** A spend buys as many whole impressions as it covers. *)
Theorem C16_impressions_by_spend : forall cpi imps rn name p s,
  (0 < cpi)%Q -> mk_publisher rn (fixed_price_call cpi imps) name = Ok p ->
  ((0 <= s)%Q -> impressions_by_spend p s = Z.min (Qfloor (s / cpi)) (max_impressions p)) /\
  ((s < 0)%Q -> impressions_by_spend p s = 0).
Proof.
  intros cpi imps rn name p s Hc Hp. rewrite (fixed_bought cpi imps rn name p Hc Hp).
  assert (max_impressions p = Z.of_nat (length imps)) as M.
  { unfold max_impressions. apply publisher_fields in Hp. destruct Hp as [-> _].
    rewrite sort_rows_length. unfold fixed_price_call. rewrite price_from_length. auto. }
  rewrite M. split; intros Hs.
  - assert (0 <= Qfloor (s / cpi)); [|lia].
    change 0 with (Qfloor 0). apply Qfloor_resp_le. apply Qle_shift_div_l; auto. lra.
  - assert (Qfloor (s / cpi) <= 0); [|lia].
    change 0 with (Qfloor 0). apply Qfloor_resp_le. apply Qle_shift_div_r; auto. lra.
Qed.
Print Assumptions C16_impressions_by_spend.

(** The largest spend pays for all impressions, and buying back what was paid for gives the
    same number of impressions. *)
Theorem C16_max_spend_and_round_trip : forall cpi imps rn name p,
  (0 < cpi)%Q -> mk_publisher rn (fixed_price_call cpi imps) name = Ok p ->
  max_impressions p = Z.of_nat (length imps) /\
  (pd_max_spend p == inject_Z (max_impressions p) * cpi)%Q /\
  forall n, 0 <= n <= max_impressions p ->
    exists c, spend_by_impressions p n = Ok c /\ impressions_by_spend p c = n.
Proof.
  intros cpi imps rn name p Hc Hp.
  assert (max_impressions p = Z.of_nat (length imps)) as M.
  { unfold max_impressions. pose proof Hp as Hp'. apply publisher_fields in Hp'. destruct Hp' as [-> _].
    rewrite sort_rows_length. unfold fixed_price_call. rewrite price_from_length. auto. }
  split; [auto|]. split.
  - destruct (C16_spend_by_impressions cpi imps rn name p (max_impressions p) Hc Hp ltac:(lia)) as [c [_ [H1 H2]]].
    rewrite <- H2 by lia. apply H1. lia.
  - intros n Hn. destruct (C16_spend_by_impressions cpi imps rn name p n Hc Hp ltac:(lia)) as [c [E [H1 _]]].
    exists c. split; auto. rewrite (fixed_bought cpi imps rn name p Hc Hp).
    assert (c / cpi == inject_Z n)%Q as Eq.
    { rewrite H1 by lia. field. intros Z0. rewrite Z0 in Hc. apply (Qlt_irrefl 0); auto. }
    rewrite Eq, Qfloor_Z. lia.
Qed.
Print Assumptions C16_max_spend_and_round_trip.

(** The spend [s] shows the first [floor(s / cpi)] impressions of the generated list. *)
Theorem C16_users_at_spend : forall cpi imps u s, (0 < cpi)%Q ->
  seen_at_spend u (fixed_price_call cpi imps) s =
  times_shown u (firstn (Z.to_nat (Qfloor (s / cpi))) imps).
Proof.
  intros cpi imps u s Hc. unfold seen_at_spend, times_shown, fixed_price_call. f_equal.
  rewrite (price_filter cpi s (fun v => v =? u) imps Hc 0) by lia. rewrite Z.sub_0_r.
  f_equal. apply filter_ext. intros; apply Z.eqb_sym.
Qed.
Print Assumptions C16_users_at_spend.

Example C16_example : exists p, mk_publisher "r" (fixed_price_call (1#10) [4; 7; 4]) None = Ok p /\
  impressions_by_spend p (29#100) = 2 /\ seen_at_spend 4 (fixed_price_call (1#10) [4; 7; 4]) (1#2) = 2.
Proof. eexists. split; [reflexivity|]. split; reflexivity. Qed.

(** ** C17 *)

(** Relabelling keeps everything about a publisher except the names of its users, which are
    the given labels. *)
Theorem C17_publisher_preserved : forall so rn labels log p,
  visits_each_once so -> is_publisher_of log p -> NoDup labels ->
  Z.of_nat (length labels) = pd_max_reach p ->
  exists log' p', label_one so rn labels p = Ok p' /\ relabelled log p labels log' p'.
Proof. intros. apply label_one_ok; auto. Qed.
Print Assumptions C17_publisher_preserved.

(** The data set of an overlap generator that returns as many distinct labels for each
    publisher as it has users. *)
Theorem C17_data_set : forall so rn gen logs pubs labels name,
  visits_each_once so -> Forall2 is_publisher_of logs pubs -> name <> ""%string ->
  gen (map pd_max_reach pubs) = Ok labels ->
  Forall2 (fun L p => NoDup L /\ Z.of_nat (length L) = pd_max_reach p) labels pubs ->
  exists d logs', overlap_data_set so rn gen (as_list pubs) (Some name) = Ok d /\
    is_data_set_of logs' d /\ ds_name d = name /\ length logs' = length logs /\
    (forall i log p L, nth_error logs i = Some log -> nth_error pubs i = Some p ->
       nth_error labels i = Some L ->
       exists log' p', nth_error logs' i = Some log' /\ nth_error (ds_data d) i = Some p' /\
         relabelled log p L log' p') /\
    card_is (fun u => exists L, In L labels /\ In u L) (ds_maximum_reach d) /\
    ds_universe d = 2 * ds_maximum_reach d.
Proof.
  intros so rn gen logs pubs labels name Hso Hp Hname Hgen HL.
  destruct (label_ids_ok so rn Hso labels logs pubs Hp HL) as [logs' [pubs' [E1 [E2 [E3 E4]]]]].
  unfold overlap_data_set, as_list. cbn [fst snd]. rewrite Hgen. cbn [bind]. rewrite E1. cbn [bind].
  destruct (mk_data_set pubs' (Some name) None) as [d|] eqn:E.
  2:{ unfold mk_data_set in E. destruct name; [congruence|]. discriminate. }
  exists d, logs'. pose proof (data_set_fields _ _ _ _ E) as [D1 [D2 D3]].
  assert (is_data_set_of logs' d) as ID by (exists pubs', (Some name), None; auto).
  split; [auto|]. split; [auto|]. split.
  { unfold mk_data_set in E. destruct name; [congruence|]. inversion E; subst d. reflexivity. }
  split; [auto|]. split; [rewrite D1; exact E4|]. split; [|auto].
  eapply card_is_ext; [|apply (maximum_reach_card logs' d ID)].
  pose proof (Forall2_len _ _ _ Hp) as Len1. pose proof (Forall2_len _ _ _ HL) as Len2.
  intros u. split.
  - intros [log' [q [Hin Hq]]]. apply In_nth_error in Hin. destruct Hin as [i Hi].
    assert (i < length logs)%nat as Hlt by (rewrite <- E2; apply nth_error_Some; congruence).
    destruct (nth_error logs i) as [log|] eqn:N1; [|apply nth_error_None in N1; lia].
    destruct (nth_error pubs i) as [p|] eqn:N2; [|apply nth_error_None in N2; lia].
    destruct (nth_error labels i) as [L|] eqn:N3; [|apply nth_error_None in N3; lia].
    destruct (E4 i log p L N1 N2 N3) as [log2 [p2 [F1 [F2 F3]]]].
    exists L. split; [eapply nth_error_In; eauto|]. apply (rl_users _ _ _ _ _ F3).
    rewrite Hi in F1. inversion F1; subst. exists q. auto.
  - intros [L [Hin Hu]]. apply In_nth_error in Hin. destruct Hin as [i Hi].
    assert (i < length labels)%nat as Hlt by (apply nth_error_Some; congruence).
    destruct (nth_error logs i) as [log|] eqn:N1; [|apply nth_error_None in N1; lia].
    destruct (nth_error pubs i) as [p|] eqn:N2; [|apply nth_error_None in N2; lia].
    destruct (E4 i log p L N1 N2 Hi) as [log2 [p2 [F1 [F2 F3]]]].
    apply (rl_users _ _ _ _ _ F3) in Hu. destruct Hu as [q Hq]. exists log2, q.
    split; auto. eapply nth_error_In; eauto.
Qed.
Print Assumptions C17_data_set.

(** Switching some publishers fully on and the others off reaches exactly the people in the
    union of the label sets of those switched on. *)
Theorem C17_union_of_labels : forall logs' d labels spends on m p r,
  is_data_set_of logs' d ->
  Forall2 (fun log L => forall v, is_user log v <-> In v L) logs' labels ->
  Forall2 (fun (log_s : list row * Q) (b : bool) =>
     forall row, In row (fst log_s) -> if b then (snd row <= snd log_s)%Q else (snd log_s < snd row)%Q)
    (combine logs' spends) on ->
  length spends = length logs' -> 1 <= m ->
  reach_by_spend d spends m = Ok p -> reach p 1 = Ok r ->
  card_is (fun u => exists L, In (L, true) (combine labels on) /\ In u L) r.
Proof.
  intros logs' d labels spends on m p r Hd HU Hon Hlen Hm E1 E2.
  pose proof (C04_reach_by_spend_counts_users logs' d spends m 1 Hd Hlen ltac:(lia)) as C.
  destruct C as [p0 [r0 [F1 [F2 F3]]]].
  rewrite E1 in F1. inversion F1; subst p0. rewrite E2 in F2. inversion F2; subst r0.
  eapply card_is_ext; [|exact F3]. intros u. cbv beta. clear -HU Hon Hlen.
  revert labels spends on HU Hon Hlen.
  induction logs' as [|log logs IH]; intros labels spends on HU Hon Hlen.
  - inversion HU; subst. simpl. split; [lia|intros [L [[] _]]].
  - inversion HU as [|? L0 ? labels' Hl HU']; subst. destruct spends as [|s spends]; [discriminate|].
    cbn [combine] in Hon. inversion Hon as [|? b ? on' Hb Hon']; subst. cbn [fst snd] in Hb.
    cbn [total_seen combine].
    assert (1 <= seen_at_spend u log s <-> b = true /\ In u L0) as H0.
    { rewrite seen_at_spend_in, <- Hl. destruct b.
      - split.
        + intros [q [Hq _]]. split; auto. exists q. auto.
        + intros [_ [q Hq]]. exists q. split; auto. apply (Hb _ Hq).
      - split; [|intros [? _]; discriminate]. intros [q [Hq Hle]]. specialize (Hb _ Hq). cbn [snd] in Hb.
        exfalso. eapply Qlt_not_le; eauto. }
    pose proof (seen_at_spend_nonneg u log s).
    pose proof (total_seen_nonneg (seen_at_spend u) logs spends (fun l b0 => seen_at_spend_nonneg u l b0)).
    specialize (IH labels' spends on' HU' Hon' ltac:(simpl in Hlen; lia)).
    split.
    + intros Hs. assert (1 <= seen_at_spend u log s \/ 1 <= total_seen (seen_at_spend u) logs spends) as [Hx|Hx] by lia.
      * apply H0 in Hx. destruct Hx as [-> Hu]. exists L0. split; [left; auto|auto].
      * apply IH in Hx. destruct Hx as [L [HL1 HL2]]. exists L. split; [right; auto|auto].
    + intros [L [[Hx|Hx] Hu]].
      * inversion Hx; subst. assert (1 <= seen_at_spend u log s) by (apply H0; auto). lia.
      * assert (1 <= total_seen (seen_at_spend u) logs spends) by (apply IH; eauto). lia.
Qed.
Print Assumptions C17_union_of_labels.

(** A label set of the wrong size is refused. *)
Theorem C17_wrong_size_refused : forall so rn labels pubs i L p,
  nth_error labels i = Some L -> nth_error pubs i = Some p ->
  Z.of_nat (length L) <> pd_max_reach p ->
  exists e, label_ids so rn labels pubs = Err e.
Proof.
  intros so rn. unfold label_ids.
  induction labels as [|L0 labels IH]; intros [|p0 pubs] [|i] L p H1 H2 H3; cbn in *; try discriminate.
  - inversion H1; inversion H2; subst. unfold label_one.
    destruct (Z.eqb_spec (Z.of_nat (length L)) (pd_max_reach p)); [contradiction|]. cbn. eauto.
  - destruct (label_one so rn L0 p0); cbn; [|eauto].
    destruct (IH pubs i L p H1 H2 H3) as [e ->]. cbn. eauto.
Qed.
Print Assumptions C17_wrong_size_refused.

Definition ex_order (l : list Z) : list Z := rev (nodup Z.eq_dec l).
Lemma ex_order_visits : visits_each_once ex_order.
Proof.
  intros l. split.
  - apply NoDup_rev, NoDup_nodup.
  - intros u. unfold ex_order. rewrite <- in_rev. apply nodup_In.
Qed.

Definition ex_pub1 : publisher_data :=
  match mk_publisher "r" [(1, (1#10)%Q); (2, (2#10)%Q); (1, (3#10)%Q)] (Some "a"%string) with
  | Ok p => p | Err _ => {| pd_data := []; pd_spends := []; pd_max_spend := 0; pd_max_reach := 0; pd_name := "" |} end.
Definition ex_pub2 : publisher_data :=
  match mk_publisher "r" [(1, (1#10)%Q); (2, (2#10)%Q)] (Some "b"%string) with
  | Ok p => p | Err _ => {| pd_data := []; pd_spends := []; pd_max_spend := 0; pd_max_reach := 0; pd_name := "" |} end.

(** Fewer label sets than publishers: the remaining publishers disappear without an error. *)
Theorem C17_publishers_dropped_refuted :
  exists so rn gen pubs labels d, visits_each_once so /\
    gen (map pd_max_reach pubs) = Ok labels /\
    overlap_data_set so rn gen (as_list pubs) (Some "n"%string) = Ok d /\
    length pubs = 2%nat /\ publisher_count d = 1%nat.
Proof.
  exists ex_order, "r"%string, (fun _ => Ok [[7; 8]]), [ex_pub1; ex_pub2], [[7; 8]].
  eexists. split; [apply ex_order_visits|]. split; [reflexivity|]. split; [vm_compute; reflexivity|]. split; reflexivity.
Qed.
Print Assumptions C17_publishers_dropped_refuted.

(** Given a Python generator of publishers, which the documented type allows, the result is
    an empty data set: the generator is exhausted when the sizes have been computed. *)
Theorem C17_generator_argument_refuted : forall so rn gen pubs name labels,
  gen (map pd_max_reach pubs) = Ok labels -> name <> ""%string ->
  exists d, overlap_data_set so rn gen (as_generator pubs) (Some name) = Ok d /\
    publisher_count d = 0%nat /\ ds_maximum_reach d = 0.
Proof.
  intros so rn gen pubs name labels Hg Hn. unfold overlap_data_set, as_generator. cbn [fst snd].
  rewrite Hg. cbn [bind]. unfold label_ids.
  replace (combine labels ([] : list publisher_data)) with ([] : list (list Z * publisher_data))
    by (destruct labels; reflexivity).
  cbn [mapM bind]. unfold mk_data_set. destruct name; [congruence|]. cbn. eexists. split; [reflexivity|]. split; reflexivity.
Qed.
Print Assumptions C17_generator_argument_refuted.

(** Labels with repetitions pass the size check and merge users. *)
Theorem C17_repeated_labels_refuted :
  exists so rn labels p p', visits_each_once so /\ Z.of_nat (length labels) = pd_max_reach p /\
    label_one so rn labels p = Ok p' /\ pd_max_reach p = 2 /\ pd_max_reach p' = 1.
Proof.
  exists ex_order, "r"%string, [7; 7], ex_pub1. eexists. split; [apply ex_order_visits|].
  split; [reflexivity|]. split; [vm_compute; reflexivity|]. split; reflexivity.
Qed.
Print Assumptions C17_repeated_labels_refuted.

Example C17_example : exists d, overlap_data_set ex_order "r" (fun _ => Ok [[7; 8]; [8; 9]])
    (as_list [ex_pub1; ex_pub2]) (Some "n"%string) = Ok d /\ ds_maximum_reach d = 3 /\
    map pd_data (ds_data d) = [[(7, (1#10)%Q); (8, (2#10)%Q); (7, (3#10)%Q)]; [(9, (1#10)%Q); (8, (2#10)%Q)]].
Proof. eexists. split; [vm_compute; reflexivity|]. split; reflexivity. Qed.

(** The subclasses: the labels come from the set generator with the seed drawn from the
    random generator, or the seed 1. *)
Theorem C17_independent_data_set {St} : forall (rng : numpy_rng St) so rn set_gen logs pubs labels u name st seed st1,
  visits_each_once so -> Forall2 is_publisher_of logs pubs ->
  name <> Some ""%string -> rng_integers rng 100000 st = (seed, st1) ->
  set_gen (map pd_max_reach pubs) u seed = Ok labels ->
  Forall2 (fun L p => NoDup L /\ Z.of_nat (length L) = pd_max_reach p) labels pubs ->
  exists d, independent_overlap_data_set rng so rn set_gen (as_list pubs) u name st = Ok (d, st1) /\
    publisher_count d = length pubs /\ (name = None -> ds_name d = "independent"%string) /\
    card_is (fun v => exists L, In L labels /\ In v L) (ds_maximum_reach d).
Proof.
  intros rng so rn set_gen logs pubs labels u name st seed st1 Hso Hp Hn Hr Hg HL.
  unfold independent_overlap_data_set. rewrite Hr.
  set (nm := match name with Some n => n | None => "independent"%string end).
  assert (match name with Some n => Some n | None => Some "independent"%string end = Some nm) as -> by (destruct name; reflexivity).
  assert (nm <> ""%string) as Hnm by (unfold nm; destruct name; [intros ->; apply Hn; auto|discriminate]).
  destruct (C17_data_set so rn (fun sizes => set_gen sizes u seed) logs pubs labels nm Hso Hp Hnm Hg HL)
    as [d [logs' [E [HD [HN [HLn [_ [HC _]]]]]]]].
  rewrite E. cbn [bind]. exists d. split; auto. split.
  - destruct HD as [ps [? [? [G Mk]]]]. apply data_set_fields in Mk. destruct Mk as [M _].
    unfold publisher_count. rewrite M. rewrite <- (Forall2_len _ _ _ G), HLn. eapply Forall2_len; eauto.
  - split; auto. intros ->. exact HN.
Qed.
Print Assumptions C17_independent_data_set.

Theorem C17_sequential_data_set {St Opt} : forall (rng : numpy_rng St) so rn
    (set_gen : list Z -> Opt -> Z -> result (list (list Z))) logs pubs labels o (b : bool) name st seed st1,
  visits_each_once so -> Forall2 is_publisher_of logs pubs ->
  name <> Some ""%string ->
  (if b then rng_integers rng 1000000000 st = (seed, st1) else seed = 1 /\ st1 = st) ->
  set_gen (map pd_max_reach pubs) o seed = Ok labels ->
  Forall2 (fun L p => NoDup L /\ Z.of_nat (length L) = pd_max_reach p) labels pubs ->
  exists d, sequential_overlap_data_set rng so rn set_gen (as_list pubs) o b name st = Ok (d, st1) /\
    publisher_count d = length pubs /\ (name = None -> ds_name d = "sequentially_correlated"%string) /\
    card_is (fun v => exists L, In L labels /\ In v L) (ds_maximum_reach d).
Proof.
  intros rng so rn set_gen logs pubs labels o b name st seed st1 Hso Hp Hn Hr Hg HL.
  unfold sequential_overlap_data_set.
  assert ((if b then rng_integers rng 1000000000 st else (1, st)) = (seed, st1)) as ->
    by (destruct b; [auto|destruct Hr as [-> ->]; auto]).
  set (nm := match name with Some n => n | None => "sequentially_correlated"%string end).
  assert (match name with Some n => Some n | None => Some "sequentially_correlated"%string end = Some nm) as -> by (destruct name; reflexivity).
  assert (nm <> ""%string) as Hnm by (unfold nm; destruct name; [intros ->; apply Hn; auto|discriminate]).
  destruct (C17_data_set so rn (fun sizes => set_gen sizes o seed) logs pubs labels nm Hso Hp Hnm Hg HL)
    as [d [logs' [E [HD [HN [HLn [_ [HC _]]]]]]]].
  rewrite E. cbn [bind]. exists d. split; auto. split.
  - destruct HD as [ps [? [? [G Mk]]]]. apply data_set_fields in Mk. destruct Mk as [M _].
    unfold publisher_count. rewrite M. rewrite <- (Forall2_len _ _ _ G), HLn. eapply Forall2_len; eauto.
  - split; auto. intros ->. exact HN.
Qed.
Print Assumptions C17_sequential_data_set.
