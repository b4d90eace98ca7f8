(** Boundary cases of several properties: accessors, names, refusals, missing metrics, and
    where the noise of a request comes from. *)
From Coq Require Import String Lqa Qround.
From Verif Require Import Prelude ModelReachPoint ModelData SpecData DataLemmas ReachPointLemmas
  ModelPrivacy SpecPrivacy ModelHalo SpecHalo HaloLemmas SpecVenn VennLemmas SpecExact
  ModelCurves SpecCurves CurvesLemmas PropsCurves ModelSurface PropsData PropsHalo PropsExact.
Open Scope Z_scope.

(** ** C01: the universe size of a point is the one it was given; without one, ValueError. *)
Theorem C01_universe_size : forall I A (ops : num_ops A) (imps : list I) kp sp u p,
  mk_reach_point ops imps kp sp u = Ok p ->
  universe_size p = match u with Some n => Ok n | None => Err ValueError end.
Proof.
  intros I A ops imps kp sp u p H. apply mk_reach_point_ok in H. destruct H as [_ [_ [_ [E _]]]].
  unfold universe_size. rewrite E. destruct u; reflexivity.
Qed.
Print Assumptions C01_universe_size.

(** ** C10: names. A name that is not empty is kept. A publisher without one gets the random
    name; a data set without one cannot be made. *)
Theorem C10_names : forall rn log pubs universe,
  (forall n p, mk_publisher rn log (Some n) = Ok p -> n <> ""%string -> pd_name p = n) /\
  (forall o p, mk_publisher rn log o = Ok p -> o = None \/ o = Some ""%string -> pd_name p = rn) /\
  (forall n, n <> ""%string -> exists d, mk_data_set pubs (Some n) universe = Ok d /\ ds_name d = n) /\
  mk_data_set pubs None universe = Err NameError /\
  mk_data_set pubs (Some ""%string) universe = Err NameError.
Proof.
  intros rn log pubs universe.
  assert (T : forall n, n <> ""%string -> truthy n = true) by (intros [|c n] N; [congruence|reflexivity]).
  split; [|split; [|split; [|split]]].
  - intros n p H N. unfold mk_publisher in H. destruct (py_maxQ (map snd log)); [|discriminate H].
    cbn [bind] in H. injection H as <-. cbn [pd_name]. rewrite (T n N). reflexivity.
  - intros o p H [-> | ->]; unfold mk_publisher in H; (destruct (py_maxQ (map snd log)); [|discriminate H]);
      cbn [bind] in H; injection H as <-; reflexivity.
  - intros n N. unfold mk_data_set. rewrite (T n N). cbn [bind]. eexists. split; reflexivity.
  - reflexivity.
  - reflexivity.
Qed.
Print Assumptions C10_names.

(** ** C10: converting a vector for the whole data set converts each publisher's own entry. *)
Theorem C10_impressions_by_spend_each : forall d spends imps,
  ds_impressions_by_spend d spends = Ok imps ->
  length imps = length (ds_data d) /\
  forall i p, nth_error (ds_data d) i = Some p ->
    exists s, nth_error spends i = Some s /\ nth_error imps i = Some (impressions_by_spend p s).
Proof.
  intros d spends imps H. unfold ds_impressions_by_spend in H. apply mapM_Forall2 in H.
  pose proof (Forall2_len _ _ _ H) as L. rewrite combine_length, seq_length, Nat.min_id in L.
  split; [auto|]. intros i p Hp.
  assert (nth_error (combine (seq 0 (length (ds_data d))) (ds_data d)) i = Some (i, p)) as E.
  { assert (forall (l : list publisher_data) k i p, nth_error l i = Some p ->
      nth_error (combine (seq k (length l)) l) i = Some ((k + i)%nat, p)) as G.
    { clear. induction l as [|a l IH]; intros k i p H; [destruct i; discriminate H|].
      destruct i; cbn in H |- *.
      - injection H as ->. rewrite Nat.add_0_r. reflexivity.
      - rewrite (IH (S k) i p H). f_equal. f_equal. lia. }
    rewrite (G _ 0%nat _ _ Hp). reflexivity. }
  assert (i < length imps)%nat as Hi by (rewrite <- L; apply nth_error_Some; congruence).
  destruct (nth_error imps i) as [x|] eqn:Ex; [|apply nth_error_None in Ex; lia].
  pose proof (Forall2_nth _ _ _ H _ _ _ E Ex) as R. cbn [fst snd] in R.
  rewrite py_index_nonneg in R by lia. rewrite Nat2Z.id in R.
  destruct (nth_error spends i) as [s|]; cbn [bind] in R; [|discriminate R].
  exists s. split; [reflexivity|]. injection R as ->. reflexivity.
Qed.
Print Assumptions C10_impressions_by_spend_each.

(** ** C42: the impressions that a spend buys on the curve are those of its own publisher. *)
Theorem C42_impressions_for_spend : forall logs d i log g s,
  is_data_set_of logs d -> 0 <= i -> nth_error logs (Z.to_nat i) = Some log -> increasing_prices log ->
  mk_ground_truth d i = Ok g ->
  gt_impressions_for_spend g s = Ok (bought_at_spend log s).
Proof.
  intros logs d i log g s Hd Hi El Hl Hg.
  destruct Hd as [pubs [nm [un [HP Hds]]]]. apply data_set_fields in Hds. destruct Hds as [Hdata _].
  unfold mk_ground_truth in Hg. rewrite py_index_nonneg in Hg by lia.
  destruct (nth_error (ds_data d) (Z.to_nat i)) as [p|] eqn:Ep; [|discriminate Hg].
  cbn [bind] in Hg. injection Hg as <-. unfold gt_impressions_for_spend. cbn [gt_data_set gt_index].
  rewrite py_index_nonneg by lia. rewrite Ep. cbn [bind]. rewrite Hdata in Ep.
  pose proof (Forall2_nth _ _ _ HP _ _ _ El Ep) as Hp. f_equal.
  apply (C08_impressions_by_spend_sorted log p s Hp Hl).
Qed.
Print Assumptions C42_impressions_for_spend.

(** ** C46: the largest spend the simulator reports for a publisher is the price of one of its
    impressions and no price is above it. *)
Theorem C46_max_spends : forall logs h i log s,
  is_halo_of logs h -> nth_error logs i = Some log -> nth_error (max_spends h) i = Some s ->
  (exists r, In r log /\ snd r = s) /\ forall r, In r log -> (snd r <= s)%Q.
Proof.
  intros logs h i log s Hh El Es. destruct (halo_fields _ _ Hh) as [_ [HF _]].
  unfold max_spends in Es. rewrite nth_error_map in Es.
  destruct (nth_error (h_publishers h) i) as [pub|] eqn:Ep; [|discriminate Es]. cbn in Es.
  injection Es as <-. pose proof (Forall2_nth _ _ _ HF _ _ _ El Ep) as [rn [nm Hp]].
  apply publisher_fields in Hp. destruct Hp as [_ [_ [Hm _]]].
  assert (forall l a, (forall x, In x (a :: l) ->
            (x <= fold_left (fun m y => if Qltb m y then y else m) l a)%Q) /\
          In (fold_left (fun m y => if Qltb m y then y else m) l a) (a :: l)) as G.
  { clear. induction l as [|b l IH]; intros a; cbn [fold_left].
    - split; [intros x [->|[]]; apply Qle_refl|left; reflexivity].
    - destruct (IH (if Qltb a b then b else a)) as [I1 I2]. split.
      + intros x Hx.
        assert ((if Qltb a b then b else a) <= fold_left (fun m y => if Qltb m y then y else m) l (if Qltb a b then b else a))%Q as I0
          by (apply I1; left; reflexivity).
        destruct Hx as [->|[->|Hx]]; [| |apply I1; right; exact Hx];
          (eapply Qle_trans; [|exact I0]).
        * destruct (Qltb x b) eqn:E; [apply Qltb_lt in E; apply Qlt_le_weak; exact E|apply Qle_refl].
        * destruct (Qltb a x) eqn:E; [apply Qle_refl|apply Qltb_ge in E; exact E].
      + destruct I2 as [I2|I2]; [|right; right; exact I2].
        rewrite <- I2. destruct (Qltb a b); [right; left; reflexivity|left; reflexivity]. }
  destruct log as [|r0 log]; [discriminate Hm|]. cbn [map] in Hm. cbn [py_maxQ] in Hm. injection Hm as Hm.
  destruct (G (map snd log) (snd r0)) as [G1 G2]. rewrite Hm in G1, G2. split.
  - change (In (pd_max_spend (pub_data pub)) (map snd (r0 :: log))) in G2.
    apply in_map_iff in G2. destruct G2 as [r [E1 E2]]. exists r. split; [exact E2|exact E1].
  - intros r Hr. apply G1. change (In (snd r) (map snd (r0 :: log))). apply in_map. exact Hr.
Qed.
Print Assumptions C46_max_spends.

(** ** C19: the tracker lists the mechanisms of the recorded events in the order of recording. *)
Theorem C19_mechanisms : forall es, mechanisms (tracker_of es) = map ev_mechanism es.
Proof.
  assert (forall es t, tr_events (fold_left append es t) = tr_events t ++ es) as G.
  { induction es as [|e es IH]; intros t; cbn [fold_left]; [rewrite app_nil_r; reflexivity|].
    rewrite IH. cbn [append tr_events]. rewrite <- app_assoc. reflexivity. }
  intros es. unfold mechanisms, tracker_of. rewrite G. reflexivity.
Qed.
Print Assumptions C19_mechanisms.

(** ** C29, C30, C31: training points for different numbers of publishers are refused. *)
Lemma mixed_refused {I A} (points : list (reach_point I A)) p q :
  In p points -> In q points -> length (rp_impressions p) <> length (rp_impressions q) ->
  surface_init points = Err ValueError.
Proof.
  intros Hp Hq N. destruct points as [|p0 r]; [destruct Hp|]. unfold surface_init.
  destruct (forallb _ (p0 :: r)) eqn:E; [|reflexivity].
  rewrite forallb_forall in E. pose proof (E p Hp) as E1. pose proof (E q Hq) as E2.
  apply Nat.eqb_eq in E1, E2. congruence.
Qed.

Theorem C29_mixed_points_refused : forall points p q,
  In p points -> In q points -> length (rp_impressions p) <> length (rp_impressions q) ->
  (forall solver curves, pairwise_fit solver curves points = Err ValueError) /\
  (forall starts perms curves, restricted_fit starts perms curves points = Err ValueError) /\
  (forall solver starts c curves, exists e, mixture_fit solver starts c curves points = Err e) /\
  mk_goerg points = Err ValueError.
Proof.
  intros points p q Hp Hq N. pose proof (mixed_refused points p q Hp Hq N) as S.
  assert (C : surface_ctor points = Err ValueError).
  { unfold surface_ctor. destruct points as [|p0 r]; [destruct Hp|].
    rewrite py_index_nonneg by lia. cbn [nth_error Z.to_nat bind]. rewrite S. reflexivity. }
  split; [|split; [|split]].
  - intros solver curves. unfold pairwise_fit. rewrite C. reflexivity.
  - intros starts perms curves. unfold restricted_fit. rewrite C. reflexivity.
  - intros solver starts c curves. unfold mixture_fit.
    destruct (py_index points 0) as [p0|e]; cbn [bind]; [|exists e; reflexivity].
    destruct (mixture_N curves) as [x|e]; cbn [bind]; [|exists e; reflexivity].
    rewrite S. exists ValueError. reflexivity.
  - unfold mk_goerg, curve_init. rewrite S. destruct points as [|p0 [|p1 r]].
    + destruct Hp.
    + destruct Hp as [<-|[]], Hq as [<-|[]]. congruence.
    + reflexivity.
Qed.
Print Assumptions C29_mixed_points_refused.

(** ** C26: the spend quantile of a Goerg curve. *)
Theorem C26_goerg_spend : forall g imp r s0 q,
  goerg_trained_at g imp r (Some [s0]) -> (0 < r)%Q -> (0 < s0)%Q -> (0 < q < 1)%Q ->
  match goerg_spend_at_reach_quantile g q with
  | Ok x => exists a b, answers (goerg_by_spend g) (inject_Z x) 1 a /\
                        answers (goerg_by_spend g) (inject_Z (x + 1)) 1 b /\
                        (a <= q * go_max_reach g < b)%Q
  | Err e => e = OverflowError /\
             (inject_Z (2 ^ 60) * imp / s0 * (1 - q) <= q * go_max_reach g)%Q
  end.
Proof.
  intros g imp r s0 q H Hr Hs Hq. pose proof (rho_sign _ _ _ _ H Hr) as HR.
  destruct (trained_facts _ _ _ _ H) as [Hi0 [_ [_ [Hb [Hm _]]]]].
  assert (forall x, 0 <= x -> (0 <= inject_Z x)%Q) as Hi by (intros x Hx; rewrite (Zle_Qle 0 x) in Hx; auto).
  assert (forall s, goerg_by_spend g [s] = goerg_by_impressions g [(s / (s0 / imp))%Q]) as HB.
  { intros s. unfold goerg_by_spend.
    assert (go_cost g = Some (s0 / imp)%Q) as ->; [|reflexivity].
    destruct (trained_facts _ _ _ _ H) as [_ [_ [_ [_ [_ Hc]]]]].
    apply go_cost_spec. split; auto. intros E.
    assert (s0 == s0 / imp * imp)%Q as X by (field; lra). rewrite E in X. lra. }
  assert (forall x, (x / (s0 / imp) == x * imp / s0)%Q) as HQ by (intros x; field; lra).
  assert (forall x, (0 <= x)%Q -> (0 <= x / (s0 / imp))%Q) as HP.
  { intros x Hx. rewrite HQ. apply Qle_shift_div_l; [exact Hs|]. nra. }
  assert (forall x, 0 <= x -> exists a, goerg_reach_spend g x = Ok a /\
     answers (goerg_by_spend g) (inject_Z x) 1 a) as HA.
  { intros x Hx. specialize (HP _ (Hi x Hx)).
    pose proof (goerg_answers g imp r _ (inject_Z x / (s0 / imp)) 1 H ltac:(lra) ltac:(lia)) as A.
    destruct A as [A0 A]. destruct (A 1 ltac:(lia)) as [p [a [E1 [E2 E3]]]]. exists a. split.
    - unfold goerg_reach_spend. rewrite HB, E1. cbn [bind]. exact E2.
    - split; auto. intros m Hk. rewrite HB. destruct (A m Hk) as [p' [a' [E1' [E2' E3']]]].
      exists p', a'. split; auto. split; auto. rewrite E3'. symmetry. exact E3. }
  assert (defined_from_1 (goerg_reach_spend g)) as Hd.
  { intros x Hx. destruct (HA x ltac:(lia)) as [a [E _]]. eauto. }
  unfold goerg_spend_at_reach_quantile.
  pose proof (C26_search_ends (go_max_reach g) (goerg_reach_spend g) q Hd) as HS.
  destruct (by_quantile (go_max_reach g) (goerg_reach_spend g) q) as [x|e] eqn:E.
  - destruct (C26_answer_brackets_target _ _ _ _ Hd E) as [Hx [H1 H2]].
    destruct H2 as [b [Eb Lb]]. destruct (HA x ltac:(lia)) as [a [Ea Aa]].
    destruct (HA (x + 1) ltac:(lia)) as [b' [Eb' Ab]]. rewrite Eb in Eb'. injection Eb' as <-.
    exists a, b. split; auto. split; auto. split; auto.
    destruct H1 as [->|[a' [Ea' La]]].
    + assert (a == 0)%Q as ->.
      { destruct Aa as [_ Aa]. destruct (Aa 1 ltac:(lia)) as [p1 [r1 [F1 [F2 F3]]]]. rewrite HB in F1.
        pose proof (goerg_answers g imp r _ (inject_Z 0 / (s0 / imp)) 1 H
                      ltac:(pose proof (HP _ (Hi 0 ltac:(lia))); lra) ltac:(lia)) as [_ A0].
        destruct (A0 1 ltac:(lia)) as [p2 [r2 [G1 [G2 G3]]]]. rewrite F1 in G1. injection G1 as <-.
        rewrite F2 in G2. injection G2 as <-. rewrite <- F3, G3. change (Z.to_nat 1) with 1%nat.
        cbn [qpow]. rewrite (HQ (inject_Z 0)). change (inject_Z 0) with 0%Q. field. split; lra. }
      rewrite Hm. apply Qmult_le_0_compat; lra.
    + rewrite Ea in Ea'. injection Ea' as <-. auto.
  - destruct HS as [[_ N]|[-> [_ HS]]]; [contradiction|]. split; auto.
    destruct (HS 60 ltac:(lia)) as [a [Ea La]].
    destruct (HA (2 ^ 60) ltac:(lia)) as [a' [Ea' Aa]]. rewrite Ea in Ea'. injection Ea' as <-.
    set (Y := inject_Z (2 ^ 60)) in *. assert (0 < Y)%Q as HY by reflexivity.
    set (X := (Y / (s0 / imp))%Q) in *. assert (X == Y * imp / s0)%Q as EX by (apply HQ).
    assert (0 < X)%Q as HX. { rewrite EX. apply Qlt_shift_div_l; nra. }
    rewrite <- EX. clear EX.
    assert (answers (goerg_by_impressions g) X 1 a) as Aa'.
    { destruct Aa as [A0 A]. split; auto. intros m Hk. destruct (A m Hk) as [p1 [r1 [F1 F2]]].
      rewrite HB in F1. exists p1, r1. split; auto. }
    clearbody X.
    rewrite (answers_fun _ _ _ _ _ Aa' (goerg_answers _ _ _ _ X 1 H ltac:(lra) ltac:(lia))) in La.
    change (Z.to_nat 1) with 1%nat in La. cbn [qpow] in La. rewrite Hm in *. set (R := go_rho g) in *.
    assert (R * (X / (X + R) * 1) == R * X / (X + R))%Q as E2 by (field; lra). rewrite E2 in La.
    assert (R * X <= q * R * (X + R))%Q as L2.
    { assert (R * X == R * X / (X + R) * (X + R))%Q as -> by (field; lra). apply Qmult_le_compat_r; lra. }
    assert (X <= q * (X + R))%Q as L3; [|lra].
    apply (Qmult_le_l _ _ R); [lra|]. lra.
Qed.
Print Assumptions C26_goerg_spend.

(** The hypotheses above in concrete cases. *)
Example ex_edges :
  (exists p, mk_reach_point Zops [7] [3; 1] None (Some 100) = Ok p /\ universe_size p = Ok 100) /\
  (exists p, mk_publisher "r7" ex_log1 (Some ""%string) = Ok p /\ pd_name p = "r7"%string) /\
  (exists p, mk_publisher "r7" ex_log1 (Some "a"%string) = Ok p /\ pd_name p = "a"%string) /\
  (exists imps, ds_impressions_by_spend ex_data_set [2#100; 4#100]%Q = Ok imps /\ imps = [2; 1]) /\
  (exists g, mk_ground_truth ex_data_set 1 = Ok g /\ gt_impressions_for_spend g (4#100) = Ok 1) /\
  max_spends ex_halo = [5#100; 6#100]%Q.
Proof.
  split; [eexists; split; reflexivity|]. split; [eexists; split; reflexivity|].
  split; [eexists; split; reflexivity|]. split; [eexists; split; reflexivity|].
  split; [eexists; split; reflexivity|]. reflexivity.
Qed.

(** A model trained on 1000 impressions, reach 500, spend 20: two thirds of the largest reach
    need a spend of 40. *)
Example ex_goerg_spend : exists g, goerg_trained_at g 1000 500 (Some [20%Q]) /\
  goerg_spend_at_reach_quantile g (2#3) = Ok 40.
Proof. destruct ex_goerg as [g [H [_ [_ E]]]]. exists g. split; assumption. Qed.

(** One point of one publisher and one of two. *)
Example ex_mixed : exists p q : reach_point Q Q,
  mk_reach_point Qops [100%Q] [50%Q] None None = Ok p /\ mk_reach_point Qops [100; 200]%Q [90%Q] None None = Ok q /\
  mk_goerg [p; q] = Err ValueError /\ surface_ctor [p; q] = Err ValueError.
Proof. do 2 eexists. split; [reflexivity|]. split; [reflexivity|]. split; reflexivity. Qed.
