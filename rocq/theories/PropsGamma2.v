(** C33, C34: which points make a model, and queries by spend. *)
From Coq Require Import Lqa Qfield Qround.
From Verif Require Import Prelude ModelReachPoint ModelCurves SpecSurface ModelSurface SurfaceLemmas
  SurfaceLemmas2 HaloLemmas ReachPointLemmas ModelGamma SpecGamma GammaLemmas GammaLemmas2 GammaLemmas3
  PropsGamma.
Open Scope Z_scope.
Local Open Scope Q_scope.

(** A model is made from exactly one point, with at least 1/1000 impressions and no more
    reached users than impressions; everything else is refused. *)
Theorem C33_accepted : forall I r kp spends u p kmax mult,
  mk_reach_point Qops [I] (r :: kp) spends u = Ok p ->
  ((1#1000) <= I /\ r <= I <-> exists m, mk_kmodel [p] kmax mult = Ok m) /\
  (~ ((1#1000) <= I /\ r <= I) -> mk_kmodel [p] kmax mult = Err ValueError).
Proof.
  intros I r kp spends u p kmax mult HP. destruct (point_fields _ _ _ _ _ HP) as [EI [EK EF]].
  assert (ES : rp_spends p = None \/ exists s, rp_spends p = Some [s]).
  { unfold mk_reach_point in HP. destruct spends as [[|s l]|].
    - assert (X := f_equal (fun a => match a with Ok q => rp_spends q | Err _ => None end) HP). cbn in X. auto.
    - cbv zeta in HP. destruct (negb (Nat.eqb (length [I]) (length (s :: l)))) eqn:B; [discriminate|].
      assert (X := f_equal (fun a => match a with Ok q => rp_spends q | Err _ => None end) HP). cbn [rp_spends] in X.
      destruct l; [right; exists s; auto|discriminate B].
    - assert (X := f_equal (fun a => match a with Ok q => rp_spends q | Err _ => None end) HP). cbn in X. auto. }
  assert (R : mk_kmodel [p] kmax mult =
     if Qltb I (1#1000) then Err ValueError else if Qltb I r then Err ValueError
     else Ok {| km_point := p; km_kmax := kmax; km_extrapolation := (mult * I)%Q;
                km_cpi := match rp_spends p with Some l => Some (nth 0 l 0 / I)%Q | None => None end; km_fit := None |}).
  { unfold mk_kmodel. rewrite EI. change (py_index [I] 0) with (Ok I). cbn [bind].
    destruct (Qltb I (1#1000)); [reflexivity|]. rewrite (point_reach_1 p r kp EK). cbn [bind].
    destruct (Qltb I r); [reflexivity|]. destruct ES as [->|[s ->]]; reflexivity. }
  rewrite R. destruct (Qltb_spec I (1#1000)); [|destruct (Qltb_spec I r)].
  - split; [|reflexivity]. split; [intros [A B]; lra|intros [m X]; discriminate].
  - split; [|reflexivity]. split; [intros [A B]; lra|intros [m X]; discriminate].
  - split; [|intros X; exfalso; apply X; split; lra]. split; [eauto|intros _; split; lra].
Qed.
Theorem C33_one_point : forall data kmax mult, length data <> 1%nat -> mk_kmodel data kmax mult = Err ValueError.
Proof. intros [|p [|q l]] kmax mult H; [reflexivity|cbn in H; lia|reflexivity]. Qed.

(** When nobody is seen twice, the universe is a hundred times the reach. *)
Theorem C33_nobody_twice : forall I R, I < R + (1#1000) ->
  (forall beta, exponential_poisson_N_from_beta I R beta = 100 * R) /\
  (forall s, 1 <= s -> exponential_poisson_N I R s = Ok (100 * R)).
Proof.
  intros I R H. unfold exponential_poisson_N_from_beta, exponential_poisson_N. split.
  - intros beta. destruct (Qltb_spec I (R + (1#1000))); [reflexivity|lra].
  - intros s Hs. destruct (Qltb_spec s 1); [lra|]. destruct (Qltb_spec I (R + (1#1000))); [reflexivity|lra].
Qed.

(** A query by spend is the query for the impressions that the spend buys at the price of the
    training point; the training spend buys the training impressions. *)
Theorem C34_by_spend : forall x fuel I r kp s0 u p kmax mult m s f,
  mk_reach_point Qops [I] (r :: kp) (Some [s0]) u = Ok p -> mk_kmodel [p] kmax mult = Ok m -> ~ s0 == 0 ->
  exists imp, imp == s * I / s0 /\ km_by_spend x fuel m [s] f = km_by_impressions x fuel m [imp] f.
Proof.
  intros x fuel I r kp s0 u p kmax mult m s f HP HM Hs. destruct (point_fields _ _ _ _ _ HP) as [EI [EK EF]].
  assert (ES : rp_spends p = Some [s0]).
  { assert (X := f_equal (fun a => match a with Ok q => rp_spends q | Err _ => None end) HP). cbn in X. auto. }
  pose proof (proj1 (C33_accepted I r kp (Some [s0]) u p kmax mult HP)) as [_ A].
  destruct (A (ex_intro _ m HM)) as [HI Hr].
  assert (EC : km_cpi m = Some (s0 / I)).
  { unfold mk_kmodel in HM. rewrite EI in HM. change (py_index [I] 0) with (Ok I) in HM. cbn [bind] in HM.
    destruct (Qltb I (1#1000)); [discriminate|]. rewrite (point_reach_1 p r kp EK) in HM. cbn [bind] in HM.
    destruct (Qltb I r); [discriminate|]. rewrite ES in HM. change (py_index [s0] 0) with (Ok s0) in HM. cbn [bind] in HM.
    assert (X := f_equal (fun a => match a with Ok q => km_cpi q | Err _ => None end) HM). cbn [km_cpi] in X. auto. }
  assert (Nz : ~ s0 / I == 0).
  { intros X. apply Hs. setoid_replace s0 with (s0 / I * I) by (field; lra). rewrite X. ring. }
  exists (s / (s0 / I)). split; [field; split; [exact Hs|lra]|].
  unfold km_by_spend, km_impressions_for_spend, truthy_cost. rewrite EC.
  destruct (Qeqb (s0 / I) 0) eqn:B; [apply Qeq_bool_iff in B; contradiction|]. reflexivity.
Qed.

(** A model without costs refuses queries by spend. *)
Theorem C34_no_spend : forall x fuel I r kp u p kmax mult m s f,
  mk_reach_point Qops [I] (r :: kp) None u = Ok p -> mk_kmodel [p] kmax mult = Ok m ->
  km_by_spend x fuel m [s] f = (Err ValueError, m).
Proof.
  intros x fuel I r kp u p kmax mult m s f HP HM. destruct (point_fields _ _ _ _ _ HP) as [EI [EK EF]].
  assert (ES : rp_spends p = None).
  { assert (X := f_equal (fun a => match a with Ok q => rp_spends q | Err _ => None end) HP). cbn in X. auto. }
  assert (EC : km_cpi m = None).
  { unfold mk_kmodel in HM. rewrite EI in HM. change (py_index [I] 0) with (Ok I) in HM. cbn [bind] in HM.
    destruct (Qltb I (1#1000)); [discriminate|]. rewrite (point_reach_1 p r kp EK) in HM. cbn [bind] in HM.
    destruct (Qltb I r); [discriminate|]. rewrite ES in HM. cbn [bind] in HM.
    assert (X := f_equal (fun a => match a with Ok q => km_cpi q | Err _ => Some 0 end) HM). cbn [km_cpi] in X. auto. }
  unfold km_by_spend, km_impressions_for_spend, truthy_cost. rewrite EC. reflexivity.
Qed.

Example C34_by_spend_example : exists p m,
  mk_reach_point Qops [1000] [500] (Some [10]) None = Ok p /\ mk_kmodel [p] 10 2 = Ok m /\
  forall x fuel f, exists imp, imp == 200 /\ km_by_spend x fuel m [2] f = km_by_impressions x fuel m [imp] f.
Proof.
  destruct (mk_reach_point Qops [1000] [500] (Some [10]) None) as [p|] eqn:HP; [|discriminate].
  destruct (proj1 (proj1 (C33_accepted 1000 500 [] (Some [10]) None p 10 2 HP))) as [m HM]; [split; lra|].
  exists p, m. split; [reflexivity|]. split; [exact HM|]. intros x fuel f.
  destruct (C34_by_spend x fuel 1000 500 [] 10 None p 10 2 m 2 f HP HM) as [imp [E1 E2]]; [lra|].
  exists imp. split; [rewrite E1; reflexivity|exact E2].
Qed.
Example C33_accepted_example : exists p, mk_reach_point Qops [10] [11; 1] None None = Ok p /\
  mk_kmodel [p] 10 2 = Err ValueError.
Proof.
  eexists. split; [reflexivity|]. eapply (C33_accepted 10 11 [1] None None); [reflexivity|]. intros [_ X]. lra.
Qed.

Print Assumptions C33_accepted.
Print Assumptions C33_one_point.
Print Assumptions C33_nobody_twice.
Print Assumptions C34_by_spend.
Print Assumptions C34_no_spend.
