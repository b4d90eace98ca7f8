(** Running a design for the first time; replicas. *)
From Coq Require Import String Ascii Qround Permutation Lqa.
From Verif Require Import Prelude ModelReachPoint ModelData DataLemmas ModelPrivacy ModelAggregator ModelFiles SpecFiles ModelHalo
  ModelDriver SpecDriver DriverLemmas DriverLemmas2 DriverLemmas3 DriverLemmas4 DriverLemmas5 DriverLemmas6 DriverLemmas7 DriverLemmas8
  PropsDriver3 ModelDesigns SpecDesigns DesignsLemmas5 ModelExperiments SpecExperiments ExperimentsLemmas.
Open Scope Z_scope.

(** ** First runs *)

Section Fresh.
Variables (L : lab) (ts : list trial).
Hypothesis sep : separate L ts.
Variable seed : Z.

Lemma first_run rest : forall nows g d tbs g' d', incl rest ts -> NoDup rest -> usable L ts d ->
  (forall t, In t rest -> no_result L t d) ->
  finish (evaluate_all L rest seed nows g) d = ((Ok tbs, g'), d') ->
  exists rows, tbs = map (fun row => [row]) rows /\ row_by_row L seed g rest rows.
Proof.
  induction rest as [|t rest IH]; intros nows g d tbs g' d' Inc ND U No E.
  - cbn in E. injection E as <- _ _. exists []. split; [reflexivity|exact I].
  - cbn [evaluate_all] in E. rewrite finish_pbind in E.
    assert (Ht : In t ts) by (apply Inc; left; reflexivity).
    destruct (evaluate_one L ts sep t seed (nows O) g d Ht U) as [a [d1 [E1 [Ev [U1 [_ [Fr _]]]]]]].
    rewrite E1 in E. destruct Ev as [[tb [R _]]|[_ Ev]]; [exfalso; exact (No t (or_introl eq_refl) tb R)|].
    destruct (compute_row L t seed g) as [[row|e] g1] eqn:Ec; [|destruct Ev as [-> _]; cbn in E; discriminate].
    destruct Ev as [-> _]. cbn [fst snd] in E. rewrite finish_pbind in E.
    destruct (finish (evaluate_all L rest seed (fun n => nows (S n)) g1) d1) as [[[tbs2|e] g2] d2] eqn:E2; cbn in E; [|discriminate].
    inversion ND as [|? ? N1 N2]; subst.
    assert (No1 : forall t', In t' rest -> no_result L t' d1).
    { intros t' Ht'. apply (no_result_stat L t' d d1); [|apply No; right; exact Ht'].
      apply Fr; [apply Inc; right; exact Ht'|]. intros ->. contradiction. }
    destruct (IH (fun n => nows (S n)) g1 d1 tbs2 g2 d2 (fun x Hx => Inc x (or_intror Hx)) N2 U1 No1 E2) as [rows [-> Rr]].
    exists (row :: rows). split; [cbn [map]; congruence|]. cbn [row_by_row]. rewrite Ec. split; [reflexivity|exact Rr].
Qed.

Lemma load_first nows g d tb d' : usable L ts d -> (forall t, In t ts -> no_result L t d) ->
  load L ts seed nows g d = (Ok tb, d') -> row_by_row L seed g ts tb.
Proof.
  intros U No E. unfold load in E.
  destruct (finish (evaluate_all L ts seed nows g) d) as [[[tbs|e] g'] d1] eqn:Ef; cbn [bind] in E; [|discriminate].
  destruct (first_run ts nows g d tbs g' d1 (incl_refl _) (separate_NoDup L ts sep) U No Ef) as [rows [-> Rr]].
  replace tb with rows; [exact Rr|].
  assert (X : concat_tables (map (fun row => [row]) rows) = Ok tb) by congruence.
  assert (C : concat (map (fun row : list (string * cell) => [row]) rows) = rows).
  { clear. induction rows as [|r rows IH]; [reflexivity|]. cbn [map concat app]. congruence. }
  unfold concat_tables in X. destruct (map (fun row => [row]) rows) eqn:Em; [discriminate|]. congruence.
Qed.
End Fresh.

(** ** Rows computed in turn *)

Section Rows.
Variables (L : lab) (seed : Z).
Notation gen t := (sp_generator (system_of t)).

Lemma row_by_row_app g l l' rows : row_by_row L seed g (l ++ l') rows ->
  exists r r', rows = r ++ r' /\ row_by_row L seed g l r /\ row_by_row L seed (after_computing L seed g l) l' r'.
Proof.
  revert g rows. induction l as [|t l IH]; intros g rows H; cbn [app] in H.
  - exists [], rows. repeat split. exact H.
  - destruct rows as [|row rows]; cbn [row_by_row] in H; [contradiction|]. destruct H as [H1 H2].
    destruct (IH _ _ H2) as [r [r' [-> [A B]]]]. exists (row :: r), r'. split; [reflexivity|]. split; [split; assumption|exact B].
Qed.
Lemma row_by_row_length g l : forall rows, row_by_row L seed g l rows -> length rows = length l.
Proof.
  revert g. induction l as [|t l IH]; intros g [|row rows] H; cbn [row_by_row] in H; try contradiction; [reflexivity|].
  cbn [length]. f_equal. eapply IH. apply H.
Qed.

Lemma compute_row_own_state t g g' : g (gen t) = g' (gen t) ->
  snd (compute_row L t seed g) (gen t) = snd (compute_row L t seed g') (gen t).
Proof.
  intros E. unfold compute_row. cbv zeta.
  match goal with |- context [match ?b with Ok _ => _ | Err _ => _ end] => destruct b as [[d h]|e] end; [|exact E].
  rewrite E.
  destruct (lab_fit L (td_strategy (tr_descriptor t)) h (trial_budget t) (lab_seed_global L seed)
     {| w_tracker := new_tracker; w_rng := g' (gen t) |}) as [fit w].
  cbn [snd]. unfold put_generator. rewrite Nat.eqb_refl. reflexivity.
Qed.

(** With a generator for each trial, each row is the one the trial has on its own. *)
Lemma own_rows l : forall g rows, NoDup (map (fun t => gen t) l) -> row_by_row L seed g l rows ->
  Forall2 (fun t row => fst (compute_row L t seed g) = Ok row) l rows /\
  (forall t, In t l -> after_computing L seed g l (gen t) = snd (compute_row L t seed g) (gen t)).
Proof.
  induction l as [|t l IH]; intros g [|row rows] N H; cbn [row_by_row] in H; try contradiction.
  - split; [constructor|intros t []].
  - destruct H as [H1 H2]. cbn [map] in N. inversion N as [|? ? N1 N2]; subst.
    destruct (IH _ _ N2 H2) as [F S]. assert (Ne : forall u, In u l -> gen u <> gen t).
    { intros u Iu E. apply N1. rewrite <- E. apply (in_map (fun t => gen t)). exact Iu. }
    split.
    + constructor; [exact H1|]. eapply Forall2_impl_In; [|exact F]. cbv beta. intros u r Iu _ <-.
      apply compute_row_own. symmetry. apply compute_row_other. apply Ne. exact Iu.
    + cbn [after_computing]. intros u [<-|Iu].
      * apply after_computing_other. exact Ne.
      * rewrite (S u Iu). apply compute_row_own_state. apply compute_row_other. apply Ne. exact Iu.
Qed.

(** ** Replicas *)

(** Trials that differ in the replica, and in the number of the generator. *)
Definition twins (t t' : trial) : Prop :=
  tr_design t = tr_design t' /\ tr_data_set t = tr_data_set t' /\ tr_analysis t = tr_analysis t' /\
  td_strategy (tr_descriptor t) = td_strategy (tr_descriptor t') /\
  sp_fractions (system_of t) = sp_fractions (system_of t') /\ sp_ll (system_of t) = sp_ll (system_of t') /\
  ep_epsilon (experiment_of t) = ep_epsilon (experiment_of t') /\
  ep_delta (experiment_of t) = ep_delta (experiment_of t') /\
  ep_max_frequency (experiment_of t) = ep_max_frequency (experiment_of t') /\
  ep_test_points (experiment_of t) = ep_test_points (experiment_of t') /\
  ep_test_kwargs (experiment_of t) = ep_test_kwargs (experiment_of t').

Lemma unlabelled_app a b : unlabelled (a ++ b) = unlabelled a ++ unlabelled b.
Proof. apply filter_app. Qed.

Lemma measure_twins t t' d h m gl : twins t t' -> measure L t d h seed m gl = measure L t' d h seed m gl.
Proof.
  intros [_ [_ [E3 [_ [_ [_ [_ [_ [E9 [E10 E11]]]]]]]]]]. unfold measure, single_pub_analysis.
  rewrite E3, E9, E10, E11. reflexivity.
Qed.
Lemma failing_twins t t' e : twins t t' -> measure_on_exception L t e = measure_on_exception L t' e.
Proof.
  intros [_ [_ [E3 [_ [_ [_ [_ [_ [E9 _]]]]]]]]]. unfold measure_on_exception, single_pub_analysis. rewrite E3, E9. reflexivity.
Qed.

Lemma vars_twins t t' : twins t t' ->
  match independent_vars L t, independent_vars L t' with
  | Ok a, Ok b => unlabelled a = unlabelled b
  | Err a, Err b => a = b
  | _, _ => False
  end.
Proof.
  intros [E1 [E2 [E3 [E4 [E5 [E6 [E7 [E8 [E9 [E10 E11]]]]]]]]]]. unfold independent_vars. rewrite E1, E2.
  destruct (dd_by_name (tr_design t') (tr_data_set t')) as [d|e]; cbn [bind]; [|reflexivity].
  destruct (py_max (map pd_max_reach (ds_data d))) as [z|e]; cbn [bind]; [|reflexivity].
  cbn [unlabelled]. unfold unlabelled, labels. cbn [filter fst existsb String.eqb Ascii.eqb Bool.eqb negb orb].
  rewrite E4, E5, E6, E9. reflexivity.
Qed.

Lemma row_twins t t' g g' : twins t t' -> g (gen t) = g' (gen t') ->
  match fst (compute_row L t seed g), fst (compute_row L t' seed g') with
  | Ok a, Ok b => unlabelled a = unlabelled b
  | Err a, Err b => a = b
  | _, _ => False
  end /\
  snd (compute_row L t seed g) (gen t) = snd (compute_row L t' seed g') (gen t').
Proof.
  intros T Eg. pose proof T as [E1 [E2 [E3 [E4 [E5 [E6 [E7 [E8 [E9 [E10 E11]]]]]]]]]]. unfold compute_row. cbv zeta.
  rewrite E1, E2, E4, E5, E6.
  match goal with |- context [match ?b with Ok _ => _ | Err _ => _ end] => destruct b as [[d h]|e] end; [|split; [reflexivity|exact Eg]].
  replace (trial_budget t) with (trial_budget t') by (unfold trial_budget; rewrite E7, E8; reflexivity). rewrite Eg.
  destruct (lab_fit L (td_strategy (tr_descriptor t')) h (trial_budget t') (lab_seed_global L seed)
     {| w_tracker := new_tracker; w_rng := g' (gen t') |}) as [fit w].
  cbn [fst snd]. split; [|unfold put_generator; rewrite !Nat.eqb_refl; reflexivity].
  assert (Em : match ('(m, gl) <- fit ;; measure L t d h seed m gl) with Ok l => l | Err e => measure_on_exception L t e end =
               match ('(m, gl) <- fit ;; measure L t' d h seed m gl) with Ok l => l | Err e => measure_on_exception L t' e end).
  { destruct fit as [[m gl]|e]; cbn [bind]; [|apply failing_twins; exact T].
    rewrite (measure_twins t t' d h m gl T). destruct (measure L t' d h seed m gl); [reflexivity|apply failing_twins; exact T]. }
  rewrite Em. set (mm := match _ with Ok l => l | Err e => _ end). clearbody mm.
  pose proof (vars_twins t t' T) as V.
  destruct (independent_vars L t) as [a|e], (independent_vars L t') as [b|e']; cbn [bind]; try contradiction; [|exact V].
  rewrite !unlabelled_app, V. unfold privacy_vars. rewrite E7, E8. reflexivity.
Qed.
End Rows.

(** ** Replicas of a design *)

Lemma spends_fun s d l l' : spends_on s d l -> spends_on s d l' -> l = l'.
Proof. destruct s; cbn; congruence. Qed.
Lemma kwargs_fun d a b b' : kwargs_on d a b -> kwargs_on d a b' -> b = b'.
Proof.
  unfold kwargs_on. intros H. revert b'. induction H as [|x y l l' [H1 [H2 H3]] H IH]; intros b' H'; inversion H' as [|? y' ? l2 [G1 [G2 G3]] G]; subst; [reflexivity|].
  f_equal; [|auto]. destruct y as [k v], y' as [k' v']. cbn [fst snd] in *.
  destruct (string_dec (fst x) "npublishers") as [E|E]; [rewrite (H2 E), (G2 E)|rewrite (H3 E), (G3 E)]; congruence.
Qed.

Lemma runs_twins x n i j c c' t t' : runs x n i c t -> runs x n j c' t' -> replicas c c' -> twins t t'.
Proof.
  intros [A1 [A2 [A3 [A4 [A5 [d [A6 [P1 [P2 [P3 [P4 [P5 [P6 [P7 P8]]]]]]]]]]]]]]
         [B1 [B2 [B3 [B4 [B5 [d' [B6 [Q1 [Q2 [Q3 [Q4 [Q5 [Q6 [Q7 Q8]]]]]]]]]]]]]]
         [R1 [R2 [R3 [R4 [R5 R6]]]]].
  assert (d' = d) by congruence. subst d'. unfold twins, system_of, experiment_of.
  rewrite <- R2 in Q2. rewrite <- R6 in Q7, Q8.
  split; [congruence|]. split; [congruence|]. split; [congruence|]. split; [congruence|].
  split; [eapply spends_fun; eassumption|]. split; [congruence|].
  split; [congruence|]. split; [congruence|]. split; [congruence|]. split; [congruence|].
  eapply kwargs_fun; eassumption.
Qed.

Lemma generator_numbers x n cs : forall s ts,
  Forall2 (fun nic t => runs x (fst nic) (fst (snd nic)) (snd (snd nic)) t) (map (pair n) (combine (seq s (length cs)) cs)) ts ->
  map (fun t => sp_generator (system_of t)) ts = seq s (length cs).
Proof.
  induction cs as [|c cs IH]; intros s ts F; cbn [length seq combine map] in *; inversion F as [|? ? ? ? R F']; subst; [reflexivity|].
  cbn [map]. f_equal; [apply R|]. apply IH. exact F'.
Qed.

Lemma nth_Forall2 {A B} (R : A -> B -> Prop) l l' : Forall2 R l l' -> forall k a b,
  nth_error l k = Some a -> nth_error l' k = Some b -> R a b.
Proof.
  intros F. induction F as [|x y l l' H F IH]; intros [|k] a b Ha Hb; try discriminate; cbn in Ha, Hb; [congruence|eauto].
Qed.
Lemma Forall2_nth {A B} (R : A -> B -> Prop) l l' : Forall2 R l l' -> forall k a,
  nth_error l k = Some a -> exists b, nth_error l' k = Some b /\ R a b.
Proof.
  intros F. induction F as [|x y l l' H F IH]; intros [|k] a Ha; try discriminate; cbn in Ha |- *; [|eauto].
  injection Ha as <-. eauto.
Qed.

Section Replicas.
Variables (L : lab) (x : experimental_design) (cs : list choice) (seed : Z).
Notation gen t := (sp_generator (system_of t)).
Definition alike (g : generators L) : Prop := forall i j c c', nth_error cs i = Some c -> nth_error cs j = Some c' ->
  replicas c c' -> g i = g j.

Lemma replica_rows names : forall ts g rows, alike g ->
  Forall2 (fun nic t => runs x (fst nic) (fst (snd nic)) (snd (snd nic)) t) (list_prod names (combine (seq 0 (length cs)) cs)) ts ->
  row_by_row L seed g ts rows ->
  forall k i j c c' row row', (k < length names)%nat -> nth_error cs i = Some c -> nth_error cs j = Some c' -> replicas c c' ->
  nth_error rows (k * length cs + i) = Some row -> nth_error rows (k * length cs + j) = Some row' ->
  unlabelled row = unlabelled row'.
Proof.
  induction names as [|n names IH]; intros ts g rows Al F Rr k i j c c' row row' Hk Hi Hj Rc Er Er'; [cbn in Hk; lia|].
  cbn [list_prod] in F. apply Forall2_app_inv_l in F. destruct F as [ts1 [ts2 [F1 [F2 ->]]]].
  apply row_by_row_app in Rr. destruct Rr as [r1 [r2 [-> [Rr1 Rr2]]]].
  pose proof (generator_numbers x n cs 0 ts1 F1) as Gn.
  assert (Nd : NoDup (map (fun t => gen t) ts1)) by (rewrite Gn; apply seq_NoDup).
  destruct (own_rows L seed ts1 g r1 Nd Rr1) as [Own St].
  assert (Ll : length ts1 = length cs) by (rewrite <- (seq_length (length cs) 0), <- Gn, map_length; reflexivity).
  assert (Lr : length r1 = length cs) by (rewrite (row_by_row_length L seed _ _ _ Rr1); exact Ll).
  assert (At : forall i c, nth_error cs i = Some c -> exists t, nth_error ts1 i = Some t /\ runs x n i c t).
  { intros i0 c0 H0. destruct (Forall2_nth _ _ _ F1 i0 (n, (i0, c0))) as [t [Et Rt]]; [|exists t; auto].
    rewrite nth_error_map, nth_combine_seq, H0. reflexivity. }
  destruct k as [|k].
  - cbn [Nat.mul Nat.add] in Er, Er'. destruct (At i c Hi) as [t [Et Rt]]. destruct (At j c' Hj) as [t' [Et' Rt']].
    assert (Hl : (i < length cs)%nat) by (apply nth_error_Some; congruence).
    assert (Hl' : (j < length cs)%nat) by (apply nth_error_Some; congruence).
    rewrite nth_error_app1 in Er by lia. rewrite nth_error_app1 in Er' by lia.
    pose proof (nth_Forall2 _ _ _ Own i t row Et Er) as O1. pose proof (nth_Forall2 _ _ _ Own j t' row' Et' Er') as O2.
    cbv beta in O1, O2.
    destruct (row_twins L seed t t' g g (runs_twins _ _ _ _ _ _ _ _ Rt Rt' Rc)) as [H _].
    { replace (gen t) with i by (symmetry; apply Rt). replace (gen t') with j by (symmetry; apply Rt'). apply (Al i j c c'); assumption. }
    rewrite O1, O2 in H. exact H.
  - cbn [length] in Hk. apply (IH ts2 (after_computing L seed g ts1) r2) with (k := k) (i := i) (j := j) (c := c) (c' := c'); auto; [|lia| |].
    + intros i0 j0 c0 c0' H0 H0' R0. destruct (At i0 c0 H0) as [t [Et Rt]]. destruct (At j0 c0' H0') as [t' [Et' Rt']].
      assert (Gi : gen t = i0) by apply Rt. assert (Gj : gen t' = j0) by apply Rt'.
      rewrite <- Gi at 1. rewrite <- Gj at 1. rewrite !St by (eapply nth_error_In; eassumption).
      apply (row_twins L seed t t' g g (runs_twins _ _ _ _ _ _ _ _ Rt Rt' R0)).
      rewrite Gi, Gj. apply (Al i0 j0 c0 c0'); assumption.
    + rewrite nth_error_app2 in Er by (cbn [Nat.mul]; lia). rewrite <- Er. f_equal. cbn [Nat.mul]. lia.
    + rewrite nth_error_app2 in Er' by (cbn [Nat.mul]; lia). rewrite <- Er'. f_equal. cbn [Nat.mul]. lia.
Qed.
End Replicas.
