(** Choices that ask for the same; first runs that end; what the shipped designs can be run on. *)
From Coq Require Import String Ascii Qround Permutation Lqa.
From Verif Require Import Prelude ModelReachPoint ModelData DataLemmas ModelPrivacy ModelAggregator ModelFiles SpecFiles ModelHalo
  ModelTestPoints SpecTestPoints PropsTestPoints
  ModelDriver SpecDriver DriverLemmas DriverLemmas2 DriverLemmas3 DriverLemmas4 DriverLemmas5 DriverLemmas6 DriverLemmas7 DriverLemmas8
  PropsDriver3 SpecTrial TrialLemmas2 ModelDesigns SpecDesigns DesignsLemmas5 ModelExperiments SpecExperiments
  ExperimentsLemmas ExperimentsLemmas2 ExperimentsLemmas4.
Open Scope Z_scope.

(** ** Lost trials *)

Lemma part_of_length {A} (s l : list A) : part_of s l -> (length s <= length l)%nat /\ (length s = length l -> s = l).
Proof.
  intros H. induction H as [|x s l H [H1 H2]|x s l H [H1 H2]]; cbn [length].
  - auto.
  - split; [lia|lia].
  - split; [lia|]. intros E. f_equal. apply H2. lia.
Qed.

(** What a choice asks for on a data set does not depend on the rest. *)
Lemma plays_settings d c c' a b : same_choice d c c' -> plays c d a -> plays c' d b -> same_settings a b.
Proof.
  intros [x [y [[P1 [P2 [P3 [P4 [P5 [P6 [P7 P8]]]]]]] [[Q1 [Q2 [Q3 [Q4 [Q5 [Q6 [Q7 Q8]]]]]]] S]]]]
    [A1 [A2 [A3 [A4 [A5 [A6 [A7 A8]]]]]]] [B1 [B2 [B3 [B4 [B5 [B6 [B7 B8]]]]]]].
  pose proof (spends_fun _ _ _ _ P2 A2) as E1. pose proof (spends_fun _ _ _ _ Q2 B2) as E2.
  pose proof (kwargs_fun _ _ _ _ P8 A8) as E3. pose proof (kwargs_fun _ _ _ _ Q8 B8) as E4.
  destruct S as [S1 [[S2 [S3 S4]] [S5 [S6 [S7 [S8 [S9 S10]]]]]]].
  assert (F1 : ep_epsilon (td_experiment a) = ep_epsilon (td_experiment x)) by congruence.
  assert (F2 : ep_epsilon (td_experiment b) = ep_epsilon (td_experiment y)) by congruence.
  assert (F3 : ep_delta (td_experiment a) = ep_delta (td_experiment x)) by congruence.
  assert (F4 : ep_delta (td_experiment b) = ep_delta (td_experiment y)) by congruence.
  unfold same_settings, same_system, same_experiment.
  rewrite A1, B1, A3, B3, A5, B5, A6, B6, A7, B7, F1, F2, F3, F4, <- E1, <- E2, <- E3, <- E4.
  rewrite <- P1, <- Q1, <- P3, <- Q3, <- P5, <- Q5, <- P6, <- Q6, <- P7, <- Q7. auto 12.
Qed.

Section Lost.
Variable L : lab.
Variable x : experimental_design.
Variable cs : list choice.
Notation F := (lab_float L).
Hypothesis HD : xd_descriptors x = numbered cs.
Hypothesis HF : prints_floats F.
Hypothesis HN : good_data (xd_data x) (fun d => forall c, In c cs -> clear_choice F d c).

Lemma clear_dictionaries : dd_names (xd_data x) <> [] -> dictionaries x.
Proof.
  intros Ne desc Id. rewrite HD in Id. apply numbered_in in Id. destruct Id as [i [c [Hc ->]]].
  destruct HN as [_ H]. destruct (dd_names (xd_data x)) as [|n r] eqn:En; [contradiction|].
  destruct (H n (or_introl eq_refl)) as [_ [_ [d [_ C]]]].
  destruct (C c (nth_error_In _ _ Hc)) as [_ [N _]]. exact N.
Qed.

Lemma nth_prod {A B} (l : list A) (l' : list B) : forall k i a b, nth_error l k = Some a -> nth_error l' i = Some b ->
  nth_error (list_prod l l') (k * length l' + i) = Some (a, b).
Proof.
  induction l as [|z l IH]; intros [|k] i a b Ha Hb; try discriminate; cbn [list_prod nth_error Nat.mul Nat.add] in *.
  - assert (z = a) by congruence. subst z. rewrite nth_error_app1; [rewrite nth_error_map, Hb; reflexivity|].
    rewrite map_length. apply nth_error_Some. congruence.
  - rewrite nth_error_app2 by (rewrite map_length; lia). rewrite map_length.
    replace (length l' + k * length l' + i - length l')%nat with (k * length l' + i)%nat by lia. auto.
Qed.

Lemma lost_trials ts n d i j c c' : generate_trials L x = Ok ts -> In n (dd_names (xd_data x)) -> dd_by_name (xd_data x) n = Ok d ->
  nth_error cs i = Some c -> nth_error cs j = Some c' -> i <> j -> same_choice d c c' ->
  (length ts < length (dd_names (xd_data x)) * length cs)%nat.
Proof.
  intros E Hn Hd Hi Hj Nij Sc.
  assert (Ne : dd_names (xd_data x) <> []) by (intros X; rewrite X in Hn; destruct Hn).
  destruct (C38_trials L x ts (clear_dictionaries Ne) E) as [all [F1 [P [N [_ _]]]]].
  destruct (part_of_length _ _ P) as [Le Eq].
  assert (La : length all = (length (dd_names (xd_data x)) * length cs)%nat).
  { rewrite <- (Forall2_len _ _ _ F1), prod_length, HD, numbered_length. reflexivity. }
  destruct (Nat.eq_dec (length ts) (length all)) as [El|]; [|lia]. exfalso.
  rewrite (Eq El) in N. clear P Le Eq El E ts.
  apply In_nth_error in Hn. destruct Hn as [k Hk].
  set (m := length cs) in *.
  assert (Hi' : nth_error (numbered cs) i = Some (make_descriptor i c)) by (rewrite numbered_nth, Hi; reflexivity).
  assert (Hj' : nth_error (numbered cs) j = Some (make_descriptor j c')) by (rewrite numbered_nth, Hj; reflexivity).
  pose proof (nth_prod _ _ _ _ _ _ Hk Hi') as Ni. pose proof (nth_prod _ _ _ _ _ _ Hk Hj') as Nj.
  rewrite <- HD in Ni, Nj.
  destruct (Forall2_nth _ _ _ F1 _ _ Ni) as [t [Et Tt]]. destruct (Forall2_nth _ _ _ F1 _ _ Nj) as [t' [Et' Tt']].
  cbn [fst snd] in Tt, Tt'.
  destruct Tt as [_ [_ [D1 [_ [d1 [Ed1 Ad1]]]]]]. destruct Tt' as [_ [_ [D2 [_ [d2 [Ed2 Ad2]]]]]].
  assert (d1 = d) by congruence. assert (d2 = d) by congruence. subst d1 d2.
  destruct HN as [_ H]. destruct (H n (nth_error_In _ _ Hk)) as [_ [Hc [d' [Ed' C]]]]. assert (d' = d) by congruence. subst d'.
  pose proof (adapted_plain F _ _ _ Ad1 (clear_plain F d i c (C c (nth_error_In _ _ Hi)))) as Pl1.
  pose proof (adapted_plain F _ _ _ Ad2 (clear_plain F d j c' (C c' (nth_error_In _ _ Hj)))) as Pl2.
  assert (En : trial_name L t = trial_name L t').
  { apply (name_same L t t' HF); [rewrite D1; exact Hc|rewrite D2; exact Hc|exact Pl1|exact Pl2|].
    split; [congruence|]. apply adapted_plays in Ad1, Ad2. apply (plays_settings d c c'); tauto. }
  assert (X : (k * length (xd_descriptors x) + i = k * length (xd_descriptors x) + j)%nat).
  { apply (proj1 (NoDup_nth_error (map (trial_name L) all)) N); [apply nth_error_Some|]; rewrite !nth_error_map, ?Et, ?Et'; cbn; congruence. }
  lia.
Qed.
End Lost.

(** ** First runs *)

Section First.
Variables (L : lab) (ts : list trial).
Hypothesis sep : separate L ts.
Variable seed : Z.

(** Whether a trial has a row does not depend on the generators. *)
Lemma row_any t g g' row : fst (compute_row L t seed g) = Ok row -> exists row', fst (compute_row L t seed g') = Ok row'.
Proof. intros H. apply (row_exists L t seed g'). apply (row_exists L t seed g). eauto. Qed.

Lemma first_run_ends rest : forall nows g d, incl rest ts -> NoDup rest -> usable L ts d ->
  (forall t, In t rest -> no_result L t d) ->
  (forall t, In t rest -> exists row, fst (compute_row L t seed g) = Ok row) ->
  exists tbs g' d', finish (evaluate_all L rest seed nows g) d = ((Ok tbs, g'), d').
Proof.
  induction rest as [|t rest IH]; intros nows g d Inc ND U No Rw.
  - cbn. eauto.
  - cbn [evaluate_all]. rewrite finish_pbind.
    assert (Ht : In t ts) by (apply Inc; left; reflexivity).
    destruct (evaluate_one L ts sep t seed (nows O) g d Ht U) as [a [d1 [E1 [Ev [U1 [_ [Fr _]]]]]]].
    rewrite E1. destruct Ev as [[tb [R _]]|[_ Ev]]; [exfalso; exact (No t (or_introl eq_refl) tb R)|].
    destruct (Rw t (or_introl eq_refl)) as [row Er].
    destruct (compute_row L t seed g) as [r g1] eqn:Ec. cbn [fst] in Er. subst r. destruct Ev as [-> _]. cbn [fst snd].
    rewrite finish_pbind. inversion ND as [|? ? N1 N2]; subst.
    destruct (IH (fun n => nows (S n)) g1 d1 (fun x Hx => Inc x (or_intror Hx)) N2 U1) as [tbs [g' [d' ->]]].
    + intros t' Ht'. apply (no_result_stat L t' d d1); [|apply No; right; exact Ht'].
      apply Fr; [apply Inc; right; exact Ht'|]. intros ->. contradiction.
    + intros t' Ht'. destruct (Rw t' (or_intror Ht')) as [row' Er']. eapply row_any. exact Er'.
    + cbn. eauto.
Qed.

Lemma row_by_row_all g rows : row_by_row L seed g ts rows -> forall t, In t ts -> exists row, fst (compute_row L t seed g) = Ok row.
Proof.
  clear sep. revert g rows. induction ts as [|t l IH]; intros g [|row rows] H t' Ht'; cbn [row_by_row] in H; try contradiction.
  destruct H as [H1 H2]. destruct Ht' as [<-|Ht']; [eauto|]. destruct (IH _ _ H2 t' Ht') as [row' E]. eapply row_any. exact E.
Qed.

Lemma load_first_iff nows g d : ts <> [] -> usable L ts d -> (forall t, In t ts -> no_result L t d) ->
  ((exists tb, fst (load L ts seed nows g d) = Ok tb) <-> forall t, In t ts -> exists row, fst (compute_row L t seed g) = Ok row).
Proof.
  intros Ne U No. split.
  - intros [tb E]. destruct (load L ts seed nows g d) as [r d'] eqn:El. cbn [fst] in E. subst r.
    apply (row_by_row_all g tb). eapply load_first; eauto.
  - intros Rw. unfold load.
    destruct (first_run_ends ts nows g d (incl_refl _) (separate_NoDup L ts sep) U No Rw) as [tbs [g' [d' E]]].
    rewrite E. cbn [bind fst]. unfold concat_tables. destruct tbs as [|tb tbs]; [|eauto]. exfalso.
    destruct (first_run L ts sep seed ts nows g d [] g' d' (incl_refl _) (separate_NoDup L ts sep) U No E) as [rows [X Rr]].
    apply row_by_row_length in Rr. destruct rows; [|discriminate]. destruct ts; [contradiction|discriminate].
Qed.
End First.

(** ** Rows of the shipped designs *)

Lemma runs_row L seed g x n i c t d : runs x n i c t -> dd_by_name (xd_data x) n = Ok d -> strategy_known (ch_strategy c) ->
  ((exists row, fst (compute_row L t seed g) = Ok row) <->
   exists l, spends_on (ch_spends c) d l /\ (1 <= publisher_count d <= length l)%nat).
Proof.
  intros [_ [A2 [A3 [_ [_ [d' [A6 [P1 [P2 _]]]]]]]]] Ed Sk. assert (d' = d) by congruence. subst d'.
  rewrite (row_exists L t seed g). rewrite A2, A3, P1. unfold publisher_count. split.
  - intros [d' [E [N [Le _]]]]. assert (d' = d) by congruence. subst d'. eexists. split; [exact P2|].
    split; [|exact Le]. destruct (ds_data d); [contradiction|cbn; lia].
  - intros [l [Sl Le]]. rewrite (spends_fun _ _ _ _ Sl P2) in Le. exists d. split; [exact Ed|].
    split; [intros X; rewrite X in Le; cbn in Le; lia|]. split; [apply Le|exact Sk].
Qed.

Definition strategies_known (L : trial_levels) : bool :=
  forallb (fun s => match instantiate_strategy s with Ok _ => true | Err _ => false end) (tl_strategies L).
Lemma known_checked L c : strategies_known L = true -> combines L c -> strategy_known (ch_strategy c).
Proof.
  intros H [I _]. unfold strategies_known in H. rewrite forallb_forall in H. specialize (H _ I).
  apply instantiate_ok. destruct (instantiate_strategy (ch_strategy c)) as [[]|]; [reflexivity|discriminate].
Qed.
Lemma single_known c : combines_single single_trial_levels c -> strategy_known (ch_strategy c).
Proof.
  intros [m [f [dr [ss [pt [H1 [H2 [H3 [H4 [H5 [H6 [H7 [H8 [H9 [E1 [E2 [E3 [E4 [E5 [E6 [E7 [E8 [E9 [E10 E11]]]]]]]]]]]]]]]]]]]]]]]].
  unfold strategy_known. rewrite E1, E2, E3, E5. split; [|split; [cbn; auto|right; auto]].
  cbn [sl_strategies single_trial_levels In] in H1. destruct H1 as [<-|[<-|[<-|[<-|[<-|[]]]]]]; cbn; auto.
Qed.

Lemma cycled_length l n : length (cycled l n) = n.
Proof. unfold cycled. rewrite map_length, seq_length. reflexivity. Qed.
Lemma full_spends d s x l : In s [all_alike x; in_turn l] ->
  exists r, spends_on s d r /\ length r = publisher_count d.
Proof.
  intros [<-|[<-|[]]]; cbn; eexists; (split; [reflexivity|]); [apply repeat_length|apply cycled_length].
Qed.
Lemma sample_spends s : In s (tl_spends sample_trial_levels) -> exists a b, s = Given [a; b].
Proof. intros H. cbn [tl_spends sample_trial_levels] in H. peel. eauto. Qed.

(** ** Test points of the shipped designs *)

Section Points.
Variable L : lab.
Hypothesis R1 : random_ok (lab_draws L).
Hypothesis R2 : permutation_ok (lab_draws L).
Hypothesis R3 : lhs_ok (lab_draws L).

Lemma makes_latin t d gl st kw : ep_test_points (td_experiment (tr_descriptor t)) = "latin_hypercube"%string ->
  int_kwargs (ep_test_kwargs (td_experiment (tr_descriptor t))) = Ok kw ->
  kw_known kw ["npoints"; "npublishers"; "minimum_points_per_publisher"]%string = true ->
  makes_points L t d gl st (Z.min (Z.max (Z.max (kw_default kw "npoints" 100)
    (kw_default kw "npublishers" 1 * kw_default kw "minimum_points_per_publisher" 100)) 100) 2000).
Proof.
  intros E1 E2 E3.
  destruct (C40_latin_hypercube (lab_draws L) d (kw_default kw "npoints" 100) (kw_default kw "npublishers" 1)
    (kw_default kw "minimum_points_per_publisher" 100) gl st R2 R3) as [points [gl' [st' [E [El _]]]]].
  exists kw, points, (gl', st'). split; [exact E2|]. split; [|exact El]. rewrite E1. unfold generate_test_points.
  cbn [String.eqb Ascii.eqb Bool.eqb]. rewrite E3. exact E.
Qed.
Lemma makes_uniform t d gl st kw : ep_test_points (td_experiment (tr_descriptor t)) = "uniformly_random"%string ->
  int_kwargs (ep_test_kwargs (td_experiment (tr_descriptor t))) = Ok kw ->
  kw_known kw ["npoints"; "npublishers"; "minimum_points_per_publisher"]%string = true ->
  makes_points L t d gl st (Z.max 0 (Z.max (kw_default kw "npoints" 100)
    (kw_default kw "npublishers" 1 * kw_default kw "minimum_points_per_publisher" 100))).
Proof.
  intros E1 E2 E3.
  destruct (C40_uniform (lab_draws L) d (kw_default kw "npoints" 100) (kw_default kw "npublishers" 1)
    (kw_default kw "minimum_points_per_publisher" 100) st R1) as [points [st' [E [El _]]]].
  exists kw, points, (gl, st'). split; [exact E2|]. split; [|exact El]. rewrite E1. unfold generate_test_points.
  cbn [String.eqb Ascii.eqb Bool.eqb]. rewrite E3.
  change minimum_number_of_test_points with 100. change minimum_number_of_test_points_per_publisher with 100.
  rewrite E. reflexivity.
Qed.
Lemma makes_grid t d gl st g : ep_test_points (td_experiment (tr_descriptor t)) = "grid"%string ->
  int_kwargs (ep_test_kwargs (td_experiment (tr_descriptor t))) = Ok [("grid_size"%string, g)] -> 0 <= g ->
  makes_points L t d gl st (g ^ Z.of_nat (publisher_count d)).
Proof.
  intros E1 E2 Hg. destruct (C40_grid d g) as [points [E [El _]]].
  exists [("grid_size"%string, g)], points, (gl, st). split; [exact E2|]. split.
  - rewrite E1. unfold generate_test_points.
    change (String.eqb "grid" "latin_hypercube") with false. change (String.eqb "grid" "uniformly_random") with false.
    change (String.eqb "grid" "grid") with true. cbv iota.
    change (kw_known [("grid_size"%string, g)] ["grid_size"%string]) with true.
    change (ModelTestPoints.kw_get [("grid_size"%string, g)] "grid_size") with (Some g). cbv iota.
    rewrite E. reflexivity.
  - rewrite El, Nat2Z.inj_pow, Z2Nat.id by exact Hg. reflexivity.
Qed.

(** The arguments of a trial. *)
Lemma runs_points x n i c t d : runs x n i c t -> dd_by_name (xd_data x) n = Ok d ->
  ep_test_points (td_experiment (tr_descriptor t)) = fst (ch_points c) /\
  kwargs_on d (snd (ch_points c)) (ep_test_kwargs (td_experiment (tr_descriptor t))).
Proof.
  intros [_ [_ [_ [_ [_ [d' [A6 [_ [_ [_ [_ [_ [_ [P7 P8]]]]]]]]]]]]]] Ed. assert (d' = d) by congruence. subst d'. auto.
Qed.

Lemma kwargs_on_int d kw kw' : kwargs_on d kw kw' -> forall l, int_kwargs kw = Ok l -> NoDup (map fst kw) ->
  int_kwargs kw' = Ok (map (fun kv => if String.eqb (fst kv) "npublishers" then (fst kv, Z.of_nat (publisher_count d)) else kv) l).
Proof.
  intros H. induction H as [|[k v] [k' v'] kw kw' [H1 [H2 H3]] H IH]; intros l E N; cbn [fst snd] in *.
  - cbn in E. injection E as <-. reflexivity.
  - subst k'. unfold int_kwargs in *. cbn [mapM fst snd] in *. destruct v as [[z|q]|s|b]; try discriminate.
    cbn [bind] in E. destruct (mapM _ kw) as [r|]; cbn [bind] in E; [|discriminate]. injection E as <-.
    cbn [map] in N. inversion N as [|? ? N1 N2]; subst. cbn [map fst].
    destruct (String.eqb_spec k "npublishers") as [E|E].
    + rewrite (H2 E). cbn [bind]. rewrite (IH r eq_refl N2). reflexivity.
    + rewrite (H3 E). cbn [bind]. rewrite (IH r eq_refl N2). reflexivity.
Qed.
End Points.
