(** C55, continued: examples of trials with the strategies and models that the driver can name. *)
From Coq Require Import String Lqa.
From Verif Require Import Prelude ModelReachPoint ModelData SpecData DataLemmas DataLemmas2 DataLemmas3 PropsData HaloLemmas2 ModelPrivacy SpecPrivacy ModelHalo SpecHalo SpecExact SpecVenn
  HaloLemmas PropsHalo PropsExact ModelCurves ModelGamma ModelGammaPoisson ModelSurface SpecSurface ModelRestricted SpecRestricted
  ModelTestPoints ModelAggregator SpecAggregator ModelFiles ModelDriver SpecTrial ModelStack SpecStack
  PropsGamma PropsGammaPoisson PropsRestricted PropsTestPoints ExampleDriver PropsStack PropsStack2 PropsStack3.
Open Scope Z_scope.

(** A solver that tries the vector of zeros. *)
Definition zeros_solver (n : nat) (P : qp) : result (list Q) :=
  let x := repeat 0%Q n in
  if forallb (fun rb => Qle_bool (dot (fst rb) x) (snd rb)) (qp_ineq P) &&
     forallb (fun rb => Qeq_bool (dot (fst rb) x) (snd rb)) (qp_eq P)
  then Ok x else Err ValueError.
Lemma zeros_feasible n : returns_feasible (zeros_solver n) n.
Proof.
  intros P x E. unfold zeros_solver in E. cbv zeta in E.
  destruct (forallb _ (qp_ineq P)) eqn:A; [|discriminate E]. destruct (forallb _ (qp_eq P)) eqn:C; [|discriminate E].
  injection E as <-. split; [apply repeat_length|]. rewrite forallb_forall in A, C. split; intros row b I.
  - apply Qle_bool_iff. exact (A _ I).
  - apply Qeq_bool_iff. exact (C _ I).
Qed.

(** A generator that counts its calls from the seed on. *)
Definition ex_random : np_random nat :=
  {| np_seed := Z.to_nat;
     np_rand := fun n g => (repeat (1 # 2)%Q n, S g);
     np_permutation := fun n g => (seq 0 n, S g) |}.
Lemma ex_random_draws : numpy_draws ex_random.
Proof.
  split; [|intros n g; apply Permutation.Permutation_refl]. intros n g. cbn [np_rand ex_random fst]. rewrite repeat_length. split; [reflexivity|].
  apply Forall_forall. intros x Hx. apply repeat_spec in Hx. subst. lra.
Qed.

Definition ex_tools : tools :=
  {| tl_state := nat; tl_random := ex_random; tl_solver := zeros_solver 4;
     tl_gamma_poisson := PropsGammaPoisson.toy 2 toy_mass into_bounds; tl_gamma := small_scipy; tl_fuel := 5 |}.
Definition ex_draws : point_rng unit nat :=
  {| draw_random := fun n st => (repeat (1 # 2)%Q (Z.to_nat n), st);
     draw_permutation := fun n st => (py_range 0 n, st);
     draw_lhs := fun n samples gl => (repeat (repeat (1 # 2)%Q (Z.to_nat n)) (Z.to_nat samples), S gl) |}.
Definition ex_bench : bench ex_tools :=
  {| bn_float := toy_float; bn_halo := ex_externals; bn_own := unit; bn_default_rng := fun _ => tt;
     bn_draws := (ex_draws : point_rng unit (tl_state ex_tools)); bn_traceback := fun _ => "traceback"%string;
     bn_print := fun _ => []; bn_parse := fun _ => Err ValueError; bn_md5 := toy_md5 |}.
Definition ex_lab : lab := full_lab ex_tools ex_bench.

(** The data set with the given logs. *)
Definition ex_data (logs : list (list row)) : data_set :=
  match mapM (fun l => mk_publisher "r" l (Some "p"%string)) logs with
  | Ok pubs => match mk_data_set pubs (Some "d"%string) None with Ok d => d | Err _ => toy_data end
  | Err _ => toy_data
  end.
(** A user with two impressions, and one with one; a second publisher with one impression of
    the second user and two of a third. *)
Definition ex_a : list row := [(1, (1 # 4)%Q); (1, (1 # 2)%Q); (2, 1%Q)].
Definition ex_b : list row := [(2, (1 # 3)%Q); (3, (2 # 3)%Q); (3, 1%Q)].
Lemma ex_one_is : is_data_set_of [ex_a] (ex_data [ex_a]).
Proof.
  eexists; exists (Some "d"%string), None. split; [|reflexivity].
  repeat constructor; exists "r"%string, (Some "p"%string); reflexivity.
Qed.
Lemma ex_two_is : is_data_set_of [ex_a; ex_b] (ex_data [ex_a; ex_b]).
Proof.
  eexists; exists (Some "d"%string), None. split; [|reflexivity].
  repeat constructor; exists "r"%string, (Some "p"%string); reflexivity.
Qed.

Definition ex_strategy (kw : kwargs) (multi : string) : strategy_descriptor :=
  {| sd_strategy := "m3strategy"; sd_strategy_kwargs := kw; sd_single := "goerg"; sd_single_kwargs := [];
     sd_multi := multi; sd_multi_kwargs := [] |}.
Definition with_truth : kwargs := [("use_ground_truth_for_reach_curves"%string, VBool true)].
(** A trial on the given logs; all campaigns spend the whole budget. *)
Definition ex_trial (logs : list (list row)) (sd : strategy_descriptor) (analysis : string) : trial :=
  {| tr_experiment_dir := "/x/exp";
     tr_design := {| dd_names := ["d"%string];
                     dd_by_name := fun n => if String.eqb n "d" then Ok (ex_data logs) else Err FileNotFoundError |};
     tr_data_set := "d";
     tr_descriptor := {| td_strategy := sd;
       td_system := {| sp_fractions := [PFloat 1; PFloat 1];
         sp_ll := {| lp_decay_rate := PInt 13; lp_sketch_size := PInt 1000; lp_random_seed := 1 |};
         sp_generator := 0; sp_fractions_generator := None |};
       td_experiment := toy_experiment 0 |};
     tr_analysis := analysis |}.
Definition ex_row (logs : list (list row)) (sd : strategy_descriptor) (analysis : string) : list (string * cell) :=
  match fst (compute_row ex_lab (ex_trial logs sd analysis) 1 ((fun _ => 0) : generators ex_lab)) with
  | Ok r => r | Err _ => [] end.

Lemma ex_row_is logs sd an row : ex_row logs sd an = row -> row <> [] ->
  exists g', compute_row ex_lab (ex_trial logs sd an) 1 ((fun _ => 0) : generators ex_lab) = (Ok row, g').
Proof.
  unfold ex_row. destruct (compute_row _ _ _ _) as [[r|e] g']; cbn [fst]; intros <- N; [eauto|contradiction N; reflexivity].
Qed.
Lemma ex_column logs sd an key v : column (ex_row logs sd an) key = Some v ->
  exists g', compute_row ex_lab (ex_trial logs sd an) 1 ((fun _ => 0) : generators ex_lab) = (Ok (ex_row logs sd an), g').
Proof. intros H. apply ex_row_is; [reflexivity|]. intros C. rewrite C in H. discriminate H. Qed.

Lemma ex_a_increasing : increasing_prices ex_a.
Proof. unfold increasing_prices, ex_a. repeat constructor; cbn; lra. Qed.
Lemma ex_b_increasing : increasing_prices ex_b.
Proof. unfold increasing_prices, ex_b. repeat constructor; cbn; lra. Qed.
Lemma ex_positive : positive_prices [ex_a; ex_b].
Proof. unfold positive_prices. repeat constructor; cbn; lra. Qed.
Lemma ex_a_positive : positive_prices [ex_a].
Proof. unfold positive_prices. repeat constructor; cbn; lra. Qed.

(** A row of one publisher with a Goerg curve: the privacy columns, and the error at the
    spend of the campaign, where two users have seen three impressions. *)
Example C55_privacy_example :
  SpecAggregator.number (ex_row [ex_a] (ex_strategy [] "none") "single_pub") "privacy_used_epsilon" (2 # 3).
Proof.
  assert (Su : column (ex_row [ex_a] (ex_strategy [] "none") "single_pub") "model_succeeded" = Some (CInt 1)) by (vm_compute; reflexivity).
  destruct (ex_column _ _ _ _ _ Su) as [g' E].
  destruct (C55_privacy ex_tools ex_bench (ex_trial [ex_a] (ex_strategy [] "none") "single_pub") _ _ _ _ (ex_data [ex_a]) ex_honest
      ltac:(cbn; lra) ltac:(cbn; lra) E eq_refl)
    as [e [dl [N1 [_ [_ [_ [_ [_ X]]]]]]]].
  destruct (X Su) as [X1 _]. destruct N1 as [v [N1 N2]]. exists v. split; [exact N1|]. rewrite N2, X1. reflexivity.
Qed.
Example C55_goerg_training_spend_example :
  exists spend, campaign_of ex_a 1 spend /\ bought_at_spend ex_a spend = 3 /\
    SpecAggregator.number (ex_row [ex_a] (ex_strategy [] "none") "single_pub") "relative_error_at_100" 0.
Proof.
  assert (Su : column (ex_row [ex_a] (ex_strategy [] "none") "single_pub") "model_succeeded" = Some (CInt 1)) by (vm_compute; reflexivity).
  destruct (ex_column _ _ _ _ _ Su) as [g' E].
  destruct (C55_goerg_training_spend ex_tools ex_bench (ex_trial [ex_a] (ex_strategy [] "none") "single_pub") _ _ _ _ _ ex_a (ex_data [ex_a]) 1%Q [1%Q] ex_exact eq_refl ex_one_is ex_a_increasing
    ex_a_positive eq_refl ltac:(repeat constructor; lra) eq_refl (or_introl eq_refl) E eq_refl Su) as [spend [n [C1 [C2 [_ [C4 _]]]]]].
  assert (Es : (spend == 1)%Q).
  { eapply campaign_unique; [exact C1|]. exists 1%Q. split; [right; right; left; reflexivity|]. split; [|reflexivity].
    intros r [<-|[<-|[<-|[]]]]; cbn; lra. }
  exists spend. split; [exact C1|]. rewrite (bought_same _ _ _ Es) in *. split; [reflexivity|]. apply C4.
  assert (n = 2) as ->; [|reflexivity].
  eapply card_is_unique; [exact C2|]. exists [1; 2]. split; [repeat constructor; cbn; intuition discriminate|]. split; [|reflexivity].
  intros u. rewrite (seen_same _ _ _ _ Es). rewrite seen_at_spend_in. split.
  - intros [<-|[<-|[]]]; [exists (1 # 4)%Q|exists 1%Q]; (split; [cbn; auto|lra]).
  - intros [q [[I|[I|[I|[]]]] _]]; injection I as <- <-; cbn; auto.
Qed.

(** The same publisher with its true curve: no error; with the single publisher analysis it
    is reported as a failure. *)
Example C55_truth_one_publisher_example :
  SpecAggregator.number (ex_row [ex_a] (ex_strategy with_truth "none") "") "mean_squared_error" 0 /\
  column (ex_row [ex_a] (ex_strategy with_truth "none") "single_pub") "model_succeeded" = Some (CInt 0).
Proof.
  assert (U : uses_truth (ex_strategy with_truth "none")) by (split; [reflexivity|]; exists (VBool true); split; reflexivity).
  split.
  - assert (Su : column (ex_row [ex_a] (ex_strategy with_truth "none") "") "model_succeeded" = Some (CInt 1)) by (vm_compute; reflexivity).
    destruct (ex_column _ _ _ _ _ Su) as [g' E].
    apply (C55_truth_one_publisher ex_tools ex_bench (ex_trial [ex_a] (ex_strategy with_truth "none") "") _ _ _ _ ex_a (ex_data [ex_a]) eq_refl ex_one_is U ltac:(cbn; lia) E Su).
    cbn [In]. auto.
  - assert (Su : column (ex_row [ex_a] (ex_strategy with_truth "none") "single_pub") "dataset" = Some (CText "d")) by (vm_compute; reflexivity).
    destruct (ex_column _ _ _ _ _ Su) as [g' E].
    exact (C55_truth_single_analysis ex_tools ex_bench _ _ _ _ _ (ex_data [ex_a]) E eq_refl U eq_refl eq_refl).
Qed.

(** Two publishers without a surface, and with the strategy for one publisher. *)
Example C55_failures_example :
  column (ex_row [ex_a; ex_b] (ex_strategy [] "none") "") "model_succeeded" = Some (CInt 0) /\
  column (ex_row [ex_a; ex_b] {| sd_strategy := "single_publisher"; sd_strategy_kwargs := []; sd_single := "goerg";
     sd_single_kwargs := []; sd_multi := "none"; sd_multi_kwargs := [] |} "") "privacy_mechanisms" = Some (CText "") /\
  column (ex_row [ex_a] {| sd_strategy := "m3strategy"; sd_strategy_kwargs := []; sd_single := "goerg";
     sd_single_kwargs := [("kmax"%string, VNum (PInt 3))]; sd_multi := "none"; sd_multi_kwargs := [] |} "") "model_succeeded" = Some (CInt 0).
Proof.
  split; [|split].
  - assert (Su : column (ex_row [ex_a; ex_b] (ex_strategy [] "none") "") "dataset" = Some (CText "d")) by (vm_compute; reflexivity).
    destruct (ex_column _ _ _ _ _ Su) as [g' E].
    assert (N : needs_surface (ex_data [ex_a; ex_b])) by (vm_compute; repeat constructor).
    exact (C55_no_surface ex_tools ex_bench _ _ _ _ _ (ex_data [ex_a; ex_b]) E eq_refl N (or_introl eq_refl)).
  - match goal with |- column (ex_row ?l ?sd ?an) _ = _ => assert (Su : column (ex_row l sd an) "dataset" = Some (CText "d")) by (vm_compute; reflexivity) end.
    destruct (ex_column _ _ _ _ _ Su) as [g' E].
    assert (N : length (ds_data (ex_data [ex_a; ex_b])) <> 1%nat) by (vm_compute; discriminate).
    destruct (C55_single_publisher_strategy ex_tools ex_bench _ _ _ _ _ (ex_data [ex_a; ex_b]) E eq_refl eq_refl N) as [_ [_ [_ [_ Z]]]]. exact Z.
  - match goal with |- column (ex_row ?l ?sd ?an) _ = _ => assert (Su : column (ex_row l sd an) "dataset" = Some (CText "d")) by (vm_compute; reflexivity) end.
    destruct (ex_column _ _ _ _ _ Su) as [g' E].
    exact (C55_goerg_arguments ex_tools ex_bench _ _ _ _ _ (ex_data [ex_a]) E eq_refl eq_refl ltac:(discriminate) (or_introl eq_refl)).
Qed.

(** Two publishers with a surface. *)
Definition ex_two_halo : halo :=
  match mk_halo (ex_data [ex_a; ex_b]) [1; 1]%Q ex_ll with Ok h => h | Err _ => ex_halo end.
Lemma ex_two_halo_is : mk_halo (ex_data [ex_a; ex_b]) [1; 1]%Q ex_ll = Ok ex_two_halo.
Proof. vm_compute. reflexivity. Qed.
Definition ex_fit (sd : strategy_descriptor) (seed : Z) :=
  lab_fit ex_lab sd ex_two_halo ex_budget (lab_seed_global ex_lab seed) ex_world.
Lemma ex_fitted sd seed: match fst (ex_fit sd seed) with Ok _ => true | Err _ => false end = true ->
  exists m gl w', lab_fit (full_lab ex_tools ex_bench) sd ex_two_halo ex_budget (lab_seed_global ex_lab seed) ex_world = (Ok (m, gl), w').
Proof.
  change (lab_fit (full_lab ex_tools ex_bench) sd ex_two_halo ex_budget (lab_seed_global ex_lab seed) ex_world) with (ex_fit sd seed).
  destruct (ex_fit sd seed) as [[[m gl]|e] w']; [eauto|discriminate].
Qed.

Lemma ex_sound name : name = "pairwise_union"%string \/ name = "restricted_pairwise_union"%string ->
  sound_surface ex_tools name (length [ex_a; ex_b]).
Proof.
  intros [-> | ->]; [left|right]; (split; [reflexivity|]); [exact (zeros_feasible 4)|]. split; [exact ex_random_draws|cbn; lia].
Qed.

Example C55_goerg_surface_example : forall name, name = "pairwise_union"%string \/ name = "restricted_pairwise_union"%string ->
  exists m gl w', ex_fit (ex_strategy [] name) 1 = (Ok (m, gl), w') /\
  exists reports, campaign_reports [ex_a; ex_b] [1; 1]%Q reports /\
    exists p v, fst (lab_ask ex_lab m [1; 0]%Q 1) = Ok p /\ reach p 1 = Ok v /\
      exists x, nth_error (goerg_values reports [1; 0]%Q) 0 = Some x /\ (v == x)%Q.
Proof.
  intros name Hn.
  assert (F : match fst (ex_fit (ex_strategy [] name) 1) with Ok _ => true | Err _ => false end = true) by (destruct Hn as [-> | ->]; vm_compute; reflexivity).
  apply ex_fitted in F.
  destruct F as [m [gl [w' E]]].
  exists m, gl, w'. split; [exact E|].
  destruct (C55_goerg_surface ex_tools ex_bench _ [ex_a; ex_b] (ex_data [ex_a; ex_b]) [1; 1]%Q ex_ll ex_two_halo (ex_strategy [] name) _ _ _ _ _ _ ex_exact ex_two_is ltac:(cbn; lia)
    ltac:(constructor; [exact ex_a_increasing|constructor; [exact ex_b_increasing|constructor]]) ex_positive ltac:(repeat constructor; lra)
    ex_two_halo_is eq_refl (or_introl eq_refl) (ex_sound name Hn) E) as [reports [R1 [R2 _]]].
  exists reports. split; [exact R1|]. destruct (R2 [1; 0]%Q 1 eq_refl ltac:(repeat constructor; lra)) as [p [v [P1 [P2 [_ [_ P3]]]]]].
  exists p, v. split; [exact P1|]. split; [exact P2|]. destruct R1 as [R1 _]. destruct reports as [|q [|q' [|? ?]]]; try discriminate R1.
  eexists. split; [reflexivity|]. eapply (P3 0%nat); [|reflexivity]. intros [|[|j]] s N E'; [congruence|injection E' as <-; reflexivity|destruct j; discriminate E'].
Qed.

Example C55_truth_surface_example :
  exists m gl w', ex_fit (ex_strategy with_truth "pairwise_union") 1 = (Ok (m, gl), w') /\
    exists p v, fst (lab_ask ex_lab m [1; 1]%Q 1) = Ok p /\ reach p 1 = Ok v /\ (2 <= v <= 4)%Q.
Proof.
  assert (F : match fst (ex_fit (ex_strategy with_truth "pairwise_union") 1) with Ok _ => true | Err _ => false end = true) by (vm_compute; reflexivity).
  apply ex_fitted in F. destruct F as [m [gl [w' E]]].
  exists m, gl, w'. split; [exact E|].
  assert (U : uses_truth (ex_strategy with_truth "pairwise_union")) by (split; [reflexivity|]; exists (VBool true); split; reflexivity).
  assert (R : reached_by_each [ex_a; ex_b] [1; 1]%Q [2; 2]).
  { repeat constructor; cbn [fst snd].
    - exists [1; 2]. split; [repeat constructor; cbn; intuition discriminate|]. split; [|reflexivity]. intros u. rewrite seen_at_spend_in. split.
      + intros [<-|[<-|[]]]; [exists (1 # 4)%Q|exists 1%Q]; (split; [cbn; auto|lra]).
      + intros [q [[I|[I|[I|[]]]] _]]; injection I as <- <-; cbn; auto.
    - exists [2; 3]. split; [repeat constructor; cbn; intuition discriminate|]. split; [|reflexivity]. intros u. rewrite seen_at_spend_in. split.
      + intros [<-|[<-|[]]]; [exists (1 # 3)%Q|exists 1%Q]; (split; [cbn; auto|lra]).
      + intros [q [[I|[I|[I|[]]]] _]]; injection I as <- <-; cbn; auto. }
  destruct (reach_by_spend_card [ex_a; ex_b] _ [1; 1]%Q 1 1 ex_two_is eq_refl ltac:(lia)) as [_ [truth [_ [_ C]]]].
  destruct (C55_truth_surface ex_tools ex_bench [ex_a; ex_b] (ex_data [ex_a; ex_b]) [1; 1]%Q ex_ll ex_two_halo (ex_strategy with_truth "pairwise_union") _ _ _ _ _ _ ex_two_is ltac:(cbn; lia)
    ltac:(constructor; [exact ex_a_increasing|constructor; [exact ex_b_increasing|constructor]]) ex_two_halo_is U (ex_sound _ (or_introl eq_refl)) E
    [1; 1]%Q [2; 2] truth 1 eq_refl R C) as [p [v [P1 [P2 [_ [P3 [P4 _]]]]]]].
  exists p, v. split; [exact P1|]. split; [exact P2|]. split; [exact (P3 2 (or_introl eq_refl))|exact P4].
Qed.

(** The generator that the fits leave: the restricted surface has drawn from the seed 0. *)
Lemma ex_forgets sd seed seed' : sd_strategy sd = "m3strategy"%string -> sd_multi sd = "restricted_pairwise_union"%string ->
  ex_fit sd seed = ex_fit sd seed'.
Proof.
  intros H1 H2. assert (N : (h_publisher_count ex_two_halo <> 1)%nat) by (vm_compute; discriminate).
  exact (C55_restricted_forgets_seed ex_tools ex_bench sd ex_two_halo ex_budget ex_world seed seed' H1 H2 N).
Qed.
Lemma ex_keeps sd seed m gl w' : sd_multi sd <> "restricted_pairwise_union"%string ->
  ex_fit sd seed = (Ok (m, gl), w') -> gl = Z.to_nat seed.
Proof. intros N E. exact (C55_state_kept ex_tools ex_bench sd ex_two_halo ex_budget ex_world w' seed m gl (or_introl N) E). Qed.
Example C55_state_example :
  ex_fit (ex_strategy with_truth "restricted_pairwise_union") 1 = ex_fit (ex_strategy with_truth "restricted_pairwise_union") 2 /\
  forall m gl w', ex_fit (ex_strategy [] "pairwise_union") 1 = (Ok (m, gl), w') -> gl = 1%nat.
Proof.
  split; [exact (ex_forgets (ex_strategy with_truth "restricted_pairwise_union") 1 2 eq_refl eq_refl)|]. intros m gl w' E.
  assert (N : sd_multi (ex_strategy [] "pairwise_union") <> "restricted_pairwise_union"%string) by discriminate.
  exact (ex_keeps _ _ _ _ _ N E).
Qed.

(** Two publishers, asked for ten frequencies. *)
Definition asking (k : Z) (t : trial) : trial :=
  {| tr_experiment_dir := tr_experiment_dir t; tr_design := tr_design t; tr_data_set := tr_data_set t;
     tr_descriptor := {| td_strategy := td_strategy (tr_descriptor t); td_system := td_system (tr_descriptor t);
       td_experiment := let e := td_experiment (tr_descriptor t) in
         {| ep_epsilon := ep_epsilon e; ep_delta := ep_delta e; ep_replica_id := ep_replica_id e; ep_max_frequency := k;
            ep_test_points := ep_test_points e; ep_test_kwargs := ep_test_kwargs e |} |};
     tr_analysis := tr_analysis t |}.
Example C55_no_frequencies_example : forall row g',
  compute_row ex_lab (asking 10 (ex_trial [ex_a; ex_b] (ex_strategy [] "pairwise_union") "")) 1 ((fun _ => 0) : generators ex_lab) = (Ok row, g') ->
  column row "model_succeeded" = Some (CInt 1) /\ missing row "mare_freq_at_least_2" /\
  SpecAggregator.number row "mean_shuffle_distance" 1.
Proof.
  intros row g' E.
  assert (S : match compute_row ex_lab (asking 10 (ex_trial [ex_a; ex_b] (ex_strategy [] "pairwise_union") "")) 1 ((fun _ => 0) : generators ex_lab) with
              | (Ok row, _) => match column row "model_succeeded" with Some (CInt z) => z | _ => 0 end | _ => 0 end = 1) by (vm_compute; reflexivity).
  rewrite E in S. assert (Su : column row "model_succeeded" = Some (CInt 1)).
  { destruct (column row "model_succeeded") as [[z| |]|]; [|discriminate S|discriminate S|discriminate S]. rewrite S. reflexivity. }
  destruct (C55_no_frequencies ex_tools ex_bench (asking 10 (ex_trial [ex_a; ex_b] (ex_strategy [] "pairwise_union") "")) 1 _ row g' [ex_a; ex_b] (ex_data [ex_a; ex_b])
    eq_refl ex_two_is ltac:(cbn; lia) ltac:(cbn; lia) E Su) as [F1 [F2 _]].
  split; [exact Su|]. split; [|exact F2]. apply (F1 2); [cbn [In mare_columns]; auto|lia].
Qed.
