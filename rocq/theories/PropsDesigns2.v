(** C51, continued: the arguments of generators and the defaults of data set parameters. *)
From Coq Require Import String Lqa.
From Verif Require Import Prelude ModelReachPoint ModelData ModelFiles ModelGenerators ModelDriver ModelDesigns SpecStack2 SpecDesigns2
  ReachPointLemmas.
Open Scope Z_scope.

Lemma get_some kw name v : kw_get kw name = Some v <-> passed kw name v.
Proof.
  split.
  - induction kw as [|[k x] kw IH]; cbn [kw_get]; [discriminate|]. destruct (String.eqb_spec name k) as [->|N].
    + intros E. injection E as <-. exists [], kw. split; [reflexivity|intros []].
    + intros E. destruct (IH E) as [b [a [-> Nb]]]. exists ((k, x) :: b), a. split; [reflexivity|].
      cbn [map fst]. intros [X|X]; [apply N; symmetry; exact X|contradiction].
  - intros [b [a [-> Nb]]]. induction b as [|[k x] b IH]; cbn [app kw_get].
    + rewrite String.eqb_refl. reflexivity.
    + destruct (String.eqb_spec name k) as [->|N]; [contradiction Nb; left; reflexivity|].
      apply IH. intros C. apply Nb. right. exact C.
Qed.
Lemma get_none kw name : kw_get kw name = None <-> not_passed kw name.
Proof.
  unfold not_passed. induction kw as [|[k x] kw IH]; cbn [kw_get map fst In]; [tauto|].
  destruct (String.eqb_spec name k) as [->|N]; [split; [discriminate|intros C; contradiction C; left; reflexivity]|].
  rewrite IH. split; [intros H [C|C]; [congruence|contradiction]|tauto].
Qed.
Lemma only_keys_spec names kw : only_keys names kw = true <-> only_passed kw names.
Proof.
  unfold only_keys, only_passed. rewrite forallb_forall. split.
  - intros H k v I. specialize (H _ I). cbn [fst] in H. unfold known in H. apply existsb_exists in H.
    destruct H as [x [Hx E]]. apply String.eqb_eq in E. subst x. exact Hx.
  - intros H [k v] I. cbn [fst]. unfold known. apply existsb_exists. exists k. split; [exact (H k v I)|apply String.eqb_refl].
Qed.
Lemma as_float_spec v q : as_float v = Ok q <-> exists n, v = VNum n /\ q = number_Q n.
Proof.
  destruct v as [n|s|b]; cbn [as_float]; split; try discriminate; try (intros [n' [C _]]; discriminate C).
  - intros E. injection E as <-. eauto.
  - intros [n' [E ->]]. injection E as <-. reflexivity.
Qed.
Lemma needed_float kw name q : (v <- need (kw_get kw name) ;; as_float v) = Ok q <-> numeric kw name q.
Proof.
  unfold numeric. destruct (kw_get kw name) as [v|] eqn:E; cbn [need bind].
  - rewrite as_float_spec. split.
    + intros [n [-> ->]]. exists n. split; [apply get_some; exact E|reflexivity].
    + intros [n [P ->]]. apply get_some in P. exists n. split; congruence.
  - split; [discriminate|]. intros [n [P _]]. apply get_some in P. congruence.
Qed.
Lemma float_or_spec kw name d q : float_or (kw_get kw name) d = Ok q <-> numeric_or kw name d q.
Proof.
  unfold numeric_or, numeric. destruct (kw_get kw name) as [v|] eqn:E; cbn [float_or].
  - rewrite as_float_spec. split.
    + intros [n [-> ->]]. right. exists n. split; [apply get_some; exact E|reflexivity].
    + intros [[P _]|[n [P ->]]]; [apply get_none in P; congruence|]. apply get_some in P. exists n. split; congruence.
  - split; [intros H; injection H as <-; left; split; [apply get_none; exact E|reflexivity]|].
    intros [[_ ->]|[n [P _]]]; [reflexivity|apply get_some in P; congruence].
Qed.

(** The generator that is made is the one the parameters describe, and none is made from
    other parameters. *)
Theorem C51_impression_arguments : forall g i, make_impressions g = Ok i <-> impressions_of g i.
Proof.
  intros g i. unfold make_impressions, impressions_of. destruct (gn_class g); cbv zeta; try (split; [discriminate|contradiction]).
  - rewrite <- only_keys_spec. destruct (only_keys _ _); [|split; [discriminate|intros [C _]; discriminate C]].
    split.
    + intros H. split; [reflexivity|]. destruct (kw_get (gn_params g) "poisson_lambda") as [v|] eqn:E; cbn [need bind] in H; [|discriminate H].
      destruct (as_float v) as [q|] eqn:F; cbn [bind] in H; [|discriminate H]. exists q. split; [|congruence].
      apply needed_float. rewrite E. cbn [need bind]. exact F.
    + intros [_ [q [P ->]]]. apply needed_float in P. destruct (need _) as [v|]; cbn [bind] in P |- *; [|discriminate P]. rewrite P. reflexivity.
  - rewrite <- only_keys_spec. destruct (only_keys _ _); [|split; [discriminate|intros [C _]; discriminate C]].
    split.
    + intros H. split; [reflexivity|]. destruct (float_or (kw_get (gn_params g) "gamma_shape") 1) as [a|] eqn:E1; cbn [bind] in H; [|discriminate H].
      destruct (float_or (kw_get (gn_params g) "gamma_scale") 1) as [b|] eqn:E2; cbn [bind] in H; [|discriminate H].
      exists a, b. split; [apply float_or_spec; exact E1|]. split; [apply float_or_spec; exact E2|congruence].
    + intros [_ [a [b [P1 [P2 ->]]]]]. apply float_or_spec in P1, P2. rewrite P1. cbn [bind]. rewrite P2. reflexivity.
  - rewrite <- only_keys_spec. destruct (only_keys _ _); [|split; [discriminate|intros [C _]; discriminate C]].
    split.
    + intros H. split; [reflexivity|]. destruct (float_or (kw_get (gn_params g) "zeta_s") 2) as [a|] eqn:E1; cbn [bind] in H; [|discriminate H].
      exists a. split; [apply float_or_spec; exact E1|congruence].
    + intros [_ [a [P1 ->]]]. apply float_or_spec in P1. rewrite P1. reflexivity.
Qed.
Print Assumptions C51_impression_arguments.

Theorem C51_pricing_arguments : forall g cost, make_pricing g = Ok cost <-> pricing_of g cost.
Proof.
  intros g cost. unfold make_pricing, pricing_of. rewrite <- only_keys_spec, <- needed_float.
  destruct (gn_class g); try (split; [discriminate|intros [C _]; discriminate C]).
  destruct (only_keys _ _); [tauto|]. split; [discriminate|intros [_ [C _]]; discriminate C].
Qed.
Print Assumptions C51_pricing_arguments.

Theorem C51_overlap_arguments : forall g o, make_overlap g = Ok o <-> overlap_of g o.
Proof.
  intros g o. unfold make_overlap, overlap_of. cbv zeta. destruct (gn_class g); try (split; [discriminate|contradiction]).
  - destruct (gn_params g); split; try discriminate; try (intros [C _]; discriminate C).
    + intros E. injection E as <-. auto.
    + intros [_ ->]. reflexivity.
  - rewrite <- only_keys_spec. destruct (only_keys _ _); [|split; [discriminate|intros [C _]; discriminate C]]. split.
    + intros H. split; [reflexivity|]. destruct (kw_get (gn_params g) "universe_size") as [v|] eqn:E1; cbn [need bind] in H; [|discriminate H].
      destruct (kw_get (gn_params g) "random_generator") as [r|] eqn:E2; cbn [need bind] in H; [|discriminate H].
      destruct v as [[u|q]|s|b]; cbn [as_int bind] in H; try discriminate H. exists u, r.
      split; [apply get_some; exact E1|]. split; [apply get_some; exact E2|congruence].
    + intros [_ [u [r [P1 [P2 ->]]]]]. apply get_some in P1, P2. rewrite P1, P2. reflexivity.
  - rewrite <- only_keys_spec. destruct (only_keys _ _); [|split; [discriminate|intros [C _]; discriminate C]]. split.
    + intros H. split; [reflexivity|]. destruct (kw_get (gn_params g) "order") as [v1|] eqn:E1; cbn [need bind] in H; [|discriminate H].
      destruct (kw_get (gn_params g) "correlated_sets") as [v2|] eqn:E2; cbn [need bind] in H; [|discriminate H].
      destruct (kw_get (gn_params g) "shared_prop") as [v3|] eqn:E3; cbn [need bind] in H; [|discriminate H].
      destruct v1 as [n1|s1|b1]; cbn [as_str bind] in H; try discriminate H.
      destruct v2 as [n2|s2|b2]; cbn [as_str bind] in H; try discriminate H.
      destruct (as_float v3) as [q|] eqn:F; cbn [bind] in H; [|discriminate H]. injection H as <-.
      eexists s1, s2, q, _. split; [apply get_some; exact E1|]. split; [apply get_some; exact E2|].
      split; [apply needed_float; rewrite E3; exact F|]. split; [|reflexivity].
      destruct (kw_get (gn_params g) "random_generator") as [r|] eqn:E4.
      * split; [|reflexivity]. intros _. exists r. apply get_some. exact E4.
      * split; [discriminate|]. intros [r P]. apply get_some in P. congruence.
    + intros [_ [s1 [s2 [q [gb [P1 [P2 [P3 [P4 ->]]]]]]]]]. apply get_some in P1, P2. apply needed_float in P3. rewrite P1, P2.
      destruct (kw_get (gn_params g) "shared_prop") as [v3|]; cbn [need bind] in P3 |- *; [|discriminate P3].
      cbn [as_str bind]. rewrite P3. cbn [bind]. do 2 f_equal.
      destruct (kw_get (gn_params g) "random_generator") as [r|] eqn:E4, gb; try reflexivity.
      * symmetry. apply P4. exists r. apply get_some. exact E4.
      * destruct (proj1 P4 eq_refl) as [r P]. apply get_some in P. congruence.
Qed.
Print Assumptions C51_overlap_arguments.

(** A missing argument is a TypeError. *)
Theorem C51_missing_argument : forall g,
  (gn_class g = CHomogeneous -> not_passed (gn_params g) "poisson_lambda" -> make_impressions g = Err TypeError) /\
  (gn_class g = CFixedPrice -> not_passed (gn_params g) "cost_per_impression" -> make_pricing g = Err TypeError) /\
  (gn_class g = CIndependent -> not_passed (gn_params g) "universe_size" \/ not_passed (gn_params g) "random_generator" ->
     make_overlap g = Err TypeError) /\
  (gn_class g = CSequential -> not_passed (gn_params g) "order" \/ not_passed (gn_params g) "correlated_sets" \/
     not_passed (gn_params g) "shared_prop" -> make_overlap g = Err TypeError).
Proof.
  intros g. rewrite <- !get_none. unfold make_impressions, make_pricing, make_overlap. cbv zeta. repeat split; intros -> H.
  - rewrite H. destruct (only_keys _ _); reflexivity.
  - rewrite H. destruct (only_keys _ _); reflexivity.
  - destruct (only_keys _ _); [|reflexivity]. destruct (kw_get (gn_params g) "universe_size"); [|reflexivity]. cbn [need bind].
    destruct H as [H|H]; [discriminate H|]. rewrite H. reflexivity.
  - destruct (only_keys _ _); [|reflexivity]. destruct (kw_get (gn_params g) "order"); [|reflexivity]. cbn [need bind].
    destruct (kw_get (gn_params g) "correlated_sets"); [|reflexivity]. cbn [need bind].
    destruct H as [H|[H|H]]; try discriminate H. rewrite H. reflexivity.
Qed.
Print Assumptions C51_missing_argument.

(** A data set with publishers is generated by the generators that its parameters describe. *)
Theorem C51_generators_used : forall St (rng : numpy_rng St) x F p st ds st', 1 <= fp_num_publishers p ->
  generate_set rng x F p st = Ok (ds, st') ->
  exists i cost o, impressions_of (fp_impressions p) i /\ pricing_of (fp_pricing p) cost /\ overlap_of (fp_overlap p) o /\
    generate_data_set rng x {| dp_num_publishers := fp_num_publishers p; dp_largest := fp_largest p;
      dp_ratio := number_Q (fp_ratio p); dp_cpi := cost; dp_impressions := i; dp_overlap := o |} (str (show_set F p)) st = Ok (ds, st').
Proof.
  intros St rng x F p st ds st' Hp H. unfold generate_set in H. cbv zeta in H.
  destruct (Z.leb_spec 1 (fp_num_publishers p)) as [_|]; [|lia].
  destruct (make_impressions (fp_impressions p)) as [i|] eqn:E1; cbn [bind] in H; [|discriminate H].
  destruct (make_pricing (fp_pricing p)) as [cost|] eqn:E2; cbn [bind] in H; [|discriminate H].
  destruct (make_overlap (fp_overlap p)) as [o|] eqn:E3.
  - exists i, cost, o. split; [apply C51_impression_arguments; exact E1|]. split; [apply C51_pricing_arguments; exact E2|].
    split; [apply C51_overlap_arguments; exact E3|exact H].
  - destruct (generate_publishers _ _ _ _ _ _ _ _); cbn [bind] in H; discriminate H.
Qed.
Print Assumptions C51_generators_used.

(** The settings that a sample has no coordinate for have their defaults: one publisher, of
    which the largest has 10000 users, a ratio of 0.9, a price of 0.1, on average 3
    impressions per user, and full overlap. *)
Theorem C51_defaults : forall L i sample p, lhs_set L i sample = Ok p ->
  ((length sample <= 0)%nat -> fp_num_publishers p = 1) /\
  ((length sample <= 1)%nat -> fp_largest p = 10000) /\
  ((length sample <= 2)%nat -> number_Q (fp_ratio p) = 9 # 10) /\
  ((length sample <= 3)%nat -> pricing_of (fp_pricing p) (1 # 10) /\ gn_name (fp_pricing p) = "Fixed"%string) /\
  ((length sample <= 4)%nat -> impressions_of (fp_impressions p) (Homogeneous 3) /\ gn_name (fp_impressions p) = "Homogeneous"%string) /\
  ((length sample <= 5)%nat -> overlap_of (fp_overlap p) FullOverlap /\ gn_name (fp_overlap p) = "FullOverlap"%string).
Proof.
  intros L i sample p H. unfold lhs_set, pick_or in H.
  assert (G : forall k, (length sample <= k)%nat -> nth_error sample k = None) by (intros k; apply nth_error_None).
  repeat match type of H with (bind ?e _) = _ => let E := fresh "E" in destruct e eqn:E; cbn [bind] in H; [|discriminate H] end.
  injection H as <-. cbn [fp_num_publishers fp_largest fp_ratio fp_pricing fp_impressions fp_overlap].
  split; [intros Hk; rewrite (G _ Hk) in E; injection E as <-; reflexivity|].
  split; [intros Hk; rewrite (G _ Hk) in E0; injection E0 as <-; reflexivity|].
  split; [intros Hk; rewrite (G _ Hk) in E1; injection E1 as <-; reflexivity|].
  split; [intros Hk; rewrite (G _ Hk) in E2; injection E2 as <-; split; [apply C51_pricing_arguments; reflexivity|reflexivity]|].
  split; [intros Hk; rewrite (G _ Hk) in E3; injection E3 as <-; split; [apply C51_impression_arguments; reflexivity|reflexivity]|].
  intros Hk; rewrite (G _ Hk) in E4; injection E4 as <-; split; [apply C51_overlap_arguments; reflexivity|reflexivity].
Qed.
Print Assumptions C51_defaults.

(** In the M3 design an independent overlap without a ratio for the universe, or without a
    generator, is a KeyError, and so is a sample without a coordinate for the overlap. *)
Theorem C51_m3_missing : forall L i sample p, lhs_set L i sample = Ok p ->
  ((length sample <= 5)%nat -> m3_set L i sample = Err KeyError) /\
  ((5 < length sample)%nat -> gn_name (fp_overlap p) = "Independent"%string ->
     not_passed (gn_params (fp_overlap p)) "largest_pub_to_universe_ratio" -> m3_set L i sample = Err KeyError) /\
  ((5 < length sample)%nat -> gn_name (fp_overlap p) = "Independent"%string ->
     (exists q, numeric (gn_params (fp_overlap p)) "largest_pub_to_universe_ratio" q /\ ~ (q == 0)%Q) ->
     not_passed (gn_params (fp_overlap p)) "random_generator" -> m3_set L i sample = Err KeyError) /\
  ((5 < length sample)%nat -> gn_name (fp_overlap p) <> "Independent"%string -> m3_set L i sample = Ok p).
Proof.
  intros L i sample p H. unfold m3_set. rewrite H. cbn [bind].
  split; [intros Hk; apply nth_error_None in Hk; rewrite Hk; reflexivity|].
  assert (G : (5 < length sample)%nat -> exists v, nth_error sample 5 = Some v).
  { intros Hk. destruct (nth_error sample 5) as [v|] eqn:E; [eauto|apply nth_error_None in E; lia]. }
  unfold m3_universe, key_get. rewrite <- !get_none.
  split; [|split]; intros Hk; destruct (G Hk) as [v ->].
  - intros -> N. rewrite String.eqb_refl, N. reflexivity.
  - intros -> [q [[n [P ->]] Nz]] N. apply get_some in P. rewrite String.eqb_refl, P. cbn [bind as_float].
    destruct (Qeq_bool (number_Q n) 0) eqn:Z0; [apply Qeq_bool_iff in Z0; contradiction|]. cbn [bind]. rewrite N. reflexivity.
  - intros N. destruct (String.eqb_spec (gn_name (fp_overlap p)) "Independent"); [contradiction|reflexivity].
Qed.
Print Assumptions C51_m3_missing.

Example C51_arguments_example :
  impressions_of (heterogeneous (1 # 2) (fl 3)) (Heterogeneous (1 # 2) 3) /\ impressions_of (gen "h" CHeavyTailed []) (HeavyTailed 2) /\
  overlap_of (independent 500 7) (Independent 500) /\ make_impressions (gen "h" CHomogeneous []) = Err TypeError /\
  lhs_set simple_levels 4 [0]%Q = Ok {| fp_name := ""; fp_num_publishers := 1; fp_largest := 10000; fp_ratio := PFloat (9 # 10);
    fp_pricing := default_pricing; fp_impressions := default_impressions; fp_overlap := default_overlap; fp_id := "4" |}.
Proof.
  split; [apply C51_impression_arguments; reflexivity|]. split; [apply C51_impression_arguments; reflexivity|].
  split; [apply C51_overlap_arguments; reflexivity|]. split; reflexivity.
Qed.
