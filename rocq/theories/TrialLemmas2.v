(** The row of a trial: columns, outcome, values. *)
From Coq Require Import String Ascii Sorted Permutation Lqa.
From Verif Require Import Prelude ModelReachPoint ModelData ModelPrivacy ModelHalo ModelAggregator SpecAggregator AggregatorLemmas
  ModelFiles FilesLemmas3 ModelDriver SpecTrial DriverLemmas2 DriverLemmas4 DriverLemmas5 DriverLemmas7 TrialLemmas.
Open Scope Z_scope.

(** ** No column twice *)

Lemma app_same_length {A} (a a' s s' : list A) : length s = length s' -> a ++ s = a' ++ s' -> a = a' /\ s = s'.
Proof.
  intros Hl E. assert (La : length a = length a').
  { apply (f_equal (@length A)) in E. rewrite !app_length in E. lia. }
  revert a' La E. induction a as [|x a IH]; intros [|x' a'] La E; try discriminate; [auto|].
  cbn in *. assert (x = x') by congruence. assert (a ++ s = a' ++ s') as E' by congruence.
  destruct (IH a' ltac:(lia) E') as [-> ->]. subst. auto.
Qed.

Lemma chars_append a b : chars (String.append a b) = chars a ++ chars b.
Proof. induction a as [|c a IH]; [reflexivity|]. cbn. f_equal. exact IH. Qed.

Lemma percent_length p : In p percents -> length (chars p) = 3%nat.
Proof. intros H. cbn in H. repeat (destruct H as [<-|H]; [reflexivity|]). destruct H. Qed.

Lemma at_percent_inj p p' : at_percent p = at_percent p' -> p = p'.
Proof.
  unfold at_percent. intros E. apply (f_equal chars) in E. rewrite !chars_append in E. apply app_inv_head in E.
  apply chars_inj. exact E.
Qed.

Lemma at_frequency_inj f p f' p' : In p percents -> In p' percents ->
  at_frequency_percent f p = at_frequency_percent f' p' -> f = f' /\ p = p'.
Proof.
  intros Hp Hp' E. unfold at_frequency_percent in E. apply (f_equal chars) in E. rewrite !chars_append in E.
  apply app_inv_head in E. fold (str (str_of_int f)) in E. fold (str (str_of_int f')) in E. rewrite !chars_str in E.
  apply app_same_length in E.
  - destruct E as [E1 E2]. apply app_inv_head in E2. split; [apply str_of_int_inj; exact E1|apply chars_inj; exact E2].
  - rewrite !app_length, (percent_length p Hp), (percent_length p' Hp'). reflexivity.
Qed.

Lemma below_NoDup k : NoDup (below k).
Proof.
  unfold below. apply FinFun.Injective_map_NoDup; [intros a b; lia|apply seq_NoDup].
Qed.
Fixpoint distinct (l : list string) : bool :=
  match l with [] => true | x :: r => negb (existsb (String.eqb x) r) && distinct r end.
Lemma distinct_NoDup l : distinct l = true -> NoDup l.
Proof.
  induction l as [|x l IH]; cbn [distinct]; intros E; [constructor|]. apply andb_true_iff in E. destruct E as [E1 E2].
  constructor; [|exact (IH E2)]. intros H. apply negb_true_iff in E1.
  assert (existsb (String.eqb x) l = true) by (apply existsb_exists; exists x; split; [exact H|apply String.eqb_refl]). congruence.
Qed.
Lemma percents_NoDup : NoDup percents.
Proof. apply distinct_NoDup. reflexivity. Qed.

Lemma NoDup_app_intro {A} (a b : list A) : NoDup a -> NoDup b -> (forall x, In x a -> ~ In x b) -> NoDup (a ++ b).
Proof.
  induction a as [|x a IH]; cbn [app]; intros Ha Hb D; [exact Hb|]. inversion Ha as [|? ? N Ha']; subst.
  constructor.
  - intros X. apply in_app_iff in X. destruct X as [X|X]; [contradiction|]. apply (D x); [left; reflexivity|exact X].
  - apply IH; auto. intros y Hy. apply D. right. exact Hy.
Qed.

Lemma NoDup_map_on {A B} (f : A -> B) l : (forall x y, In x l -> In y l -> f x = f y -> x = y) -> NoDup l -> NoDup (map f l).
Proof.
  induction l as [|x l IH]; intros I N; [constructor|]. inversion N as [|? ? N1 N2]; subst. cbn [map]. constructor.
  - intros X. apply in_map_iff in X. destruct X as [y [E Hy]]. apply N1.
    rewrite <- (I y x); auto; [right; exact Hy|left; reflexivity].
  - apply IH; auto. intros a b Ha Hb. apply I; right; assumption.
Qed.

(** The first three letters tell the groups of columns apart. *)
Lemma freq_name f p : exists s, at_frequency_percent f p = String "f" (String "r" s).
Proof. eexists. reflexivity. Qed.
Lemma percent_name p : exists s, at_percent p = String.append "relative_error_at_" s.
Proof. eexists. reflexivity. Qed.

Lemma single_NoDup k : NoDup (single_columns k).
Proof.
  unfold single_columns. apply NoDup_app_intro; [|apply NoDup_app_intro|].
  - apply NoDup_map_on; [intros x y _ _; apply at_percent_inj|apply percents_NoDup].
  - generalize (below_NoDup k). generalize (below k). induction l as [|f l IH]; intros N; [constructor|].
    inversion N as [|? ? N1 N2]; subst. cbn [flat_map]. apply NoDup_app_intro.
    + apply NoDup_map_on; [|apply percents_NoDup]. intros x y Hx Hy E. apply (at_frequency_inj f x f y Hx Hy E).
    + apply IH. exact N2.
    + intros x Hx Hf. apply in_map_iff in Hx. destruct Hx as [p [<- Hp]]. apply in_flat_map in Hf.
      destruct Hf as [f' [Hf' X]]. apply in_map_iff in X. destruct X as [p' [E Hp']].
      apply at_frequency_inj in E; auto. destruct E as [-> _]. contradiction.
  - repeat constructor; cbn; intuition discriminate.
  - intros x Hx Hf. apply in_flat_map in Hx. destruct Hx as [f [_ Hx]]. apply in_map_iff in Hx. destruct Hx as [p [<- Hp]].
    destruct Hf as [Hf|[Hf|[]]]; discriminate.
  - intros x Hx Hf. apply in_map_iff in Hx. destruct Hx as [p [<- Hp]]. apply in_app_iff in Hf. destruct Hf as [Hf|Hf].
    + apply in_flat_map in Hf. destruct Hf as [f [_ Hx]]. apply in_map_iff in Hx. destruct Hx as [p' [E _]]. discriminate.
    + destruct Hf as [Hf|[Hf|[]]]; discriminate.
Qed.

Lemma fixed_NoDup : NoDup (settings_columns ++ privacy_columns ++ metric_columns).
Proof. apply distinct_NoDup. reflexivity. Qed.

Lemma single_not_fixed k x : In x (single_columns k) -> ~ In x (settings_columns ++ privacy_columns ++ metric_columns).
Proof.
  intros H F. unfold single_columns in H. apply in_app_iff in H. destruct H as [H|H]; [|apply in_app_iff in H; destruct H as [H|H]].
  - apply in_map_iff in H. destruct H as [p [<- Hp]]. cbn in F. repeat (destruct F as [F|F]; [discriminate|]). destruct F.
  - apply in_flat_map in H. destruct H as [f [_ Hx]]. apply in_map_iff in Hx. destruct Hx as [p [<- _]].
    cbn in F. repeat (destruct F as [F|F]; [discriminate|]). destruct F.
  - destruct H as [<-|[<-|[]]]; cbn in F; repeat (destruct F as [F|F]; [discriminate|]); destruct F.
Qed.

Lemma row_columns_NoDup t : NoDup (row_columns t).
Proof.
  unfold row_columns. rewrite !app_assoc. apply NoDup_app_intro.
  - rewrite <- app_assoc. apply fixed_NoDup.
  - destruct (string_dec (tr_analysis t) "single_pub"); [apply single_NoDup|constructor].
  - intros x Hx Hs. rewrite <- app_assoc in Hx. destruct (string_dec (tr_analysis t) "single_pub"); [|destruct Hs].
    exact (single_not_fixed _ _ Hs Hx).
Qed.

(** ** When there is a row *)

Lemma mk_halo_ok d fr ll : (exists h, mk_halo d fr ll = Ok h) <-> (length (ds_data d) <= length fr)%nat.
Proof.
  unfold mk_halo, publisher_count.
  assert (G : forall (l : list publisher_data) (s : nat), (exists pubs, mapM (fun ip : nat * publisher_data => f <- py_index fr (Z.of_nat (fst ip)) ;;
       Ok {| pub_data := snd ip; pub_campaign_spend := (f * pd_max_spend (snd ip))%Q |})
     (combine (seq s (length l)) l) = Ok pubs) <-> (l = [] \/ (s + length l <= length fr)%nat)).
  { induction l as [|p l IH]; intros s; cbn [length seq combine mapM].
    - split; [auto|eauto].
    - specialize (IH (S s)). cbn [fst snd].
      assert (P : py_index fr (Z.of_nat s) = match nth_error fr s with Some v => Ok v | None => Err IndexError end).
      { unfold py_index. destruct (Z.ltb_spec (Z.of_nat s) 0); [lia|].
        destruct (Z.leb_spec 0 (Z.of_nat s)); [|lia]. cbn [andb]. rewrite Nat2Z.id.
        destruct (Z.ltb_spec (Z.of_nat s) (Z.of_nat (length fr))); [reflexivity|].
        assert (E : nth_error fr s = None) by (apply nth_error_None; lia). rewrite E. reflexivity. }
      rewrite P. destruct (nth_error fr s) as [v|] eqn:E; cbn [bind].
      + assert (s < length fr)%nat by (apply nth_error_Some; congruence).
        destruct (mapM _ (combine (seq (S s) (length l)) l)) as [r|e]; cbn [bind].
        * split; [|eauto]. intros _. right. destruct (proj1 IH (ex_intro _ r eq_refl)) as [->|X]; cbn; lia.
        * split; [intros [x X]; discriminate|]. intros [X|X]; [discriminate|].
          destruct (proj2 IH) as [x Y]; [right; lia|discriminate].
      + apply nth_error_None in E. split; [intros [x X]; discriminate|]. intros [X|X]; [discriminate|lia]. }
  specialize (G (ds_data d) O). split.
  - intros [h E]. destruct (mapM _ (combine (seq 0 (length (ds_data d))) (ds_data d))) as [r|] eqn:Em; cbn [bind] in E; [|discriminate].
    destruct (proj1 G (ex_intro _ r eq_refl)) as [->|X]; cbn; lia.
  - intros H. destruct (proj2 G) as [r Em]; [right; lia|]. rewrite Em. cbn [bind]. eauto.
Qed.

Lemma known_In names x : known names x = true <-> In x names.
Proof.
  unfold known. rewrite existsb_exists. split.
  - intros [y [H E]]. apply String.eqb_eq in E. congruence.
  - intros H. exists x. split; [exact H|apply String.eqb_refl].
Qed.

Lemma instantiate_ok s : instantiate_strategy s = Ok tt <-> strategy_known s.
Proof.
  unfold instantiate_strategy, strategy_known. cbv zeta.
  assert (K : forall names x, known names x = false <-> ~ In x names).
  { intros names x. rewrite <- known_In. destruct (known names x); intuition congruence. }
  destruct (String.eqb (sd_strategy s) "m3strategy") eqn:E1;
    [apply String.eqb_eq in E1|apply String.eqb_neq in E1; destruct (String.eqb (sd_strategy s) "single_publisher") eqn:E2;
       [apply String.eqb_eq in E2|apply String.eqb_neq in E2]].
  - destruct (known single_pub_models (sd_single s)) eqn:B1; cbn [negb].
    2:{ apply K in B1. split; [discriminate|]. intros [X _]. contradiction. }
    destruct (known multi_pub_models (sd_multi s)) eqn:B2; cbn [negb].
    2:{ apply K in B2. split; [discriminate|]. intros [_ [X _]]. contradiction. }
    apply known_In in B1, B2.
    destruct (forallb (fun kv => known ["use_ground_truth_for_reach_curves"%string] (fst kv)) (sd_strategy_kwargs s)) eqn:B3.
    + split; [|reflexivity]. intros _. split; [exact B1|]. split; [exact B2|]. left. split; [exact E1|].
      intros k v Hk. rewrite forallb_forall in B3. apply B3 in Hk. apply known_In in Hk. cbn [fst] in Hk.
      destruct Hk as [Hk|[]]. auto.
    + split; [discriminate|]. intros [_ [_ [[_ X]|[X _]]]]; [|rewrite E1 in X; discriminate].
      assert (forallb (fun kv => known ["use_ground_truth_for_reach_curves"%string] (fst kv)) (sd_strategy_kwargs s) = true).
      { apply forallb_forall. intros [k v] Hk. apply known_In. left. symmetry. eapply X. exact Hk. }
      congruence.
  - destruct (known single_pub_models (sd_single s)) eqn:B1; cbn [negb].
    2:{ apply K in B1. split; [discriminate|]. intros [X _]. contradiction. }
    destruct (known multi_pub_models (sd_multi s)) eqn:B2; cbn [negb].
    2:{ apply K in B2. split; [discriminate|]. intros [_ [X _]]. contradiction. }
    apply known_In in B1, B2. destruct (sd_strategy_kwargs s) as [|kv r].
    + split; [|reflexivity]. intros _. split; [exact B1|]. split; [exact B2|]. right. auto.
    + cbn. split; [discriminate|]. intros [_ [_ [[X _]|[_ X]]]]; [contradiction|discriminate].
  - split; [discriminate|]. intros [_ [_ [[X _]|[X _]]]]; contradiction.
Qed.

Lemma py_max_ok l : (exists x, py_max l = Ok x) <-> l <> [].
Proof. destruct l as [|x r]; cbn; (split; [intros [y X]; discriminate || intros Z; discriminate|]); [contradiction|eauto]. Qed.

Lemma py_max_spec l x : py_max l = Ok x -> In x l /\ forall y, In y l -> y <= x.
Proof.
  destruct l as [|a r]; cbn [py_max]; [discriminate|]. intros E. assert (E' : fold_left Z.max r a = x) by congruence. subst x.
  destruct (fold_max r a) as [H1 [H2 H3]]. split.
  - destruct H3 as [->|H3]; [left; reflexivity|right; exact H3].
  - intros y [<-|Hy]; auto.
Qed.

Section Row.
Variable L : lab.

Lemma row_exists t seed g : (exists row, fst (compute_row L t seed g) = Ok row) <->
  exists d, dd_by_name (tr_design t) (tr_data_set t) = Ok d /\ ds_data d <> [] /\
    (length (ds_data d) <= length (sp_fractions (td_system (tr_descriptor t))))%nat /\
    strategy_known (td_strategy (tr_descriptor t)).
Proof.
  unfold compute_row. cbv zeta. fold (system_of t). unfold independent_vars.
  destruct (dd_by_name (tr_design t) (tr_data_set t)) as [d|e]; cbn [bind fst].
  2:{ split; [intros [r X]; discriminate|intros [d [X _]]; discriminate]. }
  pose proof (mk_halo_ok d (map number_Q (sp_fractions (system_of t))) (halo_ll (sp_ll (system_of t)))) as H.
  rewrite map_length in H.
  pose proof (instantiate_ok (td_strategy (tr_descriptor t))) as I.
  pose proof (py_max_ok (map pd_max_reach (ds_data d))) as M.
  destruct (mk_halo d (map number_Q (sp_fractions (system_of t))) (halo_ll (sp_ll (system_of t)))) as [h|e]; cbn [bind fst].
  2:{ split; [intros [r X]; discriminate|]. intros [d' [E [_ [X _]]]]. assert (d' = d) by congruence. subst d'.
      apply H in X. destruct X; discriminate. }
  destruct (instantiate_strategy (td_strategy (tr_descriptor t))) as [[]|e]; cbn [bind fst].
  2:{ split; [intros [r X]; discriminate|]. intros [d' [_ [_ [_ X]]]]. apply I in X. discriminate. }
  destruct (lab_fit L _ h _ _ _) as [fit w]. cbn [fst].
  destruct (py_max (map pd_max_reach (ds_data d))) as [x|e]; cbn [bind].
  - split; [|eauto]. intros _. exists d. split; [reflexivity|]. split.
    + intros X. rewrite X in M. apply (proj1 M); [eauto|reflexivity].
    + split; [apply H; eauto|apply I; reflexivity].
  - split; [intros [r X]; discriminate|]. intros [d' [E [X _]]]. assert (d' = d) by congruence. subst d'.
    destruct (proj2 M) as [y Y]; [|discriminate]. intros Z. apply X. destruct (ds_data d); [reflexivity|discriminate].
Qed.

(** ** Where the columns are *)

Lemma column_settings iv rest k : map fst iv = settings_columns -> In k settings_columns ->
  column (iv ++ rest) k = column iv k.
Proof.
  intros E H. rewrite <- E in H. destruct (column_In iv k H) as [c Hc]. rewrite Hc. apply column_app_l. exact Hc.
Qed.

Lemma column_metrics iv pv ms k : map fst iv = settings_columns -> map fst pv = privacy_columns ->
  ~ In k (settings_columns ++ privacy_columns) -> column (iv ++ pv ++ ms) k = column ms k.
Proof.
  intros E1 E2 N. rewrite app_assoc, column_app_r; [reflexivity|]. rewrite map_app, E1, E2. exact N.
Qed.

Lemma metric_not_fixed k : In k metric_columns -> ~ In k (settings_columns ++ privacy_columns).
Proof.
  intros H X. pose proof fixed_NoDup as N. rewrite app_assoc in N.
  exact (DriverLemmas2.NoDup_app_disj _ _ k N X H).
Qed.
Lemma single_not_fixed' m k : In k (single_columns m) -> ~ In k (settings_columns ++ privacy_columns).
Proof.
  intros H X. apply (single_not_fixed _ _ H). rewrite app_assoc. apply in_app_iff. left. exact X.
Qed.
Lemma single_not_metric m k : In k (single_columns m) -> ~ In k metric_columns.
Proof. intros H X. apply (single_not_fixed _ _ H). apply in_app_iff. right. apply in_app_iff. right. exact X. Qed.

Lemma failed_metric t e k : In k metric_columns -> k <> "model_succeeded"%string -> k <> "model_exception"%string ->
  column (measure_on_exception L t e) k = Some (CStat NotFinite).
Proof.
  intros H N1 N2. unfold measure_on_exception. apply column_app_l.
  cbn in H. unfold aggregate_on_exception.
  repeat (destruct H as [<-|H]; [first [reflexivity|congruence]|]). destruct H.
Qed.

Lemma all_missing (cells : list (string * cell)) k : (forall a, In a cells -> snd a = CStat NotFinite) ->
  In k (map fst cells) -> column cells k = Some (CStat NotFinite).
Proof.
  induction cells as [|[k' c] cells IH]; cbn; intros A H; [destruct H|].
  destruct (String.eqb k k') eqn:E.
  - f_equal. apply (A (k', c)). left. reflexivity.
  - apply String.eqb_neq in E. apply IH; [intros a Ha; apply A; right; exact Ha|]. destruct H; [congruence|assumption].
Qed.

Lemma failed_single t e k : tr_analysis t = "single_pub"%string ->
  In k (single_columns (ep_max_frequency (experiment_of t))) ->
  column (measure_on_exception L t e) k = Some (CStat NotFinite).
Proof.
  intros A H. unfold measure_on_exception. rewrite single_pub_dec. rewrite A.
  destruct (string_dec "single_pub" "single_pub") as [_|N]; [|contradiction]. rewrite column_app_r.
  - apply all_missing; [|rewrite single_publisher_failed_names; exact H].
    unfold single_publisher_columns_on_exception. intros a Ha. apply in_app_iff in Ha. destruct Ha as [Ha|[<-|[<-|[]]]]; try reflexivity.
    apply in_map_iff in Ha. destruct Ha as [x [<- _]]. reflexivity.
  - replace (map fst (aggregate_on_exception (I := Q) (lab_traceback L e))) with metric_columns by reflexivity.
    apply (single_not_metric _ _ H).
Qed.

(** ** Asking *)

Lemma ask_all_asked k points : forall m ps m', ask_all L m (map (fun p => (p, k)) points) = (Ok ps, m') ->
  asked L k m points ps m'.
Proof.
  induction points as [|s points IH]; intros m ps m' E; cbn [map ask_all] in E.
  - assert (ps = []) by congruence. assert (m' = m) by congruence. subst. constructor.
  - destruct (lab_ask L m s k) as [[p|e] m1] eqn:Ea; [|discriminate].
    destruct (ask_all L m1 (map (fun p => (p, k)) points)) as [[qs|e] m2] eqn:Eb; [|discriminate].
    assert (ps = p :: qs) by congruence. assert (m' = m2) by congruence. subst. econstructor; eauto.
Qed.

Lemma true_reach_at h spends k p : true_reach h spends k = Ok p -> truth_at (h_data_set h) spends k p.
Proof.
  unfold true_reach, true_reach_by_spend. destruct (reach_by_spend (h_data_set h) spends k) as [z|] eqn:E; cbn [bind]; [|discriminate].
  intros X. assert (p = point_Q z) by congruence. subst p. exists z. split; [exact E|]. unfold point_Q. cbn. auto.
Qed.

Lemma mk_halo_data d fr ll h : mk_halo d fr ll = Ok h -> h_data_set h = d.
Proof.
  unfold mk_halo. destruct (mapM _ _) as [pubs|]; cbn [bind]; [|discriminate]. intros E.
  apply (f_equal (fun a => match a with Ok x => h_data_set x | Err _ => d end)) in E. cbn in E. auto.
Qed.

Lemma int_kwargs_iff kw l : int_kwargs kw = Ok l <-> integers_passed kw l.
Proof.
  unfold int_kwargs, integers_passed. split.
  - intros E. apply DriverLemmas7.mapM_ok in E. induction E as [|a b kw l H E IH]; constructor; auto.
    destruct (snd a) as [[z|q]|s|b0]; try discriminate. exists z. split; congruence.
  - intros E. induction E as [|a b kw l [z [H ->]] E IH]; [reflexivity|]. cbn [mapM]. rewrite H. cbn [bind]. rewrite IH. reflexivity.
Qed.

Lemma measure_inv t d h seed m gl l : measure L t d h seed m gl = Ok l ->
  exists kw points own truth fitted m' metrics single,
    int_kwargs (ep_test_kwargs (experiment_of t)) = Ok kw /\
    ModelTestPoints.generate_test_points (lab_draws L) (ep_test_points (experiment_of t)) kw d gl (lab_default_rng L seed) = Ok (points, own) /\
    Forall2 (fun p q => truth_at (h_data_set h) p (ep_max_frequency (experiment_of t)) q) points truth /\
    asked L (ep_max_frequency (experiment_of t)) m points fitted m' /\
    aggregate truth fitted = Ok metrics /\ l = metrics ++ single /\
    (tr_analysis t = "single_pub"%string ->
       single_publisher_columns L h m' (ep_max_frequency (experiment_of t)) = Ok single).
Proof.
  unfold measure. cbv zeta. intros E.
  destruct (int_kwargs (ep_test_kwargs (experiment_of t))) as [kw|] eqn:E1; cbn [bind] in E; [|discriminate].
  destruct (ModelTestPoints.generate_test_points (lab_draws L) (ep_test_points (experiment_of t)) kw d gl (lab_default_rng L seed)) as [[points x]|] eqn:E2; cbn [bind] in E; [|discriminate].
  destruct (mapM (fun p => true_reach h p (ep_max_frequency (experiment_of t))) points) as [truth|] eqn:E3; cbn [bind] in E; [|discriminate].
  destruct (ask_all L m (map (fun p => (p, ep_max_frequency (experiment_of t))) points)) as [[fitted|] m'] eqn:E4; cbn [fst snd bind] in E; [|discriminate].
  destruct (aggregate truth fitted) as [metrics|] eqn:Ea; cbn [bind] in E; [|discriminate].
  assert (T : Forall2 (fun p q => truth_at (h_data_set h) p (ep_max_frequency (experiment_of t)) q) points truth).
  { apply DriverLemmas7.mapM_ok in E3. clear -E3. induction E3; constructor; auto. apply true_reach_at. assumption. }
  apply ask_all_asked in E4.
  rewrite single_pub_dec in E. destruct (string_dec (tr_analysis t) "single_pub") as [Y|Y].
  - destruct (single_publisher_columns L h m' (ep_max_frequency (experiment_of t))) as [s|] eqn:Es; cbn [bind] in E; [|discriminate].
    exists kw, points, x, truth, fitted, m', metrics, s. repeat (split; [first [assumption|reflexivity|congruence]|]). intros _. exact Es.
  - cbn [bind] in E. exists kw, points, x, truth, fitted, m', metrics, [].
    repeat (split; [first [assumption|reflexivity|congruence]|]). intros X. contradiction.
Qed.

(** ** Relative errors of one publisher *)

Lemma relative_error_value h m f r c m1 : relative_error_at L h m f r = (Ok c, m1) ->
  exists s p q t v, py_index (campaign_spends h) 0 = Ok s /\
    truth_at (h_data_set h) [(s * (inject_Z r * (1 # 10)))%Q] f p /\ reach p f = Ok t /\
    lab_ask L m [(s * (inject_Z r * (1 # 10)))%Q] f = (Ok q, m1) /\ reach q f = Ok v /\
    relative_error_cell c t v.
Proof.
  unfold relative_error_at. destruct (py_index (campaign_spends h) 0) as [s|]; [|discriminate].
  destruct (true_reach h [(s * (inject_Z r * (1 # 10)))%Q] f) as [p|] eqn:Et; cbn [bind]; [|discriminate].
  destruct (reach p f) as [t|] eqn:Er; [|discriminate].
  destruct (lab_ask L m [(s * (inject_Z r * (1 # 10)))%Q] f) as [[q|] m2] eqn:Ea; [|discriminate].
  destruct (reach q f) as [v|] eqn:Ev; [|discriminate]. intros E.
  assert (Ec : c = CStat (if Qeqb t 0 then NotFinite else Num (Qabs' ((t - v) / t)))) by congruence.
  assert (Em : m1 = m2) by congruence. subst m1.
  exists s, p, q, t, v. split; [reflexivity|]. split; [apply true_reach_at; exact Et|]. split; [exact Er|].
  split; [first [exact Ea|reflexivity]|]. split; [exact Ev|]. unfold relative_error_cell. destruct (Qeqb t 0) eqn:B.
  - left. apply Qeq_bool_iff in B. auto.
  - right. apply Qeq_bool_neq in B. split; [exact B|]. exists (Qabs' ((t - v) / t)). split; [exact Ec|].
    symmetry. apply AggregatorLemmas.absolute_abs.
Qed.

Lemma error_cells_value h cols : (forall m, steady L m) -> forall m cells m',
  error_cells L h m cols = (Ok cells, m') -> m' = m /\
  Forall2 (fun col c => fst c = fst col /\ relative_error_at L h m (fst (snd col)) (snd (snd col)) = (Ok (snd c), m)) cols cells.
Proof.
  intros St. induction cols as [|[name [f r]] cols IH]; intros m cells m' E; cbn [error_cells] in E.
  - assert (cells = []) by congruence. assert (m' = m) by congruence. subst. split; [reflexivity|constructor].
  - destruct (relative_error_at L h m f r) as [[c|e] m1] eqn:E1; [|discriminate].
    assert (Em : m1 = m).
    { destruct (relative_error_value h m f r c m1 E1) as [s [p [q [t [v [_ [_ [_ [X _]]]]]]]]].
      pose proof (St m [(s * (inject_Z r * (1 # 10)))%Q] f) as Y. rewrite X in Y. exact Y. }
    subst m1.
    destruct (error_cells L h m cols) as [[cs|e] m2] eqn:E2; [|discriminate].
    destruct (IH m cs m2 E2) as [-> F].
    assert (Ec : cells = (name, c) :: cs) by congruence. assert (m' = m) by congruence. subst m' cells.
    split; [reflexivity|]. constructor; [|exact F]. cbn [fst snd]. auto.
Qed.

Lemma column_Forall2 (cols : list (string * (Z * Z))) (cells : list (string * cell)) (R : string * (Z * Z) -> cell -> Prop) col :
  NoDup (map fst cols) -> Forall2 (fun col c => fst c = fst col /\ R col (snd c)) cols cells -> In col cols ->
  exists c, column cells (fst col) = Some c /\ R col c.
Proof.
  intros N F. induction F as [|a b cols cells [E1 E2] F IH]; intros H; [destruct H|]. inversion N as [|? ? N1 N2]; subst.
  destruct b as [kb cb]. cbn [fst snd column] in *. destruct H as [->|H].
  - subst kb. rewrite String.eqb_refl. eauto.
  - destruct (String.eqb (fst col) kb) eqn:E.
    + apply String.eqb_eq in E. exfalso. apply N1. apply in_map_iff. exists col. split; [congruence|exact H].
    + apply IH; auto.
Qed.
End Row.
