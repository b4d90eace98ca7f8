(** The row of a trial. *)
From Coq Require Import String Ascii Sorted Lqa.
From Verif Require Import Prelude ModelReachPoint ModelData ModelPrivacy ModelHalo ModelAggregator SpecAggregator
  ModelFiles ModelDriver SpecTrial DriverLemmas4.
Open Scope Z_scope.

Lemma str_app a b : str (a ++ b) = String.append (str a) (str b).
Proof. induction a as [|x a IH]; [reflexivity|]. cbn [app]. unfold str in *. cbn. rewrite IH. reflexivity. Qed.

Lemma append_nil s : String.append s "" = s.
Proof. induction s as [|c s IH]; [reflexivity|]. cbn. rewrite IH. reflexivity. Qed.

Lemma percents_are : map (fun r => str (three_digits (10 * r))) single_publisher_fractions = percents.
Proof. vm_compute. reflexivity. Qed.

Lemma fraction_column_is r : fraction_column r = at_percent (str (three_digits (10 * r))).
Proof. unfold fraction_column, at_percent. rewrite str_app. unfold chars, str. rewrite string_of_list_ascii_of_string. reflexivity. Qed.

Lemma frequency_column_is f r : frequency_column f r = at_frequency_percent f (str (three_digits (10 * r))).
Proof.
  unfold frequency_column, at_frequency_percent. rewrite !str_app. unfold chars. unfold str.
  rewrite !string_of_list_ascii_of_string. reflexivity.
Qed.

Lemma range_below k : py_range 1 k = below k.
Proof.
  unfold py_range, below. rewrite <- seq_shift, map_map. apply map_ext. intros a. lia.
Qed.

Lemma map_flat_map {A B C} (f : B -> C) (g : A -> list B) l : map f (flat_map g l) = flat_map (fun x => map f (g x)) l.
Proof. induction l as [|x l IH]; [reflexivity|]. cbn [flat_map]. rewrite map_app, IH. reflexivity. Qed.

Lemma error_columns_are k : map fst (error_columns k) ++
  ["max_nonzero_frequency_from_halo"; "max_nonzero_frequency_from_data"]%string = single_columns k.
Proof.
  unfold error_columns, single_columns. rewrite map_app, <- app_assoc. apply (f_equal2 (@app _)).
  - rewrite <- percents_are, !map_map. apply map_ext. intros r. cbn [fst]. apply fraction_column_is.
  - apply (f_equal2 (@app _)); [|reflexivity]. rewrite <- range_below, map_flat_map. apply flat_map_ext. intros f. cbv beta.
    rewrite <- percents_are, !map_map. apply map_ext. intros r. cbn [fst]. apply frequency_column_is.
Qed.

Section Row.
Variable L : lab.

Lemma error_cells_columns h cols : forall m cells m',
  error_cells L h m cols = (Ok cells, m') -> map fst cells = map fst cols.
Proof.
  induction cols as [|[name [f r]] cols IH]; intros m cells m' E; cbn [error_cells] in E.
  - assert (X : cells = []) by congruence. rewrite X. reflexivity.
  - destruct (relative_error_at L h m f r) as [[c|e] m1]; [|discriminate].
    destruct (error_cells L h m1 cols) as [[cs|e] m2] eqn:E2; [|discriminate].
    assert (X : cells = (name, c) :: cs) by congruence. rewrite X. cbn [map fst]. f_equal. eapply IH. exact E2.
Qed.

Lemma single_publisher_columns_names h m k cells : single_publisher_columns L h m k = Ok cells ->
  map fst cells = single_columns k.
Proof.
  unfold single_publisher_columns. intros E. destruct (error_cells L h m (error_columns k)) as [[cs|e] m'] eqn:E1; cbn [fst snd bind] in E; [|discriminate].
  destruct (lab_training L m') as [tr|]; cbn [bind] in E; [|discriminate].
  destruct (max_nonzero_frequency tr) as [a|]; cbn [bind] in E; [|discriminate].
  destruct (true_reach h (campaign_spends h) k) as [p|]; cbn [bind] in E; [|discriminate].
  destruct (max_nonzero_frequency (rp_kplus p)) as [b|]; cbn [bind] in E; [|discriminate].
  assert (X : cells = cs ++ [("max_nonzero_frequency_from_halo"%string, CInt a); ("max_nonzero_frequency_from_data"%string, CInt b)])
    by congruence.
  rewrite X, map_app, (error_cells_columns _ _ _ _ _ E1). apply error_columns_are.
Qed.

Lemma single_publisher_failed_names k : map fst (single_publisher_columns_on_exception k) = single_columns k.
Proof.
  unfold single_publisher_columns_on_exception. rewrite map_app, map_map. cbn [fst map].
  rewrite <- error_columns_are. reflexivity.
Qed.

Lemma aggregate_names x y row : aggregate (I := Q) x y = Ok row -> map fst row = metric_columns.
Proof.
  intros E. unfold aggregate in E.
  destruct (mapM (fun a => c <- snd a x y ;; Ok (fst a, c)) aggregators) as [stats|e] eqn:Es; [|discriminate].
  cbn [bind] in E. assert (X : row = (("model_succeeded", CInt 1) :: ("model_exception", CText "None") :: stats)%string) by congruence.
  assert (K : map fst stats = map fst (aggregators (I := Q))).
  { clear X E. revert stats Es. generalize (aggregators (I := Q)). induction l as [|a l IH]; intros stats Es; cbn [mapM] in Es.
    - assert (X : stats = []) by congruence. rewrite X. reflexivity.
    - destruct (snd a x y) as [c|]; [|discriminate]. cbn [bind] in Es.
      destruct (mapM (fun a => c <- snd a x y ;; Ok (fst a, c)) l) as [r|]; [|discriminate]. cbn [bind] in Es.
      assert (X : stats = (fst a, c) :: r) by congruence. rewrite X. cbn [map fst]. f_equal. apply IH. reflexivity. }
  rewrite X. cbn [map fst]. rewrite K. reflexivity.
Qed.

Lemma single_pub_dec t : single_pub_analysis t = if string_dec (tr_analysis t) "single_pub" then true else false.
Proof.
  unfold single_pub_analysis. destruct (string_dec (tr_analysis t) "single_pub") as [->|N]; [reflexivity|].
  apply String.eqb_neq. exact N.
Qed.

Lemma measure_names t d h seed m gl l : measure L t d h seed m gl = Ok l ->
  map fst l = metric_columns ++ (if string_dec (tr_analysis t) "single_pub"
     then single_columns (ep_max_frequency (td_experiment (tr_descriptor t))) else []).
Proof.
  unfold measure. cbv zeta. intros E. fold (experiment_of t).
  destruct (int_kwargs (ep_test_kwargs (experiment_of t))) as [kw|]; cbn [bind] in E; [|discriminate].
  destruct (ModelTestPoints.generate_test_points (lab_draws L) (ep_test_points (experiment_of t)) kw d gl (lab_default_rng L seed)) as [[points x]|]; cbn [bind] in E; [|discriminate].
  destruct (mapM (fun p => true_reach h p (ep_max_frequency (experiment_of t))) points) as [truth|]; cbn [bind] in E; [|discriminate].
  destruct (ask_all L m (map (fun p => (p, ep_max_frequency (experiment_of t))) points)) as [[fitted|] m']; cbn [fst snd bind] in E; [|discriminate].
  destruct (aggregate truth fitted) as [metrics|] eqn:Ea; cbn [bind] in E; [|discriminate].
  rewrite single_pub_dec in E. destruct (string_dec (tr_analysis t) "single_pub").
  - destruct (single_publisher_columns L h m' (ep_max_frequency (experiment_of t))) as [s|] eqn:Es; cbn [bind] in E; [|discriminate].
    assert (X : l = metrics ++ s) by congruence. rewrite X, map_app.
    rewrite (aggregate_names _ _ _ Ea), (single_publisher_columns_names _ _ _ _ Es). reflexivity.
  - cbn [bind] in E. assert (X : l = metrics ++ []) by congruence. rewrite X, map_app, (aggregate_names _ _ _ Ea). reflexivity.
Qed.

Lemma measure_failed_names t e : map fst (measure_on_exception L t e) = metric_columns ++
  (if string_dec (tr_analysis t) "single_pub" then single_columns (ep_max_frequency (td_experiment (tr_descriptor t))) else []).
Proof.
  unfold measure_on_exception. rewrite map_app, single_pub_dec. f_equal.
  destruct (string_dec (tr_analysis t) "single_pub"); [apply single_publisher_failed_names|reflexivity].
Qed.

(** ** The parts of a row *)

Definition metrics_of t d h seed (fit : result (lab_model L * lab_global L)) : list (string * cell) :=
  match ('(m, gl) <- fit ;; measure L t d h seed m gl) with
  | Ok l => l
  | Err e => measure_on_exception L t e
  end.

Lemma metrics_names t d h seed fit : map fst (metrics_of t d h seed fit) = metric_columns ++
  (if string_dec (tr_analysis t) "single_pub" then single_columns (ep_max_frequency (td_experiment (tr_descriptor t))) else []).
Proof.
  unfold metrics_of. destruct fit as [[m gl]|e]; cbn [bind]; [|apply measure_failed_names].
  destruct (measure L t d h seed m gl) as [l|e] eqn:E; [|apply measure_failed_names]. eapply measure_names. exact E.
Qed.

Lemma compute_row_inv t seed g row g' : compute_row L t seed g = (Ok row, g') ->
  exists d h fit w iv,
    dd_by_name (tr_design t) (tr_data_set t) = Ok d /\
    mk_halo d (map number_Q (sp_fractions (system_of t))) (halo_ll (sp_ll (system_of t))) = Ok h /\
    lab_fit L (td_strategy (tr_descriptor t)) h (trial_budget t) (lab_seed_global L seed)
       {| w_tracker := new_tracker; w_rng := g (sp_generator (system_of t)) |} = (fit, w) /\
    independent_vars L t = Ok iv /\
    row = iv ++ privacy_vars t (w_tracker w) ++ metrics_of t d h seed fit /\
    g' = put_generator L g (sp_generator (system_of t)) (w_rng w).
Proof.
  unfold compute_row. cbv zeta. intros E.
  destruct (dd_by_name (tr_design t) (tr_data_set t)) as [d|]; cbn [bind] in E; [|discriminate].
  destruct (mk_halo d (map number_Q (sp_fractions (system_of t))) (halo_ll (sp_ll (system_of t)))) as [h|] eqn:Eh; cbn [bind] in E; [|discriminate].
  destruct (instantiate_strategy (td_strategy (tr_descriptor t))) as [u|]; cbn [bind] in E; [|discriminate].
  destruct (lab_fit L (td_strategy (tr_descriptor t)) h (trial_budget t) (lab_seed_global L seed)
     {| w_tracker := new_tracker; w_rng := g (sp_generator (system_of t)) |}) as [fit w] eqn:Ef.
  fold (metrics_of t d h seed fit) in E.
  destruct (independent_vars L t) as [iv|] eqn:Ei; cbn [bind] in E; [|discriminate].
  exists d, h, fit, w, iv. repeat (split; [first [reflexivity|eassumption]|]).
  split; congruence.
Qed.

Lemma independent_inv t iv : independent_vars L t = Ok iv -> map fst iv = settings_columns.
Proof.
  unfold independent_vars. intros E. destruct (dd_by_name (tr_design t) (tr_data_set t)) as [d|]; cbn [bind] in E; [|discriminate].
  destruct (py_max (map pd_max_reach (ds_data d))) as [x|]; cbn [bind] in E; [|discriminate]. cbv zeta in E.
  match type of E with Ok ?l = Ok _ => assert (X : iv = l) by congruence end. rewrite X. reflexivity.
Qed.

Lemma column_app_l a b k c : column a k = Some c -> column (a ++ b) k = Some c.
Proof. induction a as [|[k' c'] a IH]; cbn; [discriminate|]. destruct (String.eqb k k'); auto. Qed.
Lemma column_app_r a b k : ~ In k (map fst a) -> column (a ++ b) k = column b k.
Proof.
  induction a as [|[k' c'] a IH]; cbn; intros N; [reflexivity|].
  destruct (String.eqb k k') eqn:E; [apply String.eqb_eq in E; exfalso; apply N; left; auto|].
  apply IH. intros X. apply N. right. exact X.
Qed.
Lemma column_In a k : In k (map fst a) -> exists c, column a k = Some c.
Proof.
  induction a as [|[k' c'] a IH]; cbn; [intros []|]. intros H. destruct (String.eqb k k') eqn:E; [eauto|].
  apply String.eqb_neq in E. destruct H as [H|H]; [congruence|auto].
Qed.
End Row.

(** ** The largest frequency *)

Lemma fold_max l : forall a, a <= fold_left Z.max l a /\ (forall x, In x l -> x <= fold_left Z.max l a) /\
  (fold_left Z.max l a = a \/ In (fold_left Z.max l a) l).
Proof.
  induction l as [|x l IH]; intros a; cbn [fold_left].
  - split; [lia|]. split; [intros y []|left; reflexivity].
  - destruct (IH (Z.max a x)) as [H1 [H2 H3]]. split; [lia|]. split.
    + intros y [<-|Hy]; [lia|auto].
    + destruct H3 as [H3|H3]; [|right; right; exact H3]. rewrite H3.
      destruct (Z.max_spec a x) as [[_ M]|[_ M]]; rewrite M; [right; left; reflexivity|left; reflexivity].
Qed.

Lemma combine_seq_In {A} (l : list A) : forall s i x, In (i, x) (combine (seq s (length l)) l) <->
  (s <= i)%nat /\ nth_error l (i - s) = Some x.
Proof.
  induction l as [|y l IH]; intros s i x; cbn [length seq combine In].
  - split; [intros []|intros [_ H]; destruct (i - s)%nat; discriminate].
  - rewrite IH. split.
    + intros [E|[H1 H2]].
      * assert (s = i) by congruence. assert (y = x) by congruence. subst. rewrite Nat.sub_diag. split; [lia|reflexivity].
      * split; [lia|]. replace (i - s)%nat with (S (i - S s)) by lia. exact H2.
    + intros [H1 H2]. destruct (Nat.eq_dec i s) as [->|N].
      * left. rewrite Nat.sub_diag in H2. cbn in H2. congruence.
      * right. split; [lia|]. replace (i - s)%nat with (S (i - S s)) in H2 by lia. exact H2.
Qed.

Lemma max_nonzero_spec l : l <> [] ->
  match max_nonzero_frequency l with
  | Ok n => last_nonzero l n
  | Err e => e = ValueError /\ forall q, In q l -> (q == 0)%Q
  end.
Proof.
  intros Ne. unfold max_nonzero_frequency. destruct l as [|x l]; [contradiction|]. clear Ne.
  set (L0 := x :: l). clearbody L0.
  pose (T := fun ik : nat * Q => negb (Qeqb (snd ik) 0)).
  assert (HT : forall i q, In (i, q) (filter T (combine (seq 0 (length L0)) L0)) <-> nth_error L0 i = Some q /\ ~ (q == 0)%Q).
  { intros i q. rewrite filter_In, combine_seq_In, Nat.sub_0_r. unfold T. cbn [snd]. unfold Qeqb.
    destruct (Qeq_bool q 0) eqn:B.
    - apply Qeq_bool_iff in B. split; [intros [_ X]; discriminate|intros [_ X]; contradiction].
    - apply Qeq_bool_neq in B. split; [intros [[_ H] _]; auto|intros [H _]; split; [split; [lia|exact H]|reflexivity]]. }
  fold T. destruct (filter T (combine (seq 0 (length L0)) L0)) as [|p r] eqn:E.
  - split; [reflexivity|]. intros q Hq. apply In_nth_error in Hq. destruct Hq as [i Hi].
    destruct (Qeq_dec q 0) as [Z|N]; [exact Z|]. exfalso. apply (proj2 (HT i q)). auto.
  - set (F0 := p :: r) in *. pose proof (fold_max (map (fun ik : nat * Q => Z.of_nat (fst ik) + 1) F0) 0) as [M1 [M2 M3]].
    set (n := fold_left Z.max (map (fun ik : nat * Q => Z.of_nat (fst ik) + 1) F0) 0) in *.
    assert (Pos : 1 <= n).
    { assert (In (Z.of_nat (fst p) + 1) (map (fun ik : nat * Q => Z.of_nat (fst ik) + 1) F0)) as Hin by (left; reflexivity).
      apply M2 in Hin. lia. }
    destruct M3 as [M3|M3]; [lia|]. apply in_map_iff in M3. destruct M3 as [[i q] [E1 E2]]. cbn [fst] in E1.
    apply HT in E2. destruct E2 as [E2 E3].
    assert (Lt : (i < length L0)%nat) by (apply nth_error_Some; congruence).
    split; [lia|]. split.
    + exists q. replace (Z.to_nat (n - 1)) with i by lia. auto.
    + intros m q' Hm Hq. destruct (Qeq_dec q' 0) as [Z|N]; [exact Z|]. exfalso.
      assert (In (m, q') F0) as X by (apply HT; auto).
      assert (In (Z.of_nat m + 1) (map (fun ik : nat * Q => Z.of_nat (fst ik) + 1) F0)) as Y.
      { apply in_map_iff. exists (m, q'). auto. }
      apply M2 in Y. lia.
Qed.
