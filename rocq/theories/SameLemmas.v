(** A run on a disk and one on cloud storage. *)
From Coq Require Import String Ascii Permutation Sorted.
From Verif Require Import Prelude ModelReachPoint ModelData ModelAggregator ModelFiles SpecData SpecFiles
  DataLemmas FilesLemmas FilesLemmas2 FilesLemmas3 ModelTestPoints ModelHalo ModelDriver SpecDriver DriverLemmas DriverLemmas2 DriverLemmas4 DriverLemmas7 DriverLemmas8
  ModelExecute SpecExecute ExecuteLemmas ModelCloud SpecCloud CloudLemmas CloudLemmas2 ModelCloudRun SpecCloudRun CloudRunLemmas SpecSame.
Open Scope Z_scope.

(** ** What does not depend on the names of the files *)

Lemma moved_count d : publisher_count (moved d) = publisher_count d.
Proof. unfold publisher_count, moved. cbn [ds_data]. apply map_length. Qed.

Lemma moved_rbs pubs : forall spends imps counts, rbs_loop (map moved_publisher pubs) spends imps counts = rbs_loop pubs spends imps counts.
Proof.
  induction pubs as [|p pubs IH]; intros spends imps counts; [reflexivity|]. cbn [map rbs_loop].
  destruct spends as [|s spends]; [reflexivity|]. apply IH.
Qed.
Lemma moved_reach d spends m : reach_by_spend (moved d) spends m = reach_by_spend d spends m.
Proof. unfold reach_by_spend. rewrite moved_count. cbn [moved ds_data ds_universe]. rewrite moved_rbs. reflexivity. Qed.

Lemma moved_py_index {A B} (f : A -> B) l i : py_index (map f l) i = (x <- py_index l i ;; Ok (f x)).
Proof.
  unfold py_index. rewrite map_length. cbv zeta. destruct (_ && _)%bool; [|reflexivity].
  rewrite nth_error_map. destruct (nth_error l _); reflexivity.
Qed.
Lemma mapM_ext {A B} (f g : A -> result B) l : (forall x, f x = g x) -> mapM f l = mapM g l.
Proof. intros H. induction l as [|x l IH]; [reflexivity|]. cbn [mapM]. rewrite H, IH. reflexivity. Qed.
Lemma moved_max_spends d : tp_max_spends (moved d) = tp_max_spends d.
Proof.
  unfold tp_max_spends. unfold tp_npublishers. rewrite moved_count. apply mapM_ext. intros i.
  cbn [moved ds_data]. rewrite moved_py_index. destruct (py_index (ds_data d) i); reflexivity.
Qed.
Lemma moved_points {St Gl} (R : point_rng St Gl) strategy kw d gl st :
  generate_test_points R strategy kw (moved d) gl st = generate_test_points R strategy kw d gl st.
Proof.
  unfold generate_test_points, lhs_points, uniform_points, grid_points, tp_npublishers. rewrite moved_max_spends, moved_count. reflexivity.
Qed.

Lemma moved_mk_halo d fr ll : mk_halo (moved d) fr ll = (h <- mk_halo d fr ll ;; Ok (moved_halo h)).
Proof.
  unfold mk_halo. rewrite moved_count. cbn [moved ds_data].
  assert (E : forall l s, mapM (fun ip => f <- py_index fr (Z.of_nat (fst ip)) ;;
      Ok {| pub_data := snd ip; pub_campaign_spend := (f * pd_max_spend (snd ip))%Q |}) (combine (seq s (length l)) (map moved_publisher l)) =
    (pubs <- mapM (fun ip => f <- py_index fr (Z.of_nat (fst ip)) ;;
      Ok {| pub_data := snd ip; pub_campaign_spend := (f * pd_max_spend (snd ip))%Q |}) (combine (seq s (length l)) l) ;;
     Ok (map (fun p => {| pub_data := moved_publisher (pub_data p); pub_campaign_spend := pub_campaign_spend p |}) pubs))).
  { induction l as [|p l IH]; intros s; [reflexivity|]. cbn [length seq map combine mapM fst snd].
    destruct (py_index fr (Z.of_nat s)) as [f|e]; cbn [bind]; [|reflexivity]. rewrite IH.
    destruct (mapM _ (combine (seq (S s) (length l)) l)); reflexivity. }
  unfold publisher_count. rewrite E. destruct (mapM _ (combine (seq 0 (length (ds_data d))) (ds_data d))); reflexivity.
Qed.
Lemma moved_campaign h : campaign_spends (moved_halo h) = campaign_spends h.
Proof. unfold campaign_spends. cbn [moved_halo h_publishers]. rewrite map_map. apply map_ext. reflexivity. Qed.
Lemma moved_true_reach h spends k : true_reach (moved_halo h) spends k = true_reach h spends k.
Proof. unfold true_reach, true_reach_by_spend. cbn [moved_halo h_data_set]. rewrite moved_reach. reflexivity. Qed.

Section Row.
Variable L : lab.

Section Same.
Variable mv : lab_model L -> lab_model L.
Hypothesis Same : same_model L mv.

Lemma same_ask m spends k : lab_ask L (mv m) spends k = (fst (lab_ask L m spends k), mv (snd (lab_ask L m spends k))).
Proof. apply Same. Qed.
Lemma moved_ask_all qs : forall m, ask_all L (mv m) qs = (fst (ask_all L m qs), mv (snd (ask_all L m qs))).
Proof.
  induction qs as [|[s k] qs IH]; intros m; [reflexivity|]. cbn [ask_all]. rewrite same_ask.
  destruct (lab_ask L m s k) as [[p|e] m1]; cbn [fst snd]; [|reflexivity]. rewrite IH.
  destruct (ask_all L m1 qs) as [[ps|e] m2]; reflexivity.
Qed.
Lemma moved_error_at h m f r : relative_error_at L (moved_halo h) (mv m) f r =
  (fst (relative_error_at L h m f r), mv (snd (relative_error_at L h m f r))).
Proof.
  unfold relative_error_at. rewrite moved_campaign. destruct (py_index (campaign_spends h) 0); [|reflexivity]. cbv zeta. rewrite moved_true_reach.
  destruct (bind _ _) as [t|e]; [|reflexivity]. rewrite same_ask. destruct (lab_ask L m _ f) as [[q|e] m1]; cbn [fst snd]; [|reflexivity].
  destruct (reach q f); reflexivity.
Qed.
Lemma moved_cells h cols : forall m, error_cells L (moved_halo h) (mv m) cols =
  (fst (error_cells L h m cols), mv (snd (error_cells L h m cols))).
Proof.
  induction cols as [|[n [f r]] cols IH]; intros m; [reflexivity|]. cbn [error_cells]. rewrite moved_error_at.
  destruct (relative_error_at L h m f r) as [[c|e] m1]; cbn [fst snd]; [|reflexivity]. rewrite IH.
  destruct (error_cells L h m1 cols) as [[cs|e] m2]; reflexivity.
Qed.
Lemma moved_columns h m k : single_publisher_columns L (moved_halo h) (mv m) k = single_publisher_columns L h m k.
Proof.
  unfold single_publisher_columns. rewrite moved_cells, moved_campaign, moved_true_reach. cbn [fst snd].
  rewrite (proj2 Same). reflexivity.
Qed.
Lemma moved_measure t d h seed m gl : measure L t (moved d) (moved_halo h) seed (mv m) gl = measure L t d h seed m gl.
Proof.
  unfold measure. cbv zeta. destruct (int_kwargs _) as [kw|e]; cbn [bind]; [|reflexivity]. rewrite moved_points.
  destruct (generate_test_points _ _ _ _ _ _) as [[points st]|e]; cbn [bind]; [|reflexivity].
  rewrite (mapM_ext _ (fun p => true_reach h p (ep_max_frequency (experiment_of t)))) by (intros p; apply moved_true_reach).
  rewrite moved_ask_all. cbn [fst snd]. rewrite moved_columns. reflexivity.
Qed.
End Same.

Lemma moved_row t t' seed g :
  (exists mv, same_model L mv /\ forall h b gl w, lab_fit L (td_strategy (tr_descriptor t)) (moved_halo h) b gl w =
    (('(m, gl') <- fst (lab_fit L (td_strategy (tr_descriptor t)) h b gl w) ;; Ok (mv m, gl')),
     snd (lab_fit L (td_strategy (tr_descriptor t)) h b gl w))) ->
  moved_trial t t' -> compute_row L t' seed g = compute_row L t seed g.
Proof.
  destruct t as [a b c d e], t' as [a' b' c' d' e']. intros [mv [Same Blind]] [A1 [A2 [A3 [s [A4 A5]]]]]. cbn [tr_data_set tr_descriptor tr_analysis tr_design] in *. subst.
  unfold compute_row, independent_vars. cbn [tr_data_set tr_descriptor tr_analysis tr_design system_of]. rewrite A4, A5. cbn [bind].
  rewrite moved_mk_halo. change (system_of {| tr_experiment_dir := a'; tr_design := b'; tr_data_set := c; tr_descriptor := d; tr_analysis := e |})
    with (system_of {| tr_experiment_dir := a; tr_design := b; tr_data_set := c; tr_descriptor := d; tr_analysis := e |}).
  destruct (mk_halo s _ _) as [h|x]; cbn [bind]; [|reflexivity].
  destruct (instantiate_strategy (td_strategy d)); cbn [bind]; [|reflexivity].
  rewrite Blind. change (trial_budget {| tr_experiment_dir := a'; tr_design := b'; tr_data_set := c; tr_descriptor := d; tr_analysis := e |})
    with (trial_budget {| tr_experiment_dir := a; tr_design := b; tr_data_set := c; tr_descriptor := d; tr_analysis := e |}).
  destruct (lab_fit L _ h _ _ _) as [fit w]. cbn [fst snd].
  assert (Em : forall m gl, measure L {| tr_experiment_dir := a'; tr_design := b'; tr_data_set := c; tr_descriptor := d; tr_analysis := e |} (moved s) (moved_halo h) seed (mv m) gl =
    measure L {| tr_experiment_dir := a; tr_design := b; tr_data_set := c; tr_descriptor := d; tr_analysis := e |} s h seed m gl).
  { intros m gl. rewrite moved_measure by exact Same. reflexivity. }
  assert (Ex : map pd_max_reach (ds_data (moved s)) = map pd_max_reach (ds_data s)).
  { cbn [moved ds_data]. rewrite map_map. apply map_ext. reflexivity. }
  rewrite Ex, moved_count. cbn [moved ds_maximum_reach].
  destruct fit as [[m gl]|x]; cbn [bind]; [rewrite Em|]; reflexivity.
Qed.
End Row.

(** ** The trials *)

Lemma same_is_moved d d' : same_data_set d d' -> d' = moved d.
Proof.
  destruct d as [l a b c], d' as [l' a' b' c']. intros [H [E1 [E2 E3]]]. cbn in *. subst. unfold moved. cbn. f_equal.
  induction H as [|p p' l l' [P1 [P2 [P3 [P4 P5]]]] _ IH]; [reflexivity|]. cbn [map]. f_equal; [|exact IH].
  destruct p, p'. cbn in *. subst. reflexivity.
Qed.

Section Trials.
Variable L : lab.

Lemma moved_name t t' : moved_trial t t' -> trial_name L t' = trial_name L t.
Proof. intros [A1 [A2 _]]. unfold trial_name. rewrite A1, A2. reflexivity. Qed.
(** A moved trial with a strategy of [descs]. *)
Definition moved_of (descs : list trial_descriptor) (t t' : trial) : Prop :=
  moved_trial t t' /\ exists desc, In desc descs /\ td_strategy (tr_descriptor t) = td_strategy desc.
Lemma moved_dedup descs all all' : Forall2 (moved_of descs) all all' -> forall seen,
  Forall2 (moved_of descs) (remove_duplicates L seen all) (remove_duplicates L seen all').
Proof.
  intros H. induction H as [|t t' ts ts' A H IH]; intros seen; cbn [remove_duplicates]; [constructor|].
  rewrite (moved_name t t' (proj1 A)). destruct (existsb _ seen); [apply IH|]. constructor; [exact A|apply IH].
Qed.

Lemma moved_update desc d : (forall f, sp_fractions_generator (td_system desc) = Some f -> f (moved d) = f d) ->
  update_descriptor desc (moved d) = update_descriptor desc d.
Proof.
  intros H. unfold update_descriptor, update_system, update_experiment. rewrite moved_count.
  destruct (sp_fractions_generator (td_system desc)) as [f|]; [rewrite (H f eq_refl)|]; reflexivity.
Qed.

Lemma moved_experiment descs x x' n ts : incl (xd_descriptors x) descs ->
  xd_descriptors x' = xd_descriptors x -> xd_analysis x' = xd_analysis x -> ignore_places L descs ->
  (forall s, dd_by_name (xd_data x) n = Ok s -> dd_by_name (xd_data x') n = Ok (moved s)) ->
  experiment_trials x n = Ok ts -> exists ts', experiment_trials x' n = Ok ts' /\ Forall2 (moved_of descs) ts ts'.
Proof.
  intros Inc E2 E3 Bl E4. unfold experiment_trials. rewrite E2, E3. clear E2. revert ts Inc.
  induction (xd_descriptors x) as [|desc l IH]; intros ts Inc E; cbn [mapM] in *.
  - assert (ts = []) by congruence. subst. exists []. split; [reflexivity|constructor].
  - destruct (dd_by_name (xd_data x) n) as [s|] eqn:Ed; cbn [bind] in *; [|discriminate].
    rewrite (E4 s eq_refl) in *. cbn [bind] in *. rewrite (moved_update desc s) by (intros f Hf; apply (Bl desc (Inc desc (or_introl eq_refl))); exact Hf).
    destruct (update_descriptor desc s) as [desc'|] eqn:Eu; cbn [bind] in *; [|discriminate].
    match type of E with context [mapM ?f l] => destruct (mapM f l) as [rest|] end; cbn [bind] in *; [|discriminate].
    destruct (IH rest) as [rest' [R1 R2]]; [intros q Hq; apply Inc; right; exact Hq|reflexivity|]. rewrite R1. cbn [bind]. eexists. split; [reflexivity|].
    assert (Et : ts = {| tr_experiment_dir := xd_dir x; tr_design := xd_data x; tr_data_set := n;
      tr_descriptor := desc'; tr_analysis := xd_analysis x |} :: rest) by congruence.
    subst ts. constructor; [|exact R2]. split; [unfold moved_trial; cbn; repeat (split; [reflexivity|]); exists s; auto|].
    exists desc. split; [apply Inc; left; reflexivity|]. cbn [tr_descriptor]. unfold update_descriptor in Eu.
    destruct (update_system (td_system desc) s); cbn [bind] in Eu; [|discriminate]. injection Eu as <-. reflexivity.
Qed.

Lemma moved_generate descs x x' ts : incl (xd_descriptors x) descs ->
  xd_descriptors x' = xd_descriptors x -> xd_analysis x' = xd_analysis x -> ignore_places L descs ->
  dd_names (xd_data x') = dd_names (xd_data x) ->
  (forall n s, In n (dd_names (xd_data x)) -> dd_by_name (xd_data x) n = Ok s -> dd_by_name (xd_data x') n = Ok (moved s)) ->
  generate_trials L x = Ok ts -> exists ts', generate_trials L x' = Ok ts' /\ Forall2 (moved_of descs) ts ts'.
Proof.
  intros Inc E2 E3 Bl E4 E5 G. unfold generate_trials in *. rewrite E4.
  destruct (mapM (experiment_trials x) (dd_names (xd_data x))) as [all|] eqn:Ea; cbn [bind] in G; [|discriminate].
  assert (X : exists all', mapM (experiment_trials x') (dd_names (xd_data x)) = Ok all' /\
                           Forall2 (moved_of descs) (concat all) (concat all')).
  { clear E4 G. revert all Ea E5. induction (dd_names (xd_data x)) as [|n l IH]; intros all Ea E5; cbn [mapM] in *.
    - assert (all = []) by congruence. subst. exists []. split; [reflexivity|constructor].
    - destruct (experiment_trials x n) as [t1|] eqn:En; cbn [bind] in Ea; [|discriminate].
      destruct (mapM (experiment_trials x) l) as [rest|]; cbn [bind] in Ea; [|discriminate].
      destruct (IH rest eq_refl) as [rest' [R1 R2]]; [intros m s Hm; apply E5; right; exact Hm|].
      destruct (moved_experiment descs x x' n t1 Inc E2 E3 Bl (fun s => E5 n s (or_introl eq_refl)) En) as [t1' [T1 T2]].
      rewrite T1, R1. cbn [bind]. eexists. split; [reflexivity|].
      assert (Eall : all = t1 :: rest) by congruence. subst all. cbn [concat]. apply Forall2_app'; auto. }
  destruct X as [all' [X1 X2]]. rewrite X1. cbn [bind]. eexists. split; [reflexivity|].
  assert (Et : ts = remove_duplicates L [] (concat all)) by congruence. subst ts. apply moved_dedup. exact X2.
Qed.

(** All files of a disk as objects. *)
Definition file_objects (d : disk) : objects :=
  flat_map (fun x => match snd x with File c => if fst (fst x) && (2 <=? Z.of_nat (length (snd (fst x)))) then [(fst x, c)] else [] | Dir => [] end) d.
Lemma file_objects_in d p c : NoDup (map fst d) ->
  (In (p, c) (file_objects d) <-> In (p, File c) d /\ fst p = true /\ (2 <= length (snd p))%nat).
Proof.
  intros _. unfold file_objects. rewrite in_flat_map. split.
  - intros [[q [|c']] [I J]]; cbn [fst snd] in J; [destruct J|].
    destruct (fst q && _)%bool eqn:B; [|destruct J]. destruct J as [J|[]]. injection J as -> ->.
    apply andb_true_iff in B. destruct B as [B1 B2]. apply Z.leb_le in B2. split; [exact I|]. split; [exact B1|lia].
  - intros [I [B1 B2]]. exists (p, File c). split; [exact I|]. cbn [fst snd]. rewrite B1.
    destruct (2 <=? Z.of_nat (length (snd p))) eqn:E; [left; reflexivity|]. apply Z.leb_gt in E. lia.
Qed.
Lemma file_objects_nodup d : NoDup (map fst d) -> NoDup (map fst (file_objects d)).
Proof.
  induction d as [|[q n] d IH]; intros N; [constructor|]. inversion N as [|? ? N1 N2]; subst. unfold file_objects. cbn [flat_map fst snd]. fold (file_objects d).
  destruct n as [|c]; [exact (IH N2)|]. destruct (fst q && _)%bool; [|exact (IH N2)]. cbn [app map fst]. constructor; [|exact (IH N2)].
  intros I. apply N1. apply in_map_iff in I. destruct I as [[q' c'] [E I]]. cbn [fst] in E. subst q'.
  apply (file_objects_in d q c' N2) in I. apply in_map_iff. exists (q, File c'). split; [reflexivity|apply I].
Qed.
Lemma stat_in d p n : disk_ok d -> snd p <> [] -> (stat d p = Some n <-> In (p, n) d).
Proof. intros [N _] H. unfold stat. destruct (snd p); [contradiction|]. apply disk_find_in. exact N. Qed.
Lemma file_objects_same d : disk_ok d -> same_files d (file_objects d).
Proof.
  intros K p c. rewrite (file_objects_in d p c (proj1 K)). split.
  - intros [I [A B]]. split; [exact A|]. split; [exact B|]. apply stat_in; [exact K| |exact I]. intros X. rewrite X in B. cbn in B. lia.
  - intros [A [B I]]. apply stat_in in I; [|exact K|]; [auto|]. intros X. rewrite X in B. cbn in B. lia.
Qed.

Lemma alike_moved descs ts ts1 ts2 : Forall2 (moved_of descs) ts ts1 -> Forall2 alike ts1 ts2 -> Forall2 (moved_of descs) ts ts2.
Proof.
  intros H. revert ts2. induction H as [|t t1 ts ts1 [[M1 [M2 [M3 [s [M4 M5]]]]] Md] _ IH]; intros ts2 A; inversion A as [|? t2 ? ts2' [A1 [A2 [A3 [A4 A5]]]] A']; subst; constructor; [|apply IH; exact A'].
  split; [|exact Md]. split; [congruence|]. split; [congruence|]. split; [congruence|]. exists s. split; [exact M4|]. rewrite M1 in A5. congruence.
Qed.

Lemma moved_prepare descs dr dr' local d o ts g :
  runs L dr d ts g -> dr_data_design L dr = local -> has_address local -> dr_data_design L dr' = cloud_address local ->
  same_settings L dr dr' -> dr_fetch L dr (dr_seed L dr) = Ok (descs, g) -> ignore_places L descs ->
  no_empty_data_set d (to_path local) -> NoDup (map fst o) -> copied d o (to_path local) ->
  exists ts', cloud_prepare L dr' o = Ok (ts', g) /\ Forall2 (moved_of descs) ts ts'.
Proof.
  intros [HD R] Ed Ha Ed' [S1 [S2 S3]] Ef Bl NE N Cp. pose proof HD as [K [D Nm]]. unfold data_dir in *. rewrite Ed in *.
  pose proof (file_objects_same d K) as SF. pose proof (file_objects_nodup d (proj1 K)) as NF.
  pose proof (same_files_ok d _ K NF SF) as OkF. pose proof (address_absolute _ Ha) as Hab. pose proof (proj1 (proj2 Ha)) as Hsn.
  assert (X : exists ts1, cloud_prepare L dr' (file_objects d) = Ok (ts1, g) /\ Forall2 (moved_of descs) ts ts1).
  { unfold prepare in R.
    destruct (opened_design {| st_disk := d; st_cache := [] |} (dr_data_design L dr)) as [de [E [O P]]]; [exact K|rewrite Ed; exact D|].
    rewrite E in R. cbn [fst bind] in R. unfold cloud_prepare. rewrite Ed', S1, S2, S3.
    destruct (cloud_open (file_objects d) local Ha) as [de' [M1 [M2 [M3 M4]]]]. rewrite M1. cbn [bind].
    rewrite Ef in *. cbn [bind] in *.
    match type of R with context [generate_trials L ?x] => set (x0 := x) in * end.
    match goal with |- context [generate_trials L ?x] => set (x1 := x) in * end.
    destruct (generate_trials L x0) as [ts0|] eqn:G; cbn [bind] in R; [|discriminate].
    assert (ts0 = ts) by congruence. subst ts0.
    assert (En : sorted_names de' = sorted_names de).
    { destruct O as [_ [_ [ND HN]]]. apply names_equal; [exact ND|exact M3|]. intros n. rewrite M4, HN, P, Ed. cbn [st_disk].
      rewrite (same_dir d (file_objects d) (to_path local) K SF Hab Hsn n). split; [intros Y; split; [exact Y|exact (NE n Y)]|intros [Y _]; exact Y]. }
    destruct (moved_generate descs x0 x1 ts) as [ts1 [T1 T2]]; [apply incl_refl|reflexivity|reflexivity|exact Bl|exact En| |exact G|].
    - intros n s Hn Es. cbn [x0 x1 xd_data opened cloud_opened dd_by_name dd_names] in *. rewrite cloud_first_read, M2. rewrite first_read, P, Ed in Es.
      apply (Permutation_in _ (sorted_names_perm _)) in Hn. destruct O as [_ [_ [_ HN]]]. apply HN in Hn. rewrite P, Ed in Hn. apply Nm in Hn.
      rewrite os_join_file by assumption.
      pose proof (same_reading_of d (file_objects d) (entry (to_path local) n) K NF SF Hab) as SR.
      specialize (SR ltac:(unfold entry; cbn [snd]; intros Z0; apply app_eq_nil in Z0; destruct Z0 as [_ Z0]; discriminate Z0) (lab_float L) (os_join local n) (cloud_address (os_join local n))).
      rewrite to_path_os_join in SR by exact Hn. specialize (SR eq_refl).
      rewrite cloud_path_address in SR by (apply os_join_slash; assumption). rewrite to_path_os_join in SR by exact Hn. specialize (SR eq_refl).
      rewrite Es in SR. destruct (cloud_read_data_set _ _ _) as [s'|e]; [|destruct SR]. cbn in SR. rewrite (same_is_moved s s' SR). reflexivity.
    - exists ts1. rewrite T1. split; [reflexivity|exact T2]. }
  destruct X as [ts1 [X1 X2]].
  destruct (cloud_prepare_again L dr' local (file_objects d) o ts1 g Ha Ed') as [ts' [Y1 Y2]].
  - intros n Hn. apply (same_dir d (file_objects d) (to_path local) K SF Hab Hsn n) in Hn. apply Nm. apply Hn.
  - exact OkF.
  - exact N.
  - intros q W Nq. destruct (deep_below (to_path local) Hab Hsn q W Nq) as [Q1 Q2].
    assert (E : forall c, obj_find o q = Some c <-> obj_find (file_objects d) q = Some c).
    { intros c. rewrite (Cp q c W), obj_find_in by exact NF. rewrite (SF q c). tauto. }
    destruct (obj_find o q) as [c|]; [symmetry; apply E; reflexivity|].
    destruct (obj_find (file_objects d) q) as [c|]; [apply E; reflexivity|reflexivity].
  - exact X1.
  - exists ts'. split; [exact Y1|]. exact (alike_moved descs ts ts1 ts' X2 Y2).
Qed.
End Trials.
