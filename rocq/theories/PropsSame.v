(** C66: a run on cloud storage answers what a run on a disk answers. *)
From Coq Require Import String Ascii Permutation Sorted.
From Verif Require Import Prelude ModelReachPoint ModelData ModelAggregator ModelFiles SpecData SpecFiles
  DataLemmas FilesLemmas FilesLemmas2 FilesLemmas3 ModelHalo ModelDriver SpecDriver DriverLemmas DriverLemmas2
  ModelExecute SpecExecute ExecuteLemmas PropsExecute
  ModelCloud SpecCloud CloudLemmas CloudLemmas2 ModelCloudRun SpecCloudRun CloudRunLemmas PropsCloudRun SpecSame SameLemmas
  ModelStack SameLemmas2 ModelDesigns ModelExperiments SpecExperiments ExperimentsLemmas ExperimentsLemmas2 ExampleDriver PropsDriver.
Open Scope Z_scope.

(** The strategies and models of the library do not look at where the impressions are kept, not
    even with the true reach curves, which keep the whole data set. *)
Theorem C66_strategies : forall T B descs,
  (forall desc f, In desc descs -> sp_fractions_generator (td_system desc) = Some f -> forall d, f (moved d) = f d) ->
  ignore_places (full_lab T B) descs.
Proof.
  intros T B descs H desc I. split; [|intros f E; exact (H desc f I E)].
  exists moved_model. split; [split|].
  - intros m spends k. cbn [full_lab lab_ask fst snd]. rewrite moved_answer. reflexivity.
  - apply moved_training.
  - intros h b gl w. apply moved_strategy.
Qed.
Print Assumptions C66_strategies.

(** So for the four experimental designs of the library. *)
Lemma numbered_ignore cs : (forall c f, In c cs -> ch_spends c = FromDataSet f -> forall d, f (moved d) = f d) ->
  forall desc f, In desc (numbered cs) -> sp_fractions_generator (td_system desc) = Some f -> forall d, f (moved d) = f d.
Proof.
  intros H desc f I E d. destruct (numbered_in cs desc I) as [i [c [N ->]]]. apply nth_error_In in N.
  cbn [make_descriptor td_system sp_fractions_generator] in E. destruct (ch_spends c) as [l|f'] eqn:S; [discriminate|].
  injection E as <-. exact (H c f' N S d).
Qed.
Lemma mapM_in {A B} (f : A -> result B) l ys : mapM f l = Ok ys -> forall y, In y ys -> exists x, In x l /\ f x = Ok y.
Proof.
  revert ys. induction l as [|x l IH]; intros ys E y I; cbn [mapM] in E; [injection E as <-; destruct I|].
  destruct (f x) as [z|] eqn:F; cbn [bind] in E; [|discriminate]. destruct (mapM f l) as [zs|]; cbn [bind] in E; [|discriminate].
  injection E as <-. destruct I as [<-|I]; [exists x; split; [left; reflexivity|exact F]|].
  destruct (IH zs eq_refl y I) as [x' [H1 H2]]. exists x'. split; [right; exact H1|exact H2].
Qed.
Lemma pick_in {A} (l : list A) q a : pick l q = Ok a -> In a l.
Proof.
  unfold pick, py_index. cbv zeta. destruct (_ && _)%bool; [|discriminate]. destruct (nth_error l _) as [x|] eqn:E; [|discriminate].
  intros H. injection H as <-. exact (nth_error_In _ _ E).
Qed.
Theorem C66_designs : forall T B,
  ignore_places (full_lab T B) m3_experiments /\ ignore_places (full_lab T B) analysis_experiments /\
  ignore_places (full_lab T B) single_experiments /\
  (forall samples descs, sample_experiments samples = Ok descs -> ignore_places (full_lab T B) descs).
Proof.
  intros T B. split; [|split; [|split]].
  - apply C66_strategies, numbered_ignore. intros c f I S d. apply product_in in I. destruct I as [_ [I _]]. rewrite S in I.
    destruct I as [X|[X|[]]]; injection X as <-; rewrite moved_count; reflexivity.
  - apply C66_strategies, numbered_ignore. intros c f I S d. apply product_in in I. destruct I as [_ [I _]]. rewrite S in I.
    destruct I as [X|[X|[]]]; injection X as <-; rewrite moved_count; reflexivity.
  - apply C66_strategies, numbered_ignore. intros c f I S d. unfold single_choices in I.
    repeat (apply in_flat_map in I; destruct I as [? [_ I]]). apply in_map_iff in I. destruct I as [? [<- _]]. discriminate S.
  - intros samples descs E. unfold sample_experiments, sample_config in E.
    destruct (mapM _ samples) as [cs|] eqn:Ec; cbn [bind] in E; [|discriminate]. injection E as <-.
    apply C66_strategies, numbered_ignore. intros c f I S d. destruct (mapM_in _ _ _ Ec c I) as [s [_ Es]].
    unfold sample_choice in Es. destruct (pick_key _ s 0); cbn [bind] in Es; [|discriminate].
    destruct (pick_key _ s 1) as [sp|] eqn:Ep; cbn [bind] in Es; [|discriminate].
    repeat match type of Es with bind ?x _ = _ => destruct x; cbn [bind] in Es; [|discriminate] end.
    apply (f_equal (fun r => match r with Ok c => ch_spends c | Err _ => sp end)) in Es. cbn [ch_spends] in Es. rewrite S in Es. subst sp.
    unfold pick_key in Ep. destruct (nth_error s 1); [|discriminate]. apply pick_in in Ep.
    cbn [sample_trial_levels tl_spends] in Ep. apply in_flat_map in Ep. destruct Ep as [xa [_ Ep]].
    apply in_map_iff in Ep. destruct Ep as [xb [X _]]. discriminate X.
Qed.
Print Assumptions C66_designs.

(** If the files of the data design have been copied to the same path on cloud storage, the same
    trials are run there, in the same order, and each has the same row. *)
Theorem C66_trials : forall L descs dr dr' local d o ts g,
  SpecExecute.runs L dr d ts g -> dr_data_design L dr = local -> has_address local -> dr_data_design L dr' = cloud_address local ->
  same_settings L dr dr' -> dr_fetch L dr (dr_seed L dr) = Ok (descs, g) -> ignore_places L descs ->
  no_empty_data_set d (to_path local) -> NoDup (map fst o) -> copied d o (to_path local) ->
  exists ts', cloud_prepare L dr' o = Ok (ts', g) /\
    Forall2 (fun t t' => tr_data_set t' = tr_data_set t /\ tr_descriptor t' = tr_descriptor t /\
      forall seed g, compute_row L t' seed g = compute_row L t seed g) ts ts'.
Proof.
  intros L descs dr dr' local d o ts g R Ed Ha Ed' S Ef Bl NE N Cp.
  destruct (moved_prepare L descs dr dr' local d o ts g R Ed Ha Ed' S Ef Bl NE N Cp) as [ts' [E H]]. exists ts'. split; [exact E|].
  clear - Bl H. induction H as [|t t' ts ts' [M [desc [I X]]] _ IH]; constructor; [|exact IH].
  split; [apply M|]. split; [apply M|]. intros seed g. apply moved_row; [rewrite X; apply (Bl desc I)|exact M].
Qed.
Print Assumptions C66_trials.

(** Both runs, on the disk in any way and on cloud storage in any way, started without earlier
    results: the tables have the same rows; if neither uses Beam, in the same order. *)
Theorem C66_table : forall L descs dr dr' local inter d o ts ts' g tbs tbs' xs xs' out ca ca' c c' r r' d' o',
  dr_data_design L dr = local -> dr_data_design L dr' = cloud_address local -> same_settings L dr dr' ->
  dr_fetch L dr (dr_seed L dr) = Ok (descs, g) -> ignore_places L descs ->
  no_empty_data_set d (to_path local) -> copied d o (to_path local) ->
  good_run L dr d ts g tbs -> Forall (place_for L dr ts d) xs -> In (output_path L dr) xs ->
  call_ok L xs (concat tbs) ca c -> (ca_beam ca = false -> ca_cores ca <> 1 -> reads_back L (dr_seed L dr) g ts) ->
  (forall t, In t ts -> no_result L t d) ->
  cloud_good_run L dr' inter local o ts' g tbs' -> cloud_places L inter local ts' o xs' ->
  cloud_path (dr_output L dr') = Ok out -> In out xs' -> cloud_call_ok L ts' xs' (concat tbs') ca' c' ->
  (forall t, In t ts' -> obj_find o (results_object L (to_path inter) t) = None) ->
  execute L dr ca c d = Some (r, d') -> cloud_execute L dr' ca' c' o = Some (r', o') ->
  exists tb tb', r = Ok tb /\ r' = Ok tb' /\ Permutation tb tb' /\
    (ca_beam ca = false -> ca_beam ca' = false -> tb' = tb) /\
    stat d' (output_path L dr) = Some (File (lab_print L tb)) /\ obj_find o' out = Some (lab_print L tb').
Proof.
  intros L descs dr dr' local inter d o ts ts' g tbs tbs' xs xs' out ca ca' c c' r r' d' o' Ed Ed' S Ef Bl NE Cp
    G P Ho CO RB No G' P' Out Io CO' No' E E'.
  destruct (C53_any_way L dr ca c d ts g tbs xs r d' G P Ho CO RB E) as [tb [R1 [R2 [R3 [[R4 _] _]]]]].
  destruct (C57_any_way L dr' inter local o ts' g tbs' xs' out ca' c' r' o' G' P' Out Io CO' E') as [tb' [Q1 [Q2 [Q3 [Q4 _]]]]].
  assert (Et : tbs' = tbs).
  { destruct G as [Rn [_ [_ [_ [An _]]]]]. destruct G' as [Pr [_ [Oo [Ha [_ [_ [_ [_ [An' _]]]]]]]]].
    destruct (moved_prepare L descs dr dr' local d o ts g Rn Ed Ha Ed' S Ef Bl NE (proj1 Oo) Cp) as [ts1 [X1 X2]].
    rewrite Pr in X1. assert (ts1 = ts') by congruence. subst ts1. destruct S as [_ [S2 _]]. rewrite S2 in An'.
    clear - Bl X2 An An' No No'. revert tbs tbs' An An'.
    induction X2 as [|t t' ts ts' [M [desc [I X]]] _ IH]; intros tbs tbs' An An'; inversion An as [|? a ? tbs1 A1 A2]; subst; inversion An' as [|? b ? tbs2 B1 B2]; subst; [reflexivity|].
    f_equal; [|apply IH; auto; [intros q Hq; apply No; right; exact Hq|intros q Hq; apply No'; right; exact Hq]].
    destruct A1 as [A1|[_ [row [A1 ->]]]]; [exfalso; exact (No t (or_introl eq_refl) _ A1)|].
    destruct B1 as [[x [B1 _]]|[_ [row' [B1 ->]]]]; [rewrite (No' t' (or_introl eq_refl)) in B1; discriminate|].
    rewrite (moved_row L t t') in B1; [congruence|rewrite X; apply (Bl desc I)|exact M]. }
  subst tbs'. exists tb, tb'. split; [exact R1|]. split; [exact Q1|]. split; [rewrite R2, Q2; reflexivity|].
  split; [intros B B'; rewrite (R3 B), (Q3 B'); reflexivity|]. split; [exact R4|exact Q4].
Qed.
Print Assumptions C66_table.

(** ** Example: the data set and the settings of the examples of C53 and C57 *)
Lemma strict_ignores descs : (forall desc f, In desc descs -> sp_fractions_generator (td_system desc) = Some f -> False) ->
  ignore_places strict descs.
Proof.
  intros H desc I. split; [|intros f E; destruct (H desc f I E)]. exists (fun m => m). split; [split|].
  - reflexivity.
  - reflexivity.
  - intros h b gl w. cbn [strict toy_with lab_fit]. change (toy_fit (td_strategy desc) (moved_halo h) b gl w) with (toy_fit (td_strategy desc) h b gl w).
    destruct (toy_fit (td_strategy desc) h b gl w) as [[[m g']|e] w']; reflexivity.
Qed.
Lemma toy_copied : copied toy_disk bucket (to_path "/x/data").
Proof.
  intros q c W. unfold bucket, toy_disk. split; intros E.
  - apply (obj_find_in bucket q c (proj1 bucket_ok)) in E. destruct E as [E|[E|[]]]; apply pair_eq in E; destruct E as [<- <-]; [reflexivity|].
    destruct W as [r W]. apply (f_equal snd) in W. cbn in W. discriminate W.
  - apply stat_listed in E. destruct E as [E|E]; [destruct W as [r W]; apply (f_equal snd) in W; rewrite E in W; discriminate W|].
    repeat (destruct E as [E|E]; [try (apply pair_eq in E; destruct E as [_ E]; discriminate E)|]); [|destruct E].
    apply pair_eq in E. destruct E as [<- E]. injection E as <-. reflexivity.
Qed.
Example C66_example : forall ca c ca' c' r r' d' o',
  SpecExecute.combines c -> ca_temp ca = "/x/exp"%string -> bucket_calls ca' c' ->
  execute strict toy_driver ca c toy_disk = Some (r, d') -> cloud_execute strict bucket_driver ca' c' bucket = Some (r', o') ->
  exists tb tb', r = Ok tb /\ r' = Ok tb' /\ Permutation tb tb' /\ (ca_beam ca = false -> ca_beam ca' = false -> tb' = tb) /\
    stat d' (to_path "/x/out.csv") = Some (File (toy_print tb)) /\ obj_find o' (to_path "/x/out.csv") = Some (toy_print tb').
Proof.
  intros ca c ca' c' r r' d' o' Hc Ht Hc' E E'.
  apply (C66_table strict [toy_descriptor 0 0; toy_descriptor 1 1; toy_descriptor 0 0] toy_driver bucket_driver "/x/data" "/x/exp" toy_disk bucket
    toy_run bucket_run strict_start toy_tables toy_tables toy_places bucket_places (to_path "/x/out.csv") ca ca' c c' r r' d' o'); try assumption; try reflexivity.
  - repeat split.
  - apply strict_ignores. intros desc f [<-|[<-|[<-|[]]]] X; discriminate X.
  - intros n Hn. rewrite (toy_entries n Hn). exists (to_path "/x/data/ds/p"). eexists. split; [exists ["p"%string]|]; reflexivity.
  - exact toy_copied.
  - exact toy_good_run.
  - exact toy_place.
  - left. reflexivity.
  - intros _. split; [exact Hc|]. split; [exact toy_reads_tables|]. rewrite Ht. right. left. reflexivity.
  - intros _ _. exact (proj1 toy_good_reader).
  - exact toy_run_none.
  - exact bucket_good.
  - exact bucket_place.
  - left. reflexivity.
  - apply bucket_call. exact Hc'.
Qed.
