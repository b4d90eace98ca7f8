(** Trials that read the same data sets are the same for the driver; opening a data design
    again. *)
From Coq Require Import String Ascii Permutation Sorted.
From Verif Require Import Prelude ModelReachPoint ModelData ModelHalo ModelAggregator ModelFiles SpecFiles
  FilesLemmas FilesLemmas2 FilesLemmas3 ModelDriver SpecDriver DriverLemmas DriverLemmas2 DriverLemmas3
  DriverLemmas4 DriverLemmas6 DriverLemmas7 DriverLemmas8 ModelExecute SpecExecute DataLemmas.
Open Scope Z_scope.

Section Alike.
Variable L : lab.

Definition alike (t t' : trial) : Prop :=
  tr_experiment_dir t' = tr_experiment_dir t /\ tr_data_set t' = tr_data_set t /\
  tr_descriptor t' = tr_descriptor t /\ tr_analysis t' = tr_analysis t /\
  dd_by_name (tr_design t') (tr_data_set t) = dd_by_name (tr_design t) (tr_data_set t).

Lemma alike_row t t' seed g : alike t t' -> compute_row L t' seed g = compute_row L t seed g.
Proof.
  destruct t as [a b c d e], t' as [a' b' c' d' e']. intros [A1 [A2 [A3 [A4 A5]]]]. cbn in *. subst.
  unfold compute_row, independent_vars, measure, measure_on_exception, privacy_vars, system_of, experiment_of,
    trial_budget, single_pub_analysis, experiment_of. cbn [tr_descriptor tr_design tr_data_set tr_analysis].
  rewrite A5. reflexivity.
Qed.
Lemma alike_out t t' : alike t t' -> results_path (lab_float L) t' = results_path (lab_float L) t.
Proof. intros [A1 [A2 [A3 _]]]. unfold results_path. rewrite A1, A2, A3. reflexivity. Qed.
Lemma alike_pending t t' : alike t t' -> pending_path L t' = pending_path L t.
Proof. intros A. unfold pending_path. rewrite (alike_out t t' A), (proj1 A). reflexivity. Qed.
Lemma alike_text t t' now : alike t t' -> pending_text L t' now = pending_text L t now.
Proof. intros [A1 [A2 [A3 _]]]. unfold pending_text. rewrite A2, A3. reflexivity. Qed.
Lemma alike_name t t' : alike t t' -> trial_name L t' = trial_name L t.
Proof. intros [A1 [A2 [A3 _]]]. unfold trial_name. rewrite A2, A3. reflexivity. Qed.

Lemma alike_evaluate t t' seed now g : alike t t' -> evaluate L t' seed now g = evaluate L t seed now g.
Proof.
  intros A. unfold evaluate, recompute. rewrite (alike_out t t' A), (alike_pending t t' A), (alike_text t t' now A),
    (alike_row t t' seed g A). reflexivity.
Qed.

(** Programs that do the same. *)
Inductive same {A} : prog A -> prog A -> Prop :=
| same_ret : forall a, same (Ret a) (Ret a)
| same_look : forall q k k', (forall n, same (k n) (k' n)) -> same (Look q k) (Look q k')
| same_act : forall e k k', (forall r, same (k r) (k' r)) -> same (Act e k) (Act e k').

Lemma same_refl {A} (p : prog A) : same p p.
Proof. induction p; constructor; auto. Qed.
Lemma same_pbind {A B} (p p' : prog A) (f f' : A -> prog B) : same p p' -> (forall a, same (f a) (f' a)) ->
  same (pbind p f) (pbind p' f').
Proof. intros H Hf. induction H; cbn [pbind]; [apply Hf| |]; constructor; auto. Qed.
Lemma same_finish {A} (p p' : prog A) : same p p' -> forall d, finish p' d = finish p d.
Proof.
  intros H. induction H as [a|q k k' H IH|e k k' H IH]; intros d; cbn [finish]; auto.
  destruct (run_effect d e); auto.
Qed.
Lemma same_advances {A} n : forall (p p' : prog A) d, same p p' -> fst (advances n d p') = fst (advances n d p).
Proof.
  induction n as [|n IH]; intros p p' d H; [reflexivity|]. cbn [advances].
  destruct H as [a|q k k' H|e k k' H]; cbn [advance]; auto using same_refl.
  destruct (run_effect d e); auto.
Qed.

Lemma alike_evaluate_all ts ts' seed : Forall2 alike ts ts' -> forall nows g,
  same (evaluate_all L ts seed nows g) (evaluate_all L ts' seed nows g).
Proof.
  intros H. induction H as [|t t' ts ts' A H IH]; intros nows g; [constructor|].
  cbn [evaluate_all]. rewrite (alike_evaluate t t' seed (nows O) g A). apply same_pbind; [apply same_refl|].
  intros a. destruct (fst a); [|constructor]. apply same_pbind; [apply IH|]. intros b. apply same_refl.
Qed.

Lemma alike_in_order dr ts ts' nows g : Forall2 alike ts ts' ->
  same (in_order L dr ts nows g) (in_order L dr ts' nows g).
Proof. intros H. apply same_pbind; [apply alike_evaluate_all; exact H|]. intros a. apply same_refl. Qed.

Lemma alike_workers ts ts' seed nows g : Forall2 alike ts ts' -> workers L ts' seed nows g = workers L ts seed nows g.
Proof.
  unfold workers. intros H. rewrite <- (Forall2_len _ _ _ H). generalize O. generalize (length ts).
  induction H as [|t t' ts ts' A H IH]; intros n m; [destruct (seq m n); reflexivity|].
  destruct n as [|n]; [reflexivity|]. cbn [seq combine map fst snd].
  rewrite (alike_evaluate t t' seed (nows m) g A), IH. reflexivity.
Qed.

(** The rest of the run is the same. *)
Definition same_rest (a b : option (result (prog (result table))) * disk) : Prop :=
  snd b = snd a /\
  match fst a, fst b with
  | None, None => True
  | Some (Err e), Some (Err e') => e' = e
  | Some (Ok p), Some (Ok p') => same p p'
  | _, _ => False
  end.
Lemma alike_begin dr ca c ts ts' g d : Forall2 alike ts ts' ->
  same_rest (begin_run L dr ca c ts g d) (begin_run L dr ca c ts' g d).
Proof.
  intros H. unfold begin_run. rewrite (alike_workers ts ts' _ _ g H).
  destruct (ca_beam ca); [|destruct (ca_cores ca =? 1)].
  - destruct (interleave (co_schedule c) d (workers L ts (dr_seed L dr) (co_now c) g)) as [d1 ps].
    destruct (worker_results L ps) as [[tbs|e]|]; cbn [bind]; [|split; reflexivity|split; reflexivity].
    destruct (combine_output (co_combine c tbs)); cbn [bind]; split; cbn; auto using same_refl.
  - split; [reflexivity|]. cbn [fst]. apply alike_in_order. exact H.
  - destruct (interleave (co_schedule c) d (workers L ts (dr_seed L dr) (co_now c) g)) as [d1 ps].
    destruct (worker_results L ps) as [[tbs|e]|]; cbn [bind]; [|split; reflexivity|split; reflexivity].
    split; [reflexivity|]. cbn [fst]. apply alike_in_order. exact H.
Qed.

(** ** The trials of a design *)

Lemma alike_dedup all all' : Forall2 alike all all' -> forall seen,
  Forall2 alike (remove_duplicates L seen all) (remove_duplicates L seen all').
Proof.
  intros H. induction H as [|t t' ts ts' A H IH]; intros seen; cbn [remove_duplicates]; [constructor|].
  rewrite (alike_name t t' A). destruct (existsb _ seen); [apply IH|]. constructor; [exact A|apply IH].
Qed.

Lemma alike_experiment x x' n ts :
  xd_dir x' = xd_dir x -> xd_descriptors x' = xd_descriptors x -> xd_analysis x' = xd_analysis x ->
  dd_by_name (xd_data x') n = dd_by_name (xd_data x) n ->
  experiment_trials x n = Ok ts -> exists ts', experiment_trials x' n = Ok ts' /\ Forall2 alike ts ts'.
Proof.
  intros E1 E2 E3 E4. unfold experiment_trials. rewrite E1, E2, E3, E4. clear E2. revert ts.
  induction (xd_descriptors x) as [|desc l IH]; intros ts E; cbn [mapM] in *.
  - assert (ts = []) by congruence. subst. exists []. split; [reflexivity|constructor].
  - destruct (dd_by_name (xd_data x) n) as [s|] eqn:Ed; cbn [bind] in *; [|discriminate].
    destruct (update_descriptor desc s) as [desc'|]; cbn [bind] in *; [|discriminate].
    match type of E with context [mapM ?f l] => destruct (mapM f l) as [rest|] end; cbn [bind] in *; [|discriminate].
    destruct (IH rest eq_refl) as [rest' [R1 R2]]. rewrite R1. cbn [bind]. eexists. split; [reflexivity|].
    assert (Et : ts = {| tr_experiment_dir := xd_dir x; tr_design := xd_data x; tr_data_set := n;
      tr_descriptor := desc'; tr_analysis := xd_analysis x |} :: rest) by congruence.
    subst ts. constructor; [|exact R2]. unfold alike. cbn. rewrite E4. auto.
Qed.

Lemma alike_generate x x' ts :
  xd_dir x' = xd_dir x -> xd_descriptors x' = xd_descriptors x -> xd_analysis x' = xd_analysis x ->
  dd_names (xd_data x') = dd_names (xd_data x) ->
  (forall n, In n (dd_names (xd_data x)) -> dd_by_name (xd_data x') n = dd_by_name (xd_data x) n) ->
  generate_trials L x = Ok ts -> exists ts', generate_trials L x' = Ok ts' /\ Forall2 alike ts ts'.
Proof.
  intros E1 E2 E3 E4 E5 G. unfold generate_trials in *. rewrite E4.
  destruct (mapM (experiment_trials x) (dd_names (xd_data x))) as [all|] eqn:Ea; cbn [bind] in G; [|discriminate].
  assert (X : exists all', mapM (experiment_trials x') (dd_names (xd_data x)) = Ok all' /\
                           Forall2 alike (concat all) (concat all')).
  { clear E4 G. revert all Ea E5. induction (dd_names (xd_data x)) as [|n l IH]; intros all Ea E5; cbn [mapM] in *.
    - assert (all = []) by congruence. subst. exists []. split; [reflexivity|constructor].
    - destruct (experiment_trials x n) as [t1|] eqn:En; cbn [bind] in Ea; [|discriminate].
      destruct (mapM (experiment_trials x) l) as [rest|]; cbn [bind] in Ea; [|discriminate].
      destruct (IH rest eq_refl) as [rest' [R1 R2]]; [intros m Hm; apply E5; right; exact Hm|].
      destruct (alike_experiment x x' n t1 E1 E2 E3 (E5 n (or_introl eq_refl)) En) as [t1' [T1 T2]].
      rewrite T1, R1. cbn [bind]. eexists. split; [reflexivity|].
      assert (Eall : all = t1 :: rest) by congruence. subst all. cbn [concat]. apply Forall2_app'; auto. }
  destruct X as [all' [X1 X2]]. rewrite X1. cbn [bind]. eexists. split; [reflexivity|].
  assert (Et : ts = remove_duplicates L [] (concat all)) by congruence. subst ts. apply alike_dedup. exact X2.
Qed.

(** ** Opening the data design *)

Lemma mkdir_existing d dir n : disk_ok d -> stat d dir = Some Dir ->
  run_ops d (firstn n (mkdir_ops dir)) = (Ok tt, d).
Proof.
  intros K D. assert (G : forall os, (forall o, In o os -> exists p, o = MkDir p /\ on_the_way dir p) ->
    run_ops d os = (Ok tt, d)).
  { induction os as [|o os IH]; intros H; [reflexivity|].
    destruct (H o (or_introl eq_refl)) as [p [-> W]]. cbn [run_ops run_op].
    pose proof (on_the_way_stat d dir p K D W) as E.
    assert (E' : stat d (parent p) = Some Dir) by (apply (proj2 (proj2 K)); rewrite E; discriminate).
    rewrite E', E. apply IH. intros o Ho. apply H. right. exact Ho. }
  apply G. intros o Ho.
  assert (Hi : In o (mkdir_ops dir)).
  { rewrite <- (firstn_skipn n (mkdir_ops dir)). apply in_or_app. left. exact Ho. }
  pose proof (mkdir_ops_paths dir o Hi) as W. unfold mkdir_ops in Hi. apply in_map_iff in Hi.
  destruct Hi as [m [<- _]]. eexists. split; [reflexivity|exact W].
Qed.

Lemma opened_design st dir : disk_ok (st_disk st) -> stat (st_disk st) (to_path dir) = Some Dir ->
  exists de, mk_design st dir = (Ok de, st) /\ design_ok st de /\ de_dirpath de = dir.
Proof.
  intros K D. destruct (open_design_ok st dir K (dir_no_file _ _ K D)) as [de [st' [E [O [P [C _]]]]]].
  exists de. assert (X : st' = st).
  { unfold mk_design in E. pose proof (mkdir_existing _ _ (length (mkdir_ops (to_path dir))) K D) as M.
    rewrite firstn_all in M. rewrite M in E. assert (Es : {| st_disk := st_disk st; st_cache := st_cache st |} = st') by congruence.
    rewrite <- Es. destruct st; reflexivity. }
  subst st'. auto.
Qed.

Lemma names_unique (R : string -> string -> Prop) : (forall a, ~ R a a) -> (forall a b c, R a b -> R b c -> R a c) ->
  forall l l', StronglySorted R l -> StronglySorted R l' -> (forall x, In x l <-> In x l') -> l = l'.
Proof.
  intros I T. induction l as [|a l IH]; intros l' S S' H.
  - destruct l' as [|b l']; [reflexivity|]. exfalso. apply (H b). left. reflexivity.
  - destruct l' as [|b l']; [exfalso; apply (H a); left; reflexivity|].
    inversion S as [|? ? S1 S2]; subst. inversion S' as [|? ? S1' S2']; subst.
    rewrite Forall_forall in S2, S2'.
    assert (E : a = b).
    { destruct (proj1 (H a) (or_introl eq_refl)) as [X|X]; [auto|].
      destruct (proj2 (H b) (or_introl eq_refl)) as [Y|Y]; [auto|].
      exfalso. apply (I a). eapply T; [apply S2; exact Y|apply S2'; exact X]. }
    subst b. f_equal. apply IH; auto. intros x. split; intros Hx.
    + destruct (proj1 (H x) (or_intror Hx)) as [<-|X]; [exfalso; apply (I a); apply S2; exact Hx|exact X].
    + destruct (proj2 (H x) (or_intror Hx)) as [<-|X]; [exfalso; apply (I a); apply S2'; exact Hx|exact X].
Qed.

Lemma design_names dr d de : design_ok {| st_disk := d; st_cache := [] |} de -> de_dirpath de = dr_data_design L dr ->
  data_sets L dr d (sorted_names de).
Proof.
  intros [_ [_ [N H]]] E. split; [apply sorted_names_sorted; exact N|]. intros n. unfold data_dir. rewrite <- E, <- (H n).
  split; intros X.
  - apply (Permutation_in _ (sorted_names_perm de)). exact X.
  - apply (Permutation_in _ (Permutation_sym (sorted_names_perm de))). exact X.
Qed.

Lemma first_read d de n : fst (by_name (lab_float L) {| st_disk := d; st_cache := [] |} de n) =
  read_data_set (lab_float L) d (os_join (de_dirpath de) n).
Proof. unfold by_name, cached_read. cbn. destruct (read_data_set _ _ _); reflexivity. Qed.

Lemma data_sets_unique dr d d' l l' : (forall q, within (data_dir L dr) q -> stat d' q = stat d q) ->
  data_sets L dr d l -> data_sets L dr d' l' -> l' = l.
Proof.
  intros W [S H] [S' H']. eapply names_unique; [| |exact S'|exact S|].
  - intros a X. cbn beta in X. rewrite ltb_irrefl in X. discriminate.
  - intros a b c. apply ltb_trans.
  - intros x. rewrite H, H', W; [tauto|]. exists [x]. reflexivity.
Qed.

Lemma prepare_disk dr d : has_data L dr d -> snd (prepare L dr d) = d.
Proof.
  intros [K [D N]]. unfold prepare.
  destruct (opened_design {| st_disk := d; st_cache := [] |} (dr_data_design L dr) K D) as [de [E _]]. rewrite E. reflexivity.
Qed.

(** On a disk with the same data sets there are the same trials. *)
Lemma prepare_again dr d d' ts g : runs L dr d ts g -> disk_ok d' ->
  (forall q, within (data_dir L dr) q -> stat d' q = stat d q) ->
  has_data L dr d' /\ exists ts', prepare L dr d' = (Ok (ts', g), d') /\ Forall2 alike ts ts'.
Proof.
  intros [HD R] K' W. pose proof HD as [K [D N]].
  assert (D' : stat d' (data_dir L dr) = Some Dir).
  { rewrite W; [exact D|]. exists []. rewrite app_nil_r. destruct (data_dir L dr); reflexivity. }
  assert (HD' : has_data L dr d').
  { split; [exact K'|]. split; [exact D'|]. intros n E. apply N. rewrite <- E. symmetry. apply W. exists [n]. reflexivity. }
  split; [exact HD'|].
  unfold prepare in *.
  destruct (opened_design {| st_disk := d; st_cache := [] |} (dr_data_design L dr) K D) as [de [E [O P]]].
  destruct (opened_design {| st_disk := d'; st_cache := [] |} (dr_data_design L dr) K' D') as [de' [E' [O' P']]].
  rewrite E in R. rewrite E'. cbn [fst bind] in R. cbn [bind].
  destruct (dr_fetch L dr (dr_seed L dr)) as [[descs g']|e]; cbn [bind] in *; [|discriminate].
  match type of R with context [generate_trials L ?x] => set (x0 := x) in * end.
  match goal with |- context [generate_trials L ?x] => set (x1 := x) in * end.
  destruct (generate_trials L x0) as [ts0|] eqn:G; cbn [bind] in R; [|discriminate].
  assert (ts0 = ts) by congruence. assert (g' = g) by congruence. subst ts0 g'.
  pose proof (design_names dr d de O P) as S. pose proof (design_names dr d' de' O' P') as S'.
  assert (En : sorted_names de' = sorted_names de) by (eapply data_sets_unique; eauto).
  destruct (alike_generate x0 x1 ts eq_refl eq_refl eq_refl) as [ts' [T1 T2]].
  - exact En.
  - intros n Hn. cbn [x0 x1 xd_data opened dd_by_name dd_names] in *. rewrite !first_read, P, P'.
    apply read_depends; [exact K|exact K'|]. intros q Hq. apply W.
    apply (proj2 S) in Hn. apply N in Hn. rewrite to_path_os_join in Hq by exact Hn.
    destruct Hq as [r ->]. exists (n :: r). unfold entry, data_dir. cbn [fst snd]. rewrite <- app_assoc. reflexivity.
  - exact G.
  - exists ts'. rewrite T1. cbn [bind st_disk]. split; [reflexivity|exact T2].
Qed.

(** What the trials are. *)
Lemma prepared dr d ts g : runs L dr d ts g ->
  exists names descs all, data_sets L dr d names /\ dr_fetch L dr (dr_seed L dr) = Ok (descs, g) /\
    ((forall desc, In desc descs -> NoDup (map fst (ep_test_kwargs (td_experiment desc)))) ->
     Forall2 (fun nd t => trial_on L dr d (fst nd) (snd nd) t) (list_prod names descs) all) /\
    ts = remove_duplicates L [] all.
Proof.
  intros [[K [D N]] R]. unfold prepare in R.
  destruct (opened_design {| st_disk := d; st_cache := [] |} (dr_data_design L dr) K D) as [de [E [O P]]].
  rewrite E in R. cbn [fst bind] in R.
  destruct (dr_fetch L dr (dr_seed L dr)) as [[descs g']|e] eqn:Ef; cbn [bind] in *; [|discriminate].
  match type of R with context [generate_trials L ?x] => set (x0 := x) in * end.
  destruct (generate_trials L x0) as [ts0|] eqn:G; cbn [bind] in R; [|discriminate].
  assert (ts0 = ts) by congruence. assert (g' = g) by congruence. subst ts0 g'.
  unfold generate_trials in G.
  destruct (mapM (experiment_trials x0) (dd_names (xd_data x0))) as [all|] eqn:Ea; cbn [bind] in G; [|discriminate].
  exists (sorted_names de), descs, (concat all). split; [apply design_names; auto|]. split; [reflexivity|].
  split; [|congruence]. intros Dic. pose proof (all_trials x0 all Dic Ea) as Al.
  eapply Forall2_impl_In; [|exact Al]. intros [n desc] t Hn _ [T1 [T2 [T3 [T4 [s [T5 T6]]]]]]. cbn [fst snd] in *.
  split; [exact T1|]. split; [exact T3|]. split; [exact T4|]. exists s.
  split; [|split; [|exact T6]].
  - cbn [x0 xd_data opened dd_by_name] in T5. rewrite first_read, P in T5. exact T5.
  - rewrite T2. exact T5.
Qed.

End Alike.
