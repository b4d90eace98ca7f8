(** Runs that only read results; trials that fail; designs that are not there; runs that can be
    continued. *)
From Coq Require Import String Ascii Permutation Sorted.
From Verif Require Import Prelude ModelReachPoint ModelData ModelHalo ModelAggregator ModelFiles SpecFiles
  FilesLemmas FilesLemmas2 FilesLemmas3 ModelDriver SpecDriver DriverLemmas DriverLemmas2 DriverLemmas3
  DriverLemmas4 DriverLemmas6 DriverLemmas7 DriverLemmas8 ModelExecute SpecExecute ExecuteLemmas ExecuteLemmas2
  ExecuteLemmas3.
From Verif Require PropsDriver3.
Open Scope Z_scope.

Lemma execute_runs L dr ca c d ts g : runs L dr d ts g ->
  execute L dr ca c d =
    match begin_run L dr ca c ts g d with
    | (None, _) => None
    | (Some (Err e), w) => Some (Err e, w)
    | (Some (Ok p), w) => Some (finish p w)
    end.
Proof.
  intros [HD R]. unfold execute. pose proof (prepare_disk L dr d HD) as D.
  destruct (prepare L dr d) as [r d1]. cbn [fst snd] in *. subst. reflexivity.
Qed.

(** ** Only reading *)

Definition quiet {A} (d : disk) (a : A) (p : prog A) : Prop :=
  finish p d = (a, d) /\ forall n, fst (advances n d p) = d.

Lemma quiet_step {A} d (a : A) p : quiet d a p -> fst (advance d p) = d /\ quiet d a (snd (advance d p)).
Proof.
  intros [F N]. assert (E : fst (advance d p) = d).
  { specialize (N 1%nat). cbn [advances] in N. destruct (advance d p). exact N. }
  split; [exact E|]. split.
  - revert F. destruct p as [b|q k|e k]; cbn [advance finish snd] in *; auto.
    destruct (run_effect d e) as [d2|x] eqn:R; cbn [fst snd] in *; subst; auto.
  - intros n. specialize (N (S n)). cbn [advances] in N. destruct (advance d p) as [d1 p1].
    cbn [fst snd] in *. subst d1. exact N.
Qed.

Lemma interleave_quiet {A} s : forall d (as_ : list A) ps, Forall2 (quiet d) as_ ps ->
  exists ps', interleave s d ps = (d, ps') /\ Forall2 (quiet d) as_ ps'.
Proof.
  induction s as [|i s IH]; intros d as_ ps H; cbn [interleave]; [eauto|].
  destruct (nth_error ps i) as [p|] eqn:E; [|apply IH; exact H].
  assert (X : fst (advance d p) = d /\ Forall2 (quiet d) as_ (set_nth i (snd (advance d p)) ps)).
  { clear IH. revert i p E. induction H as [|a q as_ ps Hq H IH]; intros i p E; [destruct i; discriminate|].
    destruct i as [|i]; cbn [nth_error set_nth] in *.
    - assert (q = p) by congruence. subst q. destruct (quiet_step d a p Hq) as [X1 X2].
      split; [exact X1|]. constructor; assumption.
    - destruct (IH i p E) as [X1 X2]. split; [exact X1|]. constructor; assumption. }
  destruct X as [X1 X2]. destruct (advance d p) as [d1 p1]. cbn [fst snd] in *. subst d1. apply IH. exact X2.
Qed.

Section Reading.
Variables (L : lab) (dr : driver L) (d : disk) (ts : list trial) (g : generators L) (tbs : list table).
Hypothesis Res : Forall2 (fun t tb => has_result L t d tb) ts tbs.

Lemma result_quiet t seed now tb : has_result L t d tb -> quiet d (Ok tb, g) (evaluate L t seed now g).
Proof.
  intros R. split; [apply result_finish; exact R|]. intros n.
  exact (result_stopped L t seed d tb {| at_now := now; at_generators := g; at_steps := n |} R).
Qed.

Lemma workers_quiet seed nows : Forall2 (quiet d) (map (fun tb => (Ok tb, g)) tbs) (workers L ts seed nows g).
Proof.
  unfold workers. generalize O. clear dr. induction Res as [|t tb ts' tbs' R Rs IH]; intros k; cbn [length seq combine map]; constructor.
  - apply result_quiet. exact R.
  - apply IH. exact Rs.
Qed.

Lemma quiet_workers_end seed nows s d1 ps rs : interleave s d (workers L ts seed nows g) = (d1, ps) ->
  worker_results L ps = Some rs -> d1 = d /\ rs = Ok tbs.
Proof.
  intros I R. destruct (interleave_quiet s d _ _ (workers_quiet seed nows)) as [ps' [I' Q]].
  rewrite I in I'. assert (d1 = d) by congruence. assert (ps' = ps) by congruence. subst d1 ps'. split; [reflexivity|].
  destruct (worker_results_some L ps rs R) as [as_ [-> ->]]. clear -Q. revert as_ Q.
  induction tbs as [|tb l IH]; intros as_ Q; destruct as_ as [|a as_]; inversion Q as [|x1 x2 x3 x4 Q1 Q2]; subst; [reflexivity|].
  cbn [fold_right]. rewrite (IH as_ Q2). destruct Q1 as [F _]. cbn [finish] in F.
  assert (a = (Ok tb, g)) by congruence. subst a. reflexivity.
Qed.

Hypothesis ne : ts <> [].
Hypothesis K : disk_ok d.
Hypothesis NR : snd (output_path L dr) <> [].
Hypothesis NoDir : stat d (output_path L dr) <> Some Dir.
Hypothesis Pa : stat d (parent (output_path L dr)) = Some Dir.

Lemma read_report nows : exists d', finish (in_order L dr ts nows g) d = (Ok (concat tbs), d') /\
  stat d' (output_path L dr) = Some (File (lab_print L (concat tbs))) /\
  forall q, q <> output_path L dr -> stat d' q = stat d q.
Proof.
  unfold in_order. rewrite finish_pbind. rewrite (all_results_read L (dr_seed L dr) ts nows g d tbs Res). cbn [fst bind].
  rewrite concat_tables_ok by (eapply Forall2_nonempty; eauto). unfold report. rewrite finish_acts.
  destruct (write_file_ok d (output_path L dr) (lab_print L (concat tbs)) K NR Pa NoDir) as [d' [E [_ [S Fr]]]].
  unfold output_path in E. rewrite E. cbn [fst snd finish bind]. eauto.
Qed.

Lemma reading_run ca c r d' : runs L dr d ts g -> ca_beam ca = false -> execute L dr ca c d = Some (r, d') ->
  r = Ok (concat tbs) /\ stat d' (output_path L dr) = Some (File (lab_print L (concat tbs))) /\
  forall q, q <> output_path L dr -> stat d' q = stat d q.
Proof.
  intros R B E. rewrite (execute_runs L dr ca c d ts g R) in E. unfold begin_run in E. rewrite B in E.
  destruct (ca_cores ca =? 1).
  - destruct (read_report (co_now c)) as [d1 [F [S Fr]]]. rewrite F in E.
    assert (r = Ok (concat tbs)) by congruence. assert (d1 = d') by congruence. subst. auto.
  - destruct (interleave (co_schedule c) d (workers L ts (dr_seed L dr) (co_now c) g)) as [d1 ps] eqn:I.
    destruct (worker_results L ps) as [rs|] eqn:W; [|discriminate].
    destruct (quiet_workers_end _ _ _ _ _ _ I W) as [-> ->]. cbn [bind] in E.
    destruct (read_report (co_later c)) as [d2 [F [S Fr]]]. rewrite F in E.
    assert (r = Ok (concat tbs)) by congruence. assert (d2 = d') by congruence. subst. auto.
Qed.
End Reading.

(** ** Trials that fail *)

Section Failing.
Variables (L : lab) (dr : driver L) (ts : list trial) (g : generators L) (t : trial).
Notation seed := (dr_seed L dr).
Hypothesis sep : separate L ts.
Hypothesis Ht : In t ts.
Hypothesis Bad : forall g', exists e, fst (compute_row L t seed g') = Err e.

Lemma all_fails rest : forall nows g' d, usable L ts d -> (forall u, In u rest -> In u ts) -> NoDup rest ->
  In t rest -> no_result L t d ->
  exists e g2 d', finish (evaluate_all L rest seed nows g') d = ((Err e, g2), d').
Proof.
  induction rest as [|u rest IH]; intros nows g' d U Sub ND Hr N; [destruct Hr|].
  cbn [evaluate_all]. rewrite finish_pbind.
  destruct (evaluate_one L ts sep u seed (nows O) g' d (Sub u (or_introl eq_refl)) U)
    as [a [d1 [E [Ev [U1 [_ [Fr _]]]]]]].
  rewrite E. inversion ND as [|x1 x2 N1 N2]; subst. destruct Hr as [<-|Hr].
  - destruct Ev as [[tb [R _]]|[_ Ev]]; [exfalso; exact (N _ R)|].
    destruct (Bad g') as [e Be]. destruct (compute_row L u seed g') as [r g2]. cbn [fst] in Be. subst r.
    destruct Ev as [-> _]. cbn [fst snd finish]. eauto.
  - destruct (fst a) as [tb|e]; [|cbn [finish]; eauto]. rewrite finish_pbind.
    destruct (IH (fun n => nows (S n)) (snd a) d1 U1) as [e [g2 [d2 E2]]]; auto.
    { intros v Hv. apply Sub. right. exact Hv. }
    { apply (no_result_stat L t d d1); [|exact N]. apply Fr; [exact Ht|]. intros ->. contradiction. }
    rewrite E2. cbn [fst finish]. eauto.
Qed.

Lemma workers_fail nows schedule d d1 ps rs : usable L ts d -> no_result L t d ->
  interleave schedule d (workers L ts seed nows g) = (d1, ps) -> worker_results L ps = Some rs ->
  exists e, rs = Err e.
Proof.
  intros U N I R.
  destruct (interleave_safe L ts sep (legals L ts seed g) (post L ts seed nows g d) schedule d _ d1 ps (usable_inv _ _ _ U)
     (workers_length L ts seed nows g) (workers_safe L ts sep seed nows g d U) I) as [T [Hl Sf]].
  destruct (worker_results_some L ps rs R) as [as_ [-> ->]]. rewrite map_length in Hl.
  destruct (In_nth_error _ _ Ht) as [i Hi].
  destruct (nth_error as_ i) as [a|] eqn:Ha.
  2:{ apply nth_error_None in Ha. assert (i < length ts)%nat by (apply nth_error_Some; congruence). lia. }
  assert (Hp : nth_error (map (fun a => Ret a) as_) i = Some (Ret a)) by (rewrite nth_error_map, Ha; reflexivity).
  specialize (Sf i t (Ret a) Hi Hp). cbn [safe] in Sf. specialize (Sf d1 (rely_refl _ _ _ d1 (proj1 T)) t Hi).
  destruct Sf as [[tb [X _]]|[_ X]]; [exfalso; exact (N _ X)|].
  destruct (Bad g) as [e Be]. destruct (compute_row L t seed g) as [r g2]. cbn [fst] in Be. subst r. destruct X as [X _].
  apply (failing_worker L as_ a e); [eapply nth_error_In; exact Ha|]. rewrite X. reflexivity.
Qed.

Lemma failing_run ca c d r d' : runs L dr d ts g -> usable L ts d -> no_result L t d ->
  execute L dr ca c d = Some (r, d') -> exists e, r = Err e.
Proof.
  intros R U N E. rewrite (execute_runs L dr ca c d ts g R) in E. unfold begin_run in E.
  destruct (ca_beam ca); [|destruct (ca_cores ca =? 1)].
  - destruct (interleave (co_schedule c) d (workers L ts seed (co_now c) g)) as [d1 ps] eqn:I.
    destruct (worker_results L ps) as [rs|] eqn:W; [|discriminate].
    destruct (workers_fail _ _ _ _ _ _ U N I W) as [e ->]. cbn [bind] in E. exists e. congruence.
  - unfold in_order in E. rewrite finish_pbind in E.
    destruct (all_fails ts (co_now c) g d U (fun u H => H) (separate_NoDup L ts sep) Ht N) as [e [g2 [d1 E1]]].
    rewrite E1 in E. cbn [fst bind finish] in E. exists e. congruence.
  - destruct (interleave (co_schedule c) d (workers L ts seed (co_now c) g)) as [d1 ps] eqn:I.
    destruct (worker_results L ps) as [rs|] eqn:W; [|discriminate].
    destruct (workers_fail _ _ _ _ _ _ U N I W) as [e ->]. cbn [bind] in E. exists e. congruence.
Qed.
End Failing.

(** A data set without publishers. *)
Lemma no_publishers_fail L t seed s : dd_by_name (tr_design t) (tr_data_set t) = Ok s -> ds_data s = [] ->
  forall g, exists e, fst (compute_row L t seed g) = Err e.
Proof.
  intros E N g. unfold compute_row. cbv zeta.
  match goal with |- context [match ?b with Ok _ => _ | Err _ => _ end] => destruct b as [[s' h]|e] end; [|cbn; eauto].
  destruct (lab_fit L _ h _ _ _) as [fit w]. cbn [fst].
  assert (X : exists e, independent_vars L t = Err e).
  { unfold independent_vars. rewrite E. cbn [bind]. rewrite N. cbn. eauto. }
  destruct X as [e ->]. cbn [bind]. eauto.
Qed.

Lemma read_no_files F d dirpath : disk_ok d -> file_name (path_name (to_path dirpath)) ->
  stat d (to_path dirpath) = Some Dir ->
  (forall n c, stat d (entry (to_path dirpath) n) <> Some (File c)) ->
  exists s, read_data_set F d dirpath = Ok s /\ ds_data s = [].
Proof.
  intros K FN D N. rewrite (read_data_set_listing F d dirpath [] K D).
  2:{ split; [constructor|]. intros n c. split; [intros []|]. intros X. exact (N n c X). }
  cbn [mapM map bind]. unfold mk_data_set.
  assert (T : truthy (path_name (to_path dirpath)) = true).
  { destruct FN as [X _]. destruct (path_name (to_path dirpath)); [contradiction|reflexivity]. }
  rewrite T. cbn [bind]. eexists. split; reflexivity.
Qed.

(** ** No trials *)

Lemma no_trials_run L dr ca c d g r d' : runs L dr d [] g -> (ca_beam ca = true -> combines c) ->
  execute L dr ca c d = Some (r, d') -> r = Err ValueError /\ d' = d.
Proof.
  intros R C E. rewrite (execute_runs L dr ca c d [] g R) in E. unfold begin_run in E.
  assert (I : forall s, interleave s d (workers L [] (dr_seed L dr) (co_now c) g) = (d, [])).
  { intros s. induction s as [|i s IH]; [reflexivity|]. cbn [interleave workers length seq combine map].
    destruct i; exact IH. }
  rewrite I in E. cbn [worker_results bind] in E.
  destruct (ca_beam ca); [|destruct (ca_cores ca =? 1)].
  - assert (X : combine_output (co_combine c []) = Err ValueError).
    { rewrite PropsDriver3.C38_combine. pose proof (C eq_refl []) as P.
      apply Permutation_sym, Permutation_nil in P. rewrite P. reflexivity. }
    rewrite X in E. cbn [bind] in E. split; congruence.
  - cbn in E. split; congruence.
  - cbn in E. split; congruence.
Qed.

Lemma mapM_all {A B} (f : A -> result B) l : (forall x, In x l -> exists y, f x = Ok y) -> exists ys, mapM f l = Ok ys.
Proof.
  induction l as [|x l IH]; intros H; cbn [mapM]; [eauto|].
  destruct (H x (or_introl eq_refl)) as [y ->]. destruct IH as [ys ->]; [intros z Hz; apply H; right; exact Hz|].
  cbn [bind]. eauto.
Qed.

(** When the driver has trials. *)
Lemma has_trials L dr d descs g : has_data L dr d -> dr_fetch L dr (dr_seed L dr) = Ok (descs, g) ->
  (forall n, stat d (entry (data_dir L dr) n) = Some Dir -> exists s,
     read_data_set (lab_float L) d (os_join (dr_data_design L dr) n) = Ok s /\
     forall desc f, In desc descs -> sp_fractions_generator (td_system desc) = Some f -> exists l, f s = Ok l) ->
  exists ts, runs L dr d ts g.
Proof.
  intros HD Ef H. pose proof HD as [K [D N]].
  destruct (opened_design {| st_disk := d; st_cache := [] |} (dr_data_design L dr) K D) as [de [E [O P]]].
  assert (X : exists ts, generate_trials L {| xd_dir := dr_intermediates L dr;
     xd_data := opened L {| st_disk := d; st_cache := [] |} de;
     xd_descriptors := descs; xd_seed := dr_seed L dr; xd_analysis := dr_analysis L dr |} = Ok ts).
  { unfold generate_trials. cbn [xd_data opened dd_names].
    match goal with |- context [mapM ?f ?l] => destruct (mapM_all f l) as [all ->] end; [|cbn [bind]; eauto].
    intros n Hn. apply (proj2 (design_names L dr d de O P)) in Hn. destruct (H n Hn) as [s [Es Hf]].
    unfold experiment_trials. cbn [xd_data opened dd_by_name xd_descriptors xd_dir xd_analysis].
    rewrite first_read, P, Es. apply mapM_all. intros desc Hd. cbn [bind].
    unfold update_descriptor, update_system.
    destruct (sp_fractions_generator (td_system desc)) as [f|] eqn:Eg.
    - destruct (Hf desc f Hd Eg) as [l ->]. cbn [bind]. eauto.
    - cbn [bind]. eauto. }
  destruct X as [ts X]. exists ts. split; [exact HD|]. unfold prepare. rewrite E. cbn [fst bind]. rewrite Ef. cbn [bind].
  rewrite X. reflexivity.
Qed.

(** Designs and data sets that cannot be read. *)
Lemma unfetched L dr ca c d e : has_data L dr d -> dr_fetch L dr (dr_seed L dr) = Err e ->
  execute L dr ca c d = Some (Err e, d).
Proof.
  intros HD Ef. pose proof HD as [K [D N]]. unfold execute, prepare.
  destruct (opened_design {| st_disk := d; st_cache := [] |} (dr_data_design L dr) K D) as [de [E [O P]]].
  rewrite E. cbn [bind st_disk]. rewrite Ef. reflexivity.
Qed.

Lemma mapM_one_err {A B} (f : A -> result B) l x e : In x l -> f x = Err e -> exists e', mapM f l = Err e'.
Proof.
  intros H Hx. induction l as [|y l IH]; [destruct H|]. cbn [mapM].
  destruct (f y) as [b|e1] eqn:E; [|cbn [bind]; eauto]. destruct H as [->|H]; [congruence|].
  destruct (IH H) as [e' ->]. cbn [bind]. eauto.
Qed.

Lemma unreadable L dr ca c d descs g n desc : has_data L dr d -> dr_fetch L dr (dr_seed L dr) = Ok (descs, g) ->
  stat d (entry (data_dir L dr) n) = Some Dir -> In desc descs ->
  (exists e, read_data_set (lab_float L) d (os_join (dr_data_design L dr) n) = Err e) \/
  (exists s f e, read_data_set (lab_float L) d (os_join (dr_data_design L dr) n) = Ok s /\
     sp_fractions_generator (td_system desc) = Some f /\ f s = Err e) ->
  exists e, execute L dr ca c d = Some (Err e, d).
Proof.
  intros HD Ef Hn Hd Bad. pose proof HD as [K [D N]]. unfold execute, prepare.
  destruct (opened_design {| st_disk := d; st_cache := [] |} (dr_data_design L dr) K D) as [de [E [O P]]].
  rewrite E. cbn [bind st_disk]. rewrite Ef. cbn [bind].
  assert (X : exists e, generate_trials L {| xd_dir := dr_intermediates L dr;
     xd_data := opened L {| st_disk := d; st_cache := [] |} de;
     xd_descriptors := descs; xd_seed := dr_seed L dr; xd_analysis := dr_analysis L dr |} = Err e).
  { unfold generate_trials. cbn [xd_data opened dd_names].
    match goal with |- context [mapM ?f ?l] => assert (X : exists e, f n = Err e) end.
    { unfold experiment_trials. cbn [xd_data opened dd_by_name xd_descriptors xd_dir xd_analysis].
      rewrite first_read, P.
      match goal with |- exists e, mapM ?f ?l = Err e => assert (X : exists e, f desc = Err e) end.
      { destruct Bad as [[e1 ->]|[s [f [e1 [-> [Eg Es]]]]]]; [exists e1; reflexivity|]. cbn [bind].
        unfold update_descriptor, update_system. rewrite Eg, Es. cbn [bind]. eauto. }
      destruct X as [e1 X]. exact (mapM_one_err _ _ _ _ Hd X). }
    destruct X as [e1 X].
    match goal with |- context [mapM ?f ?l] => destruct (mapM_one_err f l n e1) as [e2 ->] end; [|exact X|cbn [bind]; eauto].
    apply (proj2 (design_names L dr d de O P)). exact Hn. }
  destruct X as [e1 ->]. exists e1. reflexivity.
Qed.

(** A data design that is not there. *)
Lemma missing_design L dr ca c d descs g r d' : disk_ok d -> stat d (data_dir L dr) = None ->
  no_file_on_the_way d (data_dir L dr) -> dr_fetch L dr (dr_seed L dr) = Ok (descs, g) ->
  (ca_beam ca = true -> combines c) ->
  execute L dr ca c d = Some (r, d') ->
  r = Err ValueError /\ stat d' (data_dir L dr) = Some Dir /\
  forall q, ~ on_the_way (data_dir L dr) q -> stat d' q = stat d q.
Proof.
  intros K D N Ef C E.
  destruct (open_design_ok {| st_disk := d; st_cache := [] |} (dr_data_design L dr) K N) as [de [st' [M [O [P [_ Fr]]]]]].
  cbn [st_disk] in Fr. pose proof O as [K' [D' [ND Nm]]]. rewrite P in D', Nm. fold (data_dir L dr) in D', Nm, Fr.
  assert (Empty : de_names de = []).
  { destruct (de_names de) as [|n l] eqn:En; [reflexivity|exfalso].
    assert (X : stat (st_disk st') (entry (data_dir L dr) n) = Some Dir) by (apply Nm; left; reflexivity).
    rewrite Fr in X.
    - assert (Y : stat d (parent (entry (data_dir L dr) n)) = Some Dir) by (apply (proj2 (proj2 K)); congruence).
      unfold parent, entry in Y. cbn [fst snd] in Y. rewrite removelast_last in Y.
      destruct (data_dir L dr); cbn [fst snd] in Y. congruence.
    - intros [_ [rest Er]]. apply (f_equal (fun p => length (snd p))) in Er. unfold entry in Er.
      cbn [fst snd] in Er. rewrite !app_length in Er. cbn in Er. lia. }
  assert (Hd : has_data L dr (st_disk st')).
  { split; [exact K'|]. split; [exact D'|]. intros n X. apply Nm in X. rewrite Empty in X. destruct X. }
  assert (X : prepare L dr d = (Ok ([], g), st_disk st')).
  { unfold prepare. rewrite M. cbn [bind]. rewrite Ef. cbn [bind]. unfold generate_trials.
    cbn [xd_data opened dd_names]. unfold sorted_names. rewrite Empty. reflexivity. }
  assert (R : runs L dr (st_disk st') [] g).
  { split; [exact Hd|].
    destruct (opened_design {| st_disk := st_disk st'; st_cache := [] |} (dr_data_design L dr) K' D') as [de' [M' [O' P']]].
    unfold prepare. rewrite M'. cbn [fst bind]. rewrite Ef. cbn [bind]. unfold generate_trials.
    cbn [xd_data opened dd_names].
    assert (Empty' : sorted_names de' = []).
    { destruct (sorted_names de') as [|n l] eqn:En; [reflexivity|exfalso].
      pose proof (proj2 (design_names L dr (st_disk st') de' O' P') n) as Z. rewrite En in Z.
      pose proof (proj1 Z (or_introl eq_refl)) as Y. apply Nm in Y. rewrite Empty in Y. destruct Y. }
    rewrite Empty'. reflexivity. }
  assert (E2 : execute L dr ca c (st_disk st') = Some (r, d')).
  { rewrite <- E. rewrite (execute_runs L dr ca c _ [] g R). unfold execute. rewrite X. reflexivity. }
  destruct (no_trials_run L dr ca c (st_disk st') g r d' R C E2) as [-> ->].
  split; [reflexivity|]. split; [exact D'|exact Fr].
Qed.

(** ** Every run can be brought to its end *)

Definition continued (c : course) (rest : list nat) : course :=
  {| co_now := co_now c; co_later := co_later c; co_schedule := co_schedule c ++ rest; co_combine := co_combine c |}.

Lemma run_ends L dr ca c d : exists rest r d', execute L dr ca (continued c rest) d = Some (r, d').
Proof.
  unfold execute. destruct (prepare L dr d) as [[[ts g]|e] d1]; [|exists []; eauto].
  unfold begin_run. cbn [continued co_schedule co_now co_later co_combine].
  destruct (ca_beam ca); [|destruct (ca_cores ca =? 1)].
  - destruct (interleave (co_schedule c) d1 (workers L ts (dr_seed L dr) (co_now c) g)) as [w ps] eqn:I.
    destruct (run_to_end ps w) as [rest [w' [as_ E]]]. exists rest. rewrite interleave_app, I, E.
    destruct (worker_results_ret L as_) as [rs ->]. destruct rs as [tbs|e]; cbn [bind]; [|eauto].
    destruct (combine_output (co_combine c tbs)); cbn [bind]; [|eauto].
    match goal with |- context [finish ?p ?x] => destruct (finish p x) as [r d'] end. eauto.
  - exists []. match goal with |- context [finish ?p ?x] => destruct (finish p x) as [r d'] end. eauto.
  - destruct (interleave (co_schedule c) d1 (workers L ts (dr_seed L dr) (co_now c) g)) as [w ps] eqn:I.
    destruct (run_to_end ps w) as [rest [w' [as_ E]]]. exists rest. rewrite interleave_app, I, E.
    destruct (worker_results_ret L as_) as [rs ->]. destruct rs as [tbs|e]; cbn [bind]; [|eauto].
    match goal with |- context [finish ?p ?x] => destruct (finish p x) as [r d'] end. eauto.
Qed.

(** ** The directory of the output is not there *)

Lemma missing_output L dr ca c d ts g tbs r d' : good_run L dr d ts g tbs -> reads_back L (dr_seed L dr) g ts ->
  ca_beam ca = false ->
  stat d (parent (output_path L dr)) = None ->
  (forall t, In t ts -> parent (output_path L dr) <> out_of L t /\ parent (output_path L dr) <> pending_path L t /\
                        ~ directory_of L t (parent (output_path L dr))) ->
  execute L dr ca c d = Some (r, d') ->
  r = Err FileNotFoundError /\ results_left L ts tbs d d' /\ only_adds_directories L ts d d'.
Proof.
  intros [R [ne [S [U [An Un]]]]] RB B M Nt E. apply sane_separate in S.
  assert (St : forall d1 tb, only_adds_directories L ts d d1 ->
    finish (report L dr tb) d1 = (Err FileNotFoundError, d1)).
  { intros d1 tb O. unfold report. rewrite finish_acts. unfold write_file_ops. cbn [run_ops run_op].
    fold (output_path L dr).
    assert (M1 : stat d1 (parent (output_path L dr)) = None).
    { destruct (node_dec (stat d1 (parent (output_path L dr))) (stat d (parent (output_path L dr)))) as [X|X]; [congruence|exfalso].
      destruct (O _ X) as [[t [Ht [Y|Y]]]|[_ [_ [t [Ht Y]]]]]; destruct (Nt t Ht) as [N1 [N2 N3]]; auto. }
    rewrite M1. reflexivity. }
  pose proof (comp L dr ts g tbs d An) as C.
  assert (Len : concat_tables tbs = Ok (concat tbs)) by (apply concat_tables_ok; eapply Forall2_nonempty; eauto).
  rewrite (execute_runs L dr ca c d ts g R) in E. unfold begin_run in E. rewrite B in E.
  destruct (ca_cores ca =? 1).
  - unfold in_order in E. rewrite finish_pbind in E.
    destruct (run_all L ts S (dr_seed L dr) g d Un C ts (co_now c) g d (separate_NoDup L ts S) (reached_start L ts (dr_seed L dr) g d U))
      as [tbs' [g' [d1 [E1 [F1 [F2 [F3 [F4 _]]]]]]]].
    rewrite (same_answers L dr ts g tbs d An tbs' F1) in *. rewrite E1 in E. cbn [fst bind] in E. rewrite Len in E.
    rewrite St in E by exact F3. assert (d1 = d') by congruence. subst d1. split; [congruence|]. auto.
  - destruct (interleave (co_schedule c) d (workers L ts (dr_seed L dr) (co_now c) g)) as [d1 ps] eqn:I.
    destruct (worker_results L ps) as [rs|] eqn:W; [|discriminate].
    destruct (workers_finish L ts S (dr_seed L dr) (co_now c) g d U C (co_schedule c) d1 ps rs I W) as [U' [O [tbs' [-> [F1 F2]]]]].
    rewrite (same_answers L dr ts g tbs d An tbs' F1) in *. cbn [bind] in E.
    assert (RL : results_left L ts tbs d d1).
    { unfold results_left. eapply Forall2_impl_In; [|exact F2]. intros t tb _ _ [[H1 [H2 _]]|[H1 [H2 _]]]; auto. }
    pose proof (left_results L ts (dr_seed L dr) g d d1 tbs RB An RL) as RR.
    unfold in_order in E. rewrite finish_pbind in E.
    rewrite (all_results_read L (dr_seed L dr) ts (co_later c) g d1 tbs RR) in E. cbn [fst bind] in E. rewrite Len in E.
    rewrite St in E by exact O. assert (d1 = d') by congruence. subst d1. split; [congruence|]. auto.
Qed.
