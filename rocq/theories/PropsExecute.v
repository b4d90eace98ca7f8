(** C53: running the experiment driver. *)
From Coq Require Import String Ascii Permutation Sorted.
From Verif Require Import Prelude ModelReachPoint ModelData ModelHalo ModelAggregator ModelFiles SpecFiles
  FilesLemmas FilesLemmas2 FilesLemmas3 ModelDriver SpecDriver DriverLemmas DriverLemmas2 DriverLemmas3
  DriverLemmas4 DriverLemmas6 DriverLemmas7 DriverLemmas8 ModelExecute SpecExecute ExecuteLemmas ExecuteLemmas2
  ExecuteLemmas3 ExecuteLemmas4 ExampleDriver PropsDriver PropsDriver2 PropsDriver3 PropsDriver4.
Open Scope Z_scope.

(** ** Which trials are run *)

(** The trials are for the subdirectories of the data design, in the order of their names, and
    within a data set for the descriptors of the experimental design in their order; of trials
    with the same name the first one stays. *)
Theorem C53_trials : forall L dr d ts g, runs L dr d ts g ->
  exists names descs all, data_sets L dr d names /\ dr_fetch L dr (dr_seed L dr) = Ok (descs, g) /\
    ((forall desc, In desc descs -> NoDup (map fst (ep_test_kwargs (td_experiment desc)))) ->
     Forall2 (fun nd t => trial_on L dr d (fst nd) (snd nd) t) (list_prod names descs) all) /\
    part_of ts all /\ NoDup (map (trial_name L) ts) /\
    (forall t, In t ts -> exists l1 l2, all = l1 ++ t :: l2 /\
       forall u, In u l1 -> trial_name L u <> trial_name L t) /\
    forall t, In t all -> exists t', In t' ts /\ trial_name L t' = trial_name L t.
Proof.
  intros L dr d ts g R. destruct (prepared L dr d ts g R) as [names [descs [all [H1 [H2 [H3 ->]]]]]].
  exists names, descs, all. split; [exact H1|]. split; [exact H2|]. split; [exact H3|].
  destruct (dedup_spec L all []) as [P [N [_ [C F]]]].
  split; [exact P|]. split; [exact N|]. split; [exact F|]. intros t Ht. destruct (C t Ht) as [[]|X]. exact X.
Qed.
Print Assumptions C53_trials.

(** There are trials whenever the data sets can be read and the spend fractions can be made
    up. *)
Theorem C53_starts : forall L dr d descs g, has_data L dr d -> dr_fetch L dr (dr_seed L dr) = Ok (descs, g) ->
  (forall n, stat d (entry (data_dir L dr) n) = Some Dir -> exists s,
     read_data_set (lab_float L) d (os_join (dr_data_design L dr) n) = Ok s /\
     forall desc f, In desc descs -> sp_fractions_generator (td_system desc) = Some f -> exists l, f s = Ok l) ->
  exists ts, runs L dr d ts g.
Proof. exact has_trials. Qed.
Print Assumptions C53_starts.

(** ** Runs that end *)

(** On one core: the tables of the trials in the order of the trials, returned and written. *)
Theorem C53_one_core : forall L dr ca c d ts g tbs xs,
  good_run L dr d ts g tbs -> Forall (place_for L dr ts d) xs -> In (output_path L dr) xs ->
  ca_beam ca = false -> ca_cores ca = 1 ->
  exists d', execute L dr ca c d = Some (Ok (concat tbs), d') /\
    written L dr ts xs (concat tbs) d d' /\ results_left L ts tbs d d'.
Proof.
  intros L dr ca c d ts g tbs xs [R [ne [S [U [An Un]]]]] P Hx B C. apply sane_separate in S.
  rewrite (execute_runs L dr ca c d ts g R). unfold begin_run. rewrite B, C. cbn [Z.eqb Pos.eqb].
  pose proof (in_order_ends L dr ts g tbs xs S ne Hx d P U An (co_now c) Un) as [E [[_ [T RL]] O]].
  destruct (finish (in_order L dr ts (co_now c) g) d) as [r d']. cbn [fst snd] in *. subst r.
  exists d'. split; [reflexivity|]. split; [split; assumption|exact RL].
Qed.
Print Assumptions C53_one_core.

(** In whatever way the trials are run, and whatever the schedule: if the run ends, the same
    tables; with Beam the rows may come in another order. *)
Theorem C53_any_way : forall L dr ca c d ts g tbs xs r d',
  good_run L dr d ts g tbs -> Forall (place_for L dr ts d) xs -> In (output_path L dr) xs ->
  call_ok L xs (concat tbs) ca c ->
  (ca_beam ca = false -> ca_cores ca <> 1 -> reads_back L (dr_seed L dr) g ts) ->
  execute L dr ca c d = Some (r, d') ->
  exists tb, r = Ok tb /\ Permutation tb (concat tbs) /\ (ca_beam ca = false -> tb = concat tbs) /\
    written L dr ts xs tb d d' /\ results_left L ts tbs d d'.
Proof.
  intros L dr ca c d ts g tbs xs r d' [R [ne [S [U [An Un]]]]] P Hx CO RB E. apply sane_separate in S.
  rewrite (execute_runs L dr ca c d ts g R) in E.
  destruct (begin_run L dr ca c ts g d) as [[o|] d1] eqn:B; [|discriminate].
  destruct (begin_ends L dr ts g tbs xs S ne Hx d P U An ca c o d1 CO) as [p [tb [-> [P1 [P2 P3]]]]]; auto.
  destruct (finish p d1) as [r1 d2] eqn:F. assert (r1 = r) by congruence. assert (d2 = d') by congruence. subst.
  destruct P3 as [E1 [[_ [T RL]] O]]. cbn [fst snd] in *.
  exists tb. split; [exact E1|]. split; [exact P1|]. split; [exact P2|]. split; [split; assumption|exact RL].
Qed.
Print Assumptions C53_any_way.

(** Every run can be brought to its end: whatever the workers have done so far, they can be
    continued until there is an answer. *)
Theorem C53_ends : forall L dr ca c d, exists rest r d', execute L dr ca (continued c rest) d = Some (r, d').
Proof. exact run_ends. Qed.
Print Assumptions C53_ends.

(** ** Runs that were stopped *)

(** After any number of runs that were stopped anywhere, one by one or several workers at a
    time, a run gives the tables that the first one would have given, and writes them. *)
Theorem C53_interrupted : forall L dr d ts g tbs xs l ca c r d',
  good_run L dr d ts g tbs -> apart L dr ts -> good_reader L dr ts g ->
  Forall (place_for L dr ts d) xs -> In (output_path L dr) xs ->
  Forall (fun a => call_ok L xs (concat tbs) (pr_call a) (pr_course a)) l ->
  call_ok L xs (concat tbs) ca c ->
  execute L dr ca c (after_past L dr d l) = Some (r, d') ->
  exists tb, r = Ok tb /\ Permutation tb (concat tbs) /\ (ca_beam ca = false -> tb = concat tbs) /\
    written L dr ts xs tb d d' /\ Forall2 (fun t tb => has_result L t d' tb) ts tbs.
Proof.
  intros L dr d ts g tbs xs l ca c r d' [R [ne [S [U [An Un]]]]] Ap [RB RP] P Hx Past CO E. apply sane_separate in S.
  pose proof (fine_past L dr ts g tbs xs S ne Hx d P U An Un RB RP R Ap l Past d
    (fine_start L ts d xs U (dr_seed L dr) g (concat tbs))) as F.
  destruct (fine_execute L dr ts g tbs xs S ne Hx d P U An Un RB RP R Ap _ ca c r d' F CO E) as [tb [P1 [P2 [E1 [[U2 [T RL]] O]]]]].
  cbn [fst snd] in *. exists tb. split; [exact E1|]. split; [exact P1|]. split; [exact P2|]. split.
  - split; [exact O|]. eapply touches_trans; [|exact T]. apply F.
  - eapply (left_results L ts (dr_seed L dr) g (after_past L dr d l)); [exact RB| |exact RL].
    exact (fine_tables L dr ts g tbs xs d An RB RP _ F).
Qed.
Print Assumptions C53_interrupted.

(** At every point of such a history: nothing in the directory of the data design has changed,
    so that reading a data set gives the same at any time; and the output file is as it was or
    has been written, up to some point, with a table of the same rows. *)
Theorem C53_meanwhile : forall L dr d ts g tbs xs l,
  good_run L dr d ts g tbs -> apart L dr ts -> good_reader L dr ts g ->
  Forall (place_for L dr ts d) xs -> In (output_path L dr) xs ->
  Forall (fun a => call_ok L xs (concat tbs) (pr_call a) (pr_course a)) l ->
  let d' := after_past L dr d l in
  (forall q, within (data_dir L dr) q -> stat d' q = stat d q) /\
  (forall dirpath, within (data_dir L dr) (to_path dirpath) ->
     read_data_set (lab_float L) d' dirpath = read_data_set (lab_float L) d dirpath) /\
  touches L ts xs d d' /\
  forall x, In x xs -> stat d' x = stat d x \/
    exists tb c, Permutation tb (concat tbs) /\ stat d' x = Some (File c) /\ written_part c (lab_print L tb).
Proof.
  intros L dr d ts g tbs xs l [R [ne [S [U [An Un]]]]] Ap [RB RP] P Hx Past d'. apply sane_separate in S.
  pose proof (fine_past L dr ts g tbs xs S ne Hx d P U An Un RB RP R Ap l Past d
    (fine_start L ts d xs U (dr_seed L dr) g (concat tbs))) as F.
  fold d' in F. pose proof F as [F1 [F2 [F3 F4]]].
  pose proof (data_kept L ts dr d xs P d' Ap F2) as K.
  split; [exact K|]. split; [|split; [exact F2|exact F4]].
  intros dirpath [r1 Hd]. apply read_depends; [apply U|apply F1|]. intros q [r2 ->]. apply K.
  rewrite Hd. cbn [fst snd]. exists (r1 ++ r2). rewrite <- app_assoc. reflexivity.
Qed.
Print Assumptions C53_meanwhile.

(** ** Results that are there are used *)

(** When all results files can be read the run returns their tables: neither the seed, nor the
    kind of analysis, nor the contents of the data sets have any influence. *)
Theorem C53_stale : forall L dr ca c d ts g tbs r d',
  runs L dr d ts g -> ts <> [] -> Forall2 (fun t tb => has_result L t d tb) ts tbs ->
  snd (output_path L dr) <> [] -> stat d (output_path L dr) <> Some Dir ->
  stat d (parent (output_path L dr)) = Some Dir -> ca_beam ca = false ->
  execute L dr ca c d = Some (r, d') ->
  r = Ok (concat tbs) /\ stat d' (output_path L dr) = Some (File (lab_print L (concat tbs))) /\
  forall q, q <> output_path L dr -> stat d' q = stat d q.
Proof.
  intros L dr ca c d ts g tbs r d' R ne Res N1 N2 N3 B E.
  exact (reading_run L dr d ts g tbs Res ne (proj1 (proj1 R)) N1 N2 N3 ca c r d' R B E).
Qed.
Print Assumptions C53_stale.

(** Where the temporary file of a run with Beam is. *)
Theorem C53_temporary : forall temp, temp_result_path temp =
  match temp with
  | ""%string => (true, ["temp_result.csv"%string])
  | _ => entry (to_path temp) "temp_result.csv"
  end.
Proof.
  intros [|a s]; [reflexivity|]. unfold temp_result_path. cbn [truthy].
  set (t := String a s). change (String.append t "/temp_result.csv") with (String.append t (String slash "temp_result.csv")).
  assert (N : file_name "temp_result.csv") by (split; [discriminate|]; split; [discriminate|]; split; [discriminate|];
    cbn; intros X; repeat (destruct X as [X|X]; [discriminate|]); exact X).
  unfold to_path at 1, entry, to_path. cbn [fst snd]. f_equal.
  rewrite list_ascii_app. change (list_ascii_of_string (String slash "temp_result.csv")) with (slash :: list_ascii_of_string "temp_result.csv").
  rewrite !split_on_app_gen, !map_app, !filter_app. pose proof (keep_file_name _ N) as K. unfold text in *. rewrite K. reflexivity.
Qed.
Print Assumptions C53_temporary.

(** ** Runs that fail *)

(** A trial that cannot be computed and has no results file makes every run fail. *)
Theorem C53_failure : forall L dr ca c d ts g t r d',
  runs L dr d ts g -> sane_trials L ts -> usable L ts d -> In t ts -> no_result L t d ->
  (forall g', exists e, fst (compute_row L t (dr_seed L dr) g') = Err e) ->
  execute L dr ca c d = Some (r, d') -> exists e, r = Err e.
Proof.
  intros L dr ca c d ts g t r d' R S U Ht N Bad E.
  exact (failing_run L dr ts g t (sane_separate _ _ S) Ht Bad ca c d r d' R U N E).
Qed.
Print Assumptions C53_failure.

(** Such as a trial for a subdirectory of the data design that has no files in it. *)
Theorem C53_no_files : forall L dr ca c d ts g t r d',
  runs L dr d ts g -> sane_trials L ts -> usable L ts d -> In t ts -> no_result L t d ->
  dd_by_name (tr_design t) (tr_data_set t) =
    read_data_set (lab_float L) d (os_join (dr_data_design L dr) (tr_data_set t)) ->
  stat d (entry (data_dir L dr) (tr_data_set t)) = Some Dir ->
  (forall n x, stat d (entry (entry (data_dir L dr) (tr_data_set t)) n) <> Some (File x)) ->
  execute L dr ca c d = Some (r, d') -> exists e, r = Err e.
Proof.
  intros L dr ca c d ts g t r d' R S U Ht N Rd D Nf E. pose proof (proj2 (proj2 (proj1 R)) _ D) as FN.
  pose proof (to_path_os_join (dr_data_design L dr) _ FN) as Ep. fold (data_dir L dr) in Ep.
  destruct (read_no_files (lab_float L) d (os_join (dr_data_design L dr) (tr_data_set t))) as [s [E1 E2]].
  - apply U.
  - rewrite Ep. unfold path_name, entry. cbn [snd]. rewrite last_last. exact FN.
  - rewrite Ep. exact D.
  - rewrite Ep. exact Nf.
  - apply (C53_failure L dr ca c d ts g t r d' R S U Ht N); [|exact E].
    apply (no_publishers_fail L t _ s); [congruence|exact E2].
Qed.
Print Assumptions C53_no_files.

(** An experimental design that cannot be loaded, a data set that cannot be read and spend
    fractions that cannot be made up stop the run before it has changed anything. *)
Theorem C53_no_design : forall L dr ca c d e, has_data L dr d -> dr_fetch L dr (dr_seed L dr) = Err e ->
  execute L dr ca c d = Some (Err e, d).
Proof. exact unfetched. Qed.
Print Assumptions C53_no_design.

Theorem C53_unreadable : forall L dr ca c d descs g n desc,
  has_data L dr d -> dr_fetch L dr (dr_seed L dr) = Ok (descs, g) ->
  stat d (entry (data_dir L dr) n) = Some Dir -> In desc descs ->
  (exists e, read_data_set (lab_float L) d (os_join (dr_data_design L dr) n) = Err e) \/
  (exists s f e, read_data_set (lab_float L) d (os_join (dr_data_design L dr) n) = Ok s /\
     sp_fractions_generator (td_system desc) = Some f /\ f s = Err e) ->
  exists e, execute L dr ca c d = Some (Err e, d).
Proof. exact unreadable. Qed.
Print Assumptions C53_unreadable.

(** Without trials there is nothing to put together. *)
Theorem C53_no_trials : forall L dr ca c d g r d', runs L dr d [] g -> (ca_beam ca = true -> combines c) ->
  execute L dr ca c d = Some (r, d') -> r = Err ValueError /\ d' = d.
Proof. exact no_trials_run. Qed.
Print Assumptions C53_no_trials.

(** A data design that is not there is made, and the run fails for want of data sets. *)
Theorem C53_missing_design : forall L dr ca c d descs g r d', disk_ok d -> stat d (data_dir L dr) = None ->
  no_file_on_the_way d (data_dir L dr) -> dr_fetch L dr (dr_seed L dr) = Ok (descs, g) ->
  (ca_beam ca = true -> combines c) ->
  execute L dr ca c d = Some (r, d') ->
  r = Err ValueError /\ stat d' (data_dir L dr) = Some Dir /\
  forall q, ~ on_the_way (data_dir L dr) q -> stat d' q = stat d q.
Proof. exact missing_design. Qed.
Print Assumptions C53_missing_design.

(** If the directory of the output file is not there, the run fails after all trials have been
    computed; their results are on the disk. *)
Theorem C53_missing_output : forall L dr ca c d ts g tbs r d',
  good_run L dr d ts g tbs -> reads_back L (dr_seed L dr) g ts -> ca_beam ca = false ->
  stat d (parent (output_path L dr)) = None ->
  (forall t, In t ts -> parent (output_path L dr) <> out_of L t /\ parent (output_path L dr) <> pending_path L t /\
                        ~ directory_of L t (parent (output_path L dr))) ->
  execute L dr ca c d = Some (r, d') ->
  r = Err FileNotFoundError /\ results_left L ts tbs d d' /\ only_adds_directories L ts d d'.
Proof. exact missing_output. Qed.
Print Assumptions C53_missing_output.

(** If the results are kept within the data design, the directory they are in is a data set in
    every later run. *)
Theorem C53_nested : forall L dr ca c d ts g tbs xs r d' n,
  good_run L dr d ts g tbs -> Forall (place_for L dr ts d) xs -> In (output_path L dr) xs ->
  call_ok L xs (concat tbs) ca c ->
  (ca_beam ca = false -> ca_cores ca <> 1 -> reads_back L (dr_seed L dr) g ts) ->
  to_path (dr_intermediates L dr) = entry (data_dir L dr) n ->
  (forall t, In t ts -> within (to_path (dr_intermediates L dr)) (parent (out_of L t))) ->
  execute L dr ca c d = Some (r, d') ->
  forall names, data_sets L dr d' names -> In n names.
Proof.
  intros L dr ca c d ts g tbs xs r d' n G P Hx CO RB En Wn E names [_ H].
  pose proof G as [R [ne [S [U [An Un]]]]].
  rewrite (execute_runs L dr ca c d ts g R) in E.
  destruct (begin_run L dr ca c ts g d) as [[o|] d1] eqn:B; [|discriminate].
  destruct (begin_ends L dr ts g tbs xs (sane_separate _ _ S) ne Hx d P U An ca c o d1 CO) as [p [tb [-> [P1 [P2 P3]]]]]; auto.
  destruct (finish p d1) as [r1 d2] eqn:F. assert (d2 = d') by congruence. subst d2.
  destruct P3 as [E1 [[U2 [T RL]] O]]. cbn [fst snd] in *.
  destruct ts as [|t ts']; [contradiction|].
  destruct (left_files L (t :: ts') tbs d d' RL t (or_introl eq_refl)) as [x Ex].
  apply H. rewrite <- En.
  assert (D : stat d' (parent (out_of L t)) = Some Dir) by (apply (proj2 (proj2 (proj1 U2))); congruence).
  eapply on_the_way_stat; [apply U2|exact D|]. split; [|apply Wn; left; reflexivity].
  rewrite En. unfold entry. cbn [snd]. destruct (snd (data_dir L dr)); discriminate.
Qed.
Print Assumptions C53_nested.

(** ** A small run: one data set, two replicas, one of them listed twice *)

Definition toy_disk : disk :=
  [(to_path "/x", Dir); (to_path "/x/data", Dir); (to_path "/x/data/ds", Dir);
   (to_path "/x/data/ds/p", File (chars "1,1" ++ newline :: chars "2,4" ++ [newline]))].
Definition toy_driver : driver strict :=
  {| dr_data_design := "/x/data";
     dr_fetch := fun _ => Ok ([toy_descriptor 0 0; toy_descriptor 1 1; toy_descriptor 0 0], strict_start);
     dr_output := "/x/out.csv"; dr_intermediates := "/x/exp"; dr_seed := 1; dr_analysis := "" |}.
Definition toy_store : store := {| st_disk := toy_disk; st_cache := [] |}.
Definition toy_opened : data_design :=
  match mk_design toy_store "/x/data" with
  | (Ok de, st) => opened strict st de
  | (Err _, _) => toy_design
  end.
Definition run_trial (generator : nat) (replica : Z) : trial :=
  {| tr_experiment_dir := "/x/exp"; tr_design := toy_opened; tr_data_set := "ds";
     tr_descriptor := toy_descriptor generator replica; tr_analysis := "" |}.
Definition toy_run : list trial := [run_trial 0 0; run_trial 1 1].

Lemma stat_listed (d : disk) p n : stat d p = Some n -> snd p = [] \/ In (p, n) d.
Proof.
  unfold stat. destruct (snd p) eqn:E; [auto|]. intros H. right. clear E.
  induction d as [|[q m] r IH]; cbn [disk_find] in H; [discriminate|].
  destruct (path_eqb p q) eqn:Eq.
  - apply path_eqb_spec in Eq. subst q. injection H as ->. left. reflexivity.
  - right. apply IH. exact H.
Qed.

Lemma stat_in (d : disk) p n : disk_ok d -> In (p, n) d -> stat d p = Some n.
Proof.
  intros [N [R _]] H. pose proof (R p n H) as X. unfold stat. destruct (snd p); [contradiction|].
  apply disk_find_in; assumption.
Qed.

Lemma toy_disk_ok : disk_ok toy_disk.
Proof.
  split; [|split].
  - repeat constructor; cbn; intros X; repeat (destruct X as [X|X]; [discriminate|]); exact X.
  - intros p n X. repeat (destruct X as [X|X]; [inversion X; subst; discriminate|]). destruct X.
  - intros p Hp. destruct (stat toy_disk p) as [n|] eqn:E; [|contradiction].
    apply stat_listed in E. destruct E as [E|E].
    + destruct p as [a l]. cbn in E. subst l. reflexivity.
    + repeat (destruct E as [E|E]; [inversion E; subst; reflexivity|]). destruct E.
Qed.

Lemma toy_entries n : stat toy_disk (entry (to_path "/x/data") n) = Some Dir -> n = "ds"%string.
Proof.
  intros E. apply stat_listed in E. destruct E as [E|E]; [discriminate|].
  repeat (destruct E as [E|E]; [inversion E; subst; reflexivity|]). destruct E.
Qed.

Lemma toy_runs : runs strict toy_driver toy_disk toy_run strict_start.
Proof.
  split.
  - split; [exact toy_disk_ok|]. split; [reflexivity|]. intros n Hn. rewrite (toy_entries n Hn).
    split; [discriminate|]. split; [discriminate|]. split; [discriminate|].
    cbn. intros X. repeat (destruct X as [X|X]; [discriminate|]). exact X.
  - reflexivity.
Qed.

Lemma sane_alike ts us : Forall2 (fun t u => tr_experiment_dir t = tr_experiment_dir u /\ tr_data_set t = tr_data_set u /\
    tr_descriptor t = tr_descriptor u) ts us -> sane_trials strict us -> sane_trials strict ts.
Proof.
  intros F [dir [H1 [H2 [H3 [H4 H5]]]]].
  assert (W : forall t, In t ts -> exists u, In u us /\
            tr_experiment_dir t = tr_experiment_dir u /\ tr_data_set t = tr_data_set u /\ tr_descriptor t = tr_descriptor u /\
            results_path toy_float t = results_path toy_float u).
  { clear -F. induction F as [|t u l m [A [B C]] F IH]; intros x []; [subst x|].
    - exists u. split; [left; reflexivity|]. split; [exact A|]. split; [exact B|]. split; [exact C|].
      unfold results_path. rewrite A, B, C. reflexivity.
    - destruct (IH x H) as [v [Hv X]]. exists v. split; [right; exact Hv|exact X]. }
  exists dir. split; [exact H1|]. split; [exact H2|]. split; [|split].
  - intros t Ht. destruct (W t Ht) as [u [Hu [E1 [E2 [E3 E4]]]]]. destruct (H3 u Hu) as [A1 [A2 [A3 A4]]].
    rewrite E1, E2, E3. change (lab_float strict) with toy_float. rewrite E4. repeat split; try assumption; apply A2 || apply A4.
  - intros t t' Ht Ht'. destruct (W t Ht) as [u [Hu [_ [_ [_ E]]]]]. destruct (W t' Ht') as [u' [Hu' [_ [_ [_ E']]]]].
    change (lab_float strict) with toy_float. rewrite E, E'. apply H4; assumption.
  - clear -F H5. assert (E : map (fun t => (tr_data_set t, show_descriptor (lab_float strict) (tr_descriptor t))) ts =
      map (fun t => (tr_data_set t, show_descriptor (lab_float strict) (tr_descriptor t))) us).
    { induction F as [|t u l m [A [B C]] F IH]; [reflexivity|]. cbn [map]. cbn [map] in H5. inversion H5; subst.
      rewrite B, C, IH by assumption. reflexivity. }
    rewrite E. exact H5.
Qed.

Lemma toy_run_sane : sane_trials strict toy_run.
Proof.
  apply (sane_alike _ [toy_trial 0 0; toy_trial 1 1]); [|apply toy_two_sane].
  constructor; [|constructor; [|constructor]]; repeat split.
Qed.

Lemma toy_run_paths t : In t toy_run -> exists a b,
  out_of strict t = (true, ["x"; "exp"; "ds"; a])%string /\ pending_path strict t = (true, ["x"; "pending"; b])%string.
Proof.
  intros Ht. destruct toy_run_sane as [dir [H1 [_ [H3 _]]]]. destruct (H3 t Ht) as [E [A [B C]]].
  assert (D : tr_experiment_dir t = "/x/exp"%string /\ tr_data_set t = "ds"%string)
    by (destruct Ht as [<-|[<-|[]]]; split; reflexivity). destruct D as [D1 D2].
  eexists _, _. split.
  - rewrite out_path; [|rewrite D1; discriminate|exact A|exact B]. rewrite D1, D2. reflexivity.
  - rewrite pend_path by exact C. rewrite D1. reflexivity.
Qed.

Ltac by_listing := let E := fresh in intros E; apply stat_listed in E; destruct E as [E|E];
  [discriminate|repeat (destruct E as [E|E]; [discriminate|]); destruct E].

Lemma toy_run_fresh t n : In t toy_run -> stat toy_disk (out_of strict t) <> Some n /\ stat toy_disk (pending_path strict t) <> Some n.
Proof. intros Ht. destruct (toy_run_paths t Ht) as [a [b [-> ->]]]. split; by_listing. Qed.

Lemma within_parts a l m : within (a, l) (a, m) -> exists r, m = l ++ r.
Proof. intros [r E]. exists r. cbn [fst snd] in E. congruence. Qed.

Lemma toy_run_usable : usable strict toy_run toy_disk.
Proof.
  split; [exact toy_disk_ok|]. intros t Ht. split; [|split; apply toy_run_fresh; exact Ht].
  intros q c H E. destruct (toy_run_paths t Ht) as [a [b [E1 E2]]]. unfold directory_of in H. rewrite E1, E2 in H.
  apply stat_listed in E. destruct E as [E|E].
  - destruct H as [[H _]|[H _]]; contradiction.
  - repeat (destruct E as [E|E]; [try discriminate|]); [|destruct E].
    inversion E; subst. destruct H as [[_ [r H]]|[_ [r H]]]; cbn in H; inversion H.
Qed.

Lemma toy_run_none t : In t toy_run -> no_result strict t toy_disk.
Proof. intros Ht tb [c [E _]]. exact (proj1 (toy_run_fresh t _ Ht) E). Qed.

Lemma run_rows n r g : (n = 0 /\ r = 0 \/ n = 1 /\ r = 1)%Z -> g (Z.to_nat n) = 0 ->
  fst (compute_row strict (run_trial (Z.to_nat n) r) 1 g) = Ok (toy_row r 0).
Proof.
  intros H E. rewrite (compute_row_own strict _ _ g strict_start) by exact E.
  destruct H as [[-> ->]|[-> ->]]; vm_compute; reflexivity.
Qed.
Lemma run_row0 g : g 0%nat = 0 -> fst (compute_row strict (run_trial 0 0) 1 g) = Ok (toy_row 0 0).
Proof. apply (run_rows 0 0). auto. Qed.
Lemma run_row1 g : g 1%nat = 0 -> fst (compute_row strict (run_trial 1 1) 1 g) = Ok (toy_row 1 0).
Proof. apply (run_rows 1 1). auto. Qed.

Definition toy_tables : list table := [[toy_row 0 0]; [toy_row 1 0]].
Lemma toy_good_run : good_run strict toy_driver toy_disk toy_run strict_start toy_tables.
Proof.
  split; [exact toy_runs|]. split; [discriminate|]. split; [exact toy_run_sane|]. split; [exact toy_run_usable|].
  split.
  - constructor; [|constructor; [|constructor]]; right; (split; [apply toy_run_none; cbn; auto|]); eexists;
      (split; [|reflexivity]); [apply run_row0|apply run_row1]; reflexivity.
  - apply own_generators_unaffected. intros t t' [<-|[<-|[]]] [<-|[<-|[]]] E; try reflexivity; discriminate.
Qed.

Lemma toy_good_reader : good_reader strict toy_driver toy_run strict_start.
Proof.
  split; intros t row [<-|[<-|[]]] E; change (dr_seed strict toy_driver) with 1 in E;
    (rewrite run_row0 in E || rewrite run_row1 in E); try reflexivity; injection E as <-;
    first [apply strict_round_trips; auto|apply strict_refuses_row; auto].
Qed.

Lemma toy_apart : apart strict toy_driver toy_run.
Proof.
  intros t Ht. destruct (toy_run_paths t Ht) as [a [b [-> ->]]]. split; intros [r E]; cbn in E; inversion E.
Qed.

(** The output file, and the temporary file with the options that main passes on. *)
Definition toy_places : list path := [to_path "/x/out.csv"; to_path "/x/exp/temp_result.csv"].
Lemma toy_place : Forall (place_for strict toy_driver toy_run toy_disk) toy_places.
Proof.
  constructor; [|constructor; [|constructor]]; (split; [discriminate|]; split; [intros [r E]; cbn in E; inversion E|];
    split; [by_listing|]).
  - split; [|left; reflexivity]. intros t Ht. destruct (toy_run_paths t Ht) as [a [b [E1 E2]]]. unfold directory_of. rewrite E1, E2.
    split; [discriminate|]. split; [discriminate|]. intros [[_ [r E]]|[_ [r E]]]; cbn in E; inversion E.
  - split.
    + intros t Ht. destruct (toy_run_paths t Ht) as [a [b [E1 E2]]]. unfold directory_of. rewrite E1, E2.
      split; [discriminate|]. split; [discriminate|]. intros [[_ [r E]]|[_ [r E]]]; cbn in E; inversion E.
    + right. exists (run_trial 0 0). split; [left; reflexivity|].
      destruct (toy_run_paths (run_trial 0 0) (or_introl eq_refl)) as [a [b [-> _]]].
      split; [discriminate|]. exists ["ds"%string]. reflexivity.
Qed.

Lemma toy_reads_tables : reads_tables strict (concat toy_tables).
Proof.
  intros tb P. apply Permutation_sym in P. apply Permutation_length_2_inv in P.
  destruct P as [-> | ->]; vm_compute; reflexivity.
Qed.

(** There are trials. *)
Example C53_starts_example : exists ts, runs strict toy_driver toy_disk ts strict_start.
Proof.
  apply (C53_starts strict toy_driver toy_disk [toy_descriptor 0 0; toy_descriptor 1 1; toy_descriptor 0 0]).
  - exact (proj1 toy_runs).
  - reflexivity.
  - intros n Hn. rewrite (toy_entries n Hn). eexists. split; [reflexivity|].
    intros desc f [<-|[<-|[<-|[]]]] X; discriminate.
Qed.

(** However the experiment is run, and after whatever was stopped before. *)
Example C53_example : forall l ca c r d',
  Forall (fun a => combines (pr_course a) /\ ca_temp (pr_call a) = "/x/exp"%string) l ->
  combines c -> ca_temp ca = "/x/exp"%string ->
  execute strict toy_driver ca c (after_past strict toy_driver toy_disk l) = Some (r, d') ->
  exists tb, r = Ok tb /\ Permutation tb [toy_row 0 0; toy_row 1 0] /\
    stat d' (to_path "/x/out.csv") = Some (File (toy_print tb)) /\
    (ca_beam ca = false -> tb = [toy_row 0 0; toy_row 1 0]) /\
    stat d' (to_path "/x/data/ds/p") = stat toy_disk (to_path "/x/data/ds/p").
Proof.
  intros l ca c r d' Hl Hc Ht E.
  assert (CO : forall ca c, combines c -> ca_temp ca = "/x/exp"%string -> call_ok strict toy_places (concat toy_tables) ca c).
  { intros ca0 c0 H1 H2 _. split; [exact H1|]. split; [exact toy_reads_tables|]. rewrite H2. right. left. reflexivity. }
  destruct (C53_interrupted strict toy_driver toy_disk toy_run strict_start toy_tables toy_places l ca c r d'
    toy_good_run toy_apart toy_good_reader toy_place (or_introl eq_refl)) as [tb [H1 [H2 [H3 [[H4 H5] H6]]]]].
  - eapply Forall_impl; [|exact Hl]. intros a [A B]. apply CO; assumption.
  - apply CO; assumption.
  - exact E.
  - exists tb. split; [exact H1|]. split; [exact H2|]. split; [exact H4|]. split; [exact H3|].
    apply (data_kept strict toy_run toy_driver toy_disk toy_places toy_place d' toy_apart H5).
    exists ["ds"; "p"]%string. reflexivity.
Qed.

(** Each of them can be brought to its end. *)
Definition toy_call : call := {| ca_cores := 2; ca_beam := false; ca_temp := "" |}.
Definition toy_course : course :=
  {| co_now := fun _ => []; co_later := fun _ => []; co_schedule := [0; 1; 0; 0; 1]%nat; co_combine := Inputs |}.
Example C53_ends_example : exists rest d',
  execute strict toy_driver toy_call (continued toy_course rest) toy_disk =
    Some (Ok [toy_row 0 0; toy_row 1 0], d').
Proof.
  destruct (C53_ends strict toy_driver toy_call toy_course toy_disk) as [rest [r [d' E]]].
  exists rest, d'. rewrite E.
  assert (CO : call_ok strict toy_places (concat toy_tables) toy_call (continued toy_course rest)) by (intros X; discriminate).
  destruct (C53_any_way strict toy_driver toy_call (continued toy_course rest) toy_disk toy_run strict_start toy_tables toy_places r d'
    toy_good_run toy_place (or_introl eq_refl) CO (fun _ _ => proj1 toy_good_reader) E)
    as [tb [H1 [_ [H2 _]]]].
  rewrite H1, (H2 eq_refl). reflexivity.
Qed.

(** Results that are there stay, whatever the seed and the kind of analysis: here each replica
    has those of the other. *)
Definition toy_stale : disk := toy_disk ++
  [(to_path "/x/exp", Dir); (to_path "/x/exp/ds", Dir);
   (out_of strict (run_trial 0 0), File (toy_print [toy_row 1 0]));
   (out_of strict (run_trial 1 1), File (toy_print [toy_row 0 0]))].
Definition toy_again (seed : Z) (analysis : string) : driver strict :=
  {| dr_data_design := "/x/data";
     dr_fetch := fun _ => Ok ([toy_descriptor 0 0; toy_descriptor 1 1; toy_descriptor 0 0], strict_start);
     dr_output := "/x/out.csv"; dr_intermediates := "/x/exp"; dr_seed := seed; dr_analysis := analysis |}.

Lemma toy_outs_differ : out_of strict (run_trial 0 0) <> out_of strict (run_trial 1 1).
Proof.
  destruct (sane_separate _ _ toy_run_sane) as [_ [H _]]. intros E.
  unfold toy_run in H. cbn [map app] in H. rewrite <- E in H. inversion H as [|? ? X]. apply X. left. reflexivity.
Qed.

Lemma toy_stale_ok : disk_ok toy_stale.
Proof.
  pose proof toy_outs_differ as N.
  destruct (toy_run_paths (run_trial 0 0) (or_introl eq_refl)) as [a [b [E1 _]]].
  destruct (toy_run_paths (run_trial 1 1) (or_intror (or_introl eq_refl))) as [a' [b' [E2 _]]].
  unfold toy_stale. rewrite E1, E2 in *. split; [|split].
  - repeat constructor; cbn; intros X; repeat (destruct X as [X|X]; [first [discriminate|apply N; exact X|apply N; symmetry; exact X]|]); exact X.
  - intros p n X. repeat (destruct X as [X|X]; [inversion X; subst; discriminate|]). destruct X.
  - intros p Hp. destruct (stat _ p) as [n|] eqn:E in Hp; [|contradiction].
    apply stat_listed in E. destruct E as [E|E].
    + destruct p as [c l]. cbn in E. subst l. reflexivity.
    + repeat (destruct E as [E|E]; [inversion E; subst; reflexivity|]). destruct E.
Qed.

Example C53_stale_example : forall seed analysis ca c r d', ca_beam ca = false ->
  execute strict (toy_again seed analysis) ca c toy_stale = Some (r, d') ->
  r = Ok [toy_row 1 0; toy_row 0 0].
Proof.
  intros seed analysis ca c r d' B E.
  set (t0 := fun n q => {| tr_experiment_dir := "/x/exp"; tr_design := tr_design (hd (run_trial 0 0) (match prepare strict (toy_again seed analysis) toy_stale with (Ok (ts, _), _) => ts | _ => [] end)); tr_data_set := "ds";
     tr_descriptor := toy_descriptor n q; tr_analysis := analysis |}).
  destruct (C53_stale strict (toy_again seed analysis) ca c toy_stale [t0 0%nat 0; t0 1%nat 1] strict_start
    [[toy_row 1 0]; [toy_row 0 0]] r d') as [H _]; [| | | | | |exact B|exact E|exact H].
  - split; [|reflexivity]. split; [exact toy_stale_ok|]. split; [reflexivity|]. intros n Hn.
    apply stat_listed in Hn. destruct Hn as [Hn|Hn]; [discriminate|].
    unfold toy_stale in Hn.
    destruct (toy_run_paths (run_trial 0 0) (or_introl eq_refl)) as [a [b [E1 _]]].
    destruct (toy_run_paths (run_trial 1 1) (or_intror (or_introl eq_refl))) as [a' [b' [E2 _]]]. rewrite E1, E2 in Hn.
    repeat (destruct Hn as [Hn|Hn]; [try (exfalso; discriminate); inversion Hn; subst|]); [|destruct Hn].
    split; [discriminate|]. split; [discriminate|]. split; [discriminate|].
    cbn. intros X. repeat (destruct X as [X|X]; [discriminate|]). exact X.
  - discriminate.
  - constructor; [|constructor; [|constructor]].
    + eexists. split; [|apply (strict_round_trips 1 0); auto].
      change (out_of strict (t0 0%nat 0)) with (out_of strict (run_trial 0 0)).
      apply stat_in; [exact toy_stale_ok|]. do 6 right. left. reflexivity.
    + eexists. split; [|apply (strict_round_trips 0 0); auto].
      change (out_of strict (t0 1%nat 1)) with (out_of strict (run_trial 1 1)).
      apply stat_in; [exact toy_stale_ok|]. do 7 right. left. reflexivity.
  - discriminate.
  - intros X. apply stat_listed in X. destruct X as [X|X]; [discriminate|].
    unfold toy_stale in X.
    destruct (toy_run_paths (run_trial 0 0) (or_introl eq_refl)) as [a [b [E1 _]]].
    destruct (toy_run_paths (run_trial 1 1) (or_intror (or_introl eq_refl))) as [a' [b' [E2 _]]]. rewrite E1, E2 in X.
    repeat (destruct X as [X|X]; [discriminate|]). destruct X.
  - reflexivity.
Qed.

(** Without the directory of the output file the results are there all the same. *)
Definition toy_nowhere : driver strict :=
  {| dr_data_design := "/x/data";
     dr_fetch := fun _ => Ok ([toy_descriptor 0 0; toy_descriptor 1 1; toy_descriptor 0 0], strict_start);
     dr_output := "/y/out.csv"; dr_intermediates := "/x/exp"; dr_seed := 1; dr_analysis := "" |}.
Example C53_missing_output_example : forall ca c r d', ca_beam ca = false ->
  execute strict toy_nowhere ca c toy_disk = Some (r, d') ->
  r = Err FileNotFoundError /\
  stat d' (out_of strict (run_trial 1 1)) = Some (File (toy_print [toy_row 1 0])).
Proof.
  intros ca c r d' B E.
  destruct (C53_missing_output strict toy_nowhere ca c toy_disk toy_run strict_start toy_tables r d') as [H1 [H2 _]].
  - exact toy_good_run.
  - exact (proj1 toy_good_reader).
  - exact B.
  - reflexivity.
  - intros t Ht. destruct (toy_run_paths t Ht) as [a [b [E1 E2]]]. unfold directory_of. rewrite E1, E2.
    split; [discriminate|]. split; [discriminate|]. intros [[_ [q X]]|[_ [q X]]]; cbn in X; inversion X.
  - exact E.
  - split; [exact H1|]. inversion H2 as [|x0 y0 l0 m0 G0 G]. inversion G as [|x1 y1 l1 m1 G1 G2]. subst.
    destruct G1 as [[G1 _]|[_ G1]]; [|exact G1]. exfalso.
    exact (toy_run_none (run_trial 1 1) (or_intror (or_introl eq_refl)) _ G1).
Qed.

(** A data set without files. *)
Definition hollow_disk : disk := [(to_path "/x", Dir); (to_path "/x/data", Dir); (to_path "/x/data/ds", Dir)].
Definition one_driver (data output : string) : driver strict :=
  {| dr_data_design := data; dr_fetch := fun _ => Ok ([toy_descriptor 0 0], strict_start);
     dr_output := output; dr_intermediates := "/x/exp"; dr_seed := 1; dr_analysis := "" |}.
Lemma hollow_disk_ok : disk_ok hollow_disk.
Proof.
  split; [|split].
  - repeat constructor; cbn; intros X; repeat (destruct X as [X|X]; [discriminate|]); exact X.
  - intros p n X. repeat (destruct X as [X|X]; [inversion X; subst; discriminate|]). destruct X.
  - intros p Hp. destruct (stat hollow_disk p) as [n|] eqn:E; [|contradiction].
    apply stat_listed in E. destruct E as [E|E].
    + destruct p as [a l]. cbn in E. subst l. reflexivity.
    + repeat (destruct E as [E|E]; [inversion E; subst; reflexivity|]). destruct E.
Qed.
Lemma hollow_entries n : stat hollow_disk (entry (to_path "/x/data") n) = Some Dir -> n = "ds"%string.
Proof.
  intros E. apply stat_listed in E. destruct E as [E|E]; [discriminate|].
  repeat (destruct E as [E|E]; [inversion E; subst; reflexivity|]). destruct E.
Qed.
Example C53_no_files_example : forall ca c r d',
  execute strict (one_driver "/x/data" "/x/out.csv") ca c hollow_disk = Some (r, d') -> exists e, r = Err e.
Proof.
  intros ca c r d' E.
  set (ts := match prepare strict (one_driver "/x/data" "/x/out.csv") hollow_disk with (Ok (ts, _), _) => ts | _ => [] end).
  set (t := hd (toy_trial 0 0) ts).
  assert (F : Forall2 (fun t u => tr_experiment_dir t = tr_experiment_dir u /\ tr_data_set t = tr_data_set u /\
    tr_descriptor t = tr_descriptor u) [t] [toy_trial 0 0]) by (constructor; [|constructor]; repeat split).
  assert (S : sane_trials strict [t]) by (apply (sane_alike _ _ F), toy_sane; auto).
  assert (P : exists a b, out_of strict t = (true, ["x"; "exp"; "ds"; a])%string /\ pending_path strict t = (true, ["x"; "pending"; b])%string).
  { destruct (toy_run_paths (run_trial 0 0) (or_introl eq_refl)) as [a [b [E1 E2]]]. exists a, b. split; assumption. }
  destruct P as [a [b [E1 E2]]].
  apply (C53_no_files strict (one_driver "/x/data" "/x/out.csv") ca c hollow_disk [t] strict_start t r d'); auto.
  - split; [|reflexivity]. split; [exact hollow_disk_ok|]. split; [reflexivity|]. intros n Hn.
    rewrite (hollow_entries n Hn).
    split; [discriminate|]. split; [discriminate|]. split; [discriminate|].
    cbn. intros X. repeat (destruct X as [X|X]; [discriminate|]). exact X.
  - split; [exact hollow_disk_ok|]. intros u [<-|[]]. split; [|split].
    + intros q x H X. apply stat_listed in X. destruct X as [X|X].
      * destruct H as [[H _]|[H _]]; contradiction.
      * repeat (destruct X as [X|X]; [discriminate|]). destruct X.
    + rewrite E1. by_listing.
    + rewrite E2. by_listing.
  - left. reflexivity.
  - intros tb [x [X _]]. rewrite E1 in X. revert X. by_listing.
  - intros n x. by_listing.
Qed.

(** A data set that cannot be read, here with a line that is not a number and a price. *)
Definition broken_disk : disk :=
  [(to_path "/x", Dir); (to_path "/x/data", Dir); (to_path "/x/data/ds", Dir);
   (to_path "/x/data/ds/p", File (chars "one,1" ++ [newline]))].
Lemma broken_disk_ok : disk_ok broken_disk.
Proof.
  split; [|split].
  - repeat constructor; cbn; intros X; repeat (destruct X as [X|X]; [discriminate|]); exact X.
  - intros p n X. repeat (destruct X as [X|X]; [inversion X; subst; discriminate|]). destruct X.
  - intros p Hp. destruct (stat broken_disk p) as [n|] eqn:E; [|contradiction].
    apply stat_listed in E. destruct E as [E|E].
    + destruct p as [a l]. cbn in E. subst l. reflexivity.
    + repeat (destruct E as [E|E]; [inversion E; subst; reflexivity|]). destruct E.
Qed.
Lemma broken_entries n : stat broken_disk (entry (to_path "/x/data") n) = Some Dir -> n = "ds"%string.
Proof.
  intros E. apply stat_listed in E. destruct E as [E|E]; [discriminate|].
  repeat (destruct E as [E|E]; [inversion E; subst; reflexivity|]). destruct E.
Qed.
Example C53_unreadable_example : forall ca c, exists e,
  execute strict (one_driver "/x/data" "/x/out.csv") ca c broken_disk = Some (Err e, broken_disk).
Proof.
  intros ca c. apply (C53_unreadable strict _ ca c broken_disk [toy_descriptor 0 0] strict_start "ds" (toy_descriptor 0 0)).
  - split; [exact broken_disk_ok|]. split; [reflexivity|]. intros n Hn. rewrite (broken_entries n Hn).
    split; [discriminate|]. split; [discriminate|]. split; [discriminate|].
    cbn. intros X. repeat (destruct X as [X|X]; [discriminate|]). exact X.
  - reflexivity.
  - reflexivity.
  - left. reflexivity.
  - left. eexists. reflexivity.
Qed.

(** Nothing to do, and no data design. *)
Example C53_no_trials_example : forall ca c r d', (ca_beam ca = true -> combines c) ->
  execute strict (one_driver "/x" "/x/out.csv") ca c [(to_path "/x", Dir)] = Some (r, d') ->
  r = Err ValueError /\ d' = [(to_path "/x", Dir)].
Proof.
  intros ca c r d' Hc E. apply (C53_no_trials strict (one_driver "/x" "/x/out.csv") ca c [(to_path "/x", Dir)] strict_start r d'); auto.
  split; [|reflexivity]. split; [|split; [reflexivity|]].
  - split; [|split].
    + repeat constructor. intros [].
    + intros p n [X|[]]. inversion X. discriminate.
    + intros p Hp. destruct (stat _ p) as [n|] eqn:X in Hp; [|contradiction]. apply stat_listed in X. destruct X as [X|[X|[]]].
      * destruct p as [a l]. cbn in X. subst l. reflexivity.
      * inversion X. reflexivity.
  - intros n X. apply stat_listed in X. destruct X as [X|[X|[]]]; discriminate.
Qed.
Example C53_missing_design_example : forall ca c r d', (ca_beam ca = true -> combines c) ->
  execute strict toy_driver ca c [] = Some (r, d') -> r = Err ValueError /\ stat d' (to_path "/x/data") = Some Dir.
Proof.
  intros ca c r d' Hc E.
  destruct (C53_missing_design strict toy_driver ca c [] [toy_descriptor 0 0; toy_descriptor 1 1; toy_descriptor 0 0] strict_start r d')
    as [H1 [H2 _]]; auto.
  - exact (proj1 (empty_disk_usable strict [] (fun t H => match H with end))).
  - intros q X x. destruct q as [a [|? ?]]; discriminate.
Qed.

(** ** Results within the data design *)

(** The second run of the same experiment fails, although the first one was fine. *)
Definition nested_disk : disk :=
  [(to_path "/x", Dir); (to_path "/x/ds", Dir);
   (to_path "/x/ds/p", File (chars "1,1" ++ newline :: chars "2,4" ++ [newline]))].
Lemma nested_disk_ok : disk_ok nested_disk.
Proof.
  split; [|split].
  - repeat constructor; cbn; intros X; repeat (destruct X as [X|X]; [discriminate|]); exact X.
  - intros p n X. repeat (destruct X as [X|X]; [inversion X; subst; discriminate|]). destruct X.
  - intros p Hp. destruct (stat nested_disk p) as [n|] eqn:E; [|contradiction].
    apply stat_listed in E. destruct E as [E|E].
    + destruct p as [a l]. cbn in E. subst l. reflexivity.
    + repeat (destruct E as [E|E]; [inversion E; subst; reflexivity|]). destruct E.
Qed.
Lemma nested_entries n : stat nested_disk (entry (to_path "/x") n) = Some Dir -> n = "ds"%string.
Proof.
  intros E. apply stat_listed in E. destruct E as [E|E]; [discriminate|].
  repeat (destruct E as [E|E]; [inversion E; subst; reflexivity|]). destruct E.
Qed.
Lemma nested_files q x : stat nested_disk q = Some (File x) -> snd q <> [] -> q = to_path "/x/ds/p".
Proof.
  intros E N. apply stat_listed in E. destruct E as [E|E]; [contradiction|].
  repeat (destruct E as [E|E]; [try discriminate; inversion E; subst; reflexivity|]). destruct E.
Qed.
Example C53_nested_example : forall ca c r d' names, ca_beam ca = false ->
  execute strict (one_driver "/x" "/y.csv") ca c nested_disk = Some (r, d') ->
  data_sets strict (one_driver "/x" "/y.csv") d' names -> In "exp"%string names.
Proof.
  intros ca c r d' names B E.
  set (ts := match prepare strict (one_driver "/x" "/y.csv") nested_disk with (Ok (ts, _), _) => ts | _ => [] end).
  set (t := hd (toy_trial 0 0) ts).
  assert (F : Forall2 (fun t u => tr_experiment_dir t = tr_experiment_dir u /\ tr_data_set t = tr_data_set u /\
    tr_descriptor t = tr_descriptor u) [t] [toy_trial 0 0]) by (constructor; [|constructor]; repeat split).
  assert (S : sane_trials strict [t]) by (apply (sane_alike _ _ F), toy_sane; auto).
  assert (P : exists a b, out_of strict t = (true, ["x"; "exp"; "ds"; a])%string /\ pending_path strict t = (true, ["x"; "pending"; b])%string).
  { destruct (toy_run_paths (run_trial 0 0) (or_introl eq_refl)) as [a [b [E1 E2]]]. exists a, b. split; assumption. }
  destruct P as [a [b [E1 E2]]].
  assert (C : fst (compute_row strict t 1 strict_start) = Ok (toy_row 0 0)) by (vm_compute; reflexivity).
  assert (G : good_run strict (one_driver "/x" "/y.csv") nested_disk [t] strict_start [[toy_row 0 0]]).
  { split; [|split; [discriminate|]; split; [exact S|]; split; [|split]].
    - split; [|reflexivity]. split; [exact nested_disk_ok|]. split; [reflexivity|]. intros n Hn.
      rewrite (nested_entries n Hn).
      split; [discriminate|]. split; [discriminate|]. split; [discriminate|].
      cbn. intros X. repeat (destruct X as [X|X]; [discriminate|]). exact X.
    - split; [exact nested_disk_ok|]. intros u [<-|[]]. split; [|split].
      + intros q x H X. unfold directory_of in H. rewrite E1, E2 in H. apply nested_files in X; [|destruct H as [[H _]|[H _]]; exact H].
        rewrite X in H. destruct H as [[_ [z H]]|[_ [z H]]]; cbn in H; inversion H.
      + rewrite E1. by_listing.
      + rewrite E2. by_listing.
    - constructor; [|constructor]. right. split.
      + intros tb [x [X _]]. rewrite E1 in X. revert X. by_listing.
      + exists (toy_row 0 0). split; [exact C|reflexivity].
    - apply own_generators_unaffected. intros u u' [<-|[]] [<-|[]] _. reflexivity. }
  apply (C53_nested strict (one_driver "/x" "/y.csv") ca c nested_disk [t] strict_start [[toy_row 0 0]] [to_path "/y.csv"] r d').
  - exact G.
  - constructor; [|constructor]. split; [discriminate|]. split; [intros [z X]; cbn in X; inversion X|]. split; [by_listing|].
    split; [|left; reflexivity]. intros u [<-|[]]. unfold directory_of. rewrite E1, E2.
    split; [discriminate|]. split; [discriminate|]. intros [[_ [z X]]|[_ [z X]]]; cbn in X; inversion X.
  - left. reflexivity.
  - intros X. congruence.
  - intros _ _ u row [<-|[]] X. assert (Er : row = toy_row 0 0) by (change (dr_seed strict (one_driver "/x" "/y.csv")) with 1 in X; congruence). rewrite Er. apply strict_round_trips; auto.
  - reflexivity.
  - intros u [<-|[]]. rewrite E1. exists ["ds"%string]. reflexivity.
  - exact E.
Qed.
Theorem C53_nested_refuted : exists dr ca c d d',
  execute strict dr ca c d = Some (Ok [toy_row 0 0], d') /\
  exists d'', execute strict dr ca c d' = Some (Err ValueError, d'').
Proof.
  exists (one_driver "/x" "/y.csv"), {| ca_cores := 1; ca_beam := false; ca_temp := "" |}, toy_course, nested_disk.
  eexists. split; [vm_compute; reflexivity|]. eexists. vm_compute. reflexivity.
Qed.
Print Assumptions C53_nested_refuted.
