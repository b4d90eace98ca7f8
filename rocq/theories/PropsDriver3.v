(** C38: the trials of a design, and evaluating them in parallel. *)
From Coq Require Import String Ascii Permutation.
From Verif Require Import Prelude ModelReachPoint ModelData ModelPrivacy ModelHalo ModelAggregator ModelFiles
  SpecFiles FilesLemmas3 ModelDriver SpecDriver DriverLemmas DriverLemmas2 DriverLemmas3 DriverLemmas4
  DriverLemmas5 DriverLemmas6 DriverLemmas7 DriverLemmas8 ExampleDriver PropsDriver PropsDriver2.
Open Scope Z_scope.

(** ** The trials of a design *)

(** The trials are made for every data set and, for each, every descriptor, in this order. Of
    trials with the same name the first one is kept. *)
Theorem C38_trials : forall L x ts, dictionaries x -> generate_trials L x = Ok ts ->
  exists all,
    Forall2 (fun nd t => trial_for x (fst nd) (snd nd) t)
            (list_prod (dd_names (xd_data x)) (xd_descriptors x)) all /\
    part_of ts all /\ NoDup (map (trial_name L) ts) /\
    (forall t, In t all -> exists t', In t' ts /\ trial_name L t' = trial_name L t) /\
    (forall t, In t ts -> exists l1 l2, all = l1 ++ t :: l2 /\
       forall u, In u l1 -> trial_name L u <> trial_name L t).
Proof.
  intros L x ts D E. unfold generate_trials in E.
  destruct (mapM (experiment_trials x) (dd_names (xd_data x))) as [all|] eqn:Ea; cbn [bind] in E; [|discriminate].
  assert (Et : ts = remove_duplicates L [] (concat all)) by congruence. clear E.
  destruct (dedup_spec L (concat all) []) as [P [N [_ [C F]]]]. rewrite <- Et in *.
  exists (concat all). split; [apply all_trials; auto|]. split; [exact P|]. split; [exact N|]. split; [|exact F].
  intros t Ht. destruct (C t Ht) as [[]|X]. exact X.
Qed.

(** The names tell trials apart: they are the same if and only if data set and settings are
    (for names without ':' and plain settings). *)
Theorem C38_names : forall L t t', prints_floats (lab_float L) ->
  ~ In ":"%char (chars (tr_data_set t)) -> ~ In ":"%char (chars (tr_data_set t')) ->
  plain_descriptor (lab_float L) (tr_descriptor t) -> plain_descriptor (lab_float L) (tr_descriptor t') ->
  (trial_name L t = trial_name L t' <-> same_trial t t').
Proof. exact name_same. Qed.

(** So no trial is lost: every data set is combined with every descriptor, up to settings that
    are the same, and none is evaluated twice. *)
Theorem C38_complete : forall L x ts name desc, dictionaries x -> tells_floats_apart (lab_float L) ->
  (forall n, In n (dd_names (xd_data x)) -> ~ In ":"%char (chars n)) ->
  (forall a, In a (xd_descriptors x) -> plain_descriptor (lab_float L) a) ->
  generate_trials L x = Ok ts ->
  In name (dd_names (xd_data x)) -> In desc (xd_descriptors x) ->
  exists t t', In t ts /\ trial_for x name desc t' /\ same_trial t t'.
Proof.
  intros L x ts name desc D PF Hc Hp E Hn Hd.
  destruct (C38_trials L x ts D E) as [all [F [P [N [C _]]]]].
  assert (Hin : In (name, desc) (list_prod (dd_names (xd_data x)) (xd_descriptors x))) by (apply in_prod; auto).
  assert (X : exists t', In t' all /\ trial_for x name desc t').
  { clear -F Hin. induction F as [|a t l l' H1 H2 IH]; [destruct Hin|]. destruct Hin as [->|Hin].
    - exists t. split; [left; reflexivity|exact H1].
    - destruct (IH Hin) as [t' [A B]]. exists t'. split; [right; exact A|exact B]. }
  destruct X as [t' [Ht' T]]. destruct (C t' Ht') as [t [Ht En]]. exists t, t'. split; [exact Ht|]. split; [exact T|].
  assert (G : forall u, In u all -> ~ In ":"%char (chars (tr_data_set u)) /\ plain_descriptor (lab_float L) (tr_descriptor u)).
  { intros u Hu. destruct (Forall2_In_r _ _ _ _ F Hu) as [[n a] [Hna [T1 [T2 [T3 [T4 [d0' [T5 T6]]]]]]]].
    cbn [fst snd] in *. apply in_prod_iff in Hna. destruct Hna as [I1 I2]. split; [rewrite T3; auto|].
    eapply adapted_plain; [exact T6|]. auto. }
  destruct (G t' Ht') as [G1 G2]. destruct (G t (part_of_In _ _ _ P Ht)) as [G3 G4].
  apply (name_apart L t t'); auto.
Qed.

Theorem C38_none_twice : forall L x ts i j t t', dictionaries x -> prints_floats (lab_float L) ->
  (forall n, In n (dd_names (xd_data x)) -> ~ In ":"%char (chars n)) ->
  (forall a, In a (xd_descriptors x) -> plain_descriptor (lab_float L) a) ->
  generate_trials L x = Ok ts ->
  nth_error ts i = Some t -> nth_error ts j = Some t' -> i <> j -> ~ same_trial t t'.
Proof.
  intros L x ts i j t t' D PF Hc Hp E Hi Hj Ne S.
  destruct (C38_trials L x ts D E) as [all [F [P [N _]]]].
  assert (G : forall u, In u ts -> ~ In ":"%char (chars (tr_data_set u)) /\ plain_descriptor (lab_float L) (tr_descriptor u)).
  { intros u Hu. apply (part_of_In _ _ _ P) in Hu.
    destruct (Forall2_In_r _ _ _ _ F Hu) as [[n a] [Hna [T1 [T2 [T3 [T4 [d0' [T5 T6]]]]]]]].
    cbn [fst snd] in *. apply in_prod_iff in Hna. destruct Hna as [I1 I2]. split; [rewrite T3; auto|].
    eapply adapted_plain; [exact T6|]. auto. }
  destruct (G t (nth_error_In _ _ Hi)) as [G1 G2]. destruct (G t' (nth_error_In _ _ Hj)) as [G3 G4].
  apply (C38_names L t t' PF G1 G3 G2 G4) in S. apply Ne.
  apply (proj1 (NoDup_nth_error _) N).
  - rewrite map_length. apply nth_error_Some. congruence.
  - rewrite !nth_error_map, Hi, Hj. cbn. congruence.
Qed.

(** The trials of a design are evaluated in files of their own. *)
Theorem C38_generated_sane : forall L x ts, dictionaries x -> sane_design L x -> generate_trials L x = Ok ts ->
  markers_differ L ts -> sane_trials L ts.
Proof. exact generated_sane. Qed.

(** ** Evaluating in parallel *)

(** For every schedule of the workers that ends, each trial has its own answer, the one it
    would have on its own, in its own place; the results are on the disk; nothing else has
    changed except for directories. *)
Theorem C38_parallel : forall L ts seed nows nows' g d schedule r d2,
  sane_trials L ts -> usable L ts d -> ts <> [] -> computable L seed d g ts -> reads_back L seed g ts ->
  load_parallel L schedule ts seed nows nows' g d = Some (r, d2) ->
  exists tbs, r = Ok (concat tbs) /\ Forall2 (answers L seed d g) ts tbs /\
    Forall2 (fun t tb => has_result L t d2 tb) ts tbs /\
    Forall2 (fun t tb => no_result L t d -> done_with L t tb d2) ts tbs /\
    usable L ts d2 /\ only_adds_directories L ts d d2.
Proof.
  intros L ts seed nows nows' g d schedule r d2 S U Ne C RB E. apply sane_separate in S.
  unfold load_parallel in E. destruct (interleave schedule d (workers L ts seed nows g)) as [w ps] eqn:I.
  destruct (worker_results L ps) as [rs|] eqn:W; [|discriminate].
  destruct (workers_finish L ts S seed nows g d U C schedule w ps rs I W) as [U' [O [tbs [-> [F1 F2]]]]].
  assert (R : Forall2 (fun t tb => has_result L t w tb) ts tbs).
  { apply (left_results L ts seed g d w tbs RB F1). eapply Forall2_impl_In; [|exact F2].
    intros t tb _ _ [[A [B _]]|[A [B _]]]; [left|right]; auto. }
  rewrite (load_results L ts seed g Ne nows' tbs w R) in E.
  assert (Er : r = Ok (concat tbs)) by congruence. assert (Ed : d2 = w) by congruence. subst r d2.
  exists tbs. split; [reflexivity|]. split; [exact F1|]. split; [exact R|]. split; [|auto].
  eapply Forall2_impl_In; [|exact F2]. intros t tb _ _ [[A _]|[_ A]] N; [exfalso; exact (N _ A)|exact A].
Qed.

(** No schedule can get stuck: it can always be continued until there is an answer. *)
Theorem C38_no_deadlock : forall L ts seed nows nows' g d schedule,
  exists rest r d2, load_parallel L (schedule ++ rest) ts seed nows nows' g d = Some (r, d2).
Proof.
  intros L ts seed nows nows' g d schedule. unfold load_parallel.
  destruct (interleave schedule d (workers L ts seed nows g)) as [w ps] eqn:I.
  destruct (run_to_end ps w) as [rest [w' [as_ E]]]. exists rest. rewrite interleave_app, I, E.
  destruct (worker_results_ret L as_) as [rs ->]. destruct rs as [tbs|e].
  - destruct (load L ts seed nows' g w') as [r d2]. eauto.
  - eauto.
Qed.

(** An exception in a worker is not lost, for any schedule. *)
Theorem C38_failure : forall L ts seed nows nows' g d schedule r d2 t e,
  sane_trials L ts -> usable L ts d -> In t ts -> no_result L t d -> fst (compute_row L t seed g) = Err e ->
  load_parallel L schedule ts seed nows nows' g d = Some (r, d2) -> exists e', r = Err e'.
Proof.
  intros L ts seed nows nows' g d schedule r d2 t e S U Ht N Ce E. apply sane_separate in S.
  unfold load_parallel in E. destruct (interleave schedule d (workers L ts seed nows g)) as [w ps] eqn:I.
  destruct (worker_results L ps) as [rs|] eqn:W; [|discriminate].
  destruct (interleave_safe L ts S (legals L ts seed g) (post L ts seed nows g d) schedule d _ w ps (usable_inv _ _ _ U)
     (workers_length L ts seed nows g) (workers_safe L ts S seed nows g d U) I) as [T [Hl Sf]].
  destruct (worker_results_some L ps rs W) as [as_ [-> ->]]. rewrite map_length in Hl.
  destruct (In_nth_error _ _ Ht) as [i Hi].
  destruct (nth_error as_ i) as [a|] eqn:Ha.
  2:{ apply nth_error_None in Ha. assert (i < length ts)%nat by (apply nth_error_Some; congruence). lia. }
  assert (Hp : nth_error (map (fun a => Ret a) as_) i = Some (Ret a)) by (rewrite nth_error_map, Ha; reflexivity).
  specialize (Sf i t (Ret a) Hi Hp). cbn [safe] in Sf. specialize (Sf w (rely_refl _ _ _ w (proj1 T)) t Hi).
  destruct Sf as [[tb [R _]]|[_ H]]; [exfalso; exact (N _ R)|].
  destruct (compute_row L t seed g) as [[row|e1] g'] eqn:Ec; cbn [fst] in Ce; [discriminate|]. destruct H as [Hx _].
  destruct (failing_worker L as_ a e1 (nth_error_In _ _ Ha)) as [e' X]; [subst a; reflexivity|].
  rewrite X in E. exists e'. congruence.
Qed.

(** ** Combining *)

(** However the runner splits and merges the results, the rows of the output are the rows of
    all inputs, in the order in which the runner has put them together. *)
Theorem C38_combine : forall a, combine_output a = match inputs_of a with [] => Err ValueError | l => Ok (concat l) end.
Proof. intros a. unfold combine_output, concat_tables. rewrite accumulator_inputs. destruct (inputs_of a); reflexivity. Qed.
Theorem C38_combine_any : forall a l, Permutation (inputs_of a) l -> l <> [] ->
  exists rows, combine_output a = Ok rows /\ Permutation rows (concat l).
Proof.
  intros a l P Ne. rewrite C38_combine. destruct (inputs_of a) as [|t r] eqn:E.
  - apply Permutation_nil in P. contradiction.
  - eexists. split; [reflexivity|]. clear -P. induction P; cbn [concat]; auto.
    + apply Permutation_app_head. exact IHP.
    + rewrite !app_assoc. apply Permutation_app_tail, Permutation_app_comm.
    + etransitivity; eauto.
Qed.
Example C38_combine_example :
  combine_output (Merged [Inputs [[toy_row 0 0]]; Inputs []; Merged [Inputs [[toy_row 1 0]]; Inputs [[]]]]) =
  Ok [toy_row 0 0; toy_row 1 0].
Proof. rewrite C38_combine. reflexivity. Qed.

(** ** A design with two replicas, one of them twice *)

Definition toy_experimental_design (a b : nat) : experimental_design :=
  {| xd_dir := "/x/exp"; xd_data := toy_design;
     xd_descriptors := [toy_descriptor a 0; toy_descriptor b 1; toy_descriptor a 0]; xd_seed := 1; xd_analysis := "" |}.

Lemma toy_dictionaries a b : dictionaries (toy_experimental_design a b).
Proof. intros desc [<-|[<-|[<-|[]]]]; cbn; (constructor; [intros []|constructor]). Qed.

Example C38_trials_example print parse : forall a b,
  generate_trials (toy_with print parse) (toy_experimental_design a b) = Ok [toy_trial a 0; toy_trial b 1].
Proof.
  intros a b. unfold generate_trials, toy_experimental_design. cbn [xd_data toy_design dd_names mapM].
  assert (E : experiment_trials
     {| xd_dir := "/x/exp"; xd_data := toy_design;
        xd_descriptors := [toy_descriptor a 0; toy_descriptor b 1; toy_descriptor a 0]; xd_seed := 1; xd_analysis := "" |} "ds" =
     Ok [toy_trial a 0; toy_trial b 1; toy_trial a 0]) by reflexivity.
  rewrite E. cbn [bind concat app].
  assert (D : forall n m r r', trial_name (toy_with print parse) (toy_trial n r) = trial_name (toy_with print parse) (toy_trial m r') ->
     r = r').
  { intros n m r r' X. apply C38_names in X.
    - destruct X as [_ [_ [_ X]]]. unfold same_experiment in X. cbn in X. tauto.
    - exact toy_prints_floats.
    - cbn. intros Y. repeat (destruct Y as [Y|Y]; [discriminate|]). exact Y.
    - cbn. intros Y. repeat (destruct Y as [Y|Y]; [discriminate|]). exact Y.
    - apply toy_plain.
    - apply toy_plain. }
  cbn [remove_duplicates existsb].
  assert (E1 : String.eqb (trial_name (toy_with print parse) (toy_trial b 1)) (trial_name (toy_with print parse) (toy_trial a 0)) = false).
  { apply String.eqb_neq. intros X. apply D in X. discriminate. }
  assert (E2 : String.eqb (trial_name (toy_with print parse) (toy_trial a 0)) (trial_name (toy_with print parse) (toy_trial b 1)) = false).
  { apply String.eqb_neq. intros X. apply D in X. discriminate. }
  rewrite E1. cbn [orb remove_duplicates existsb]. rewrite E2, String.eqb_refl. reflexivity.
Qed.

Lemma toy_sane_design print parse a b : sane_design (toy_with print parse) (toy_experimental_design a b).
Proof.
  split; [vm_compute; discriminate|]. split; [vm_compute; discriminate|]. split; [|split; [|split]].
  - intros n [<-|[]]. split; [discriminate|]. split; [discriminate|]. split; [discriminate|].
    cbn. intros X. repeat (destruct X as [X|X]; [discriminate|]). exact X.
  - intros desc [<-|[<-|[<-|[]]]]; apply toy_plain.
  - exact toy_apart_floats.
  - exact toy_md5_name.
Qed.

Lemma toy_markers print parse ts : (forall t, In t ts -> exists n r, t = toy_trial n r) ->
  markers_differ (toy_with print parse) ts.
Proof.
  intros H t t' Ht Ht'. destruct (H t Ht) as [n [r ->]]. destruct (H t' Ht') as [m [r' ->]].
  cbn [lab_md5 lab_float toy_with]. unfold toy_md5, results_path. intros E.
  apply str_inj in E. rewrite !chars_str in E. cbn [tr_experiment_dir tr_data_set tr_descriptor toy_trial] in *.
  f_equal. apply (f_equal (@tl ascii)) in E. cbn [tl] in E. rewrite !map_app in E. apply app_inv_head in E.
  cbn [map] in E. apply (f_equal (@tl ascii)) in E. cbn [tl] in E.
  rewrite !map_app in E. apply app_inv_head in E. cbn [map] in E. apply (f_equal (@tl ascii)) in E. cbn [tl] in E.
  rewrite !map_app in E. apply app_inv_tail in E.
  assert (G : forall n r, map (fun c => if Ascii.eqb c slash then "_"%char else c) (show_descriptor toy_float (toy_descriptor n r)) =
              show_descriptor toy_float (toy_descriptor n r)).
  { intros k q. pose proof (descriptor_no_slash _ _ toy_apart_floats (toy_plain k q)) as Ns. revert Ns.
    generalize (show_descriptor toy_float (toy_descriptor k q)). intros l Ns. induction l as [|c l IH]; [reflexivity|].
    cbn [map]. destruct (Ascii.eqb c slash) eqn:Ec.
    - apply Ascii.eqb_eq in Ec. exfalso. apply Ns. left. auto.
    - rewrite IH; [reflexivity|]. intros X. apply Ns. right. exact X. }
  rewrite !G in E. rewrite E. reflexivity.
Qed.

Lemma toy_two_sane print parse a b : sane_trials (toy_with print parse) [toy_trial a 0; toy_trial b 1].
Proof.
  apply (C38_generated_sane _ (toy_experimental_design a b)).
  - apply toy_dictionaries.
  - apply toy_sane_design.
  - apply C38_trials_example.
  - apply toy_markers. intros t [<-|[<-|[]]]; eauto.
Qed.

Lemma toy_two_usable print parse a b : usable (toy_with print parse) [toy_trial a 0; toy_trial b 1] [].
Proof. apply empty_disk_usable. exact (proj1 (sane_separate _ _ (toy_two_sane print parse a b))). Qed.

Lemma toy_two_none print parse a b t : In t [toy_trial a 0; toy_trial b 1] -> no_result (toy_with print parse) t [].
Proof.
  intros Ht tb [c [E _]]. destruct (proj1 (sane_separate _ _ (toy_two_sane print parse a b)) _ Ht) as [H _].
  destruct (out_of (toy_with print parse) t) as [x [|y l]]; [contradiction|discriminate].
Qed.

Lemma toy_computes_row print parse n r k : let L := toy_with print parse in r = 0 \/ r = 1 -> k = 0 \/ k = 1 ->
  forall g : generators L, g n = k ->
  compute_row L (toy_trial n r) 1 g = (Ok (toy_row r k), put_generator L g n (k + 1)).
Proof.
  intros L Hr Hk g E. subst L.
  assert (X : forall G : generators (toy_with print parse), G n = k -> fst (compute_row (toy_with print parse) (toy_trial n r) 1 G) = Ok (toy_row r k)).
  { intros G EG. rewrite (compute_row_own _ _ _ G (fun _ => k)) by exact EG.
    destruct Hr as [-> | ->], Hk as [-> | ->]; vm_compute; reflexivity. }
  specialize (X g E).
  destruct (compute_row (toy_with print parse) (toy_trial n r) 1 g) as [a g'] eqn:Ec. cbn [fst] in X. subst a. f_equal.
  unfold compute_row in Ec. cbv zeta in Ec.
  cbn in Ec. rewrite E in Ec. congruence.
Qed.

Lemma toy_two_computable print parse a b : let L := toy_with print parse in
  computable L 1 [] ((fun _ => 0) : generators L) [toy_trial a 0; toy_trial b 1].
Proof.
  intros L t Ht. pose proof (toy_two_none print parse a b t Ht) as N.
  destruct Ht as [<-|[<-|[]]]; eexists; right; (split; [exact N|]); eexists; (split; [|reflexivity]).
  - unfold L. rewrite (toy_computes_row print parse a 0 0) by auto. reflexivity.
  - unfold L. rewrite (toy_computes_row print parse b 1 0) by auto. reflexivity.
Qed.

Lemma strict_round_trips r k : r = 0 \/ r = 1 -> k = 0 \/ k = 1 ->
  lab_parse strict (lab_print strict [toy_row r k]) = Ok [toy_row r k].
Proof. intros [-> | ->] [-> | ->]; vm_compute; reflexivity. Qed.

Lemma strict_two_reads a b : reads_back strict 1 strict_start [toy_trial a 0; toy_trial b 1].
Proof.
  intros t row Ht E. destruct Ht as [<-|[<-|[]]].
  - rewrite (toy_computes_row toy_print strict_parse a 0 0) in E by auto. cbn [fst] in E.
    assert (X : row = toy_row 0 0) by congruence. rewrite X. apply strict_round_trips; auto.
  - rewrite (toy_computes_row toy_print strict_parse b 1 0) in E by auto. cbn [fst] in E.
    assert (X : row = toy_row 1 0) by congruence. rewrite X. apply strict_round_trips; auto.
Qed.

Lemma toy_two_answers print parse a b tbs : let L := toy_with print parse in
  Forall2 (answers L 1 [] ((fun _ => 0) : generators L)) [toy_trial a 0; toy_trial b 1] tbs ->
  tbs = [[toy_row 0 0]; [toy_row 1 0]].
Proof.
  intros L F. inversion F as [|? tb1 ? r1 F1 F2]; subst. inversion F2 as [|? tb2 ? r2 F3 F4]; subst. inversion F4; subst.
  destruct F1 as [R|[_ [row1 [E1 ->]]]]; [exfalso; exact (toy_two_none print parse a b _ (or_introl eq_refl) _ R)|].
  destruct F3 as [R|[_ [row2 [E2 ->]]]]; [exfalso; exact (toy_two_none print parse a b _ (or_intror (or_introl eq_refl)) _ R)|].
  unfold L in *. rewrite (toy_computes_row print parse a 0 0) in E1 by auto.
  rewrite (toy_computes_row print parse b 1 0) in E2 by auto. cbn [fst] in *. congruence.
Qed.

Example C38_parallel_example : forall a b schedule nows nows' r d2,
  load_parallel strict schedule [toy_trial a 0; toy_trial b 1] 1 nows nows' strict_start [] = Some (r, d2) ->
  r = Ok [toy_row 0 0; toy_row 1 0].
Proof.
  intros a b schedule nows nows' r d2 E.
  destruct (C38_parallel strict [toy_trial a 0; toy_trial b 1] 1 nows nows' strict_start [] schedule r d2)
    as [tbs [-> [F _]]].
  - apply toy_two_sane.
  - apply toy_two_usable.
  - discriminate.
  - apply toy_two_computable.
  - apply strict_two_reads.
  - exact E.
  - apply (toy_two_answers toy_print strict_parse) in F. subst tbs. reflexivity.
Qed.

Print Assumptions C38_trials.
Print Assumptions C38_names.
Print Assumptions C38_complete.
Print Assumptions C38_none_twice.
Print Assumptions C38_generated_sane.
Print Assumptions C38_parallel.
Print Assumptions C38_no_deadlock.
Print Assumptions C38_failure.
Print Assumptions C38_combine.
Print Assumptions C38_combine_any.
