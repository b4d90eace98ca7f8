(** C39: the table of an experiment does not depend on how it was run. *)
From Coq Require Import String Ascii Permutation.
From Verif Require Import Prelude ModelReachPoint ModelData ModelPrivacy ModelHalo ModelAggregator ModelFiles
  SpecFiles FilesLemmas3 ModelDriver SpecDriver DriverLemmas DriverLemmas2 DriverLemmas3 DriverLemmas4
  DriverLemmas5 DriverLemmas6 DriverLemmas7 DriverLemmas8 ExampleDriver PropsDriver PropsDriver2 PropsDriver3.
Open Scope Z_scope.

(** If no trial is affected by others having been computed before, a run gives the answers of
    the trials in order, each the one the trial has on its own. *)
Theorem C39_sequential : forall L ts seed nows g d,
  sane_trials L ts -> usable L ts d -> ts <> [] -> computable L seed d g ts -> unaffected L seed g ts ->
  exists tbs d', load L ts seed nows g d = (Ok (concat tbs), d') /\ Forall2 (answers L seed d g) ts tbs /\
    Forall2 (fun t tb => no_result L t d -> stat d' (out_of L t) = Some (File (lab_print L tb))) ts tbs /\
    usable L ts d' /\ only_adds_directories L ts d d'.
Proof.
  intros L ts seed nows g d S U Ne C Un. apply sane_separate in S.
  destruct (load_all L ts S seed g d U C Ne nows Un) as [tbs [d' [E [F1 [F2 [F3 F4]]]]]].
  exists tbs, d'. split; [exact E|]. split; [exact F1|]. split; [|auto].
  eapply Forall2_impl_In; [|exact F4]. intros t tb _ _ [[A _]|[_ A]] N; [exfalso; exact (N _ A)|exact A].
Qed.

(** Trials with generators of their own are not affected by others. *)
Theorem C39_own_generators : forall L seed g ts,
  (forall t t', In t ts -> In t' ts ->
     sp_generator (td_system (tr_descriptor t)) = sp_generator (td_system (tr_descriptor t')) -> t = t') ->
  unaffected L seed g ts.
Proof. exact own_generators_unaffected. Qed.

(** Neither are trials whose models do not draw from the generator. *)
Theorem C39_no_draws : forall L seed g ts,
  (forall t, In t ts -> forall h h' : generators L, fst (compute_row L t seed h) = fst (compute_row L t seed h')) ->
  unaffected L seed g ts.
Proof. intros L seed g ts H t l Ht _. apply H. exact Ht. Qed.

(** The order of the trials changes the order of the rows only. *)
Theorem C39_order : forall L ts ts' seed nows nows' g d tb tb' d1 d2,
  sane_trials L ts -> sane_trials L ts' -> usable L ts d -> ts <> [] -> computable L seed d g ts ->
  unaffected L seed g ts -> Permutation ts ts' ->
  load L ts seed nows g d = (Ok tb, d1) -> load L ts' seed nows' g d = (Ok tb', d2) ->
  Permutation tb tb'.
Proof.
  intros L ts ts' seed nows nows' g d tb tb' d1 d2 S S' U Ne C Un P E E'.
  assert (I : forall t, In t ts' <-> In t ts).
  { intros t. split; apply Permutation_in; [symmetry; exact P|exact P]. }
  destruct (C39_sequential L ts seed nows g d S U Ne C Un) as [tbs [d' [X [F1 _]]]].
  destruct (C39_sequential L ts' seed nows' g d S') as [tbs' [d'' [X' [F1' _]]]].
  - destruct U as [U1 U2]. split; [exact U1|]. intros t Ht. apply U2, I, Ht.
  - intros ->. apply Permutation_sym, Permutation_nil in P. contradiction.
  - intros t Ht. apply C, I, Ht.
  - intros t l Ht Hl. apply Un; [apply I; exact Ht|]. intros x Hx. destruct (Hl x Hx) as [A B].
    split; [apply I; exact A|exact B].
  - assert (Et : tb = concat tbs) by congruence. assert (Et' : tb' = concat tbs') by congruence. subst tb tb'.
    assert (Pt : Permutation tbs tbs').
    { clear -P F1 F1'. revert tbs tbs' F1 F1'. induction P as [|t l l' P IH|t u l|l l' l'' P1 IH1 P2 IH2]; intros tbs tbs' F1 F1'.
      - inversion F1; inversion F1'; subst. constructor.
      - inversion F1 as [|? a ? r A1 A2]; inversion F1' as [|? a' ? r' B1 B2]; subst.
        rewrite (answers_fun L seed g d t a a' A1 B1). constructor. auto.
      - inversion F1 as [|? a ? r A1 A2]; inversion F1' as [|? a' ? r' B1 B2]; subst.
        inversion A2 as [|? b ? s A3 A4]; inversion B2 as [|? b' ? s' B3 B4]; subst.
        rewrite (answers_fun L seed g d u a b' A1 B3), (answers_fun L seed g d t b a' A3 B1).
        rewrite (Forall2_fun _ _ s s' (fun x y y' => answers_fun L seed g d x y y') A4 B4). constructor.
      - assert (X : exists m, Forall2 (answers L seed d g) l' m).
        { assert (G : forall t, In t l' -> exists tb, answers L seed d g t tb).
          { intros t Ht. apply (Permutation_in t (Permutation_sym P1)) in Ht. clear -F1 Ht.
            induction F1 as [|x y a b H1 H2 IH]; [destruct Ht|]. destruct Ht as [->|Ht]; eauto. }
          clear -G. induction l' as [|t r IH]; [exists []; constructor|].
          destruct IH as [m Hm]; [intros x Hx; apply G; right; exact Hx|].
          destruct (G t (or_introl eq_refl)) as [tb Htb]. exists (tb :: m). constructor; assumption. }
        destruct X as [m Hm]. etransitivity; [apply IH1|apply IH2]; eassumption. }
    clear -Pt. induction Pt; cbn [concat]; auto.
    + apply Permutation_app_head. exact IHPt.
    + rewrite !app_assoc. apply Permutation_app_tail, Permutation_app_comm.
    + etransitivity; eauto.
Qed.

(** The table is the same as without interruption, however often and wherever runs have been
    stopped before. *)
Theorem C39_resumed : forall L ts seed nows nows' g d (l : list ((nat -> text) * nat)),
  sane_trials L ts -> usable L ts d -> ts <> [] -> computable L seed d g ts -> unaffected L seed g ts ->
  reads_back L seed g ts -> refuses_all_parts L seed g ts ->
  exists tb, fst (load L ts seed nows g d) = Ok tb /\
             fst (load L ts seed nows' g (after_runs L ts seed g d l)) = Ok tb.
Proof.
  intros L ts seed nows nows' g d l S U Ne C Un RB RP.
  destruct (C39_sequential L ts seed nows g d S U Ne C Un) as [tbs [d' [X [F1 _]]]].
  pose proof (sane_separate _ _ S) as Sep.
  pose proof (runs_halfway L ts Sep seed g l d Un C U) as H.
  destruct (C39_sequential L ts seed nows' g (after_runs L ts seed g d l) S (proj1 H) Ne
              (halfway_computable L ts seed g d _ C H) Un) as [tbs' [d'' [X' [F1' _]]]].
  exists (concat tbs). rewrite X, X'. split; [reflexivity|]. cbn [fst]. do 2 f_equal.
  apply (Forall2_fun (answers L seed d g) ts).
  - intros x y y'. apply answers_fun.
  - eapply Forall2_impl_In; [|exact F1']. intros t tb Ht _ A. eapply halfway_answers; eauto.
  - exact F1.
Qed.

(** Loading again gives the same table and changes nothing. *)
Theorem C39_again : forall L ts seed nows nows' g g' seed' d tb d',
  sane_trials L ts -> usable L ts d -> ts <> [] -> computable L seed d g ts -> unaffected L seed g ts ->
  reads_back L seed g ts -> load L ts seed nows g d = (Ok tb, d') ->
  load L ts seed' nows' g' d' = (Ok tb, d').
Proof.
  intros L ts seed nows nows' g g' seed' d tb d' S U Ne C Un RB E. apply sane_separate in S.
  destruct (load_all L ts S seed g d U C Ne nows Un) as [tbs [w [X [F1 [F2 [F3 F4]]]]]].
  assert (Et : tb = concat tbs) by congruence. assert (Ed : w = d') by congruence. subst tb w.
  apply load_results; [exact Ne|]. apply (left_results L ts seed g d d' tbs RB F1 F4).
Qed.

(** A parallel run gives the table of a sequential run, whatever the schedule was. *)
Theorem C39_parallel : forall L ts seed nows nows' nows'' g d schedule r d2,
  sane_trials L ts -> usable L ts d -> ts <> [] -> computable L seed d g ts -> unaffected L seed g ts ->
  reads_back L seed g ts ->
  load_parallel L schedule ts seed nows nows' g d = Some (r, d2) -> r = fst (load L ts seed nows'' g d).
Proof.
  intros L ts seed nows nows' nows'' g d schedule r d2 S U Ne C Un RB E.
  destruct (C39_sequential L ts seed nows'' g d S U Ne C Un) as [tbs [d' [X [F1 _]]]].
  destruct (C38_parallel L ts seed nows nows' g d schedule r d2 S U Ne C RB E) as [tbs' [-> [F1' _]]].
  rewrite X. cbn [fst]. do 2 f_equal.
  apply (Forall2_fun (answers L seed d g) ts); auto. intros x y y'. apply answers_fun.
Qed.

(** ** Two replicas with generators of their own *)

Lemma toy_two_unaffected print parse : let L := toy_with print parse in
  unaffected L 1 ((fun _ => 0) : generators L) [toy_trial 0 0; toy_trial 1 1].
Proof.
  intros L. apply C39_own_generators. intros t t' [<-|[<-|[]]] [<-|[<-|[]]] E; try reflexivity; discriminate.
Qed.

Lemma strict_refuses_row r : r = 0 \/ r = 1 -> refuses_parts strict [toy_row r 0].
Proof.
  intros [-> | ->]; [|exact strict_refuses].
  intros c tb W Ne.
  assert (P : lab_print strict [toy_row 0 0] = toy_header ++ chars "0,1" ++ [newline]) by (vm_compute; reflexivity).
  rewrite P in *. apply written_prefix in W.
  assert (F : Forall (fun c => c = toy_header ++ chars "0,1" ++ [newline] \/ exists e, strict_parse c = Err e)
                (prefixes (toy_header ++ chars "0,1" ++ [newline]))).
  { repeat (constructor; [first [left; reflexivity | right; eexists; reflexivity]|]). constructor. }
  rewrite Forall_forall in F. destruct (F c W) as [X|[e X]]; [contradiction|].
  cbn [lab_parse strict toy_with]. rewrite X. discriminate.
Qed.

Lemma strict_two_refuses a b : refuses_all_parts strict 1 strict_start [toy_trial a 0; toy_trial b 1].
Proof.
  intros t row Ht E. destruct Ht as [<-|[<-|[]]].
  - rewrite (toy_computes_row toy_print strict_parse a 0 0) in E by auto. cbn [fst] in E.
    assert (X : row = toy_row 0 0) by congruence. rewrite X. apply strict_refuses_row; auto.
  - rewrite (toy_computes_row toy_print strict_parse b 1 0) in E by auto. cbn [fst] in E.
    assert (X : row = toy_row 1 0) by congruence. rewrite X. apply strict_refuses_row; auto.
Qed.

Example C39_example : forall nows nows' (l : list ((nat -> text) * nat)) schedule,
  let ts := [toy_trial 0 0; toy_trial 1 1] in
  fst (load strict ts 1 nows strict_start (after_runs strict ts 1 strict_start [] l)) = Ok [toy_row 0 0; toy_row 1 0] /\
  forall r d2, load_parallel strict schedule ts 1 nows nows' strict_start [] = Some (r, d2) ->
    r = Ok [toy_row 0 0; toy_row 1 0].
Proof.
  intros nows nows' l schedule ts. split; [|apply C38_parallel_example].
  assert (S : sane_trials strict ts) by apply toy_two_sane.
  assert (U : usable strict ts []) by apply toy_two_usable.
  assert (C : computable strict 1 [] strict_start ts) by apply toy_two_computable.
  assert (Un : unaffected strict 1 strict_start ts) by apply toy_two_unaffected.
  destruct (C39_sequential strict ts 1 nows strict_start [] S U ltac:(discriminate) C Un) as [tbs [d' [X [F _]]]].
  destruct (C39_resumed strict ts 1 nows nows strict_start [] l S U ltac:(discriminate) C Un
              (strict_two_reads 0 1) (strict_two_refuses 0 1)) as [tb [E1 E2]].
  rewrite E2. rewrite X in E1. cbn [fst] in E1. apply (toy_two_answers toy_print strict_parse) in F. subst tbs.
  cbn [concat app] in E1. congruence.
Qed.

(** ** What does not hold: trials that share a generator *)

Lemma load_two L t1 t2 seed nows g g1 g2 r1 r2 d :
  sane_trials L [t1; t2] -> usable L [t1; t2] d -> no_result L t1 d -> no_result L t2 d ->
  compute_row L t1 seed g = (Ok r1, g1) -> compute_row L t2 seed g1 = (Ok r2, g2) ->
  fst (load L [t1; t2] seed nows g d) = Ok [r1; r2].
Proof.
  intros S U N1 N2 E1 E2. apply sane_separate in S. unfold load.
  destruct (evaluate_one L [t1; t2] S t1 seed (nows O) g d (or_introl eq_refl) U) as [a [d' [F [Ev [U' [_ [Fr _]]]]]]].
  cbn [evaluate_all]. rewrite finish_pbind, F.
  destruct Ev as [[tb [R _]]|[_ Ev]]; [exfalso; exact (N1 _ R)|]. rewrite E1 in Ev. destruct Ev as [-> _]. cbn [fst snd].
  rewrite finish_pbind.
  destruct (evaluate_one L [t1; t2] S t2 seed (nows 1%nat) g1 d' (or_intror (or_introl eq_refl)) U')
    as [a2 [d2 [F2 [Ev2 _]]]].
  rewrite finish_pbind, F2.
  assert (Ne : t2 <> t1).
  { pose proof (separate_NoDup _ _ S) as Nd. inversion Nd as [|? ? Nx _]; subst. intros X. apply Nx. left. exact X. }
  destruct Ev2 as [[tb [[c [R P]] _]]|[_ Ev2]].
  - exfalso. apply (N2 tb). exists c. split; [|exact P]. rewrite <- (Fr t2); auto. right. left. reflexivity.
  - rewrite E2 in Ev2. destruct Ev2 as [-> _]. reflexivity.
Qed.

Lemma load_second L t1 t2 seed nows g g2 r1 r2 d :
  sane_trials L [t1; t2] -> usable L [t1; t2] d -> has_result L t1 d [r1] -> no_result L t2 d ->
  compute_row L t2 seed g = (Ok r2, g2) ->
  fst (load L [t1; t2] seed nows g d) = Ok [r1; r2].
Proof.
  intros S U R1 N2 E2. apply sane_separate in S. unfold load. cbn [evaluate_all].
  rewrite finish_pbind, (result_finish L t1 seed (nows O) g d [r1] R1). cbn [fst snd].
  rewrite finish_pbind.
  destruct (evaluate_one L [t1; t2] S t2 seed (nows 1%nat) g d (or_intror (or_introl eq_refl)) U)
    as [a2 [d2 [F2 [Ev2 _]]]].
  rewrite finish_pbind, F2.
  destruct Ev2 as [[tb [R _]]|[_ Ev2]]; [exfalso; exact (N2 _ R)|].
  rewrite E2 in Ev2. destruct Ev2 as [-> _]. reflexivity.
Qed.

(** A run can be stopped just when the first trial is finished. *)
Lemma stop_after_first {A B} (p : prog A) (f : A -> prog B) d :
  exists n, fst (advances n d (pbind p f)) = snd (finish p d).
Proof.
  revert d. induction p as [a|q k IH|e k IH]; intros d.
  - exists O. reflexivity.
  - destruct (IH (stat d q) d) as [n E]. exists (S n). exact E.
  - cbn [pbind finish]. destruct (run_effect d e) as [w|x] eqn:R.
    + destruct (IH (Ok tt) w) as [n E]. exists (S n). cbn [advances advance]. rewrite R. exact E.
    + destruct (IH (Err x) d) as [n E]. exists (S n). cbn [advances advance]. rewrite R. exact E.
Qed.

Lemma toy_rows_differ : toy_row 1 0 <> toy_row 1 1.
Proof. intros X. apply (f_equal (cell_named "mean_error")) in X. vm_compute in X. discriminate. Qed.

(** Trials that share a generator, as the trials of one descriptor on several data sets do:
    the second trial of an uninterrupted run gets another row than after a run that was
    stopped in between, and another than in a parallel run, although files are read back
    exactly and parts are refused. *)
Theorem C39_shared_generator_refuted : exists L ts seed g d,
  sane_trials L ts /\ usable L ts d /\ computable L seed d g ts /\ reads_back L seed g ts /\
  refuses_all_parts L seed g ts /\
  exists tb tb', tb <> tb' /\
    (forall nows, fst (load L ts seed nows g d) = Ok tb) /\
    (exists l, forall nows, fst (load L ts seed nows g (after_runs L ts seed g d l)) = Ok tb') /\
    (forall schedule nows nows' r d2, load_parallel L schedule ts seed nows nows' g d = Some (r, d2) -> r = Ok tb').
Proof.
  exists strict, [toy_trial 0 0; toy_trial 0 1], 1, strict_start, [].
  assert (S : sane_trials strict [toy_trial 0 0; toy_trial 0 1]) by apply toy_two_sane.
  assert (U : usable strict [toy_trial 0 0; toy_trial 0 1] []) by apply toy_two_usable.
  assert (N : forall t, In t [toy_trial 0 0; toy_trial 0 1] -> no_result strict t []) by apply toy_two_none.
  split; [exact S|]. split; [exact U|]. split; [apply toy_two_computable|]. split; [apply strict_two_reads|].
  split; [apply strict_two_refuses|].
  exists [toy_row 0 0; toy_row 1 1], [toy_row 0 0; toy_row 1 0].
  split; [intros X; apply toy_rows_differ; congruence|].
  pose proof (toy_computes_row toy_print strict_parse 0 0 0 (or_introl eq_refl) (or_introl eq_refl) strict_start eq_refl) as E0.
  pose proof (toy_computes_row toy_print strict_parse 0 1 0 (or_intror eq_refl) (or_introl eq_refl) strict_start eq_refl) as E1.
  pose proof (toy_computes_row toy_print strict_parse 0 1 1 (or_intror eq_refl) (or_intror eq_refl)
                (put_generator strict strict_start 0 1) eq_refl) as E2.
  split; [|split].
  - intros nows. eapply load_two; [exact S|exact U|apply N; left; reflexivity|apply N; right; left; reflexivity|exact E0|exact E2].
  - pose proof (sane_separate _ _ S) as Sep.
    destruct (evaluate_one strict _ Sep (toy_trial 0 0) 1 [] strict_start [] (or_introl eq_refl) U)
      as [a [d' [F [Ev [U' [_ [Fr _]]]]]]].
    destruct Ev as [[tb [R _]]|[_ Ev]]; [exfalso; exact (N _ (or_introl eq_refl) _ R)|].
    unfold strict in Ev. rewrite E0 in Ev. fold strict in Ev. destruct Ev as [-> [Ev _]].
    pose (f := fun a : result table * generators strict => match fst a with
      | Err e => Ret (Err e, snd a)
      | Ok tb => pbind (evaluate_all strict [toy_trial 0 1] 1 (fun _ => []) (snd a)) (fun b =>
                 match fst b with
                 | Err e => Ret (Err e, snd b)
                 | Ok tbs => Ret (Ok (tb :: tbs), snd b)
                 end)
      end).
    destruct (stop_after_first (evaluate strict (toy_trial 0 0) 1 [] strict_start) f []) as [n En].
    exists [((fun _ => []), n)]. intros nows.
    assert (Ed : after_runs strict [toy_trial 0 0; toy_trial 0 1] 1 strict_start [] [((fun _ => []), n)] = d').
    { unfold after_runs, stopped_run. cbn [fold_left fst snd evaluate_all]. rewrite F in En. exact En. }
    rewrite Ed. eapply load_second; [exact S|exact U'| | |exact E1].
    + exists (lab_print strict [toy_row 0 0]). split; [exact Ev|]. apply strict_round_trips; auto.
    + intros tb [c [R P]]. apply (N (toy_trial 0 1) (or_intror (or_introl eq_refl)) tb). exists c. split; [|exact P].
      rewrite <- Fr; [exact R|right; left; reflexivity|discriminate].
  - intros schedule nows nows' r d2 E. eapply C38_parallel_example. exact E.
Qed.

(** Nor does the order matter less: the same two trials, the other way round. *)
Lemma toy_two_sane_rev print parse : sane_trials (toy_with print parse) [toy_trial 0 1; toy_trial 0 0].
Proof.
  destruct (toy_two_sane print parse 0 0) as [dir [S1 [S2 [S3 [S4 S5]]]]].
  exists dir. split; [exact S1|]. split; [exact S2|].
  assert (I : forall t, In t [toy_trial 0 1; toy_trial 0 0] -> In t [toy_trial 0 0; toy_trial 0 1]).
  { intros t [<-|[<-|[]]]; [right; left; reflexivity|left; reflexivity]. }
  split; [|split].
  - intros t Ht. apply S3, I, Ht.
  - intros t t' Ht Ht'. apply S4; apply I; assumption.
  - eapply Permutation_NoDup; [|exact S5]. cbn [map]. apply perm_swap.
Qed.

Theorem C39_order_refuted : exists L t t' seed g d,
  sane_trials L [t; t'] /\ sane_trials L [t'; t] /\ usable L [t; t'] d /\ computable L seed d g [t; t'] /\
  exists a a' b b', a' <> b' /\
    (forall nows, fst (load L [t; t'] seed nows g d) = Ok [a; a']) /\
    (forall nows, fst (load L [t'; t] seed nows g d) = Ok [b'; b]).
Proof.
  exists strict, (toy_trial 0 0), (toy_trial 0 1), 1, strict_start, [].
  assert (S : sane_trials strict [toy_trial 0 0; toy_trial 0 1]) by apply toy_two_sane.
  assert (S' : sane_trials strict [toy_trial 0 1; toy_trial 0 0]) by apply toy_two_sane_rev.
  assert (U : usable strict [toy_trial 0 0; toy_trial 0 1] []) by apply toy_two_usable.
  assert (N : forall t, In t [toy_trial 0 0; toy_trial 0 1] -> no_result strict t []) by apply toy_two_none.
  split; [exact S|]. split; [exact S'|]. split; [exact U|]. split; [apply toy_two_computable|].
  pose proof (toy_computes_row toy_print strict_parse 0 0 0 (or_introl eq_refl) (or_introl eq_refl) strict_start eq_refl) as E0.
  pose proof (toy_computes_row toy_print strict_parse 0 1 0 (or_intror eq_refl) (or_introl eq_refl) strict_start eq_refl) as E1.
  pose proof (toy_computes_row toy_print strict_parse 0 1 1 (or_intror eq_refl) (or_intror eq_refl)
                (put_generator strict strict_start 0 1) eq_refl) as E2.
  pose proof (toy_computes_row toy_print strict_parse 0 0 1 (or_introl eq_refl) (or_intror eq_refl)
                (put_generator strict strict_start 0 1) eq_refl) as E3.
  exists (toy_row 0 0), (toy_row 1 1), (toy_row 0 1), (toy_row 1 0).
  split; [intros X; apply toy_rows_differ; congruence|]. split; intros nows.
  - eapply load_two; [exact S|exact U|apply N; left; reflexivity|apply N; right; left; reflexivity|exact E0|exact E2].
  - eapply load_two; [exact S'| |apply N; right; left; reflexivity|apply N; left; reflexivity|exact E1|exact E3].
    apply empty_disk_usable. exact (proj1 (sane_separate _ _ S')).
Qed.

Print Assumptions C39_sequential.
Print Assumptions C39_own_generators.
Print Assumptions C39_no_draws.
Print Assumptions C39_order.
Print Assumptions C39_resumed.
Print Assumptions C39_again.
Print Assumptions C39_parallel.
Print Assumptions C39_shared_generator_refuted.
Print Assumptions C39_order_refuted.
