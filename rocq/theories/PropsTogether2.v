(** C62: processes that each evaluate a list of trials at the same time, as several runs of the
    driver on the same directories do. *)
From Coq Require Import String Ascii.
From Verif Require Import Prelude ModelReachPoint ModelAggregator ModelFiles SpecFiles FilesLemmas FilesLemmas2 ModelDriver SpecDriver
  DriverLemmas2 DriverLemmas4 DriverLemmas7 ExampleDriver PropsDriver PropsDriver3 ModelTogether SpecTogether TogetherLemmas TogetherLemmas2 TogetherLemmas3
  TogetherLemmas4 PropsTogether ModelTogether2 SpecTogether2 TogetherLemmas5 TogetherLemmas6.
Open Scope nat_scope.

(** Whatever the schedule and wherever it stops. *)
Theorem C62_sessions_any_moment : forall L seed ts rows es s schedule s' ps,
  sane_trials L ts -> ready L ts s -> in_step L seed ts rows es ->
  shared_run schedule s (session_starts seed es) = (s', ps) ->
  ready L ts s' /\ adds_only_directories L ts s s' /\
  (forall t, In t ts ->
     (seen s' (out_of L t) = seen s (out_of L t) /\ seen s' (pending_path L t) = seen s (pending_path L t)) \/
     (unreadable L t s /\ (exists i, session_with es t i) /\
      (seen s' (out_of L t) = None \/
       exists c, seen s' (out_of L t) = Some (File c) /\ patchy c (lab_print L [rows t])))) /\
  (forall i e a g, nth_error es i = Some e -> answered ps i (a, g) ->
     (exists tbs, a = Ok tbs /\ Forall2 (possible_table L rows s) (se_trials e) tbs) \/
     (a = Err FileNotFoundError /\ exists t, In t (se_trials e) /\ unreadable L t s /\ two_sessions es t /\
      (seen s (out_of L t) = None -> three_sessions es t))).
Proof.
  intros L seed ts rows es s schedule s' ps Sane R St E. apply sane_separate in Sane.
  destruct (going_start L seed ts rows s es R St) as [rs0 [xs0 [tags0 [jss0 G0]]]].
  destruct (going_run L seed ts rows s Sane es St schedule _ _ _ _ _ _ _ _ G0 E) as [rs [xs [tags [jss G]]]].
  pose proof (go_inv _ _ _ _ _ _ _ _ _ _ _ _ G) as V.
  split; [exact (at_ready _ _ _ _ _ _ _ _ _ V)|]. split; [exact (at_adds _ _ _ _ _ _ _ _ _ V)|]. split.
  - intros t Ht. exact (going_files L seed ts rows s Sane es s' ps rs xs tags jss G t Ht).
  - intros i e a g He Ha. exact (going_answer L seed ts rows s es s' ps rs xs tags jss St G i e a g He Ha).
Qed.

(** If the reader refuses incomplete files and takes back what was printed, then every session
    that has ended, at whatever point the others are, answers with the right table for each of
    its trials in their order, or fails because of a trial that other sessions have, too. *)
Theorem C62_sessions : forall L seed ts rows es s schedule s' ps,
  sane_trials L ts -> ready L ts s -> in_step L seed ts rows es ->
  (forall t, In t ts -> lab_parse L (lab_print L [rows t]) = Ok [rows t] /\ refuses_patches L [rows t]) ->
  shared_run schedule s (session_starts seed es) = (s', ps) ->
  forall i e a g, nth_error es i = Some e -> answered ps i (a, g) ->
    (exists tbs, a = Ok tbs /\ Forall2 (right_table L rows s) (se_trials e) tbs) \/
    (a = Err FileNotFoundError /\ exists t, In t (se_trials e) /\ unreadable L t s /\ two_sessions es t /\
     (seen s (out_of L t) = None -> three_sessions es t)).
Proof.
  intros L seed ts rows es s schedule s' ps Sane R St RT E i e a g He Ha.
  destruct (C62_sessions_any_moment L seed ts rows es s schedule s' ps Sane R St E) as [_ [_ [_ H]]].
  destruct (H i e a g He Ha) as [[tbs [-> F]]|H']; [left; exists tbs; split; [reflexivity|]|right; exact H'].
  assert (Sub : forall t, In t (se_trials e) -> In t ts) by (intros t Ht; apply (St e (nth_error_In _ _ He)); exact Ht).
  clear - F Sub RT. induction F as [|t tb l tbs P F IH]; constructor; [|apply IH; intros x Hx; apply Sub; right; exact Hx].
  destruct P as [P|[U [c [P Q]]]]; [exact P|]. right. split; [exact U|]. destruct (RT t (Sub t (or_introl eq_refl))) as [R1 R2].
  destruct (list_eq_dec ascii_dec c (lab_print L [rows t])) as [->|N]; [congruence|]. contradiction (R2 c tb P N Q).
Qed.

(** When all have ended, the results of every session that answered with tables are complete,
    and the markers of the trials that were computed are gone. *)
Theorem C62_sessions_results : forall L seed ts rows es s schedule s' ps i e tbs g t,
  sane_trials L ts -> ready L ts s -> in_step L seed ts rows es ->
  shared_run schedule s (session_starts seed es) = (s', ps) -> all_ended ps ->
  nth_error es i = Some e -> answered ps i (Ok tbs, g) -> In t (se_trials e) ->
  (unreadable L t s -> seen s' (out_of L t) = Some (File (lab_print L [rows t])) /\ seen s' (pending_path L t) = None) /\
  (forall tb, readable L t s tb -> seen s' (out_of L t) = seen s (out_of L t) /\ seen s' (pending_path L t) = seen s (pending_path L t)).
Proof.
  intros L seed ts rows es s schedule s' ps i e tbs g t Sane R St E All He Ha Ht. split.
  - intros U. apply sane_separate in Sane.
    destruct (going_start L seed ts rows s es R St) as [rs0 [xs0 [tags0 [jss0 G0]]]].
    destruct (going_run L seed ts rows s Sane es St schedule _ _ _ _ _ _ _ _ G0 E) as [rs [xs [tags [jss G]]]].
    exact (going_end L seed ts rows s Sane es s' ps rs xs tags jss St G i e t tbs g All He Ha Ht U).
  - intros tb Rd. destruct (C62_sessions_any_moment L seed ts rows es s schedule s' ps Sane R St E) as [_ [_ [H _]]].
    destruct (H t) as [X|[U _]]; [apply (St e (nth_error_In _ _ He)); exact Ht|exact X|contradiction (U tb Rd)].
Qed.

(** No session fails if every trial without readable results is in one session only, or is in
    two and has no results file. *)
Theorem C62_two_sessions : forall L seed ts rows es s schedule s' ps,
  sane_trials L ts -> ready L ts s -> in_step L seed ts rows es ->
  (forall t, In t ts -> lab_parse L (lab_print L [rows t]) = Ok [rows t] /\ refuses_patches L [rows t]) ->
  (forall t, In t ts -> unreadable L t s -> ~ two_sessions es t \/ (seen s (out_of L t) = None /\ ~ three_sessions es t)) ->
  shared_run schedule s (session_starts seed es) = (s', ps) -> all_ended ps ->
  (forall i e, nth_error es i = Some e -> exists tbs g, answered ps i (Ok tbs, g) /\ Forall2 (right_table L rows s) (se_trials e) tbs) /\
  (forall t i, session_with es t i -> unreadable L t s ->
     seen s' (out_of L t) = Some (File (lab_print L [rows t])) /\ seen s' (pending_path L t) = None).
Proof.
  intros L seed ts rows es s schedule s' ps Sane R St RT N E All.
  assert (A : forall i e, nth_error es i = Some e -> exists tbs g, answered ps i (Ok tbs, g) /\ Forall2 (right_table L rows s) (se_trials e) tbs).
  { intros i e He. assert (Len : length ps = length es).
    { pose proof (run_length _ _ _ _ _ E) as Y. unfold session_starts in Y. rewrite map_length in Y. exact Y. }
    destruct (same_length_nth es ps i e Len He) as [[h p] Hp]. destruct (All i _ Hp) as [[a g] Ea]. cbn [snd] in Ea. subst p.
    assert (Ha : answered ps i (a, g)) by (exists h; exact Hp).
    destruct (C62_sessions L seed ts rows es s schedule s' ps Sane R St RT E i e a g He Ha) as [[tbs [-> F]]|[_ [t [Ht [U [T2 T3]]]]]]; [eauto|].
    exfalso. destruct (N t) as [N2|[N1 N3]]; auto. apply (St e (nth_error_In _ _ He)); exact Ht. }
  split; [exact A|]. intros t i [e [He Ht]] U. destruct (A i e He) as [tbs [g [Ha _]]].
  exact (proj1 (C62_sessions_results L seed ts rows es s schedule s' ps i e tbs g t Sane R St E All He Ha Ht) U).
Qed.

(** There is a number of turns after which every session has ended, whatever the others do. *)
Theorem C62_sessions_end : forall L seed (es : list (session L)), exists n, forall schedule s s' ps,
  shared_run schedule s (session_starts seed es) = (s', ps) ->
  (forall i, i < length es -> n <= count_occ Nat.eq_dec schedule i) -> all_ended ps.
Proof. exact sessions_end. Qed.

(** Groups of sessions, each stopped somewhere, leave a disk that the next ones can use, and
    no results that can be read but are not complete. *)
Theorem C62_groups : forall L seed ts rows groups s,
  sane_trials L ts -> ready L ts s ->
  (forall t, In t ts -> lab_parse L (lab_print L [rows t]) = Ok [rows t] /\ refuses_patches L [rows t]) ->
  (forall b, In b groups -> in_step L seed ts rows (fst b)) ->
  ready L ts (after_groups seed s groups) /\
  forall t, In t ts ->
    (forall tb, readable L t s tb -> seen (after_groups seed s groups) (out_of L t) = seen s (out_of L t)) /\
    (unreadable L t s -> unreadable L t (after_groups seed s groups) \/
                         seen (after_groups seed s groups) (out_of L t) = Some (File (lab_print L [rows t]))).
Proof.
  intros L seed ts rows groups s Sane R RT. revert s R. induction groups as [|[es sch] l IH]; intros s R B; cbn [after_groups fold_left].
  { split; [exact R|]. intros t Ht. auto. }
  destruct (shared_run sch s (session_starts seed es)) as [s1 ps] eqn:E. cbn [fst snd]. rewrite E. cbn [fst].
  destruct (C62_sessions_any_moment L seed ts rows es s sch s1 ps Sane R (B _ (or_introl eq_refl)) E) as [R1 [_ [F _]]].
  destruct (IH s1 R1 (fun b Hb => B b (or_intror Hb))) as [R2 H]. split; [exact R2|].
  intros t Ht. destruct (H t Ht) as [H1 H2]. destruct (RT t Ht) as [P1 P2]. unfold after_groups in *. split.
  - intros tb [c [X Y]]. destruct (F t Ht) as [[Z _]|[U _]]; [|contradiction (U tb); exists c; auto].
    rewrite (H1 tb); [exact Z|exists c; rewrite Z; auto].
  - intros U. destruct (F t Ht) as [[Z _]|[_ [_ [Z|[c [Z P]]]]]].
    + apply H2. intros tb [c [X Y]]. apply (U tb). exists c. rewrite <- Z. auto.
    + apply H2. intros tb [c [X _]]. congruence.
    + destruct (list_eq_dec ascii_dec c (lab_print L [rows t])) as [->|N].
      * right. rewrite (H1 [rows t]); [exact Z|eexists; split; [exact Z|exact P1]].
      * apply H2. intros tb [c' [X Y]]. rewrite Z in X. injection X as <-. exact (P2 c tb P N Y).
Qed.

(** So one more session on its own, after them, answers with the right table for all its
    trials and completes their results. *)
Theorem C62_groups_then_one : forall L seed ts rows groups e s schedule s' ps,
  sane_trials L ts -> ready L ts s ->
  (forall t, In t ts -> lab_parse L (lab_print L [rows t]) = Ok [rows t] /\ refuses_patches L [rows t]) ->
  (forall b, In b groups -> in_step L seed ts rows (fst b)) -> in_step L seed ts rows [e] ->
  shared_run schedule (after_groups seed s groups) (session_starts seed [e]) = (s', ps) -> all_ended ps ->
  exists tbs g, answered ps 0 (Ok tbs, g) /\ Forall2 (right_table L rows s) (se_trials e) tbs /\
  forall t, In t (se_trials e) ->
    (unreadable L t s -> seen s' (out_of L t) = Some (File (lab_print L [rows t]))) /\
    (forall tb, readable L t s tb -> seen s' (out_of L t) = seen s (out_of L t)).
Proof.
  intros L seed ts rows groups e s schedule s' ps Sane R RT B St E All.
  destruct (C62_groups L seed ts rows groups s Sane R RT B) as [R1 H]. set (s1 := after_groups seed s groups) in *.
  destruct (C62_two_sessions L seed ts rows [e] s1 schedule s' ps Sane R1 St RT) as [A F]; auto.
  { intros t Ht U. left. intros [i [j [[x [X _]] [[y [Y _]] N]]]]. destruct i as [|[|i]], j as [|[|j]]; try discriminate X; try discriminate Y. contradiction N; reflexivity. }
  destruct (A 0 e eq_refl) as [tbs [g [Ha T]]]. exists tbs, g. split; [exact Ha|].
  assert (Sub : forall t, In t (se_trials e) -> In t ts) by (intros t Ht; apply (St e (or_introl eq_refl)); exact Ht).
  assert (Dec : forall t, In t ts -> (exists tb, readable L t s tb) \/ unreadable L t s).
  { intros t _. destruct (seen s (out_of L t)) as [[|c]|] eqn:X; [right; intros tb [c [Y _]]; congruence| |right; intros tb [c [Y _]]; congruence].
    destruct (lab_parse L c) as [tb|x] eqn:P; [left; exists tb, c; auto|right; intros tb [c' [Y Z]]; congruence]. }
  assert (Go : forall t, In t ts -> forall tb, right_table L rows s1 t tb -> right_table L rows s t tb).
  { intros t Ht tb G. destruct (H t Ht) as [H1 H2]. destruct (Dec t Ht) as [[tb0 Rd]|U].
    - left. destruct G as [[c [X Y]]|[U' _]].
      + exists c. rewrite <- (H1 _ Rd). auto.
      + exfalso. apply (U' tb0). destruct Rd as [c [X Y]]. exists c. rewrite (H1 tb0) by (exists c; auto). auto.
    - right. split; [exact U|]. destruct G as [[c [X Y]]|[_ G]]; [|exact G]. destruct (H2 U) as [U'|Z]; [contradiction (U' tb); exists c; auto|].
      rewrite Z in X. injection X as <-. destruct (RT t Ht) as [P _]. congruence. }
  split.
  - clear - T Go Sub. induction T as [|t tb l tbs P T IH]; constructor; [apply Go; [apply Sub; left; reflexivity|exact P]|apply IH; intros x Hx; apply Sub; right; exact Hx].
  - intros t Ht. pose proof (Sub t Ht) as Ht'. destruct (H t Ht') as [H1 H2].
    pose proof (C62_sessions_results L seed ts rows [e] s1 schedule s' ps 0 e tbs g t Sane R1 St E All eq_refl Ha Ht) as [K1 K2]. split.
    + intros U. destruct (H2 U) as [U'|Z]; [exact (proj1 (K1 U'))|]. destruct (RT t Ht') as [P _].
      rewrite (proj1 (K2 [rows t] (ex_intro _ _ (conj Z P)))). exact Z.
    + intros tb Rd. rewrite <- (H1 tb Rd). apply (K2 tb). destruct Rd as [c [X Y]]. exists c. rewrite (H1 tb) by (exists c; auto). auto.
Qed.

(** ** The hypotheses can be met *)

Lemma strict_refuses_patches_0 : refuses_patches strict [toy_row 0 0].
Proof.
  intros c tb P Ne.
  assert (W : lab_print strict [toy_row 0 0] = toy_header ++ chars "0,1" ++ [newline]) by (vm_compute; reflexivity).
  rewrite W in P, Ne. change (lab_parse strict c) with (strict_parse c). unfold strict_parse, toy_parse.
  destruct (strip_prefix toy_header c) as [rest|] eqn:S; [|discriminate]. apply strip_prefix_app in S. subst c.
  apply patchy_rest, patchy_patches in P.
  assert (F : Forall (fun c => c = chars "0,1" ++ [newline] \/ toy_rows (split_on newline c) = Ok [] \/ exists e, toy_rows (split_on newline c) = Err e)
                (patches (chars "0,1" ++ [newline]))).
  { cbn [patches chars list_ascii_of_string app flat_map].
    repeat (constructor; [first [left; reflexivity | right; left; reflexivity | right; right; eexists; reflexivity]|]). constructor. }
  rewrite Forall_forall in F. destruct (F rest P) as [X|[X|[e X]]]; [congruence| |]; rewrite X; discriminate.
Qed.

Definition toy_a : trial := toy_trial 0 0.
Definition toy_b : trial := toy_trial 1 1.
Definition toy_rows_ab (t : trial) : list (string * cell) :=
  match sp_generator (system_of t) with O => toy_row 0 0 | _ => toy_row 1 0 end.
(** Two runs that have the trials in opposite orders. *)
Definition toy_sessions : list (session strict) :=
  [ {| se_trials := [toy_a; toy_b]; se_nows := fun _ => []; se_generators := strict_start |};
    {| se_trials := [toy_b; toy_a]; se_nows := fun _ => []; se_generators := strict_start |} ].
Lemma toy_ab_rows t : In t [toy_a; toy_b] -> fst (compute_row strict t 1 strict_start) = Ok (toy_rows_ab t).
Proof.
  intros [<-|[<-|[]]].
  - apply (f_equal fst (toy_computes_row toy_print strict_parse 0 0 0 (or_introl eq_refl) (or_introl eq_refl) strict_start eq_refl)).
  - apply (f_equal fst (toy_computes_row toy_print strict_parse 1 1 0 (or_intror eq_refl) (or_introl eq_refl) strict_start eq_refl)).
Qed.
Lemma toy_in_step : in_step strict 1 [toy_a; toy_b] toy_rows_ab toy_sessions.
Proof.
  assert (N : toy_a <> toy_b) by discriminate.
  intros e [<-|[<-|[]]]; cbn [se_trials se_generators].
  - split; [constructor; [intros [X|[]]; apply N; symmetry; exact X|constructor; [intros []|constructor]]|]. split.
    + apply own_generators_unaffected. intros t t' [<-|[<-|[]]] [<-|[<-|[]]]; cbn; intros X; first [reflexivity|discriminate X].
    + intros t Ht. split; [exact Ht|apply toy_ab_rows; exact Ht].
  - split; [constructor; [intros [X|[]]; exact (N X)|constructor; [intros []|constructor]]|]. split.
    + apply own_generators_unaffected. intros t t' [<-|[<-|[]]] [<-|[<-|[]]]; cbn; intros X; first [reflexivity|discriminate X].
    + intros t Ht. assert (In t [toy_a; toy_b]) by (destruct Ht as [<-|[<-|[]]]; [right; left; reflexivity|left; reflexivity]). split; [assumption|apply toy_ab_rows; assumption].
Qed.
Lemma toy_ab_reader t : In t [toy_a; toy_b] -> lab_parse strict (lab_print strict [toy_rows_ab t]) = Ok [toy_rows_ab t] /\ refuses_patches strict [toy_rows_ab t].
Proof.
  intros [<-|[<-|[]]].
  - split; [apply (strict_round_trips 0 0); auto|exact strict_refuses_patches_0].
  - split; [apply (strict_round_trips 1 0); auto|exact strict_refuses_patches].
Qed.
Lemma toy_ab_ready : ready strict [toy_a; toy_b] (share []).
Proof. apply C62_shared_disk. apply (toy_two_usable toy_print strict_parse 0 1). Qed.
Lemma toy_ab_none t : In t [toy_a; toy_b] -> seen (share []) (out_of strict t) = None.
Proof. intros Ht. rewrite share_seen. destruct Ht as [<-|[<-|[]]]; apply (toy_no_result toy_print strict_parse); auto. Qed.

(** Two runs on an empty disk: whatever the schedule, each answers with its tables in its
    order, and both results files are complete. *)
Example C62_two_sessions_example : forall schedule s' ps,
  shared_run schedule (share []) (session_starts 1 toy_sessions) = (s', ps) -> all_ended ps ->
  (exists g, answered ps 0 (Ok [[toy_row 0 0]; [toy_row 1 0]], g)) /\
  (exists g, answered ps 1 (Ok [[toy_row 1 0]; [toy_row 0 0]], g)) /\
  seen s' (out_of strict toy_a) = Some (File (lab_print strict [toy_row 0 0])) /\
  seen s' (out_of strict toy_b) = Some (File (lab_print strict [toy_row 1 0])).
Proof.
  intros schedule s' ps E All.
  assert (U : forall t, In t [toy_a; toy_b] -> unreadable strict t (share [])).
  { intros t Ht tb [c [X _]]. rewrite toy_ab_none in X by exact Ht. discriminate X. }
  destruct (C62_two_sessions strict 1 [toy_a; toy_b] toy_rows_ab toy_sessions (share []) schedule s' ps
    (toy_two_sane toy_print strict_parse 0 1) toy_ab_ready toy_in_step toy_ab_reader) as [A F]; auto.
  { intros t Ht _. right. split; [apply toy_ab_none; exact Ht|]. intros [i [j [k [[x [X _]] [[y [Y _]] [[z [Z _]] N]]]]]].
    assert (B : forall i r, nth_error toy_sessions i = Some r -> i < 2) by (intros i' r' H; apply (nth_error_Some toy_sessions i'); congruence).
    apply B in X. apply B in Y. apply B in Z. lia. }
  assert (T : forall l tbs, (forall t, In t l -> In t [toy_a; toy_b]) -> Forall2 (right_table strict toy_rows_ab (share [])) l tbs -> tbs = map (fun t => [toy_rows_ab t]) l).
  { intros l tbs Sub P. induction P as [|t tb l tbs P Q IH]; [reflexivity|]. cbn [map]. f_equal; [|apply IH; intros x Hx; apply Sub; right; exact Hx].
    destruct P as [P|[_ P]]; [|exact P]. contradiction (U t (Sub t (or_introl eq_refl)) tb P). }
  split; [|split; [|split]].
  - destruct (A 0 _ eq_refl) as [tbs [g [H P]]]. apply T in P; [subst tbs; exists g; exact H|intros t Ht; exact Ht].
  - destruct (A 1 _ eq_refl) as [tbs [g [H P]]]. apply T in P; [subst tbs; exists g; exact H|]. intros t [<-|[<-|[]]]; [right; left; reflexivity|left; reflexivity].
  - apply (F toy_a 0); [eexists; split; [reflexivity|left; reflexivity]|apply U; left; reflexivity].
  - apply (F toy_b 0); [eexists; split; [reflexivity|right; left; reflexivity]|apply U; right; left; reflexivity].
Qed.
(** Such schedules exist. *)
Example C62_sessions_end_example : exists schedule s' ps,
  shared_run schedule (share []) (session_starts 1 toy_sessions) = (s', ps) /\ all_ended ps.
Proof.
  destruct (C62_sessions_end strict 1 toy_sessions) as [n H].
  set (l := repeat 0 n ++ repeat 1 n). exists l. destruct (shared_run l (share []) (session_starts 1 toy_sessions)) as [s' ps] eqn:E. exists s', ps.
  split; [reflexivity|]. apply (H l _ _ _ E). intros i Hi. unfold l.
  assert (C : forall x y n, count_occ Nat.eq_dec (repeat x n) y = if Nat.eq_dec x y then n else 0).
  { intros x y m. induction m as [|m IH]; cbn [repeat count_occ]; destruct (Nat.eq_dec x y); auto. }
  rewrite count_occ_app, !C. destruct i as [|[|i]]; cbn; [lia|lia|cbn in Hi; lia].
Qed.
(** Groups of these runs, stopped anywhere, any number of times. *)
Example C62_groups_example : forall schedules e schedule s' ps, In e toy_sessions ->
  shared_run schedule (after_groups 1 (share []) (map (fun l => (toy_sessions, l)) schedules)) (session_starts 1 [e]) = (s', ps) -> all_ended ps ->
  seen s' (out_of strict toy_a) = Some (File (lab_print strict [toy_row 0 0])) /\
  seen s' (out_of strict toy_b) = Some (File (lab_print strict [toy_row 1 0])).
Proof.
  intros schedules e schedule s' ps He E All.
  destruct (C62_groups_then_one strict 1 [toy_a; toy_b] toy_rows_ab (map (fun l => (toy_sessions, l)) schedules) e (share []) schedule s' ps
    (toy_two_sane toy_print strict_parse 0 1) toy_ab_ready toy_ab_reader) as [tbs [g [_ [_ F]]]]; auto.
  - intros b Hb. apply in_map_iff in Hb. destruct Hb as [l [<- _]]. exact toy_in_step.
  - intros x [<-|[]]. apply toy_in_step. exact He.
  - assert (I : In toy_a (se_trials e) /\ In toy_b (se_trials e)) by (destruct He as [<-|[<-|[]]]; cbn; auto).
    split; [apply (F toy_a (proj1 I))|apply (F toy_b (proj2 I))]; intros tb [c [X _]]; rewrite toy_ab_none in X by (cbn; auto); discriminate X.
Qed.

Print Assumptions C62_sessions_any_moment.
Print Assumptions C62_sessions.
Print Assumptions C62_sessions_results.
Print Assumptions C62_two_sessions.
Print Assumptions C62_sessions_end.
Print Assumptions C62_groups.
Print Assumptions C62_groups_then_one.
