(** C62: processes that evaluate the same trials at the same time, on one local disk. *)
From Coq Require Import String Ascii.
From Verif Require Import Prelude ModelReachPoint ModelAggregator ModelFiles SpecFiles FilesLemmas FilesLemmas2 ModelDriver SpecDriver
  DriverLemmas2 DriverLemmas4 ExampleDriver PropsDriver ModelTogether SpecTogether TogetherLemmas TogetherLemmas2 TogetherLemmas3
  TogetherLemmas4.
Open Scope nat_scope.

(** A usable disk, as it is before anybody has opened a file. *)
Theorem C62_shared_disk : forall L ts d, usable L ts d ->
  ready L ts (share d) /\ forall p, seen (share d) p = stat d p.
Proof. intros L ts d U. split; [apply share_ready; exact U|apply share_seen]. Qed.

(** A process on its own makes the same steps on it as in ModelDriver.v, so that C36 and C37
    are about this disk, too. *)
Theorem C62_one_process : forall L t seed now g d n, exists s' h' p' d',
  shared_run (repeat 0 n) (share d) [(None, evaluate L t seed now g)] = (s', [(h', p')]) /\
  advances n d (evaluate L t seed now g) = (d', p') /\
  forall q, seen s' q = stat d' q.
Proof.
  intros L t seed now g d n.
  destruct (same_run n (share d) d None None (evaluate L t seed now g) (share_same d) I (orderly_evaluate L t seed now g)) as [s' [h' [p' [d' [E1 [E2 [_ S]]]]]]].
  exists s', h', p', d'. auto.
Qed.

(** Whatever the schedule and wherever it stops. *)
Theorem C62_any_moment : forall L seed ts rows rs s schedule s' ps,
  sane_trials L ts -> ready L ts s -> agreed L seed ts rows rs ->
  shared_run schedule s (starts seed rs) = (s', ps) ->
  ready L ts s' /\ adds_only_directories L ts s s' /\
  (forall t, In t ts ->
     (seen s' (out_of L t) = seen s (out_of L t) /\ seen s' (pending_path L t) = seen s (pending_path L t)) \/
     (unreadable L t s /\ (exists r, In r rs /\ ru_trial r = t) /\
      (seen s' (out_of L t) = None \/
       exists c, seen s' (out_of L t) = Some (File c) /\ patchy c (lab_print L [rows t])))) /\
  (forall i r a, nth_error rs i = Some r -> answered ps i a ->
     (exists tb, readable L (ru_trial r) s tb /\ a = (Ok tb, ru_generators r)) \/
     (unreadable L (ru_trial r) s /\
      (a = (Ok [rows (ru_trial r)], snd (compute_row L (ru_trial r) seed (ru_generators r))) \/
       (a = (Err FileNotFoundError, ru_generators r) /\ two_runners rs (ru_trial r) /\
        (seen s (out_of L (ru_trial r)) = None -> three_runners rs (ru_trial r))) \/
       exists c tb, patchy c (lab_print L [rows (ru_trial r)]) /\ lab_parse L c = Ok tb /\ a = (Ok tb, ru_generators r)))).
Proof.
  intros L seed ts rows rs s schedule s' ps Sane R A E. apply sane_separate in Sane.
  destruct (from_start L seed ts rows rs s Sane A schedule s' ps R E) as [tags [xs [-> V]]].
  split; [exact (at_ready _ _ _ _ _ _ _ _ _ V)|]. split; [exact (at_adds _ _ _ _ _ _ _ _ _ V)|]. split.
  - intros t Ht. exact (at_files _ _ _ _ _ _ Sane _ _ _ V t Ht).
  - intros i r a Hr Ha. exact (at_answer _ _ _ _ _ _ A _ _ _ V i r a Hr Ha).
Qed.

(** When all have come to an end, and the reader takes back what was printed and refuses
    incomplete files. *)
Theorem C62_together : forall L seed ts rows rs s schedule s' ps t,
  sane_trials L ts -> ready L ts s -> agreed L seed ts rows rs ->
  shared_run schedule s (starts seed rs) = (s', ps) -> all_ended ps ->
  In t ts -> (exists r, In r rs /\ ru_trial r = t) ->
  lab_parse L (lab_print L [rows t]) = Ok [rows t] -> refuses_patches L [rows t] ->
  unreadable L t s ->
  seen s' (out_of L t) = Some (File (lab_print L [rows t])) /\ seen s' (pending_path L t) = None /\
  (exists i, runner_of rs t i /\ exists g, answered ps i (Ok [rows t], g)) /\
  (forall i a g, runner_of rs t i -> answered ps i (a, g) ->
     a = Ok [rows t] \/
     (a = Err FileNotFoundError /\ two_runners rs t /\ (seen s (out_of L t) = None -> three_runners rs t))).
Proof.
  intros L seed ts rows rs s schedule s' ps t Sane R A E All Ht Hr RT Ref U. apply sane_separate in Sane.
  destruct (from_start L seed ts rows rs s Sane A schedule s' ps R E) as [tags [xs [-> V]]].
  destruct (at_end _ _ _ _ _ _ Sane _ _ _ V t Ht Hr U All) as [E1 [E2 [i [r [H1 [H2 H3]]]]]].
  split; [exact E1|]. split; [exact E2|]. split.
  - exists i. split; [exists r; auto|]. eauto.
  - intros j a g [r' [G1 G2]] Ha. subst t. destruct (at_answer _ _ _ _ _ _ A _ _ _ V j r' _ G1 Ha) as [[tb [X _]]|[_ [X|[[X Y]|[c [tb [X [Y Z]]]]]]]].
    + rewrite G2 in X. contradiction (U tb X).
    + left. apply (f_equal fst) in X. cbn [fst] in X. rewrite G2 in X. exact X.
    + right. apply (f_equal fst) in X. cbn [fst] in X. rewrite G2 in Y. split; [exact X|exact Y].
    + left. rewrite G2 in X. unfold whole in X. apply (f_equal fst) in Z. cbn [fst] in Z. rewrite Z.
      destruct (list_eq_dec ascii_dec c (lab_print L [rows (ru_trial r)])) as [->|N]; [congruence|]. contradiction (Ref c tb X N Y).
Qed.

(** With one runner of the trial, or with two if there is no results file at first, all
    answer with the row. *)
Theorem C62_two : forall L seed ts rows rs s schedule s' ps t,
  sane_trials L ts -> ready L ts s -> agreed L seed ts rows rs ->
  shared_run schedule s (starts seed rs) = (s', ps) -> all_ended ps ->
  In t ts -> lab_parse L (lab_print L [rows t]) = Ok [rows t] -> refuses_patches L [rows t] ->
  unreadable L t s ->
  (~ two_runners rs t \/ (seen s (out_of L t) = None /\ ~ three_runners rs t)) ->
  forall i a g, runner_of rs t i -> answered ps i (a, g) -> a = Ok [rows t].
Proof.
  intros L seed ts rows rs s schedule s' ps t Sane R A E All Ht RT Ref U N i a g Hi Ha.
  destruct (C62_together L seed ts rows rs s schedule s' ps t Sane R A E All Ht) as [_ [_ [_ H]]]; auto.
  - destruct Hi as [r [H1 H2]]. exists r. split; [eapply nth_error_In; exact H1|exact H2].
  - destruct (H i a g Hi Ha) as [X|[_ [X Y]]]; [exact X|]. destruct N as [N|[N1 N2]]; [contradiction|]. contradiction (N2 (Y N1)).
Qed.

(** A results file that can be read is answered by all, at any time, and is left alone. *)
Theorem C62_readable : forall L seed ts rows rs s schedule s' ps t tb,
  sane_trials L ts -> ready L ts s -> agreed L seed ts rows rs ->
  shared_run schedule s (starts seed rs) = (s', ps) -> In t ts -> readable L t s tb ->
  seen s' (out_of L t) = seen s (out_of L t) /\ seen s' (pending_path L t) = seen s (pending_path L t) /\
  forall i r a, nth_error rs i = Some r -> ru_trial r = t -> answered ps i a -> a = (Ok tb, ru_generators r).
Proof.
  intros L seed ts rows rs s schedule s' ps t tb Sane R A E Ht Rd. apply sane_separate in Sane.
  destruct (from_start L seed ts rows rs s Sane A schedule s' ps R E) as [tags [xs [-> V]]].
  destruct (at_readable _ _ _ _ _ _ Sane _ _ _ V t Ht (ex_intro _ tb Rd)) as [E1 E2]. split; [exact E1|]. split; [exact E2|].
  intros i r a Hr Et Ha. destruct (at_answer _ _ _ _ _ _ A _ _ _ V i r a Hr Ha) as [[tb' [X ->]]|[U _]].
  - rewrite Et in X. destruct X as [c [X1 X2]], Rd as [c' [Y1 Y2]]. congruence.
  - rewrite Et in U. contradiction (U tb Rd).
Qed.

(** Nobody is held up by the others: there is a number of turns after which every runner has
    ended, whatever the others do. *)
Theorem C62_ends : forall L seed (rs : list (runner L)), exists n, forall schedule s s' ps,
  shared_run schedule s (starts seed rs) = (s', ps) ->
  (forall i, i < length rs -> n <= count_occ Nat.eq_dec schedule i) -> all_ended ps.
Proof. exact all_end. Qed.

(** Several runners, all of them stopped somewhere; then others, stopped somewhere; and so
    on. The last ones come to an end. *)
Theorem C62_crash : forall L seed ts rows batches rs s schedule s' ps t,
  sane_trials L ts -> ready L ts s ->
  (forall b, In b batches -> agreed L seed ts rows (fst b)) -> agreed L seed ts rows rs ->
  shared_run schedule (after_batches seed s batches) (starts seed rs) = (s', ps) -> all_ended ps ->
  In t ts -> (exists r, In r rs /\ ru_trial r = t) ->
  lab_parse L (lab_print L [rows t]) = Ok [rows t] -> refuses_patches L [rows t] ->
  unreadable L t s ->
  seen s' (out_of L t) = Some (File (lab_print L [rows t])) /\
  (forall i a g, runner_of rs t i -> answered ps i (a, g) -> a = Ok [rows t] \/ a = Err FileNotFoundError) /\
  (~ two_runners rs t -> forall i a g, runner_of rs t i -> answered ps i (a, g) -> a = Ok [rows t]).
Proof.
  intros L seed ts rows batches rs s schedule s' ps t Sane R AB A E All Ht Hr RT Ref U.
  destruct (after_batches_ready L seed ts rows (sane_separate _ _ Sane) batches s R AB) as [R1 H].
  assert (K : unreadable L t (after_batches seed s batches) \/
              seen (after_batches seed s batches) (out_of L t) = Some (File (lab_print L [rows t]))).
  { destruct (H t Ht) as [X|[_ [X|[c [X P]]]]].
    - left. intros tb [c [Y1 Y2]]. apply (U tb). exists c. rewrite <- X. auto.
    - left. intros tb [c [Y _]]. congruence.
    - destruct (list_eq_dec ascii_dec c (lab_print L [rows t])) as [->|N]; [right; exact X|left].
      intros tb [c' [Y1 Y2]]. rewrite X in Y1. injection Y1 as <-. exact (Ref c tb P N Y2). }
  destruct K as [K|K].
  - destruct (C62_together L seed ts rows rs _ schedule s' ps t Sane R1 A E All Ht Hr RT Ref K) as [E1 [_ [_ G]]].
    split; [exact E1|]. split.
    + intros i a g Hi Ha. destruct (G i a g Hi Ha) as [X|[X _]]; auto.
    + intros N i a g Hi Ha. destruct (G i a g Hi Ha) as [X|[_ [X _]]]; [exact X|contradiction].
  - assert (Rd : readable L t (after_batches seed s batches) [rows t]) by (eexists; split; [exact K|exact RT]).
    destruct (C62_readable L seed ts rows rs _ schedule s' ps t _ Sane R1 A E Ht Rd) as [E1 [_ G]].
    split; [rewrite E1; exact K|].
    assert (G' : forall i a g, runner_of rs t i -> answered ps i (a, g) -> a = Ok [rows t]).
    { intros i a g [r [H1 H2]] Ha. apply (f_equal fst (G i r (a, g) H1 H2 Ha)). }
    split; [intros i a g Hi Ha; left; exact (G' i a g Hi Ha)|intros _; exact G'].
Qed.

(** ** The hypotheses can be met *)

Fixpoint patches (w : text) : list text :=
  match w with [] => [[]] | x :: r => [] :: flat_map (fun c => [x :: c; zero :: c]) (patches r) end.
Lemma patchy_patches w : forall c, patchy c w -> In c (patches w).
Proof.
  induction w as [|x w IH]; intros [|y c] [H1 H2]; cbn [length] in H1; cbn [patches].
  - left. reflexivity.
  - lia.
  - left. reflexivity.
  - right. apply in_flat_map. exists c. split.
    + apply IH. split; [lia|]. intros k z Hk. exact (H2 (S k) z Hk).
    + destruct (H2 0 y eq_refl) as [X| ->]; [injection X as ->; left; reflexivity|right; left; reflexivity].
Qed.
Lemma strip_prefix_app p : forall c rest, strip_prefix p c = Some rest -> c = p ++ rest.
Proof.
  induction p as [|x p IH]; intros [|y c] rest H; cbn [strip_prefix] in H; try discriminate H; try (injection H as <-; reflexivity).
  destruct (Ascii.eqb x y) eqn:E; [|discriminate H]. apply Ascii.eqb_eq in E. subst y. cbn [app]. f_equal. exact (IH _ _ H).
Qed.
Lemma patchy_rest a c w : patchy (a ++ c) (a ++ w) -> patchy c w.
Proof.
  intros [H1 H2]. rewrite !app_length in H1. split; [lia|]. intros k x Hk. specialize (H2 (length a + k) x).
  rewrite !nth_error_app2 in H2 by lia. replace (length a + k - length a) with k in H2 by lia. exact (H2 Hk).
Qed.
Lemma strict_refuses_patches : refuses_patches strict [toy_row 1 0].
Proof.
  intros c tb P Ne.
  assert (W : lab_print strict [toy_row 1 0] = toy_header ++ chars "1,1" ++ [newline]) by (vm_compute; reflexivity).
  rewrite W in P, Ne. change (lab_parse strict c) with (strict_parse c). unfold strict_parse, toy_parse.
  destruct (strip_prefix toy_header c) as [rest|] eqn:S; [|discriminate]. apply strip_prefix_app in S. subst c.
  apply patchy_rest, patchy_patches in P.
  assert (F : Forall (fun c => c = chars "1,1" ++ [newline] \/ toy_rows (split_on newline c) = Ok [] \/ exists e, toy_rows (split_on newline c) = Err e)
                (patches (chars "1,1" ++ [newline]))).
  { cbn [patches chars list_ascii_of_string app flat_map].
    repeat (constructor; [first [left; reflexivity | right; left; reflexivity | right; right; eexists; reflexivity]|]). constructor. }
  rewrite Forall_forall in F. destruct (F rest P) as [X|[X|[e X]]]; [congruence| |]; rewrite X; discriminate.
Qed.

Definition toy_runner : runner strict := {| ru_trial := toy_trial 0 1; ru_now := []; ru_generators := strict_start |}.
Definition toy_rows_of (_ : trial) : list (string * cell) := toy_row 1 0.
Lemma toy_agreed n : agreed strict 1 [toy_trial 0 1] toy_rows_of (repeat toy_runner n).
Proof. intros r H. apply repeat_spec in H. subst r. split; [left; reflexivity|]. apply (f_equal fst (toy_computes toy_print strict_parse 0)). Qed.
Lemma toy_ready : ready strict [toy_trial 0 1] (share []).
Proof. apply C62_shared_disk. apply (toy_usable toy_print strict_parse 0 1). auto. Qed.
Lemma toy_unreadable : unreadable strict (toy_trial 0 1) (share []).
Proof. intros tb [c [E _]]. rewrite share_seen in E. unfold strict in E. rewrite toy_no_result in E by auto. discriminate E. Qed.
Lemma toy_one : sane_trials strict [toy_trial 0 1].
Proof. apply (toy_sane toy_print strict_parse 0 1). auto. Qed.

(** Two at the same time, on an empty disk: whatever the schedule, both answer with the row,
    and the file is complete. *)
Example C62_together_example : forall schedule s' ps,
  shared_run schedule (share []) (starts 1 (repeat toy_runner 2)) = (s', ps) -> all_ended ps ->
  seen s' (out_of strict (toy_trial 0 1)) = Some (File (lab_print strict [toy_row 1 0])) /\
  forall i a g, i < 2 -> answered ps i (a, g) -> a = Ok [toy_row 1 0].
Proof.
  intros schedule s' ps E All. split.
  - apply (C62_together strict 1 [toy_trial 0 1] toy_rows_of (repeat toy_runner 2) (share []) schedule s' ps (toy_trial 0 1)
      toy_one toy_ready (toy_agreed 2) E All); [left; reflexivity| |exact strict_round_trip|exact strict_refuses_patches|exact toy_unreadable].
    exists toy_runner. split; [left; reflexivity|reflexivity].
  - intros i a g Hi Ha.
    apply (C62_two strict 1 [toy_trial 0 1] toy_rows_of (repeat toy_runner 2) (share []) schedule s' ps (toy_trial 0 1)
      toy_one toy_ready (toy_agreed 2) E All (or_introl eq_refl) strict_round_trip strict_refuses_patches toy_unreadable) with (i := i) (g := g); [|exists toy_runner|exact Ha].
    + right. split; [rewrite share_seen; apply (toy_no_result toy_print strict_parse 0 1); auto|].
      intros [x [y [z [[r1 [H1 _]] [[r2 [H2 _]] [[r3 [H3 _]] N]]]]]].
      assert (B : forall i r, nth_error (repeat toy_runner 2) i = Some r -> i < 2) by (intros i' r' H; apply (nth_error_Some (repeat toy_runner 2) i'); congruence).
      apply B in H1. apply B in H2. apply B in H3. lia.
    + split; [|reflexivity]. destruct i as [|[|i]]; [reflexivity|reflexivity|lia].
Qed.
(** Such schedules exist. *)
Example C62_ends_example : exists schedule s' ps,
  shared_run schedule (share []) (starts 1 (repeat toy_runner 2)) = (s', ps) /\ all_ended ps.
Proof.
  destruct (C62_ends strict 1 (repeat toy_runner 2)) as [n H].
  set (l := repeat 0 n ++ repeat 1 n). exists l. destruct (shared_run l (share []) (starts 1 (repeat toy_runner 2))) as [s' ps] eqn:E. exists s', ps.
  split; [reflexivity|]. apply (H l _ _ _ E). intros i Hi. unfold l.
  assert (C : forall x y n, count_occ Nat.eq_dec (repeat x n) y = if Nat.eq_dec x y then n else 0).
  { intros x y m. induction m as [|m IH]; cbn [repeat count_occ]; destruct (Nat.eq_dec x y); auto. }
  rewrite count_occ_app, !C. destruct i as [|[|i]]; cbn; [lia|lia|cbn in Hi; lia].
Qed.

(** What a runner has answered, to be computed. *)
Definition told {L} (ps : list (process (result table * generators L))) (i : nat) : option (result table) :=
  match nth_error ps i with Some (_, Ret (a, _)) => Some a | _ => None end.
Lemma told_answered {L} (ps : list (process (result table * generators L))) i a : told ps i = Some a -> exists g, answered ps i (a, g).
Proof.
  unfold told. destruct (nth_error ps i) as [[h [[b g]|q k|e k]]|] eqn:E; intros H; try discriminate H. injection H as ->. exists g, h. exact E.
Qed.

(** The first runner was stopped when it had just opened the results file. *)
Definition toy_stopped : shared := after_batches 1 (share []) [(repeat toy_runner 1, repeat 0 180)].
Lemma toy_stopped_ready : ready strict [toy_trial 0 1] toy_stopped.
Proof.
  apply (after_batches_ready strict 1 [toy_trial 0 1] toy_rows_of (sane_separate _ _ toy_one)); [exact toy_ready|].
  intros b [<-|[]]. exact (toy_agreed 1).
Qed.
Lemma toy_stopped_empty : seen toy_stopped (out_of strict (toy_trial 0 1)) = Some (File []).
Proof. vm_compute. reflexivity. Qed.
Lemma toy_stopped_unreadable : unreadable strict (toy_trial 0 1) toy_stopped.
Proof. intros tb [c [E P]]. rewrite toy_stopped_empty in E. injection E as <-. discriminate P. Qed.

Example C62_crash_example : forall batches schedule s' ps,
  (forall b, In b batches -> exists n, fst b = repeat toy_runner n) ->
  shared_run schedule (after_batches 1 toy_stopped batches) (starts 1 (repeat toy_runner 1)) = (s', ps) -> all_ended ps ->
  seen s' (out_of strict (toy_trial 0 1)) = Some (File (lab_print strict [toy_row 1 0])).
Proof.
  intros batches schedule s' ps B E All.
  apply (C62_crash strict 1 [toy_trial 0 1] toy_rows_of batches (repeat toy_runner 1) toy_stopped schedule s' ps (toy_trial 0 1)
    toy_one toy_stopped_ready); [|exact (toy_agreed 1)|exact E|exact All|left; reflexivity| |exact strict_round_trip|exact strict_refuses_patches|exact toy_stopped_unreadable].
  - intros b Hb. destruct (B b Hb) as [n ->]. apply toy_agreed.
  - exists toy_runner. split; [left; reflexivity|reflexivity].
Qed.

(** ** What is not so *)

(** Two runners find the same unreadable results file. The first one removes it, and the
    second one fails, because there is nothing to remove. *)
Theorem C62_two_refuted : exists L seed t rows rs s schedule s' ps,
  sane_trials L [t] /\ ready L [t] s /\ agreed L seed [t] rows rs /\ length rs = 2 /\
  lab_parse L (lab_print L [rows t]) = Ok [rows t] /\ refuses_patches L [rows t] /\ unreadable L t s /\
  shared_run schedule s (starts seed rs) = (s', ps) /\
  exists i g, answered ps i (Err FileNotFoundError, g).
Proof.
  exists strict, 1%Z, (toy_trial 0 1), toy_rows_of, (repeat toy_runner 2), toy_stopped, [0; 0; 1; 1; 0; 1].
  destruct (shared_run [0; 0; 1; 1; 0; 1] toy_stopped (starts 1 (repeat toy_runner 2))) as [s' ps] eqn:E. exists s', ps.
  split; [exact toy_one|]. split; [exact toy_stopped_ready|]. split; [apply toy_agreed|]. split; [reflexivity|].
  split; [exact strict_round_trip|]. split; [exact strict_refuses_patches|]. split; [exact toy_stopped_unreadable|]. split; [reflexivity|].
  exists 1. apply told_answered. rewrite <- (f_equal snd E : _ = ps). vm_compute. reflexivity.
Qed.

(** With three runners this can happen even if there is no results file at first: two of them
    find the file that the other one has just opened. *)
Theorem C62_three_refuted : exists L seed t rows rs s schedule s' ps,
  sane_trials L [t] /\ ready L [t] s /\ agreed L seed [t] rows rs /\ length rs = 3 /\
  lab_parse L (lab_print L [rows t]) = Ok [rows t] /\ refuses_patches L [rows t] /\ seen s (out_of L t) = None /\
  shared_run schedule s (starts seed rs) = (s', ps) /\
  exists i g, answered ps i (Err FileNotFoundError, g).
Proof.
  exists strict, 1%Z, (toy_trial 0 1), toy_rows_of, (repeat toy_runner 3), (share []), (repeat 0 180 ++ [1; 1; 2; 2; 1; 2]).
  destruct (shared_run (repeat 0 180 ++ [1; 1; 2; 2; 1; 2]) (share []) (starts 1 (repeat toy_runner 3))) as [s' ps] eqn:E. exists s', ps.
  split; [exact toy_one|]. split; [exact toy_ready|]. split; [apply toy_agreed|]. split; [reflexivity|].
  split; [exact strict_round_trip|]. split; [exact strict_refuses_patches|].
  split; [rewrite share_seen; apply (toy_no_result toy_print strict_parse 0 1); auto|]. split; [reflexivity|].
  exists 2. apply told_answered. rewrite <- (f_equal snd E : _ = ps). vm_compute. reflexivity.
Qed.

(** If the reader takes an incomplete file, here one with the header only, a runner answers
    with what another one has written so far. *)
Definition easy_runner : runner toy := {| ru_trial := toy_trial 0 1; ru_now := []; ru_generators := toy_start |}.
Theorem C62_partial_result_refuted : exists L seed t rows rs s schedule s' ps,
  sane_trials L [t] /\ ready L [t] s /\ agreed L seed [t] rows rs /\ length rs = 2 /\
  lab_parse L (lab_print L [rows t]) = Ok [rows t] /\ seen s (out_of L t) = None /\
  shared_run schedule s (starts seed rs) = (s', ps) /\
  exists i g, answered ps i (Ok [], g).
Proof.
  exists toy, 1%Z, (toy_trial 0 1), toy_rows_of, (repeat easy_runner 2), (share []), (repeat 0 202 ++ [1; 1]).
  destruct (shared_run (repeat 0 202 ++ [1; 1]) (share []) (starts 1 (repeat easy_runner 2))) as [s' ps] eqn:E. exists s', ps.
  split; [apply (toy_sane toy_print toy_parse 0 1); auto|]. split.
  { apply C62_shared_disk. apply (toy_usable toy_print toy_parse 0 1). auto. }
  split.
  { intros r H. apply repeat_spec in H. subst r. split; [left; reflexivity|]. apply (f_equal fst (toy_computes toy_print toy_parse 0)). }
  split; [reflexivity|]. split; [vm_compute; reflexivity|].
  split; [rewrite share_seen; apply (toy_no_result toy_print toy_parse 0 1); auto|]. split; [reflexivity|].
  exists 1. apply told_answered. rewrite <- (f_equal snd E : _ = ps). vm_compute. reflexivity.
Qed.

Print Assumptions C62_shared_disk.
Print Assumptions C62_one_process.
Print Assumptions C62_any_moment.
Print Assumptions C62_together.
Print Assumptions C62_two.
Print Assumptions C62_readable.
Print Assumptions C62_ends.
Print Assumptions C62_crash.
Print Assumptions C62_two_refuted.
Print Assumptions C62_three_refuted.
Print Assumptions C62_partial_result_refuted.
