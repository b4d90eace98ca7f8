(** C36: evaluating a trial, crashes and re-runs. *)
From Coq Require Import String Ascii.
From Verif Require Import Prelude ModelReachPoint ModelData ModelPrivacy ModelHalo ModelAggregator ModelFiles
  SpecFiles FilesLemmas FilesLemmas2 ModelDriver SpecDriver DriverLemmas2 DriverLemmas3 DriverLemmas4
  ExampleDriver.
Open Scope Z_scope.

(** A readable results file is the answer; nothing on the disk changes, and no generator
    is used. *)
Theorem C36_read_back : forall L t seed now g d tb,
  has_result L t d tb ->
  finish (evaluate L t seed now g) d = ((Ok tb, g), d).
Proof. intros. apply result_finish. assumption. Qed.

(** Without a readable results file the row is computed; then it is in the results file, the
    marker is gone, and apart from these two files only missing directories above them have
    been created. *)
Theorem C36_computed : forall L t seed now g d row g',
  sane_trials L [t] -> usable L [t] d -> no_result L t d ->
  compute_row L t seed g = (Ok row, g') ->
  exists d', finish (evaluate L t seed now g) d = ((Ok [row], g'), d') /\
    done_with L t [row] d' /\ usable L [t] d' /\ only_adds_directories L [t] d d'.
Proof.
  intros L t seed now g d row g' S U N E. apply sane_separate in S.
  destruct (finish_evaluated L t seed S now g d U) as [H [H1 H2]].
  destruct H as [[tb [R _]]|[_ H]]; [exfalso; exact (N _ R)|]. rewrite E in H. destruct H as [Ha Hd].
  destruct (finish (evaluate L t seed now g) d) as [a d']. cbn [fst snd] in *. subst a.
  exists d'. auto.
Qed.

(** In particular when the results file is there but cannot be read. *)
Theorem C36_unreadable : forall L t seed now g d row g' c e,
  sane_trials L [t] -> usable L [t] d ->
  stat d (out_of L t) = Some (File c) -> lab_parse L c = Err e ->
  compute_row L t seed g = (Ok row, g') ->
  exists d', finish (evaluate L t seed now g) d = ((Ok [row], g'), d') /\ done_with L t [row] d'.
Proof.
  intros L t seed now g d row g' c e S U Ec Ep E.
  destruct (C36_computed L t seed now g d row g' S U) as [d' [H1 [H2 _]]]; [|exact E|exists d'; auto].
  intros tb [c' [X Y]]. congruence.
Qed.

(** Evaluating again, with any seed, generators and time, gives what the reader makes of the
    printed row and changes nothing. *)
Theorem C36_idempotent : forall L t seed now g d row g' seed2 now2 g2,
  sane_trials L [t] -> usable L [t] d -> no_result L t d ->
  compute_row L t seed g = (Ok row, g') ->
  lab_parse L (lab_print L [row]) = Ok [row] ->
  exists d', finish (evaluate L t seed now g) d = ((Ok [row], g'), d') /\
    finish (evaluate L t seed2 now2 g2) d' = ((Ok [row], g2), d').
Proof.
  intros L t seed now g d row g' seed2 now2 g2 S U N E RT.
  destruct (C36_computed L t seed now g d row g' S U N E) as [d' [H1 [[H2 _] _]]].
  exists d'. split; [exact H1|]. apply result_finish. exists (lab_print L [row]). auto.
Qed.

(** If the computation cannot even start (no such data set, too few spend fractions, unknown
    strategy), the evaluation raises, the marker stays and there is no results file. *)
Theorem C36_failed : forall L t seed now g d e g',
  sane_trials L [t] -> usable L [t] d -> no_result L t d ->
  compute_row L t seed g = (Err e, g') ->
  exists d', finish (evaluate L t seed now g) d = ((Err e, g'), d') /\
    stat d' (out_of L t) = None /\ stat d' (pending_path L t) = Some (File (pending_text L t now)) /\
    usable L [t] d' /\ only_adds_directories L [t] d d'.
Proof.
  intros L t seed now g d e g' S U N E. apply sane_separate in S.
  destruct (finish_evaluated L t seed S now g d U) as [H [H1 H2]].
  destruct H as [[tb [R _]]|[_ H]]; [exfalso; exact (N _ R)|]. rewrite E in H. destruct H as [Ha [Ho Hp]].
  destruct (finish (evaluate L t seed now g) d) as [a d']. cbn [fst snd] in *. subst a.
  exists d'. repeat (split; [assumption|]). split; [reflexivity|]. auto.
Qed.

(** Any number of runs that were stopped after any number of steps, and then a complete run:
    provided that the reader takes the complete file only, the answer and the results file
    are those of one uninterrupted run. The marker is gone, except when a stopped run had
    written the whole results file: then the last run leaves everything as it is. *)
Theorem C36_crash_safe : forall L t seed now g g' d row (l : list (attempt L)),
  sane_trials L [t] -> usable L [t] d -> no_result L t d ->
  compute_row L t seed g = (Ok row, g') ->
  (forall a, In a l -> fst (compute_row L t seed (at_generators a)) = Ok row) ->
  lab_parse L (lab_print L [row]) = Ok [row] -> refuses_parts L [row] ->
  let d1 := after_attempts t seed d l in
  exists g2 d2, finish (evaluate L t seed now g) d1 = ((Ok [row], g2), d2) /\
    stat d2 (out_of L t) = Some (File (lab_print L [row])) /\
    (stat d2 (pending_path L t) = None \/
     (d2 = d1 /\ stat d1 (out_of L t) = Some (File (lab_print L [row])))) /\
    usable L [t] d2 /\ only_adds_directories L [t] d d2.
Proof.
  intros L t seed now g g' d row l S U N E Hl RT RP d1. pose proof (sane_separate L [t] S) as Sep.
  assert (U1 : usable L [t] d1) by (apply attempts_usable; auto).
  pose proof (attempts_only L t seed Sep l d U) as O1. fold d1 in O1.
  pose proof (attempts_result L t seed Sep l d U) as R. cbv zeta in R. fold d1 in R.
  assert (Res : forall tb, has_result L t d1 tb -> tb = [row] /\ stat d1 (out_of L t) = Some (File (lab_print L [row]))).
  { intros tb [c [E1 E2]]. destruct R as [R|[R|[a [row' [g3 [c' [Ha [Er [Ec W]]]]]]]]].
    - exfalso. apply (N tb). exists c. rewrite <- R. auto.
    - congruence.
    - pose proof (Hl a Ha) as X. rewrite Er in X. cbn [fst] in X. assert (Y : row' = row) by congruence. subst row'.
      assert (c' = c) by congruence. subst c'.
      destruct (list_eq_dec ascii_dec c (lab_print L [row])) as [->|Ne].
      + split; [congruence|exact E1].
      + exfalso. apply (RP c tb W Ne E2). }
  destruct (finish_evaluated L t seed Sep now g d1 U1) as [H [H1 H2]].
  assert (OA : only_adds_directories L [t] d (snd (finish (evaluate L t seed now g) d1))).
  { eapply only_adds_trans; eauto. }
  destruct H as [[tb [R1 [Ha _]]]|[N1 H]].
  - destruct (Res tb R1) as [-> Ex]. exists g, d1. split; [apply result_finish; exact R1|].
    split; [exact Ex|]. split; [right; auto|]. split; [exact U1|exact O1].
  - rewrite E in H. destruct H as [Ha [Hd1 Hd2]].
    destruct (finish (evaluate L t seed now g) d1) as [a d2]. cbn [fst snd] in *. subst a.
    exists g', d2. repeat (split; [auto; fail|]). auto.
Qed.

(** Without that assumption on the reader: the answer is computed by the last run, or it is
    what the reader makes of a part of the file that some stopped run has written, and then
    nothing changes. *)
Theorem C36_crash : forall L t seed now g d (l : list (attempt L)),
  sane_trials L [t] -> usable L [t] d -> no_result L t d ->
  let d1 := after_attempts t seed d l in
  let a := fst (finish (evaluate L t seed now g) d1) in
  let d2 := snd (finish (evaluate L t seed now g) d1) in
  match compute_row L t seed g with
  | (Ok row, g') => a = (Ok [row], g') /\ done_with L t [row] d2
  | (Err e, g') => a = (Err e, g')
  end \/
  exists b row g' c tb, In b l /\ compute_row L t seed (at_generators b) = (Ok row, g') /\
    written_part c (lab_print L [row]) /\ stat d1 (out_of L t) = Some (File c) /\
    lab_parse L c = Ok tb /\ a = (Ok tb, g) /\ d2 = d1.
Proof.
  intros L t seed now g d l S U N d1 a d2. pose proof (sane_separate L [t] S) as Sep.
  assert (U1 : usable L [t] d1) by (apply attempts_usable; auto).
  pose proof (attempts_result L t seed Sep l d U) as R. cbv zeta in R. fold d1 in R.
  destruct (finish_evaluated L t seed Sep now g d1 U1) as [H _]. fold a d2 in H.
  destruct H as [[tb [R1 _]]|[N1 H]].
  - right. assert (F : finish (evaluate L t seed now g) d1 = ((Ok tb, g), d1)) by (apply result_finish; exact R1).
    destruct R1 as [c [E1 E2]]. destruct R as [R|[R|[b [row' [g3 [c' [Ha [Er [Ec W]]]]]]]]].
    + exfalso. apply (N tb). exists c. rewrite <- R. auto.
    + congruence.
    + exists b, row', g3, c', tb. assert (c' = c) by congruence. subst c'.
      unfold a, d2. rewrite F. auto 10.
  - left. destruct (compute_row L t seed g) as [[row|e] g']; [exact H|apply H].
Qed.

(** Every part of the results file is what some crash leaves behind. If the reader takes it,
    all later evaluations answer with what it says and never compute the row again. *)
Theorem C36_every_part : forall L t seed now g g' d row c,
  sane_trials L [t] -> usable L [t] d -> stat d (out_of L t) = None ->
  compute_row L t seed g = (Ok row, g') -> written_part c (lab_print L [row]) ->
  exists a : attempt L, let d1 := stopped t seed d a in
    stat d1 (out_of L t) = Some (File c) /\
    stat d1 (pending_path L t) = Some (File (pending_text L t now)) /\
    forall tb seed2 now2 g2, lab_parse L c = Ok tb ->
      finish (evaluate L t seed2 now2 g2) d1 = ((Ok tb, g2), d1).
Proof.
  intros L t seed now g g' d row c Sane U N E [rest W]. pose proof (sane_separate L [t] Sane) as Sep.
  destruct (recompute_reaches L t seed Sep now g d row g' c rest U E W) as [n [d' [H1 [H2 H3]]]].
  exists {| at_now := now; at_generators := g; at_steps := S n |}. cbv zeta.
  assert (X : stopped t seed d {| at_now := now; at_generators := g; at_steps := S n |} = d').
  { unfold stopped. cbn [at_now at_generators at_steps]. unfold evaluate. fold (out_of L t).
    cbn [advances advance]. rewrite N. exact H1. }
  rewrite X. split; [exact H2|]. split; [exact H3|]. intros tb seed2 now2 g2 P.
  apply result_finish. exists c. auto.
Qed.

(** ** The trial of ExampleDriver.v *)

Lemma no_slash_toy n r : r = 0 \/ r = 1 -> ~ In slash (show_descriptor toy_float (toy_descriptor n r)).
Proof.
  intros H X. assert (E : existsb (Ascii.eqb slash) (show_descriptor toy_float (toy_descriptor n r)) = true).
  { apply existsb_exists. exists slash. split; [exact X|apply Ascii.eqb_refl]. }
  destruct H as [-> | ->]; vm_compute in E; discriminate.
Qed.

Lemma toy_md5_name s : file_name (toy_md5 s).
Proof.
  unfold toy_md5. split; [discriminate|]. split; [discriminate|]. split; [discriminate|].
  fold (chars (str ("m"%char :: map (fun c => if Ascii.eqb c slash then "_"%char else c) (chars s)))).
  rewrite chars_str. intros [X|X]; [discriminate|]. apply in_map_iff in X. destruct X as [x [Ex _]].
  destruct (Ascii.eqb x slash) eqn:Exs; [discriminate|]. subst x. rewrite Ascii.eqb_refl in Exs. discriminate.
Qed.

Lemma toy_sane print parse n r : r = 0 \/ r = 1 -> sane_trials (toy_with print parse) [toy_trial n r].
Proof.
  intros Hr. exists "/x/exp"%string. split; [vm_compute; discriminate|]. split; [vm_compute; discriminate|].
  split; [|split].
  - intros t [<-|[]]. split; [reflexivity|]. split; [|split].
    + split; [discriminate|]. split; [discriminate|]. split; [discriminate|].
      cbn. intros X. repeat (destruct X as [X|X]; [discriminate|]). exact X.
    + cbn [lab_float toy_with toy_trial tr_descriptor].
      apply no_slash_toy. exact Hr.
    + cbn [lab_md5 lab_float toy_with]. apply toy_md5_name.
  - intros t t' [<-|[]] [<-|[]] _. reflexivity.
  - constructor; [intros []|constructor].
Qed.

Lemma empty_disk_usable L ts : (forall t, In t ts -> snd (out_of L t) <> [] /\ snd (pending_path L t) <> []) -> usable L ts [].
Proof.
  intros H. split.
  - split; [constructor|]. split; [intros p n []|]. intros p Hp. unfold parent. destruct p as [a [|x l]]; [reflexivity|].
    exfalso. apply Hp. reflexivity.
  - intros t Ht. split; [|destruct (H t Ht) as [H1 H2]; split].
    + intros q c _. destruct q as [a [|x l]]; discriminate.
    + destruct (out_of L t) as [a [|x l]]; [contradiction|discriminate].
    + destruct (pending_path L t) as [a [|x l]]; [contradiction|discriminate].
Qed.

Lemma toy_usable print parse n r : r = 0 \/ r = 1 -> usable (toy_with print parse) [toy_trial n r] [].
Proof.
  intros Hr. apply empty_disk_usable.
  exact (proj1 (sane_separate _ _ (toy_sane print parse n r Hr))).
Qed.

Lemma toy_no_result print parse n r : r = 0 \/ r = 1 ->
  stat [] (out_of (toy_with print parse) (toy_trial n r)) = None.
Proof.
  intros Hr. destruct (proj1 (sane_separate _ _ (toy_sane print parse n r Hr)) _ (or_introl eq_refl)) as [H _].
  destruct (out_of (toy_with print parse) (toy_trial n r)) as [a [|x l]]; [contradiction|reflexivity].
Qed.

Lemma toy_computes print parse n : let L := toy_with print parse in
  compute_row L (toy_trial n 1) 1 ((fun _ => 0) : generators L) =
  (Ok (toy_row 1 0), put_generator L (fun _ => 0) n 1).
Proof. vm_compute. reflexivity. Qed.

Definition toy_start : generators toy := fun _ => 0.
Definition strict_start : generators strict := fun _ => 0.

Example C36_computed_example : exists d', 
  finish (evaluate toy (toy_trial 0 1) 1 [] toy_start) [] =
    ((Ok [toy_row 1 0], put_generator toy toy_start 0 1), d') /\
  done_with toy (toy_trial 0 1) [toy_row 1 0] d'.
Proof.
  destruct (C36_computed toy (toy_trial 0 1) 1 [] toy_start [] (toy_row 1 0) (put_generator toy toy_start 0 1))
    as [d' [H1 [H2 _]]].
  - apply toy_sane. auto.
  - apply toy_usable. auto.
  - intros tb [c [E _]]. unfold toy in E. rewrite toy_no_result in E by auto. discriminate.
  - apply toy_computes.
  - exists d'. auto.
Qed.

(** The stricter reader refuses every proper part of the file. *)
Fixpoint prefixes (s : text) : list text :=
  match s with [] => [[]] | c :: r => [] :: map (cons c) (prefixes r) end.
Lemma written_prefix c s : written_part c s -> In c (prefixes s).
Proof.
  intros [r ->]. induction c as [|x c IH]; cbn [app].
  - destruct r; left; reflexivity.
  - right. apply in_map. exact IH.
Qed.
Lemma strict_round_trip : lab_parse strict (lab_print strict [toy_row 1 0]) = Ok [toy_row 1 0].
Proof. vm_compute. reflexivity. Qed.
Lemma strict_refuses : refuses_parts strict [toy_row 1 0].
Proof.
  intros c tb W Ne.
  assert (P : lab_print strict [toy_row 1 0] = toy_header ++ chars "1,1" ++ [newline]) by (vm_compute; reflexivity).
  rewrite P in *. apply written_prefix in W.
  assert (F : Forall (fun c => c = toy_header ++ chars "1,1" ++ [newline] \/ exists e, strict_parse c = Err e)
                (prefixes (toy_header ++ chars "1,1" ++ [newline]))).
  { repeat (constructor; [first [left; reflexivity | right; eexists; reflexivity]|]). constructor. }
  rewrite Forall_forall in F. destruct (F c W) as [X|[e X]]; [contradiction|].
  cbn [lab_parse strict toy_with]. rewrite X. discriminate.
Qed.

Example C36_crash_safe_example : forall l : list (attempt strict),
  (forall a, In a l -> at_generators a = strict_start) ->
  exists g2 d2, finish (evaluate strict (toy_trial 0 1) 1 [] strict_start)
                  (after_attempts (toy_trial 0 1) 1 [] l) = ((Ok [toy_row 1 0], g2), d2) /\
    stat d2 (out_of strict (toy_trial 0 1)) = Some (File (lab_print strict [toy_row 1 0])).
Proof.
  intros l Hl.
  destruct (C36_crash_safe strict (toy_trial 0 1) 1 [] strict_start (put_generator strict strict_start 0 1) []
              (toy_row 1 0) l) as [g2 [d2 [H1 [H2 _]]]].
  - apply toy_sane. auto.
  - apply toy_usable. auto.
  - intros tb [c [E _]]. unfold strict in E. rewrite toy_no_result in E by auto. discriminate.
  - apply toy_computes.
  - intros a Ha. rewrite (Hl a Ha). apply (f_equal fst (toy_computes toy_print strict_parse 0)).
  - exact strict_round_trip.
  - exact strict_refuses.
  - exists g2, d2. auto.
Qed.

(** ** What does not hold *)

(** After a crash while the results file was being written, a reader that takes a file with
    only a header line (pandas does) gives an empty table for ever after. *)
Theorem C36_truncated_result_refuted : exists L t seed g g' row d,
  sane_trials L [t] /\ usable L [t] d /\ no_result L t d /\
  compute_row L t seed g = (Ok row, g') /\ lab_parse L (lab_print L [row]) = Ok [row] /\
  exists a : attempt L, at_generators a = g /\
    forall seed2 now2 g2, finish (evaluate L t seed2 now2 g2) (stopped t seed d a) =
      ((Ok [], g2), stopped t seed d a).
Proof.
  exists toy, (toy_trial 0 1), 1, toy_start, (put_generator toy toy_start 0 1), (toy_row 1 0), [].
  split; [apply toy_sane; auto|]. split; [apply toy_usable; auto|].
  split. { intros tb [c [E _]]. unfold toy in E. rewrite toy_no_result in E by auto. discriminate. }
  split; [apply toy_computes|]. split; [vm_compute; reflexivity|].
  pose proof (sane_separate _ _ (toy_sane toy_print toy_parse 0 1 (or_intror eq_refl))) as Sep.
  destruct (recompute_reaches toy (toy_trial 0 1) 1 Sep [] toy_start [] (toy_row 1 0) (put_generator toy toy_start 0 1)
              toy_header (toy_line (toy_row 1 0))) as [n [d' [H1 [H2 H3]]]].
  - apply toy_usable. auto.
  - apply toy_computes.
  - cbn [lab_print toy toy_with]. unfold toy_print. cbn [flat_map]. rewrite app_nil_r. reflexivity.
  - exists {| at_now := []; at_generators := toy_start; at_steps := S n |}. split; [reflexivity|].
    assert (X : stopped (toy_trial 0 1) 1 [] {| at_now := []; at_generators := toy_start; at_steps := S n |} = d').
    { unfold stopped. cbn [at_now at_generators at_steps]. unfold evaluate. fold (out_of toy (toy_trial 0 1)).
      cbn [advances advance].
      pose proof (toy_no_result toy_print toy_parse 0 1 (or_intror eq_refl)) as X. fold toy in X. rewrite X. exact H1. }
    rewrite X. intros. apply result_finish. exists toy_header. split; [exact H2|]. vm_compute. reflexivity.
Qed.

(** After a crash between writing the results file and removing the marker, the marker stays
    for ever, although the trial is finished. *)
Theorem C36_marker_stays_refuted : exists L t seed g g' row d,
  sane_trials L [t] /\ usable L [t] d /\ no_result L t d /\
  compute_row L t seed g = (Ok row, g') /\ lab_parse L (lab_print L [row]) = Ok [row] /\
  refuses_parts L [row] /\
  exists a : attempt L, at_generators a = g /\
    stat (stopped t seed d a) (out_of L t) = Some (File (lab_print L [row])) /\
    forall seed2 now2 g2, let d2 := snd (finish (evaluate L t seed2 now2 g2) (stopped t seed d a)) in
      exists c, stat d2 (pending_path L t) = Some (File c).
Proof.
  exists strict, (toy_trial 0 1), 1, strict_start, (put_generator strict strict_start 0 1), (toy_row 1 0), [].
  split; [apply toy_sane; auto|]. split; [apply toy_usable; auto|].
  split. { intros tb [c [E _]]. unfold strict in E. rewrite toy_no_result in E by auto. discriminate. }
  split; [apply toy_computes|]. split; [exact strict_round_trip|]. split; [exact strict_refuses|].
  pose proof (sane_separate _ _ (toy_sane toy_print strict_parse 0 1 (or_intror eq_refl))) as Sep.
  destruct (recompute_reaches strict (toy_trial 0 1) 1 Sep [] strict_start [] (toy_row 1 0)
              (put_generator strict strict_start 0 1)
              (lab_print strict [toy_row 1 0]) []) as [n [d' [H1 [H2 H3]]]].
  - apply toy_usable. auto.
  - apply toy_computes.
  - rewrite app_nil_r. reflexivity.
  - exists {| at_now := []; at_generators := strict_start; at_steps := S n |}. split; [reflexivity|].
    assert (X : stopped (toy_trial 0 1) 1 [] {| at_now := []; at_generators := strict_start; at_steps := S n |} = d').
    { unfold stopped. cbn [at_now at_generators at_steps]. unfold evaluate. fold (out_of strict (toy_trial 0 1)).
      cbn [advances advance].
      pose proof (toy_no_result toy_print strict_parse 0 1 (or_intror eq_refl)) as X. fold strict in X. rewrite X. exact H1. }
    rewrite X. split; [exact H2|]. intros seed2 now2 g2. cbv zeta.
    rewrite (result_finish strict (toy_trial 0 1) seed2 now2 g2 d' [toy_row 1 0]).
    + eexists. exact H3.
    + exists (lab_print strict [toy_row 1 0]). split; [exact H2|exact strict_round_trip].
Qed.

Print Assumptions C36_read_back.
Print Assumptions C36_computed.
Print Assumptions C36_unreadable.
Print Assumptions C36_idempotent.
Print Assumptions C36_failed.
Print Assumptions C36_crash_safe.
Print Assumptions C36_crash.
Print Assumptions C36_every_part.
Print Assumptions C36_truncated_result_refuted.
Print Assumptions C36_marker_stays_refuted.
