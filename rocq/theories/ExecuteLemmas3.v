(** Runs of the driver that end, and runs that are stopped. *)
From Coq Require Import String Ascii Permutation Sorted.
From Verif Require Import Prelude ModelReachPoint ModelData ModelHalo ModelAggregator ModelFiles SpecFiles
  FilesLemmas FilesLemmas2 FilesLemmas3 ModelDriver SpecDriver DriverLemmas DriverLemmas2 DriverLemmas3
  DriverLemmas4 DriverLemmas6 DriverLemmas7 DriverLemmas8 ModelExecute SpecExecute ExecuteLemmas ExecuteLemmas2.
From Verif Require PropsDriver3.
Open Scope Z_scope.

(** ** Workers that are stopped *)

Lemma safe_legal {A} out pend place (legal legal' : option node -> Prop) (p : prog A) Post :
  (forall n, legal n -> legal' n) -> forall d,
  safe out pend place legal p Post d -> safe out pend place legal' p Post d.
Proof.
  intros H. induction p as [a|q k IH|e k IH]; intros d S; cbn [safe] in *.
  - exact S.
  - intros w R. apply IH. apply S. exact R.
  - intros w R. specialize (S w R). destruct (run_effect w e) as [w2|x]; [|apply IH; exact S].
    destruct S as [[G1 [G2 [G3 [G4 G5]]]] S]. split; [|apply IH; exact S].
    split; [exact G1|]. split; [exact G2|]. split; [exact G3|]. split; [|exact G5].
    destruct G4 as [G4|G4]; auto.
Qed.

Section Stopped.
Variables (L : lab) (ts : list trial).
Hypothesis sep : separate L ts.
Variables (seed : Z) (nows : nat -> text) (g : generators L) (d : disk).
Hypothesis Us : usable L ts d.

Definition legals' (i : nat) (n : option node) : Prop :=
  match nth_error ts i with Some t => no_result L t d /\ legal_of L t seed g n | None => False end.

Lemma workers_safe' : all_safe L ts legals' (post L ts seed nows g d) (workers L ts seed nows g) d.
Proof.
  intros i t p Hi Hp. pose proof (workers_safe L ts sep seed nows g d Us i t p Hi Hp) as S.
  destruct (result_dec L t d) as [[tb R]|N].
  - rewrite (workers_nth L ts seed nows g i t Hi) in Hp.
    assert (p = evaluate L t seed (nows i) g) by congruence. subst p. clear S Hp.
    pose proof R as [c [Ec Pc]]. unfold evaluate. cbn [safe]. fold (out_of L t). intros w1 [I1 [R1 [R1' _]]].
    rewrite R1, Ec. cbn [safe]. intros w2 [I2 [R2 [R2' _]]]. rewrite R2, R1, Ec, Pc. cbn [safe].
    intros w3 [I3 [R3 [R3' _]]]. intros t' Hi'. assert (t' = t) by congruence. subst t'.
    left. exists tb. split; [exact R|]. split; [reflexivity|]. split; congruence.
  - eapply safe_legal; [|exact S]. unfold legals, legals'. rewrite Hi. auto.
Qed.

Lemma workers_halfway schedule d' ps : interleave schedule d (workers L ts seed nows g) = (d', ps) ->
  halfway L ts seed g d d'.
Proof.
  intros I.
  destruct (interleave_safe L ts sep legals' (post L ts seed nows g d) schedule d _ d' ps (usable_inv _ _ _ Us)
     (workers_length L ts seed nows g) workers_safe' I) as [T _].
  assert (T' : together L ts (legals L ts seed g) d d').
  { destruct T as [T1 [T2 [T3 T4]]]. split; [exact T1|]. split; [exact T2|]. split; [exact T3|].
    intros i t Hi. destruct (T4 i t Hi) as [[A|A] B]; split; auto. right.
    unfold legals', legals in *. rewrite Hi in *. apply A. }
  split; [eapply together_usable; eauto|]. split; [eapply together_only; eauto|].
  intros t Ht. destruct (In_nth_error _ _ Ht) as [i Hi].
  destruct T as [_ [_ [_ T4]]]. destruct (T4 i t Hi) as [[A|A] _]; [left; exact A|].
  unfold legals' in A. rewrite Hi in A. destruct A as [N [A|[row [g' [c [A1 [A2 A3]]]]]]].
  - right. auto.
  - right. split; [exact N|]. right. exists row, c. rewrite A1. auto.
Qed.
End Stopped.

(** ** Runs that end *)

Section Run.
Variables (L : lab) (dr : driver L) (ts : list trial) (g : generators L) (tbs : list table) (xs : list path).
Notation seed := (dr_seed L dr).
Notation outp := (output_path L dr).
Hypothesis sep : separate L ts.
Hypothesis ne : ts <> [].
Hypothesis out_in : In outp xs.

Lemma tables_ok : length tbs = length ts -> concat_tables tbs = Ok (concat tbs).
Proof. intros E. apply concat_tables_ok. clear -ne E. destruct ts, tbs; try discriminate; contradiction. Qed.

Lemma left_files d d' : results_left L ts tbs d d' -> forall t, In t ts -> exists c, stat d' (out_of L t) = Some (File c).
Proof.
  intros R. unfold results_left in R. clear sep ne. induction R as [|t tb l l' H R IH]; intros u Hu; [destruct Hu|].
  destruct Hu as [<-|Hu]; [|apply IH; exact Hu].
  destruct H as [[[c [E _]] S]|[_ S]]; [exists c; congruence|eauto].
Qed.

Section From.
Variable d : disk.
Hypothesis places : Forall (place_for L dr ts d) xs.
Hypothesis Us : usable L ts d.
Hypothesis An : Forall2 (answers L seed d g) ts tbs.

Lemma comp : computable L seed d g ts.
Proof.
  intros t Ht. revert Ht. clear sep ne places Us. induction An as [|u tb l l' H R IH]; intros Ht; [destruct Ht|].
  destruct Ht as [<-|Ht]; eauto.
Qed.
Lemma same_answers tbs' : Forall2 (answers L seed d g) ts tbs' -> tbs' = tbs.
Proof. intros H. eapply Forall2_fun; [|exact H|exact An]. intros. eapply answers_fun; eauto. Qed.
Lemma tbs_length : length tbs = length ts.
Proof. symmetry. eapply DataLemmas.Forall2_len. exact An. Qed.

(** A disk on which the trials are done. *)
Definition trials_done (d' : disk) : Prop :=
  usable L ts d' /\ touches L ts xs d d' /\ results_left L ts tbs d d'.
Definition no_dirs (d' : disk) : Prop := forall x, In x xs -> stat d' x <> Some Dir.

Lemma only_no_dirs d' : only_adds_directories L ts d d' -> no_dirs d'.
Proof.
  intros O x Hx. destruct (xs_place L ts dr d xs places x Hx) as [_ [_ [N [Nt _]]]].
  destruct (node_dec (stat d' x) (stat d x)) as [E|Ne]; [congruence|exfalso].
  destruct (O x Ne) as [[t [Ht [E|E]]]|[_ [_ [t [Ht D]]]]]; destruct (Nt t Ht) as [N1 [N2 N3]]; auto.
Qed.

Lemma writes d1 x c : trials_done d1 -> no_dirs d1 -> In x xs ->
  exists d2, run_ops d1 (write_file_ops x c) = (Ok tt, d2) /\ trials_done d2 /\ no_dirs d2 /\
    stat d2 x = Some (File c) /\ forall q, q <> x -> stat d2 q = stat d1 q.
Proof.
  intros [U [T R]] D Hx. destruct (xs_place L ts dr d xs places x Hx) as [NR [_ [_ [Nt _]]]].
  pose proof (place_ready L ts dr d xs places Us d1 x T (proj1 U) Hx (left_files d d1 R)) as P.
  destruct (write_file_ok d1 x c (proj1 U) NR P (D x Hx)) as [d2 [E [K [S Fr]]]].
  exists d2. split; [exact E|]. split; [|split; [|split; [exact S|exact Fr]]].
  - split; [eapply usable_but; eauto|]. split.
    + eapply touches_trans; [exact T|]. intros q Hq. right. left.
      destruct (path_dec q x) as [->|N]; [exact Hx|]. exfalso. apply Hq, Fr, N.
    + unfold results_left in *. eapply Forall2_impl_In; [|exact R]. intros t tb Ht _ H. cbn beta in *.
      rewrite Fr by (destruct (Nt t Ht); auto). exact H.
  - intros y Hy. destruct (path_dec y x) as [->|N]; [congruence|]. rewrite Fr by exact N. auto.
Qed.

(** The table has been written and returned. *)
Definition reported (tb : table) (a : result table * disk) : Prop :=
  fst a = Ok tb /\ trials_done (snd a) /\ stat (snd a) outp = Some (File (lab_print L tb)).

Lemma report_ends d1 tb : trials_done d1 -> no_dirs d1 -> reported tb (finish (report L dr tb) d1).
Proof.
  intros D N. unfold report. rewrite finish_acts.
  destruct (writes d1 outp (lab_print L tb) D N out_in) as [d2 [E [D2 [_ [S _]]]]].
  unfold output_path in E. rewrite E. cbn [fst snd finish bind]. split; [reflexivity|]. split; [exact D2|exact S].
Qed.

Lemma in_order_ends nows : unaffected L seed g ts ->
  reported (concat tbs) (finish (in_order L dr ts nows g) d).
Proof.
  intros Un. unfold in_order. rewrite finish_pbind.
  destruct (run_all L ts sep seed g d Un comp ts nows g d (separate_NoDup L ts sep) (reached_start L ts seed g d Us))
    as [tbs' [g' [d1 [E [F1 [F2 [F3 [F4 _]]]]]]]].
  rewrite E. cbn [fst bind]. rewrite (same_answers tbs' F1) in *. rewrite (tables_ok tbs_length).
  apply report_ends; [|apply only_no_dirs; exact F3].
  split; [exact F2|]. split; [apply only_touches; exact F3|exact F4].
Qed.

Lemma again_ends d1 nows : Forall2 (fun t tb => has_result L t d1 tb) ts tbs -> trials_done d1 -> no_dirs d1 ->
  reported (concat tbs) (finish (in_order L dr ts nows g) d1).
Proof.
  intros R D N. unfold in_order. rewrite finish_pbind.
  rewrite (all_results_read L seed ts nows g d1 tbs R). cbn [fst bind]. rewrite (tables_ok tbs_length).
  apply report_ends; assumption.
Qed.

Lemma workers_end nows schedule d1 ps rs :
  interleave schedule d (workers L ts seed nows g) = (d1, ps) -> worker_results L ps = Some rs ->
  rs = Ok tbs /\ trials_done d1 /\ no_dirs d1.
Proof.
  intros I R. destruct (workers_finish L ts sep seed nows g d Us comp schedule d1 ps rs I R) as [U [O [tbs' [E [F1 F2]]]]].
  rewrite (same_answers tbs' F1) in *. split; [exact E|]. split; [|apply only_no_dirs; exact O].
  split; [exact U|]. split; [apply only_touches; exact O|]. unfold results_left.
  eapply Forall2_impl_In; [|exact F2]. intros t tb _ _ [[H1 [H2 _]]|[H1 [H2 _]]]; auto.
Qed.

Lemma through_file_ends d1 x tb : trials_done d1 -> no_dirs d1 -> In x xs -> lab_parse L (lab_print L tb) = Ok tb ->
  reported tb (finish (through_file L dr x tb) d1).
Proof.
  intros D N Hx P. unfold through_file. rewrite finish_acts.
  destruct (writes d1 x (lab_print L tb) D N Hx) as [d2 [E [D2 [N2 [S _]]]]].
  rewrite E. cbn [fst snd finish]. rewrite S, P. apply report_ends; assumption.
Qed.

Lemma combined c : combines c -> exists tb, combine_output (co_combine c tbs) = Ok tb /\ Permutation tb (concat tbs).
Proof.
  intros C. apply PropsDriver3.C38_combine_any; [apply C|]. pose proof tbs_length as E. clear -ne E.
  destruct ts, tbs; try contradiction; try discriminate.
Qed.

Lemma left_results' d1 : reads_back L seed g ts -> results_left L ts tbs d d1 ->
  Forall2 (fun t tb => has_result L t d1 tb) ts tbs.
Proof. intros RB R. exact (left_results L ts seed g d d1 tbs RB An R). Qed.

Lemma begin_ends ca c o d1 : call_ok L xs (concat tbs) ca c ->
  (ca_beam ca = false -> ca_cores ca = 1 -> unaffected L seed g ts) ->
  (ca_beam ca = false -> ca_cores ca <> 1 -> reads_back L seed g ts) ->
  begin_run L dr ca c ts g d = (Some o, d1) ->
  exists p tb, o = Ok p /\ Permutation tb (concat tbs) /\ (ca_beam ca = false -> tb = concat tbs) /\
    reported tb (finish p d1).
Proof.
  intros CO Un RB B. unfold begin_run in B. destruct (ca_beam ca) eqn:Eb.
  - destruct (CO Eb) as [C1 [C2 C3]].
    destruct (interleave (co_schedule c) d (workers L ts seed (co_now c) g)) as [w ps] eqn:I.
    destruct (worker_results L ps) as [rs|] eqn:R; [|discriminate].
    destruct (workers_end _ _ _ _ _ I R) as [-> [D N]]. destruct (combined c C1) as [tb [E P]].
    cbn [bind] in B. rewrite E in B. cbn [bind] in B.
    assert (w = d1) by congruence. subst w. eexists _, tb. split; [symmetry; injection B as B; exact B|].
    split; [exact P|]. split; [discriminate|].
    apply through_file_ends; auto.
  - destruct (Z.eqb_spec (ca_cores ca) 1) as [Ec|Ec].
    + assert (d1 = d) by congruence. subst d1. eexists _, (concat tbs). split; [injection B as B; symmetry; exact B|].
      split; [reflexivity|]. split; [reflexivity|]. apply in_order_ends. auto.
    + destruct (interleave (co_schedule c) d (workers L ts seed (co_now c) g)) as [w ps] eqn:I.
      destruct (worker_results L ps) as [rs|] eqn:R; [|discriminate].
      destruct (workers_end _ _ _ _ _ I R) as [-> [D N]]. cbn [bind] in B.
      assert (w = d1) by congruence. subst w. eexists _, (concat tbs). split; [injection B as B; symmetry; exact B|].
      split; [reflexivity|]. split; [reflexivity|]. apply again_ends; auto.
      apply left_results'; [auto|apply D].
Qed.
End From.

(** ** Runs that are stopped *)

Section Past.
Variable W : disk.
Hypothesis places : Forall (place_for L dr ts W) xs.
Hypothesis UW : usable L ts W.
Hypothesis An : Forall2 (answers L seed W g) ts tbs.
Hypothesis Un : unaffected L seed g ts.
Hypothesis RB : reads_back L seed g ts.
Hypothesis RP : refuses_all_parts L seed g ts.
Notation FINE := (fine L ts W xs seed g (concat tbs)).

Lemma fine_tables d : FINE d -> Forall2 (answers L seed d g) ts tbs.
Proof.
  intros F. pose proof (fine_computable L ts W xs seed g (concat tbs) d (comp W An) F) as C.
  assert (X : forall l l', Forall2 (answers L seed W g) l l' -> (forall t, In t l -> In t ts) ->
              Forall2 (answers L seed d g) l l').
  { intros l l' H. induction H as [|t tb l l' H1 H2 IH]; intros Hin; constructor.
    - destruct (C t (Hin t (or_introl eq_refl))) as [tb' A].
      assert (tb' = tb).
      { eapply answers_fun; [|exact H1]. eapply fine_answers; eauto. apply Hin. left. reflexivity. }
      subst tb'. exact A.
    - apply IH. intros u Hu. apply Hin. right. exact Hu. }
  apply X; auto.
Qed.

Lemma fine_places d : FINE d -> Forall (place_for L dr ts d) xs.
Proof.
  intros F. rewrite Forall_forall. intros x Hx.
  destruct (xs_place L ts dr W xs places x Hx) as [P1 [P2 [P3 [P4 P5]]]].
  split; [exact P1|]. split; [exact P2|]. split; [eapply fine_not_dir; eauto|]. split; [exact P4|].
  destruct P5 as [E|E]; [left|right; exact E].
  destruct F as [_ [T _]].
  destruct (node_dec (stat d (parent x)) (stat W (parent x))) as [Y|Y]; [congruence|exfalso].
  destruct (T _ Y) as [[t [Ht [Z|Z]]]|[Z|[Z _]]].
  - destruct (proj2 UW t Ht) as [_ [U2 _]]. congruence.
  - destruct (proj2 UW t Ht) as [_ [_ U3]]. congruence.
  - destruct (xs_place L ts dr W xs places _ Z) as [_ [_ [N _]]]. contradiction.
  - congruence.
Qed.

Lemma fine_whole d x tb : FINE d -> In x xs -> Permutation tb (concat tbs) ->
  FINE (snd (run_ops d (write_file_ops x (lab_print L tb)))).
Proof.
  intros F Hx P. rewrite <- (firstn_all (write_file_ops x (lab_print L tb))). eapply fine_part; eauto.
Qed.

Lemma fine_report d tb n : FINE d -> Permutation tb (concat tbs) -> FINE (fst (advances n d (report L dr tb))).
Proof.
  intros F P. unfold report.
  destruct (advances_acts (write_file_ops outp (lab_print L tb)) (fun r => Ret (_ <- r;; Ok tb)) n d) as [[j E]|[m E]];
    unfold output_path in E; rewrite E.
  - eapply fine_part; eauto.
  - rewrite advances_ret. cbn [fst]. apply fine_whole; auto.
Qed.

Lemma fine_in_order d nows n : FINE d -> FINE (fst (advances n d (in_order L dr ts nows g))).
Proof.
  intros F. pose proof (fine_tables d F) as A. pose proof (comp d A) as C. pose proof (proj1 F) as U.
  pose proof (fun k => run_stopped L ts sep seed g d Un C ts nows g d k (separate_NoDup L ts sep)
     (reached_start L ts seed g d U) (halfway_start L ts seed g d U)) as St.
  unfold in_order.
  destruct (advances_pbind (evaluate_all L ts seed nows g)
     (fun a => match (tbs0 <- fst a;; concat_tables tbs0) with Ok tb => report L dr tb | Err e => Ret (Err e) end) n d)
    as [E|[a [d1 [m [E1 E2]]]]].
  - rewrite E. specialize (St n). destruct (advances n d (evaluate_all L ts seed nows g)) as [w p].
    cbn [fst] in *. eapply fine_half; eauto.
  - rewrite E2.
    destruct (finish_advances (evaluate_all L ts seed nows g) d) as [k Ek]. specialize (St k).
    rewrite Ek, E1 in St. cbn [fst snd] in St.
    assert (F1 : FINE d1) by (eapply fine_half; eauto).
    destruct (run_all L ts sep seed g d Un C ts nows g d (separate_NoDup L ts sep) (reached_start L ts seed g d U))
      as [tbs' [g' [d1' [E [G1 _]]]]].
    rewrite E1 in E. assert (a = (Ok tbs', g')) by congruence. subst a. cbn [fst bind].
    rewrite (same_answers d A tbs' G1), (tables_ok (tbs_length d A)).
    apply fine_report; auto.
Qed.

Lemma fine_through d x tb n : FINE d -> In x xs -> Permutation tb (concat tbs) -> lab_parse L (lab_print L tb) = Ok tb ->
  FINE (fst (advances n d (through_file L dr x tb))).
Proof.
  intros F Hx P R. unfold through_file.
  match goal with |- context [acts _ ?k] => set (rest := k) end.
  destruct (advances_acts (write_file_ops x (lab_print L tb)) rest n d) as [[j E]|[m E]]; rewrite E.
  - eapply fine_part; eauto.
  - pose proof (fine_whole d x tb F Hx P) as F1.
    destruct (run_ops d (write_file_ops x (lab_print L tb))) as [r d1] eqn:Er. cbn [fst snd] in *.
    unfold rest. destruct r as [u|e]; [|rewrite advances_ret; exact F1].
    destruct m as [|m]; [exact F1|]. cbn [advances advance].
    assert (S : stat d1 x = Some (File (lab_print L tb))).
    { destruct (xs_place L ts dr W xs places x Hx) as [NR _].
      destruct (stat d (parent x)) as [[|y]|] eqn:Ep.
      - destruct (write_file_ok d x (lab_print L tb) (proj1 (proj1 F)) NR Ep
          (fine_not_dir L ts dr W xs places seed g (concat tbs) d x F Hx)) as [d2 [E2 [_ [S2 _]]]].
        assert (d2 = d1) by congruence. subst d2. exact S2.
      - unfold write_file_ops in Er. cbn [run_ops run_op] in Er. rewrite Ep in Er. discriminate.
      - unfold write_file_ops in Er. cbn [run_ops run_op] in Er. rewrite Ep in Er. discriminate. }
    rewrite S, R. apply fine_report; assumption.
Qed.

Lemma fine_begin d ca c o d1 : FINE d -> call_ok L xs (concat tbs) ca c ->
  begin_run L dr ca c ts g d = (o, d1) ->
  FINE d1 /\ forall p n, o = Some (Ok p) -> FINE (fst (advances n d1 p)).
Proof.
  intros F CO B. pose proof (fine_tables d F) as A. pose proof (proj1 F) as U. pose proof (fine_places d F) as Pl.
  unfold begin_run in B. destruct (ca_beam ca) eqn:Eb; [|destruct (Z.eqb_spec (ca_cores ca) 1) as [Ec|Ec]].
  - destruct (CO Eb) as [C1 [C2 C3]].
    destruct (interleave (co_schedule c) d (workers L ts seed (co_now c) g)) as [w ps] eqn:I.
    pose proof (fine_half L ts dr W xs places seed g (concat tbs) d w F (workers_halfway L ts sep seed (co_now c) g d U _ _ _ I)) as F1.
    destruct (worker_results L ps) as [rs|] eqn:R.
    + destruct (workers_end d Pl U A _ _ _ _ _ I R) as [-> [D N]]. destruct (combined d A c C1) as [tb [E P]].
      cbn [bind] in B. rewrite E in B. cbn [bind] in B.
      assert (w = d1) by congruence. subst w. split; [exact F1|]. intros p n Ep. subst o.
      assert (Ep : p = through_file L dr (temp_result_path (ca_temp ca)) tb) by congruence. subst p.
      apply fine_through; auto.
    + assert (w = d1) by congruence. subst w. split; [exact F1|]. intros p n Ep. congruence.
  - assert (d1 = d) by congruence. subst d1. split; [exact F|]. intros p n Ep.
    assert (Eq : p = in_order L dr ts (co_now c) g) by congruence. subst p. apply fine_in_order. exact F.
  - destruct (interleave (co_schedule c) d (workers L ts seed (co_now c) g)) as [w ps] eqn:I.
    pose proof (fine_half L ts dr W xs places seed g (concat tbs) d w F (workers_halfway L ts sep seed (co_now c) g d U _ _ _ I)) as F1.
    destruct (worker_results L ps) as [rs|] eqn:R.
    + destruct (workers_end d Pl U A _ _ _ _ _ I R) as [-> [D N]]. cbn [bind] in B.
      assert (w = d1) by congruence. subst w. split; [exact F1|]. intros p n Ep.
      assert (Eq : p = in_order L dr ts (co_later c) g) by congruence. subst p. apply fine_in_order. exact F1.
    + assert (w = d1) by congruence. subst w. split; [exact F1|]. intros p n Ep. congruence.
Qed.

Hypothesis HR : runs L dr W ts g.
Hypothesis Ap : apart L dr ts.

Lemma fine_prepared d : FINE d ->
  has_data L dr d /\ exists ts', prepare L dr d = (Ok (ts', g), d) /\ Forall2 (alike) ts ts'.
Proof.
  intros F. apply prepare_again with (d := W); [exact HR|apply F|].
  eapply data_kept; eauto. apply F.
Qed.

Lemma fine_stopped d ca c n : FINE d -> call_ok L xs (concat tbs) ca c ->
  FINE (stopped_execute L dr ca c n d).
Proof.
  intros F CO. destruct (fine_prepared d F) as [HD [ts' [E Al]]]. unfold stopped_execute.
  destruct (n <? length (mkdir_ops (to_path (dr_data_design L dr))))%nat.
  - rewrite mkdir_existing; [exact F|apply F|apply HD].
  - rewrite E. pose proof (alike_begin L dr ca c ts ts' g d Al) as S.
    destruct (begin_run L dr ca c ts g d) as [o d1] eqn:B. destruct (begin_run L dr ca c ts' g d) as [o' d1'].
    destruct (fine_begin d ca c o d1 F CO B) as [F1 F2]. destruct S as [S1 S2]. cbn [fst snd] in *. subst d1'.
    destruct o as [[p|e]|], o' as [[p'|e']|]; try contradiction; try exact F1.
    rewrite (same_advances _ p p' d1 S2). apply F2. reflexivity.
Qed.

Lemma fine_past l : Forall (fun a => call_ok L xs (concat tbs) (pr_call a) (pr_course a)) l ->
  forall d, FINE d -> FINE (after_past L dr d l).
Proof.
  intros H. induction H as [|a l H1 H2 IH]; intros d F; [exact F|].
  unfold after_past. cbn [fold_left]. apply IH. apply fine_stopped; assumption.
Qed.

(** A run from such a disk. *)
Lemma fine_execute d ca c r d' : FINE d -> call_ok L xs (concat tbs) ca c ->
  execute L dr ca c d = Some (r, d') ->
  exists tb, Permutation tb (concat tbs) /\ (ca_beam ca = false -> tb = concat tbs) /\ reported d tb (r, d').
Proof.
  intros F CO E. destruct (fine_prepared d F) as [_ [ts' [Ep Al]]]. unfold execute in E. rewrite Ep in E.
  pose proof (alike_begin L dr ca c ts ts' g d Al) as S.
  destruct (begin_run L dr ca c ts g d) as [o d1] eqn:B. destruct (begin_run L dr ca c ts' g d) as [o' d1'].
  destruct S as [S1 S2]. cbn [fst snd] in *. subst d1'. destruct o as [o|]; [|destruct o'; [contradiction|discriminate]].
  destruct (begin_ends d (fine_places d F) (proj1 F) (fine_tables d F) ca c o d1 CO) as [p [tb [-> [P1 [P2 P3]]]]]; auto.
  destruct o' as [[p'|e']|]; try contradiction. rewrite (same_finish p p' S2) in E.
  exists tb. split; [exact P1|]. split; [exact P2|]. congruence.
Qed.
End Past.
End Run.
