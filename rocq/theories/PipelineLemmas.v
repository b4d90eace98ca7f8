(** First runs of the driver, in which nothing is there yet, whether or not trials influence
    each other. *)
From Coq Require Import String Ascii Permutation Sorted.
From Verif Require Import Prelude ModelReachPoint ModelData ModelHalo ModelAggregator ModelFiles SpecFiles
  FilesLemmas FilesLemmas2 FilesLemmas3 ModelDriver SpecDriver DriverLemmas DriverLemmas2 DriverLemmas3
  DriverLemmas4 DriverLemmas6 DriverLemmas7 DriverLemmas8 ModelExecute SpecExecute ExecuteLemmas ExecuteLemmas2 ExecuteLemmas3 ExecuteLemmas4.
From Verif Require Import ExperimentsLemmas5.
From Verif Require Import SpecPipeline.
Open Scope Z_scope.

Notation singles rows := (map (fun row : list (string * cell) => [row]) rows).

Lemma concat_singles (rows : table) : concat (singles rows) = rows.
Proof. induction rows as [|r rows IH]; [reflexivity|]. cbn [map concat app]. congruence. Qed.

Section First.
Variables (L : lab) (ts : list trial).
Hypothesis sep : separate L ts.
Variable seed : Z.
Notation row_of t row := (row_of L seed t row).

Lemma first_run_all rest : forall nows g d, incl rest ts -> NoDup rest -> usable L ts d ->
  (forall t, In t rest -> no_result L t d) -> (forall t, In t rest -> exists row, fst (compute_row L t seed g) = Ok row) ->
  exists rows g' d', finish (evaluate_all L rest seed nows g) d = ((Ok (singles rows), g'), d') /\
    Forall2 (fun t row => row_of t row) rest rows /\ usable L ts d' /\ only_adds_directories L ts d d' /\
    Forall2 (fun t row => stat d' (out_of L t) = Some (File (lab_print L [row]))) rest rows /\
    (forall t', In t' ts -> ~ In t' rest -> stat d' (out_of L t') = stat d (out_of L t')).
Proof.
  induction rest as [|t rest IH]; intros nows g d Inc ND U No Rw.
  - exists [], g, d. cbn. split; [reflexivity|]. split; [constructor|]. split; [exact U|].
    split; [intros q X; contradiction|]. split; [constructor|auto].
  - inversion ND as [|? ? N1 N2]; subst.
    assert (Ht : In t ts) by (apply Inc; left; reflexivity).
    destruct (evaluate_one L ts sep t seed (nows O) g d Ht U) as [a [d1 [E1 [Ev [U1 [O1 [Fr _]]]]]]].
    destruct Ev as [[tb [R _]]|[_ Ev]]; [exfalso; exact (No t (or_introl eq_refl) tb R)|].
    destruct (Rw t (or_introl eq_refl)) as [row Er].
    destruct (compute_row L t seed g) as [r g1] eqn:Ec. cbn [fst] in Er. subst r. destruct Ev as [-> [E2 E3]].
    destruct (IH (fun n => nows (S n)) g1 d1 (fun x Hx => Inc x (or_intror Hx)) N2 U1) as [rows [g' [d' [F1 [F2 [F3 [F4 [F5 F6]]]]]]]].
    { intros t' Ht'. apply (no_result_stat L t' d d1); [|apply No; right; exact Ht'].
      apply Fr; [apply Inc; right; exact Ht'|]. intros ->. contradiction. }
    { intros t' Ht'. destruct (Rw t' (or_intror Ht')) as [row' Er']. eapply row_any. exact Er'. }
    exists (row :: rows), g', d'. cbn [evaluate_all]. rewrite finish_pbind, E1. cbn [fst snd]. rewrite finish_pbind, F1. cbn [fst snd finish map].
    split; [reflexivity|]. split; [constructor; [exists g; rewrite Ec; reflexivity|exact F2]|]. split; [exact F3|].
    split; [eapply only_adds_trans; eauto|]. split.
    + constructor; [|exact F5]. rewrite (F6 t Ht N1). exact E2.
    + intros t' H1 H2. rewrite F6, Fr; [reflexivity|exact H1| |exact H1|].
      * intros ->. apply H2. left. reflexivity.
      * intros X. apply H2. right. exact X.
Qed.
End First.

Lemma Forall2_both {A B} (P Q : A -> B -> Prop) l l' : Forall2 P l l' -> Forall2 Q l l' -> Forall2 (fun a b => P a b /\ Q a b) l l'.
Proof. intros H. induction H; intros G; inversion G; subst; constructor; auto. Qed.

Lemma Forall2_singles {A} (P : A -> table -> Prop) (l : list A) rows :
  Forall2 (fun a row => P a [row]) l rows -> Forall2 P l (singles rows).
Proof. intros H. induction H; cbn [map]; constructor; auto. Qed.
Lemma Forall2_unsingles {A} (P : A -> table -> Prop) (l : list A) : forall rows,
  Forall2 P l (singles rows) -> Forall2 (fun a row => P a [row]) l rows.
Proof.
  induction l as [|a l IH]; intros [|r rows] H; inversion H; subst; constructor; auto.
Qed.

Lemma rows_exist L seed g l : (forall t : trial, In t l -> exists row, fst (compute_row L t seed g) = Ok row) ->
  exists rows, Forall2 (fun t row => fst (compute_row L t seed g) = Ok row) l rows.
Proof.
  induction l as [|t l IH]; intros H; [exists []; constructor|].
  destruct (H t (or_introl eq_refl)) as [row E]. destruct IH as [rows F]; [intros u Hu; apply H; right; exact Hu|].
  exists (row :: rows). constructor; assumption.
Qed.

Section Fresh.
Variables (L : lab) (dr : driver L) (d : disk) (ts : list trial) (g : generators L) (xs : list path).
Notation seed := (dr_seed L dr).
Hypothesis HR : runs L dr d ts g.
Hypothesis ne : ts <> [].
Hypothesis sep : separate L ts.
Hypothesis Us : usable L ts d.
Hypothesis No : forall t, In t ts -> no_result L t d.
Hypothesis Rw : forall t, In t ts -> exists row, fst (compute_row L t seed g) = Ok row.
Hypothesis out_in : In (output_path L dr) xs.
Hypothesis places : Forall (place_for L dr ts d) xs.

Lemma fresh_left rows d' : results_left L ts (singles rows) d d' ->
  Forall2 (fun t row => stat d' (out_of L t) = Some (File (lab_print L [row]))) ts rows.
Proof.
  intros H. apply (Forall2_unsingles (fun t tb => stat d' (out_of L t) = Some (File (lab_print L tb)))).
  eapply Forall2_impl_In; [|exact H]. intros t tb Ht _ [[X _]|[_ X]]; [|exact X]. exfalso. exact (No t Ht tb X).
Qed.

Lemma fresh_in_order nows : exists rows, Forall2 (row_of L seed) ts rows /\
  reported L dr ts (singles rows) xs d rows (finish (in_order L dr ts nows g) d).
Proof.
  destruct (first_run_all L ts sep seed ts nows g d (incl_refl ts) (separate_NoDup L ts sep) Us No Rw)
    as [rows [g' [d' [E [F1 [F2 [F3 [F4 _]]]]]]]].
  exists rows. split; [exact F1|]. unfold in_order. rewrite finish_pbind, E. cbn [fst bind].
  rewrite (tables_ok ts (singles rows) ne) by (rewrite map_length; symmetry; eapply DataLemmas.Forall2_len; exact F1).
  rewrite concat_singles.
  apply (report_ends L dr ts (singles rows) xs out_in d places Us).
  - split; [exact F2|]. split; [apply only_touches; exact F3|]. unfold results_left.
    apply (Forall2_singles (fun t tb => _)). eapply Forall2_impl_In; [|exact F4]. intros t row Ht _ X. right. split; [apply No; exact Ht|exact X].
  - eapply (only_no_dirs L dr ts xs d places). exact F3.
Qed.

Lemma fresh_execute ca c r d' : way_ok L seed ts xs ca c -> execute L dr ca c d = Some (r, d') ->
  exists tb, r = Ok tb /\ one_row_each L seed ts ca tb d' /\ written L dr ts xs tb d d'.
Proof.
  intros [W1 W2] E. rewrite (execute_runs L dr ca c d ts g HR) in E.
  assert (Done : forall rows tb a, Forall2 (row_of L seed) ts rows -> Permutation tb rows -> (ca_beam ca = false -> tb = rows) ->
    reported L dr ts (singles rows) xs d tb a -> Some a = Some (r, d') ->
    exists tb, r = Ok tb /\ one_row_each L seed ts ca tb d' /\ written L dr ts xs tb d d').
  { intros rows tb a F P Q [R1 [[R2 [R3 R4]] R5]] Ea. assert (a = (r, d')) by congruence. subst a. cbn [fst snd] in *.
    exists tb. split; [exact R1|]. split; [|split; [exact R5|exact R3]].
    exists rows. split; [|split; assumption]. apply Forall2_both; [exact F|apply fresh_left; exact R4]. }
  destruct (rows_exist L seed g ts Rw) as [rows F].
  assert (F' : Forall2 (row_of L seed) ts rows).
  { eapply Forall2_impl_In; [|exact F]. intros t row _ _ X. exists g. exact X. }
  assert (Every : Forall (fun row => exists t, In t ts /\ row_of L seed t row) rows).
  { clear -F'. assert (X : forall l, incl l ts -> forall rows, Forall2 (row_of L seed) l rows ->
      Forall (fun row => exists t, In t ts /\ row_of L seed t row) rows).
    { intros l Inc rows0 H. induction H as [|t row l l' H1 H2 IH]; constructor.
      - exists t. split; [apply Inc; left; reflexivity|exact H1].
      - apply IH. intros u Hu. apply Inc. right. exact Hu. }
    apply (X ts (incl_refl ts)). exact F'. }
  assert (An : Forall2 (answers L seed d g) ts (singles rows)).
  { apply Forall2_singles. eapply Forall2_impl_In; [|exact F]. intros t row Ht _ X. right.
    split; [apply No; exact Ht|]. exists row. auto. }
  destruct (ca_beam ca) eqn:Eb; [|destruct (Z.eq_dec (ca_cores ca) 1) as [Ec|Ec]].
  - destruct (W2 eq_refl) as [C1 C2]. pose proof (W1 (or_introl eq_refl)) as RT.
    destruct (begin_run L dr ca c ts g d) as [o d1] eqn:B. destruct o as [o|]; [|discriminate].
    destruct (begin_ends L dr ts g (singles rows) xs sep ne out_in d places Us An ca c o d1) as [p [tb [-> [P1 [P2 P3]]]]].
    + intros _. split; [exact C1|]. split; [|exact C2]. rewrite concat_singles. intros tb' P. apply RT.
      * intros ->. apply Permutation_nil in P. subst rows. inversion F. congruence.
      * eapply Permutation_Forall; [apply Permutation_sym; exact P|exact Every].
    + congruence.
    + congruence.
    + exact B.
    + rewrite concat_singles in *. eapply Done; [exact F'|exact P1|congruence|exact P3|exact E].
  - unfold begin_run in E. rewrite Eb in E. rewrite Ec in E. cbn [Z.eqb Pos.eqb] in E.
    destruct (fresh_in_order (co_now c)) as [rows' [G1 G2]].
    eapply Done; [exact G1|reflexivity|reflexivity|exact G2|exact E].
  - pose proof (W1 (or_intror Ec)) as RT.
    destruct (begin_run L dr ca c ts g d) as [o d1] eqn:B. destruct o as [o|]; [|discriminate].
    destruct (begin_ends L dr ts g (singles rows) xs sep ne out_in d places Us An ca c o d1) as [p [tb [-> [P1 [P2 P3]]]]].
    + intros X. congruence.
    + intros _ X. contradiction.
    + intros _ _ t row Ht Er. apply RT; [discriminate|]. constructor; [|constructor]. exists t. split; [exact Ht|].
      exists g. exact Er.
    + exact B.
    + rewrite concat_singles in *. eapply Done; [exact F'|exact P1|intros _; exact (P2 Eb)|exact P3|exact E].
Qed.
End Fresh.
