(** Runners of the same trials at the same time: what holds at every moment and at the end. *)
From Coq Require Import String Ascii.
From Verif Require Import Prelude ModelReachPoint ModelAggregator ModelFiles SpecFiles FilesLemmas FilesLemmas2 ModelDriver SpecDriver
  DriverLemmas2 ModelTogether SpecTogether TogetherLemmas TogetherLemmas2.
Open Scope nat_scope.

Section Run.
Variables (L : lab) (seed : Z) (ts : list trial) (rows : trial -> list (string * cell)) (rs : list (runner L)) (s0 : shared).
Notation out := (out_of L). Notation pend := (pending_path L).
Notation answer := (result table * generators L)%type.
Hypothesis Sep : separate L ts.
Hypothesis Agreed : agreed L seed ts rows rs.
Notation Inv := (Inv L seed ts rows rs s0).
Notation concrete := (concrete L seed rows rs).
Notation whole := (whole L rows).

Definition waiting : states L := map (fun _ => (None, Begin L)) rs.
Lemma starts_concrete : starts seed rs = concrete waiting.
Proof.
  unfold starts, concrete, waiting. generalize rs. intros l. induction l as [|r l IH]; [reflexivity|]. cbn [map combine fst snd prog_of].
  rewrite (evaluate_begin L seed). f_equal. exact IH.
Qed.
Lemma waiting_nth j x : nth_error waiting j = Some x -> x = (None, Begin L).
Proof. unfold waiting. rewrite nth_error_map. destruct (nth_error rs j); cbn [option_map]; [congruence|discriminate]. Qed.

Lemma Inv_start : ready L ts s0 -> exists tags, Inv s0 tags waiting.
Proof.
  intros [[[tags [T1 T2]] S2] R]. exists tags. constructor.
  - unfold waiting. apply map_length.
  - constructor; auto.
    + intros q c [t [Ht D]]. apply (R t Ht). exact D.
    + intros p [t [Ht [-> | ->]]]; apply (R t Ht).
    + intros q H. contradiction H. reflexivity.
  - intros j r h ph _ H. apply waiting_nth in H. injection H as -> ->. exact I.
  - intros t Ht. left. split; [reflexivity|]. split; [reflexivity|]. intros j r h ph _ _ H. apply waiting_nth in H. injection H as -> ->. exact I.
Qed.

Lemma run_inv schedule : forall s tags xs s' ps, Inv s tags xs -> shared_run schedule s (concrete xs) = (s', ps) ->
  exists tags' xs', ps = concrete xs' /\ Inv s' tags' xs'.
Proof.
  induction schedule as [|i l IH]; intros s tags xs s' ps V E; cbn [shared_run] in E.
  - injection E as <- <-. eauto.
  - destruct (nth_error (concrete xs) i) as [y|] eqn:H; [|exact (IH _ _ _ _ _ V E)].
    apply concrete_nth in H. destruct H as [r [h [ph [H1 [H2 ->]]]]].
    destruct (step L seed ts rows rs s0 Sep Agreed s tags xs i r h ph V H1 H2) as [s1 [h1 [ph1 [tags1 [S1 V1]]]]].
    rewrite S1 in E. cbv beta iota in E. apply (IH _ _ _ _ _ V1). rewrite (concrete_set L seed rows rs xs i r h1 ph1 H1). exact E.
Qed.

Lemma from_start schedule s' ps : ready L ts s0 -> shared_run schedule s0 (starts seed rs) = (s', ps) ->
  exists tags xs, ps = concrete xs /\ Inv s' tags xs.
Proof. intros R E. destruct (Inv_start R) as [tags V]. rewrite starts_concrete in E. exact (run_inv _ _ _ _ _ _ V E). Qed.

Section At.
Variables (s : shared) (tags : list path) (xs : states L).
Hypothesis V : Inv s tags xs.

Lemma at_ready : ready L ts s.
Proof.
  destruct (iv_struct _ _ _ _ _ _ _ _ _ V) as [A B C D E F]. split.
  - split; [exists tags; auto|exact C].
  - intros t Ht. split; [intros q c Hq; apply D; exists t; auto|]. split; apply E; exists t; auto.
Qed.
Lemma at_adds : adds_only_directories L ts s0 s.
Proof. exact (st_adds _ _ _ _ _ (iv_struct _ _ _ _ _ _ _ _ _ V)). Qed.

Lemma ended_done j r h ph a : nth_error rs j = Some r -> nth_error xs j = Some (h, ph) -> prog_of L seed rows r ph = Ret a -> ph = Done L a.
Proof.
  intros Hr Hx E. pose proof (iv_fits _ _ _ _ _ _ _ _ _ V _ _ _ _ Hr Hx) as F. destruct ph as [| | |[n|o]|[n|o]|b]; cbn [prog_of] in E.
  - discriminate E.
  - discriminate E.
  - discriminate E.
  - destruct F as [F _]. unfold marking in E. destruct (Nat.eq_dec n (S (height (pend (ru_trial r))))) as [->|N].
    + rewrite saving_open in E. discriminate E.
    + rewrite saving_dir in E by lia. discriminate E.
  - destruct F as [F _]. unfold marking in E. destruct (nth_error (marker L r) o) as [x|] eqn:X; [|apply nth_error_None in X; lia].
    rewrite (saving_write _ _ _ _ _ _ X) in E. discriminate E.
  - destruct F as [F _]. unfold writing in E. destruct (Nat.eq_dec n (S (height (out (ru_trial r))))) as [->|N].
    + rewrite saving_open in E. discriminate E.
    + rewrite saving_dir in E by lia. discriminate E.
  - destruct F as [F _]. unfold writing in E. destruct (Nat.eq_dec o (length (whole (ru_trial r)))) as [->|N].
    + rewrite saving_end in E. discriminate E.
    + destruct (nth_error (whole (ru_trial r)) o) as [x|] eqn:X; [|apply nth_error_None in X; lia].
      rewrite (saving_write _ _ _ _ _ _ X) in E. discriminate E.
  - congruence.
Qed.

Lemma answered_done i a : answered (concrete xs) i a -> exists r h, nth_error rs i = Some r /\ nth_error xs i = Some (h, Done L a).
Proof.
  intros [h H]. apply concrete_nth in H. destruct H as [r [h' [ph [H1 [H2 E]]]]]. injection E as -> E.
  exists r, h'. split; [exact H1|]. rewrite (ended_done _ _ _ _ _ H1 H2 (eq_sym E)) in H2. exact H2.
Qed.
Lemma done_answered i r h a : nth_error rs i = Some r -> nth_error xs i = Some (h, Done L a) -> answered (concrete xs) i a.
Proof. intros H1 H2. exists h. apply concrete_nth. exists r, h, (Done L a). auto. Qed.

Lemma at_files t : In t ts ->
  (seen s (out t) = seen s0 (out t) /\ seen s (pend t) = seen s0 (pend t)) \/
  (unreadable L t s0 /\ (exists r, In r rs /\ ru_trial r = t) /\
   (seen s (out t) = None \/ exists c, seen s (out t) = Some (File c) /\ patchy c (whole t))).
Proof.
  intros Ht. destruct (iv_trials _ _ _ _ _ _ _ _ _ V t Ht) as [[C1 [C2 _]]|[S1 S2 S3 SL S4 S5 S6]]; [left; auto|right].
  split; [exact S1|]. split.
  { destruct S5 as [j [r [h [ph [H1 [H2 _]]]]]]. exists r. split; [eapply nth_error_In; exact H1|exact H2]. }
  assert (Fo : file_path L ts (out t)) by (exists t; auto).
  pose proof (file_nonroot L ts Sep _ Fo) as R. pose proof (st_files _ _ _ _ _ (iv_struct _ _ _ _ _ _ _ _ _ V) _ Fo) as N.
  rewrite (seen_at s _ R) in N |- *. destruct (sh_names s (out t)) as [[i|]|] eqn:E; [right|contradiction N; reflexivity|left; reflexivity].
  eexists. split; [reflexivity|]. apply S2. exact (st_tags _ _ _ _ _ (iv_struct _ _ _ _ _ _ _ _ _ V) _ _ E).
Qed.

Lemma at_answer i r a : nth_error rs i = Some r -> answered (concrete xs) i a ->
  (exists tb, readable L (ru_trial r) s0 tb /\ a = (Ok tb, ru_generators r)) \/
  (unreadable L (ru_trial r) s0 /\
   (a = (Ok [rows (ru_trial r)], snd (compute_row L (ru_trial r) seed (ru_generators r))) \/
    (a = (Err FileNotFoundError, ru_generators r) /\ two_runners rs (ru_trial r) /\
     (seen s0 (out (ru_trial r)) = None -> three_runners rs (ru_trial r))) \/
    exists c tb, patchy c (whole (ru_trial r)) /\ lab_parse L c = Ok tb /\ a = (Ok tb, ru_generators r))).
Proof.
  intros Hr A. destruct (answered_done _ _ A) as [r' [h [H1 H2]]]. assert (r' = r) by congruence. subst r'.
  pose proof (proj1 (Agreed r (nth_error_In _ _ Hr))) as Ht.
  destruct (iv_trials _ _ _ _ _ _ _ _ _ V _ Ht) as [[C1 [C2 C3]]|[S1 S2 S3 SL S4 S5 S6]].
  - left. exact (C3 _ _ _ _ Hr eq_refl H2).
  - right. split; [exact S1|]. destruct (S4 _ _ _ _ Hr eq_refl H2 a eq_refl) as [X|[[X Y]|X]]; [left; exact X| |right; right; exact X].
    right. left. split; [exact X|]. split; [|exact Y].
    destruct S5 as [j [r' [h' [ph [G1 [G2 [G3 G4]]]]]]]. exists i, j. split; [exists r; auto|]. split; [exists r'; auto|].
    intros <-. assert (r' = r) by congruence. subst r'. assert (ph = Done L a) by congruence. subst ph. destruct G4 as [[]|G4].
    injection G4 as G4. congruence.
Qed.

Lemma at_readable t : In t ts -> (exists tb, readable L t s0 tb) -> seen s (out t) = seen s0 (out t) /\ seen s (pend t) = seen s0 (pend t).
Proof. intros Ht [tb R]. destruct (at_files t Ht) as [H|[U _]]; [exact H|contradiction (U tb R)]. Qed.
Lemma at_nobody t : In t ts -> (forall r, In r rs -> ru_trial r <> t) -> seen s (out t) = seen s0 (out t) /\ seen s (pend t) = seen s0 (pend t).
Proof. intros Ht N. destruct (at_files t Ht) as [H|[_ [[r [H1 H2]] _]]]; [exact H|contradiction (N r H1 H2)]. Qed.

Lemma at_end t : In t ts -> (exists r, In r rs /\ ru_trial r = t) -> unreadable L t s0 -> all_ended (concrete xs) ->
  seen s (out t) = Some (File (whole t)) /\ seen s (pend t) = None /\
  exists i r, nth_error rs i = Some r /\ ru_trial r = t /\
    answered (concrete xs) i (Ok [rows t], snd (compute_row L t seed (ru_generators r))).
Proof.
  intros Ht [r [Hr Et]] U All.
  assert (D : forall j r h ph, nth_error rs j = Some r -> nth_error xs j = Some (h, ph) -> exists a, ph = Done L a).
  { intros j r1 h ph H1 H2. destruct (All j (h, prog_of L seed rows r1 ph)) as [a Ha]; [apply concrete_nth; exists r1, h, ph; auto|].
    exists a. exact (ended_done _ _ _ _ _ H1 H2 Ha). }
  destruct (iv_trials _ _ _ _ _ _ _ _ _ V t Ht) as [[C1 [C2 C3]]|[S1 S2 S3 SL S4 S5 S6]].
  - exfalso. destruct (In_nth_error _ _ Hr) as [j Hj]. destruct (nth_error xs j) as [[h ph]|] eqn:Hx.
    + destruct (D _ _ _ _ Hj Hx) as [a ->]. destruct (C3 _ _ _ _ Hj Et Hx) as [tb [R _]]. rewrite Et in R. exact (U tb R).
    + apply nth_error_None in Hx. rewrite (iv_length _ _ _ _ _ _ _ _ _ V) in Hx. assert (Lj : j < length rs) by (apply nth_error_Some; congruence). lia.
  - assert (Fo : file_path L ts (out t)) by (exists t; auto). assert (Fp : file_path L ts (pend t)) by (exists t; auto).
    pose proof (file_nonroot L ts Sep _ Fo) as Ro. pose proof (file_nonroot L ts Sep _ Fp) as Rp.
    pose proof (st_files _ _ _ _ _ (iv_struct _ _ _ _ _ _ _ _ _ V) _ Fo) as No.
    split; [|split].
    + rewrite (seen_at s _ Ro) in No |- *. destruct (sh_names s (out t)) as [[i|]|] eqn:E; [|contradiction No; reflexivity|].
      * destruct (S2 i (st_tags _ _ _ _ _ (iv_struct _ _ _ _ _ _ _ _ _ V) _ _ E)) as [Pa W]. do 2 f_equal. apply patchy_whole; [exact Pa|].
        intros k Hk. destruct (W k Hk) as [X|[j [r1 [h [ph [H1 [H2 [H3 [o [Y _]]]]]]]]]]; [exact X|].
        destruct (D _ _ _ _ H1 H3) as [a ->]. discriminate Y.
      * destruct (S3 eq_refl) as [j [r1 [h [ph [H1 [H2 [H3 Y]]]]]]]. destruct (D _ _ _ _ H1 H3) as [a ->]. contradiction.
    + apply seen_none; [exact Rp|]. destruct (sh_names s (pend t)) eqn:E; [|reflexivity].
      destruct (S6 ltac:(discriminate)) as [j [r1 [h [ph [H1 [H2 [H3 Y]]]]]]]. destruct (D _ _ _ _ H1 H3) as [a ->]. contradiction.
    + destruct S5 as [j [r1 [h [ph [H1 [H2 [H3 Y]]]]]]]. exists j, r1. split; [exact H1|]. split; [exact H2|].
      destruct (D _ _ _ _ H1 H3) as [a ->]. destruct Y as [[]|Y]. rewrite Y in H3. unfold after in H3. rewrite H2 in H3.
      exact (done_answered _ _ _ _ H1 H3).
Qed.
End At.
End Run.

(** ** Batches that are stopped *)

Section Batches.
Variables (L : lab) (seed : Z) (ts : list trial) (rows : trial -> list (string * cell)).
Notation out := (out_of L).
Hypothesis Sep : separate L ts.

Lemma after_batches_ready l : forall s, ready L ts s -> (forall b, In b l -> agreed L seed ts rows (fst b)) ->
  ready L ts (after_batches seed s l) /\
  forall t, In t ts ->
    seen (after_batches seed s l) (out t) = seen s (out t) \/
    (unreadable L t s /\ (seen (after_batches seed s l) (out t) = None \/
       exists c, seen (after_batches seed s l) (out t) = Some (File c) /\ patchy c (lab_print L [rows t]))).
Proof.
  induction l as [|b l IH]; intros s R A; cbn [after_batches fold_left].
  - split; [exact R|]. auto.
  - destruct (shared_run (snd b) s (starts seed (fst b))) as [s1 ps] eqn:E. cbn [fst].
    destruct (from_start L seed ts rows (fst b) s Sep (A b (or_introl eq_refl)) (snd b) s1 ps R E) as [tags [xs [_ V]]].
    pose proof (at_ready L seed ts rows (fst b) s s1 tags xs V) as R1.
    destruct (IH s1 R1 (fun b' H => A b' (or_intror H))) as [R2 H]. split; [exact R2|]. intros t Ht.
    destruct (at_files L seed ts rows (fst b) s Sep s1 tags xs V t Ht) as [[F _]|[U [_ F]]].
    + destruct (H t Ht) as [G|[U G]]; [left; rewrite <- F; exact G|right]. split; [|exact G].
      intros tb [c [X Y]]. apply (U tb). exists c. split; [congruence|exact Y].
    + destruct (H t Ht) as [G|[_ G]]; right; (split; [exact U|]); [|exact G]. unfold after_batches in G. rewrite G. exact F.
Qed.
End Batches.

(** ** Programs end *)

Inductive within_steps {A} : nat -> prog A -> Prop :=
| ws_ret n a : within_steps n (Ret a)
| ws_look n q k : (forall x, within_steps n (k x)) -> within_steps (S n) (Look q k)
| ws_act n e k : (forall x, within_steps n (k x)) -> within_steps (S n) (Act e k).
Lemma within_more {A} n (p : prog A) : within_steps n p -> forall m, n <= m -> within_steps m p.
Proof.
  induction 1 as [n a|n q k H IH|n e k H IH]; intros m Hm; [constructor| |]; (destruct m as [|m]; [lia|]); constructor; intros x; apply IH; lia.
Qed.
Lemma within_acts {A} n (k : result unit -> prog A) es : (forall x, within_steps n (k x)) -> within_steps (length es + n) (acts es k).
Proof.
  intros H. induction es as [|e r IH]; cbn [length acts Nat.add]; [apply H|]. constructor. intros [u|y]; [exact IH|].
  apply (within_more n); [apply H|lia].
Qed.
Lemma evaluate_ends L t seed now g : exists n, within_steps n (evaluate L t seed now g).
Proof.
  assert (R : exists n, within_steps n (recompute L t seed now g)).
  { unfold recompute. destruct (compute_row L t seed g) as [[row|e] g'] eqn:E.
    - eexists. eapply within_acts. intros [u|e]; [|constructor]. apply within_acts. intros [u'|e']; apply (ws_ret 0).
    - exists (length (save (pending_path L t) (pending_text L t now)) + 0). apply within_acts. intros [u|e']; constructor. }
  destruct R as [n R]. exists (3 + n). unfold evaluate. constructor. intros [[|c]|]; [apply (within_more n); [exact R|lia]| |apply (within_more n); [exact R|lia]].
  constructor. intros x. destruct (match x with Some (File c) => lab_parse L c | Some Dir => Err OtherError | None => Err FileNotFoundError end); [constructor|].
  constructor. intros [u|y]; [exact R|constructor].
Qed.

Definition turns (i : nat) (schedule : list nat) : nat := count_occ Nat.eq_dec schedule i.
Lemma run_length {A} schedule : forall s (xs : list (process A)) s' ps, shared_run schedule s xs = (s', ps) -> length ps = length xs.
Proof.
  induction schedule as [|i l IH]; intros s xs s' ps E; cbn [shared_run] in E; [congruence|].
  destruct (nth_error xs i) as [x|]; [|exact (IH _ _ _ _ E)]. destruct (shared_step s x) as [s1 x1]. rewrite (IH _ _ _ _ E). apply set_length.
Qed.
Lemma step_within {A} n s h (p : prog A) s' h' p' : shared_step s (h, p) = (s', (h', p')) -> within_steps n p -> within_steps (pred n) p'.
Proof.
  intros E H. unfold shared_step in E. cbn [fst snd] in E. destruct H as [n a|n q k H|n e k H].
  - injection E as <- <- <-. constructor.
  - injection E as <- <- <-. apply H.
  - destruct (shared_effect s h e) as [[s1 h1]|y]; injection E as <- <- <-; apply H.
Qed.
Lemma run_within {A} schedule : forall s (xs : list (process A)) s' ps i h p n, shared_run schedule s xs = (s', ps) ->
  nth_error xs i = Some (h, p) -> within_steps n p -> exists h' p', nth_error ps i = Some (h', p') /\ within_steps (n - turns i schedule) p'.
Proof.
  induction schedule as [|j l IH]; intros s xs s' ps i h p n E Hi W; cbn [shared_run] in E; unfold turns; cbn [count_occ].
  - injection E as <- <-. exists h, p. rewrite Nat.sub_0_r. auto.
  - destruct (Nat.eq_dec j i) as [->|N].
    + rewrite Hi in E. destruct (shared_step s (h, p)) as [s1 [h1 p1]] eqn:Es.
      assert (Hi1 : nth_error (set_nth i (h1, p1) xs) i = Some (h1, p1)) by (apply nth_error_set_same; apply nth_error_Some; intros Y; unfold process in *; congruence).
      destruct (IH _ _ _ _ i h1 p1 (pred n) E Hi1 (step_within _ _ _ _ _ _ _ Es W)) as [h' [p' [A1 A2]]].
      exists h', p'. split; [exact A1|]. unfold turns in A2.  replace (n - S (count_occ Nat.eq_dec l i)) with (pred n - count_occ Nat.eq_dec l i) by lia. exact A2.
    + destruct (nth_error xs j) as [x|]; [|exact (IH _ _ _ _ _ _ _ _ E Hi W)]. destruct (shared_step s x) as [s1 x1].
      apply (IH _ _ _ _ i h p n E); [|exact W]. rewrite nth_error_set_other by exact N. exact Hi.
Qed.
Lemma all_end L seed (rs : list (runner L)) : exists n, forall schedule s s' ps,
  shared_run schedule s (starts seed rs) = (s', ps) -> (forall i, i < length rs -> n <= turns i schedule) -> all_ended ps.
Proof.
  assert (H : exists n, forall r, In r rs -> within_steps n (evaluate L (ru_trial r) seed (ru_now r) (ru_generators r))).
  { induction rs as [|r l [n IH]]; [exists 0; intros r []|]. destruct (evaluate_ends L (ru_trial r) seed (ru_now r) (ru_generators r)) as [m M].
    exists (n + m). intros r' [<-|H]; [apply (within_more m); [exact M|lia]|]. apply (within_more n); [exact (IH _ H)|lia]. }
  destruct H as [n H]. exists n. intros schedule s s' ps E T i x Hx.
  assert (Hi : i < length rs).
  { pose proof (run_length _ _ _ _ _ E) as Y. unfold starts in Y. rewrite map_length in Y. rewrite <- Y. apply nth_error_Some. congruence. }
  destruct (nth_error rs i) as [r|] eqn:Hr; [|apply nth_error_None in Hr; lia].
  assert (Hs : nth_error (starts seed rs) i = Some (None, evaluate L (ru_trial r) seed (ru_now r) (ru_generators r))).
  { unfold starts. rewrite nth_error_map, Hr. reflexivity. }
  destruct (run_within _ _ _ _ _ _ _ _ n E Hs (H r (nth_error_In _ _ Hr))) as [h' [p' [A W]]].
  assert (X : x = (h', p')) by congruence. subst x. cbn [snd]. specialize (T i Hi). replace (n - turns i schedule) with 0 in W by lia.
  inversion W. eexists. reflexivity.
Qed.

(** ** Disks *)

Lemma numbered_find d : forall k p,
  match numbered d k p with
  | None => disk_find d p = None
  | Some None => disk_find d p = Some Dir
  | Some (Some i) => k <= i /\ exists c, nth_error d (i - k) = Some (p, File c) /\ disk_find d p = Some (File c)
  end.
Proof.
  induction d as [|[q n] d IH]; intros k p; cbn [numbered disk_find]; [reflexivity|].
  destruct (path_eqb p q) eqn:E.
  - apply path_eqb_spec in E. subst q. destruct n as [|c]; [reflexivity|]. split; [lia|]. exists c. rewrite Nat.sub_diag. auto.
  - specialize (IH (S k) p). destruct (numbered d (S k) p) as [[i|]|]; [|exact IH|exact IH].
    destruct IH as [A [c [B C]]]. split; [lia|]. exists c. replace (i - k) with (S (i - S k)) by lia. auto.
Qed.
Lemma share_seen d p : seen (share d) p = stat d p.
Proof.
  unfold seen, stat. destruct (snd p); [reflexivity|]. cbn [share sh_names sh_files]. pose proof (numbered_find d 0 p) as H.
  destruct (numbered d 0 p) as [[i|]|]; [|symmetry; exact H|symmetry; exact H]. destruct H as [_ [c [A B]]]. rewrite B. do 2 f_equal.
  rewrite Nat.sub_0_r in A. apply (nth_error_nth _ _ []). rewrite nth_error_map, A. reflexivity.
Qed.
Lemma share_sound d : disk_ok d -> sound (share d).
Proof.
  intros [_ [_ H]]. split.
  - exists (map fst d). split; [cbn [share sh_files]; rewrite !map_length; reflexivity|]. intros p i E. cbn [share sh_names] in E.
    pose proof (numbered_find d 0 p) as F. rewrite E in F. destruct F as [_ [c [A _]]]. rewrite Nat.sub_0_r in A. rewrite nth_error_map, A. reflexivity.
  - intros p. rewrite !share_seen. apply H.
Qed.
Lemma share_ready L ts d : usable L ts d -> ready L ts (share d).
Proof.
  intros [K H]. split; [apply share_sound; exact K|]. intros t Ht. destruct (H t Ht) as [A [B C]].
  rewrite !share_seen. split; [|auto]. intros q c. rewrite share_seen. apply A.
Qed.
