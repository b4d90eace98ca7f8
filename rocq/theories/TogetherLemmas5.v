(** Processes that each evaluate a list of trials at the same time: each evaluation is a runner
    of TogetherLemmas2.v that comes in later. *)
From Coq Require Import String Ascii Permutation.
From Verif Require Import Prelude ModelReachPoint ModelAggregator ModelFiles SpecFiles FilesLemmas FilesLemmas2 ModelDriver SpecDriver
  DriverLemmas2 ModelTogether SpecTogether TogetherLemmas TogetherLemmas2 TogetherLemmas3 ModelTogether2 SpecTogether2.
Open Scope nat_scope.

Section Sessions.
Variables (L : lab) (seed : Z) (ts : list trial) (rows : trial -> list (string * cell)) (s0 : shared).
Notation out := (out_of L). Notation pend := (pending_path L).
Notation answer := (result table * generators L)%type.
Notation report := (result (list table) * generators L)%type.
Notation Inv := (Inv L seed ts rows).
Notation Ex := (Ex L). Notation Al := (Al L).
Hypothesis Sep : separate L ts.

(** ** One more runner *)

Section Append.
Variables (rs : list (runner L)) (xs : states L) (r : runner L) (h : option handle).
Hypothesis Len : length xs = length rs.
Notation rs' := (rs ++ [r]). Notation xs' := (xs ++ [(h, Begin L)]).

Lemma app_before {X} (l : list X) (x : X) j y : nth_error l j = Some y -> nth_error (l ++ [x]) j = Some y.
Proof. intros H. rewrite nth_error_app1; [exact H|]. apply nth_error_Some. congruence. Qed.
Lemma app_cases j r1 h1 ph1 : nth_error rs' j = Some r1 -> nth_error xs' j = Some (h1, ph1) ->
  (nth_error rs j = Some r1 /\ nth_error xs j = Some (h1, ph1)) \/ (j = length rs /\ r1 = r /\ h1 = h /\ ph1 = Begin L).
Proof.
  intros H1 H2. destruct (lt_dec j (length rs)) as [H|H].
  - left. rewrite nth_error_app1 in H1 by lia. rewrite nth_error_app1 in H2 by lia. auto.
  - right. assert (j = length rs).
    { assert (X : j < length rs') by (apply nth_error_Some; congruence). rewrite app_length in X. cbn [length] in X. lia. }
    subst j. rewrite nth_error_app2 in H1 by lia. rewrite nth_error_app2 in H2 by lia. rewrite Len in H2. rewrite Nat.sub_diag in H1, H2.
    cbn [nth_error] in H1, H2. injection H1 as <-. injection H2 as <- <-. auto.
Qed.
Lemma Ex_app t K : Ex rs t xs K -> Ex rs' t xs' K.
Proof. intros [j [r1 [h1 [ph1 [H1 [H2 [H3 H4]]]]]]]. exists j, r1, h1, ph1. auto using app_before. Qed.
Lemma Al_app t (K K' : runner L -> option handle -> phase L -> Prop) : Al rs t xs K -> (forall r h ph, K r h ph -> K' r h ph) ->
  (ru_trial r = t -> K' r h (Begin L)) -> Al rs' t xs' K'.
Proof.
  intros H M B j r1 h1 ph1 H1 H2 H3. destruct (app_cases _ _ _ _ H1 H3) as [[G1 G3]|[-> [-> [-> ->]]]]; [apply M; exact (H _ _ _ _ G1 H2 G3)|exact (B H2)].
Qed.
Lemma runner_app t i : runner_of rs t i -> runner_of rs' t i.
Proof. intros [x [H1 H2]]. exists x. auto using app_before. Qed.
Lemma three_app t : three_runners rs t -> three_runners rs' t.
Proof. intros [i [j [k [A [B [C N]]]]]]. exists i, j, k. auto using runner_app. Qed.

Lemma Inv_append s tags : Inv rs s0 s tags xs -> Inv rs' s0 s tags xs'.
Proof.
  intros [V1 V2 V3 V4]. constructor.
  - rewrite !app_length. cbn [length]. lia.
  - exact V2.
  - intros j r1 h1 ph1 H1 H2. destruct (app_cases _ _ _ _ H1 H2) as [[G1 G2]|[_ [-> [-> ->]]]]; [exact (V3 _ _ _ _ G1 G2)|exact I].
  - intros t Ht. destruct (V4 t Ht) as [[C1 [C2 C3]]|[S1 S2 S3 SL S4 S5 S6]]; [left|right].
    + split; [exact C1|]. split; [exact C2|]. apply (Al_app t _ _ C3); [auto|]. intros _. exact I.
    + constructor; auto using Ex_app.
      * intros i Hi. destruct (S2 i Hi) as [P W]. split; [exact P|]. intros k Hk. destruct (W k Hk) as [E|E]; [left; exact E|right]. apply Ex_app. exact E.
      * intros M N. apply (Al_app t _ _ (SL M N)); [|intros _ []]. intros r1 h1 ph1 X Y. apply three_app. exact (X Y).
      * apply (Al_app t _ _ S4); [|intros _ a E; discriminate E]. intros r1 h1 ph1 X a E.
        destruct (X a E) as [Y|[[Y Z]|Y]]; [left; exact Y|right; left; split; [exact Y|auto using three_app]|right; right; exact Y].
Qed.
End Append.

Lemma Inv_nobody : ready L ts s0 -> exists tags, Inv [] s0 s0 tags [].
Proof. intros R. exact (Inv_start L seed ts rows [] s0 R). Qed.

(** ** Evaluating a list of trials *)

Definition with_table (tb : table) (b : report) : prog report :=
  match fst b with Err e => Ret (Err e, snd b) | Ok tbs => Ret (Ok (tb :: tbs), snd b) end.
Fixpoint plug (p : prog report) (st : list table) : prog report :=
  match st with [] => p | tb :: r => plug (pbind p (with_table tb)) r end.
Definition go_on (rest : list trial) (nows : nat -> text) (a : answer) : prog report :=
  match fst a with
  | Err e => Ret (Err e, snd a)
  | Ok tb => pbind (evaluate_all L rest seed (fun n => nows (S n)) (snd a)) (with_table tb)
  end.
Lemma evaluate_all_cons t rest nows g : evaluate_all L (t :: rest) seed nows g = pbind (evaluate L t seed (nows O) g) (go_on rest nows).
Proof. reflexivity. Qed.
Lemma plug_err st : forall e g, plug (Ret (Err e, g)) st = Ret (Err e, g).
Proof. induction st as [|tb r IH]; intros e g; cbn [plug]; [reflexivity|]. apply IH. Qed.
Lemma plug_ok st : forall l g, plug (Ret (Ok l, g)) st = Ret (Ok (rev st ++ l), g).
Proof.
  induction st as [|tb r IH]; intros l g; cbn [plug rev app]; [reflexivity|]. cbn [pbind]. unfold with_table. cbn [fst snd]. rewrite IH, <- app_assoc. reflexivity.
Qed.

Definition is_ret {A} (p : prog A) : Prop := exists a, p = Ret a.
Lemma step_pbind {A B} (p : prog A) (f : A -> prog B) s h s' h' p' : ~ is_ret p -> shared_step s (h, p) = (s', (h', p')) ->
  ~ is_ret (pbind p f) /\ shared_step s (h, pbind p f) = (s', (h', pbind p' f)).
Proof.
  intros N E. destruct p as [a|q k|e k]; [contradiction N; exists a; reflexivity| |]; cbn [pbind] in *.
  - split; [intros [a X]; discriminate X|]. unfold shared_step in *. cbn [fst snd] in *. injection E as <- <- <-. reflexivity.
  - split; [intros [a X]; discriminate X|]. unfold shared_step in *. cbn [fst snd] in *.
    destruct (shared_effect s h e) as [[s1 h1]|y]; injection E as <- <- <-; reflexivity.
Qed.
Lemma step_plug st : forall p s h s' h' p', ~ is_ret p -> shared_step s (h, p) = (s', (h', p')) ->
  shared_step s (h, plug p st) = (s', (h', plug p' st)).
Proof.
  induction st as [|tb r IH]; intros p s h s' h' p' N E; cbn [plug]; [exact E|].
  destruct (step_pbind p (with_table tb) s h s' h' p' N E) as [N' E']. exact (IH _ _ _ _ _ _ N' E').
Qed.

Lemma plug_going p st a : ~ is_ret p -> plug p st <> Ret a.
Proof.
  revert p. induction st as [|tb st IH]; intros p N E; cbn [plug] in E.
  - apply N. exists a. exact E.
  - refine (IH _ _ E). intros [x X]. destruct p as [b|q k|ef k]; [apply N; exists b; reflexivity|discriminate X|discriminate X].
Qed.
Lemma pbind_going {A B} (p : prog A) (f : A -> prog B) : ~ is_ret p -> ~ is_ret (pbind p f).
Proof. intros N [x X]. destruct p as [b|q k|ef k]; [apply N; exists b; reflexivity|discriminate X|discriminate X]. Qed.

(** The runners that a session has started, all of which have answered with a table. *)
Inductive trail (rs : list (runner L)) (xs : states L) : generators L -> list trial -> list nat -> list table -> generators L -> Prop :=
| trail_nil g : trail rs xs g [] [] [] g
| trail_cons g t l j js tb tbs r h g' g'' : nth_error rs j = Some r -> ru_trial r = t -> ru_generators r = g ->
    nth_error xs j = Some (h, Done L (Ok tb, g')) -> trail rs xs g' l js tbs g'' -> trail rs xs g (t :: l) (j :: js) (tb :: tbs) g''.
Lemma trail_snoc rs xs g l js tbs g' : trail rs xs g l js tbs g' -> forall t j r h tb g'', nth_error rs j = Some r -> ru_trial r = t ->
  ru_generators r = g' -> nth_error xs j = Some (h, Done L (Ok tb, g'')) -> trail rs xs g (l ++ [t]) (js ++ [j]) (tbs ++ [tb]) g''.
Proof.
  induction 1 as [g|g t l j js tb tbs r h g1 g2 H1 H2 H3 H4 H5 IH]; intros t' j' r' h' tb' g3 K1 K2 K3 K4; cbn [app].
  - econstructor; eauto. constructor.
  - econstructor; eauto.
Qed.
Definition kept_done (xs xs' : states L) : Prop := forall j h a, nth_error xs j = Some (h, Done L a) -> nth_error xs' j = Some (h, Done L a).
Lemma trail_mono rs xs rs' xs' g l js tbs g' : (forall j r, nth_error rs j = Some r -> nth_error rs' j = Some r) -> kept_done xs xs' ->
  trail rs xs g l js tbs g' -> trail rs' xs' g l js tbs g'.
Proof. intros M K. induction 1; [constructor|]. econstructor; eauto. Qed.
Lemma trail_at rs xs g l js tbs g' : trail rs xs g l js tbs g' -> length js = length l /\ length tbs = length l /\
  forall k j, nth_error js k = Some j -> exists r h tb g1, nth_error rs j = Some r /\ nth_error l k = Some (ru_trial r) /\
    nth_error tbs k = Some tb /\ nth_error xs j = Some (h, Done L (Ok tb, g1)).
Proof.
  induction 1 as [g|g t l j js tb tbs r h g1 g2 H1 H2 H3 H4 H5 [IH1 [IH2 IH3]]]; cbn [length].
  - split; [reflexivity|]. split; [reflexivity|]. intros [|k] j E; discriminate E.
  - split; [lia|]. split; [lia|]. intros [|k] j' E; cbn [nth_error] in *; [|exact (IH3 k j' E)].
    injection E as <-. exists r, h, tb, g1. subst t. auto.
Qed.

Inductive course (rs : list (runner L)) (xs : states L) (e : session L) : option handle -> prog report -> list nat -> Prop :=
| c_run h done js tbs g t rest nows j r ph : se_trials e = done ++ t :: rest -> trail rs xs (se_generators e) done js tbs g ->
    nth_error rs j = Some r -> ru_trial r = t -> ru_generators r = g -> nth_error xs j = Some (h, ph) -> (forall a, ph <> Done L a) ->
    course rs xs e h (plug (pbind (prog_of L seed rows r ph) (go_on rest nows)) (rev tbs)) (js ++ [j])
| c_fail h h' done js tbs g t rest j r y g' : se_trials e = done ++ t :: rest -> trail rs xs (se_generators e) done js tbs g ->
    nth_error rs j = Some r -> ru_trial r = t -> ru_generators r = g -> nth_error xs j = Some (h', Done L (Err y, g')) ->
    course rs xs e h (Ret (Err y, g')) (js ++ [j])
| c_end h js tbs g : trail rs xs (se_generators e) (se_trials e) js tbs g -> course rs xs e h (Ret (Ok tbs, g)) js.

Lemma course_at rs xs e h p js : course rs xs e h p js -> length js <= length (se_trials e) /\ forall k j, nth_error js k = Some j ->
  exists r x, nth_error rs j = Some r /\ nth_error xs j = Some x /\ nth_error (se_trials e) k = Some (ru_trial r).
Proof.
  assert (S : forall done t rest js tbs g j r x, se_trials e = done ++ t :: rest -> trail rs xs (se_generators e) done js tbs g ->
    nth_error rs j = Some r -> ru_trial r = t -> nth_error xs j = Some x ->
    length (js ++ [j]) <= length (se_trials e) /\ forall k j1, nth_error (js ++ [j]) k = Some j1 ->
    exists r x, nth_error rs j1 = Some r /\ nth_error xs j1 = Some x /\ nth_error (se_trials e) k = Some (ru_trial r)).
  { intros done t rest js0 tbs g j r x E T H1 H2 H3. destruct (trail_at _ _ _ _ _ _ _ T) as [T1 [_ T3]].
    rewrite E, !app_length. cbn [length]. split; [lia|]. intros k j1 Hk. destruct (lt_dec k (length js0)) as [B|B].
    - rewrite nth_error_app1 in Hk by exact B. destruct (T3 k j1 Hk) as [r1 [h1 [tb [g1 [X1 [X2 [_ X4]]]]]]].
      exists r1, (h1, Done L (Ok tb, g1)). split; [exact X1|]. split; [exact X4|]. rewrite nth_error_app1 by lia. exact X2.
    - rewrite nth_error_app2 in Hk by lia. destruct (k - length js0) as [|m] eqn:Em; [|destruct m; discriminate Hk]. injection Hk as <-.
      exists r, x. split; [exact H1|]. split; [exact H3|]. rewrite nth_error_app2 by lia. replace (k - length done) with 0 by lia. cbn [nth_error]. congruence. }
  destruct 1 as [h done js tbs g t rest nows j r ph E T H1 H2 H3 H4 H5|h h' done js tbs g t rest j r y g' E T H1 H2 H3 H4|h js tbs g T].
  - eapply S; eauto.
  - eapply S; eauto.
  - destruct (trail_at _ _ _ _ _ _ _ T) as [T1 [_ T3]]. split; [lia|]. intros k j Hk. destruct (T3 k j Hk) as [r1 [h1 [tb [g1 [X1 [X2 [_ X4]]]]]]].
    exists r1, (h1, Done L (Ok tb, g1)). auto.
Qed.

(** What others do does not matter to a session. *)
Lemma course_mono rs xs rs' xs' e h p js : (forall j r, nth_error rs j = Some r -> nth_error rs' j = Some r) -> kept_done xs xs' ->
  (forall j, In j js -> nth_error xs' j = nth_error xs j) -> course rs xs e h p js -> course rs' xs' e h p js.
Proof.
  intros M K S C. destruct C as [h done js tbs g t rest nows j r ph E T H1 H2 H3 H4 H5|h h' done js tbs g t rest j r y g' E T H1 H2 H3 H4|h js tbs g T].
  - eapply c_run; eauto using trail_mono. rewrite S; [exact H4|]. apply in_or_app. right. left. reflexivity.
  - eapply c_fail; eauto using trail_mono.
  - eapply c_end; eauto using trail_mono.
Qed.

(** ** All sessions *)

Lemma agreed_nil : agreed L seed ts rows [].
Proof. intros r []. Qed.

Section At.
Variables (rs : list (runner L)) (s : shared) (tags : list path) (xs : states L).
Hypothesis A : agreed L seed ts rows rs.
Hypothesis V : Inv rs s0 s tags xs.

Lemma done_generators j r h a g : nth_error rs j = Some r -> nth_error xs j = Some (h, Done L (a, g)) ->
  g = ru_generators r \/ g = snd (compute_row L (ru_trial r) seed (ru_generators r)).
Proof.
  intros H1 H2. pose proof (proj1 (A r (nth_error_In _ _ H1))) as Ht.
  destruct (at_answer L seed ts rows rs s0 A s tags xs V j r (a, g) H1) as [[tb [_ X]]|[_ [X|[[X _]|[c [tb [_ [_ X]]]]]]]].
  - apply (done_answered L seed rows rs xs _ _ _ _ H1 H2).
  - left. exact (f_equal snd X).
  - right. exact (f_equal snd X).
  - left. exact (f_equal snd X).
  - left. exact (f_equal snd X).
Qed.
Lemma trail_generators g l js tbs g' : trail rs xs g l js tbs g' ->
  exists d, (forall x, In x d -> In x l) /\ g' = after_computing L seed g d.
Proof.
  induction 1 as [g|g t l j js tb tbs r h g1 g2 H1 H2 H3 H4 H5 [d [D1 D2]]].
  - exists []. split; [intros x []|reflexivity].
  - destruct (done_generators _ _ _ _ _ H1 H4) as [E|E]; rewrite H3 in E; [|rewrite H2 in E]; subst g1.
    + exists d. split; [intros x Hx; right; exact (D1 x Hx)|exact D2].
    + exists (t :: d). split; [|exact D2]. intros x [->|Hx]; [left; reflexivity|right; exact (D1 x Hx)].
Qed.

Variable es : list (session L).
Hypothesis Step : in_step L seed ts rows es.

Lemma enter e h done js tbs g rest nows : In e es -> se_trials e = done ++ rest -> trail rs xs (se_generators e) done js tbs g ->
  exists rsx xsx, agreed L seed ts rows (rs ++ rsx) /\ Inv (rs ++ rsx) s0 s tags (xs ++ xsx) /\
    course (rs ++ rsx) (xs ++ xsx) e h (plug (evaluate_all L rest seed nows g) (rev tbs)) (js ++ seq (length rs) (length rsx)).
Proof.
  intros He E T. destruct rest as [|t rest].
  - exists [], []. rewrite !app_nil_r. split; [exact A|]. split; [exact V|]. cbn [length seq evaluate_all]. rewrite plug_ok, rev_involutive, !app_nil_r.
    rewrite app_nil_r in E. rewrite <- E in T. apply c_end. exact T.
  - destruct (Step e He) as [N [U R]]. set (r := {| ru_trial := t; ru_now := nows O; ru_generators := g |}).
    exists [r], [(h, Begin L)]. split; [|split].
    + intros r' Hr'. apply in_app_or in Hr'. destruct Hr' as [Hr'|[<-|[]]]; [exact (A r' Hr')|]. cbn [ru_trial ru_generators].
      assert (It : In t (se_trials e)) by (rewrite E; apply in_or_app; right; left; reflexivity). split; [apply (R t It)|].
      destruct (trail_generators _ _ _ _ _ T) as [d [D1 ->]]. cbn [r ru_trial ru_generators]. rewrite U; [apply (R t It)|exact It|].
      intros x Hx. split; [rewrite E; apply in_or_app; left; exact (D1 x Hx)|]. intros ->. rewrite E in N. apply NoDup_remove_2 in N. apply N.
      apply in_or_app. left. exact (D1 t Hx).
    + apply Inv_append; [exact (iv_length _ _ _ _ _ _ _ _ _ V)|exact V].
    + rewrite evaluate_all_cons. change (evaluate L t seed (nows O) g) with (evaluate L (ru_trial r) seed (ru_now r) (ru_generators r)).
      rewrite (evaluate_begin L seed r). change (begin L seed r) with (prog_of L seed rows r (Begin L)). cbn [length seq].
      assert (M : forall j r0, nth_error rs j = Some r0 -> nth_error (rs ++ [r]) j = Some r0) by (intros j r0; apply app_before).
      apply (c_run (rs ++ [r]) (xs ++ [(h, Begin L)]) e h done js tbs g t rest nows (length rs) r (Begin L)); auto.
      * eapply trail_mono; [exact M| |exact T]. intros j h0 a. apply app_before.
      * rewrite nth_error_app2, Nat.sub_diag by lia. reflexivity.
      * rewrite <- (iv_length _ _ _ _ _ _ _ _ _ V), nth_error_app2, Nat.sub_diag by lia. reflexivity.
      * intros a X. discriminate X.
Qed.
End At.

Record going (es : list (session L)) (s : shared) (ps : list (process report)) (rs : list (runner L)) (xs : states L)
    (tags : list path) (jss : list (list nat)) : Prop := {
  go_agreed : agreed L seed ts rows rs;
  go_inv : Inv rs s0 s tags xs;
  go_ps : length ps = length es;
  go_jss : length jss = length es;
  go_course : forall i e h p js, nth_error es i = Some e -> nth_error ps i = Some (h, p) -> nth_error jss i = Some js -> course rs xs e h p js;
  go_owned : forall j, j < length rs -> exists i js, nth_error jss i = Some js /\ In j js;
  go_apart : forall i i' js js' j, nth_error jss i = Some js -> nth_error jss i' = Some js' -> In j js -> In j js' -> i = i' }.

Lemma same_length_nth {X Y} (l : list X) (l' : list Y) i x : length l' = length l -> nth_error l i = Some x -> exists y, nth_error l' i = Some y.
Proof. intros E H. destruct (nth_error l' i) as [y|] eqn:Y0; [eauto|]. apply nth_error_None in Y0. assert (i < length l) by (apply nth_error_Some; congruence). lia. Qed.
Lemma nth_set {X} (l : list X) i x k : k <> i -> nth_error (set_nth i x l) k = nth_error l k.
Proof. intros N. apply nth_error_set_other. auto. Qed.
Lemma nth_set_same {X} (l : list X) i x y : nth_error l i = Some y -> nth_error (set_nth i x l) i = Some x.
Proof. intros H. apply nth_error_set_same. apply nth_error_Some. congruence. Qed.

Lemma assemble es s ps rs xs tags jss i e h p js xs1 rsx xsx s' tags' h' p' :
  going es s ps rs xs tags jss -> nth_error es i = Some e -> nth_error ps i = Some (h, p) -> nth_error jss i = Some js ->
  length xs1 = length xs -> kept_done xs xs1 -> (forall j, ~ In j js -> nth_error xs1 j = nth_error xs j) ->
  agreed L seed ts rows (rs ++ rsx) -> Inv (rs ++ rsx) s0 s' tags' (xs1 ++ xsx) ->
  course (rs ++ rsx) (xs1 ++ xsx) e h' p' (js ++ seq (length rs) (length rsx)) ->
  going es s' (set_nth i (h', p') ps) (rs ++ rsx) (xs1 ++ xsx) tags' (set_nth i (js ++ seq (length rs) (length rsx)) jss).
Proof.
  intros [G1 G2 G3 G4 G5 G6 G7] He Hp Hj Le K S A V C.
  pose proof (iv_length _ _ _ _ _ _ _ _ _ G2) as Lx.
  assert (Small : forall k jk j, nth_error jss k = Some jk -> In j jk -> j < length rs).
  { intros k jk j Hk I. destruct (same_length_nth jss es k jk (eq_sym G4) Hk) as [ek Hek]. destruct (same_length_nth es ps k ek G3 Hek) as [[hk pk] Hpk].
    destruct (course_at _ _ _ _ _ _ (G5 _ _ _ _ _ Hek Hpk Hk)) as [_ B]. apply In_nth_error in I. destruct I as [m Hm].
    destruct (B m j Hm) as [r [x [X _]]]. apply nth_error_Some. congruence. }
  assert (M : forall j r, nth_error rs j = Some r -> nth_error (rs ++ rsx) j = Some r).
  { intros j r H. rewrite nth_error_app1; [exact H|]. apply nth_error_Some. congruence. }
  constructor.
  - exact A.
  - exact V.
  - rewrite set_length. exact G3.
  - rewrite set_length. exact G4.
  - intros k ek hk pk jk H1 H2 H3. destruct (Nat.eq_dec k i) as [->|N].
    + rewrite (nth_set_same _ _ _ _ Hp) in H2. rewrite (nth_set_same _ _ _ _ Hj) in H3. injection H2 as <- <-. injection H3 as <-.
      assert (ek = e) by congruence. subst ek. exact C.
    + rewrite nth_set in H2 by exact N. rewrite nth_set in H3 by exact N.
      apply (course_mono rs xs); [exact M| | |exact (G5 _ _ _ _ _ H1 H2 H3)].
      * intros j h0 a X. specialize (K j h0 a X). rewrite nth_error_app1; [exact K|]. apply nth_error_Some. congruence.
      * intros j I. pose proof (Small _ _ _ H3 I) as B. rewrite nth_error_app1 by lia. apply S. intros I'. apply N. exact (G7 k i jk js j H3 Hj I I').
  - intros j B. rewrite app_length in B. destruct (lt_dec j (length rs)) as [B'|B'].
    + destruct (G6 j B') as [k [jk [H1 H2]]]. destruct (Nat.eq_dec k i) as [->|N].
      * exists i, (js ++ seq (length rs) (length rsx)). split; [apply (nth_set_same _ _ _ _ Hj)|]. apply in_or_app. left. congruence.
      * exists k, jk. split; [rewrite nth_set by exact N; exact H1|exact H2].
    + exists i, (js ++ seq (length rs) (length rsx)). split; [apply (nth_set_same _ _ _ _ Hj)|]. apply in_or_app. right. apply in_seq. lia.
  - assert (W : forall k jk j, nth_error (set_nth i (js ++ seq (length rs) (length rsx)) jss) k = Some jk -> In j jk ->
      (exists jk0, nth_error jss k = Some jk0 /\ In j jk0) \/ (k = i /\ length rs <= j)).
    { intros k jk j H I. destruct (Nat.eq_dec k i) as [->|N].
      - rewrite (nth_set_same _ _ _ _ Hj) in H. injection H as <-. apply in_app_or in I. destruct I as [I|I]; [left; eauto|right]. apply in_seq in I. split; [reflexivity|lia].
      - rewrite nth_set in H by exact N. left. eauto. }
    intros k k' jk jk' j H1 H2 I1 I2. destruct (W _ _ _ H1 I1) as [[a [A1 A2]]|[A1 A2]], (W _ _ _ H2 I2) as [[b [B1 B2]]|[B1 B2]].
    + exact (G7 _ _ _ _ _ A1 B1 A2 B2).
    + pose proof (Small _ _ _ A1 A2). lia.
    + pose proof (Small _ _ _ B1 B2). lia.
    + congruence.
Qed.

Section Run.
Variable es : list (session L).
Hypothesis Step : in_step L seed ts rows es.

Lemma going_step s ps rs xs tags jss i h p s' h' p' : going es s ps rs xs tags jss -> nth_error ps i = Some (h, p) ->
  shared_step s (h, p) = (s', (h', p')) -> exists rs' xs' tags' jss', going es s' (set_nth i (h', p') ps) rs' xs' tags' jss'.
Proof.
  intros G Hp E. destruct (same_length_nth ps es i _ (eq_sym (go_ps _ _ _ _ _ _ _ G)) Hp) as [e He].
  destruct (same_length_nth es jss i e (go_jss _ _ _ _ _ _ _ G) He) as [js Hj].
  pose proof (go_course _ _ _ _ _ _ _ G _ _ _ _ _ He Hp Hj) as C. pose proof (go_inv _ _ _ _ _ _ _ G) as V. pose proof (go_agreed _ _ _ _ _ _ _ G) as A.
  inversion C as [h0 done js0 tbs g t rest nows j r ph Et T H1 H2 H3 H4 H5 Eh Ep Ejs|h0 hx done js0 tbs g t rest j r y g' Et T H1 H2 H3 H4 Eh Ep Ejs|h0 js0 tbs g T Eh Ep Ejs]; subst h0.
  - destruct (step L seed ts rows rs s0 Sep A s tags xs j r h ph V H1 H4) as [s1 [h1 [ph1 [tags1 [S1 V1]]]]].
    assert (NR : ~ is_ret (prog_of L seed rows r ph)).
    { intros [a X]. exact (H5 a (ended_done L seed ts rows rs s0 s tags xs V j r h ph a H1 H4 X)). }
    destruct (step_pbind _ (go_on rest nows) _ _ _ _ _ NR S1) as [NR' S2]. pose proof (step_plug (rev tbs) _ _ _ _ _ _ NR' S2) as S3.
    rewrite Ep in S3. rewrite S3 in E. injection E as <- <- <-.
    assert (K : kept_done xs (set_nth j (h1, ph1) xs)).
    { intros j' h0 a X. destruct (Nat.eq_dec j' j) as [->|N]; [rewrite H4 in X; injection X as -> X; contradiction (H5 a X)|]. rewrite nth_set by exact N. exact X. }
    assert (Oth : forall j', ~ In j' (js0 ++ [j]) -> nth_error (set_nth j (h1, ph1) xs) j' = nth_error xs j').
    { intros j' X. apply nth_set. intros ->. apply X. apply in_or_app. right. left. reflexivity. }
    assert (T1 : trail rs (set_nth j (h1, ph1) xs) (se_generators e) done js0 tbs g) by (eapply trail_mono; [|exact K|exact T]; auto).
    pose proof (nth_set_same xs j (h1, ph1) _ H4) as X1.
    assert (P : exists rsx xsx, agreed L seed ts rows (rs ++ rsx) /\ Inv (rs ++ rsx) s0 s1 tags1 (set_nth j (h1, ph1) xs ++ xsx) /\
      course (rs ++ rsx) (set_nth j (h1, ph1) xs ++ xsx) e h1 (plug (pbind (prog_of L seed rows r ph1) (go_on rest nows)) (rev tbs)) ((js0 ++ [j]) ++ seq (length rs) (length rsx))).
    { assert (Stay : course rs (set_nth j (h1, ph1) xs) e h1 (plug (pbind (prog_of L seed rows r ph1) (go_on rest nows)) (rev tbs)) (js0 ++ [j]) ->
        exists rsx xsx, agreed L seed ts rows (rs ++ rsx) /\ Inv (rs ++ rsx) s0 s1 tags1 (set_nth j (h1, ph1) xs ++ xsx) /\
        course (rs ++ rsx) (set_nth j (h1, ph1) xs ++ xsx) e h1 (plug (pbind (prog_of L seed rows r ph1) (go_on rest nows)) (rev tbs)) ((js0 ++ [j]) ++ seq (length rs) (length rsx))).
      { intros X. exists [], []. cbn [length seq]. rewrite !app_nil_r. auto. }
      destruct ph1 as [| | |x|x|[[tb|y] g1]].
      - apply Stay. eapply c_run; eauto. intros a Y. discriminate Y.
      - apply Stay. eapply c_run; eauto. intros a Y. discriminate Y.
      - apply Stay. eapply c_run; eauto. intros a Y. discriminate Y.
      - apply Stay. eapply c_run; eauto. intros a Y. discriminate Y.
      - apply Stay. eapply c_run; eauto. intros a Y. discriminate Y.
      - pose proof (trail_snoc _ _ _ _ _ _ _ T1 t j r h1 tb g1 H1 H2 H3 X1) as T2.
        destruct (enter rs s1 tags1 _ A V1 es Step e h1 (done ++ [t]) (js0 ++ [j]) (tbs ++ [tb]) g1 rest (fun n => nows (S n)) (nth_error_In _ _ He)) as [rsx [xsx [P1 [P2 P3]]]].
        + rewrite Et, <- app_assoc. reflexivity.
        + exact T2.
        + exists rsx, xsx. split; [exact P1|]. split; [exact P2|]. rewrite rev_app_distr in P3. exact P3.
      - apply Stay. cbn [prog_of pbind]. unfold go_on. cbn [fst snd]. rewrite plug_err. eapply c_fail; eauto. }
    destruct P as [rsx [xsx [P1 [P2 P3]]]]. rewrite Ejs in P3, Oth.
    exists (rs ++ rsx), (set_nth j (h1, ph1) xs ++ xsx), tags1, (set_nth i (js ++ seq (length rs) (length rsx)) jss).
    eapply (assemble es s ps rs xs tags jss i e h p js); eauto. apply set_length.
  - subst p. unfold shared_step in E. cbn [snd] in E. injection E as <- <- <-. rewrite set_same by exact Hp. eauto.
  - subst p. unfold shared_step in E. cbn [snd] in E. injection E as <- <- <-. rewrite set_same by exact Hp. eauto.
Qed.

Lemma going_run schedule : forall s ps rs xs tags jss s' ps', going es s ps rs xs tags jss -> shared_run schedule s ps = (s', ps') ->
  exists rs' xs' tags' jss', going es s' ps' rs' xs' tags' jss'.
Proof.
  induction schedule as [|i l IH]; intros s ps rs xs tags jss s' ps' G E; cbn [shared_run] in E.
  - injection E as <- <-. eauto.
  - destruct (nth_error ps i) as [[h p]|] eqn:Hp; [|exact (IH _ _ _ _ _ _ _ _ G E)].
    destruct (shared_step s (h, p)) as [s1 [h1 p1]] eqn:Es. destruct (going_step _ _ _ _ _ _ _ _ _ _ _ _ G Hp Es) as [rs1 [xs1 [tags1 [jss1 G1]]]].
    exact (IH _ _ _ _ _ _ _ _ G1 E).
Qed.
End Run.

Lemma in_step_less es e : in_step L seed ts rows (es ++ [e]) -> in_step L seed ts rows es.
Proof. intros H x Hx. apply H. apply in_or_app. left. exact Hx. Qed.

Lemma going_start es : ready L ts s0 -> in_step L seed ts rows es ->
  exists rs xs tags jss, going es s0 (session_starts seed es) rs xs tags jss.
Proof.
  intros R. induction es as [|e es IH] using rev_ind; intros Step.
  - destruct (Inv_nobody R) as [tags V]. exists [], [], tags, []. constructor; auto.
    + exact agreed_nil.
    + intros i e h p js H. destruct i; discriminate H.
    + cbn [length]. lia.
    + intros i i' js js' j H. destruct i; discriminate H.
  - destruct (IH (in_step_less _ _ Step)) as [rs [xs [tags [jss [G1 G2 G3 G4 G5 G6 G7]]]]].
    destruct (enter rs s0 tags xs G1 G2 (es ++ [e]) Step e None [] [] [] (se_generators e) (se_trials e) (se_nows e)) as [rsx [xsx [A [V C]]]].
    { apply in_or_app. right. left. reflexivity. }
    { reflexivity. }
    { constructor. }
    cbn [rev plug app] in C. set (js := seq (length rs) (length rsx)) in *.
    pose proof (iv_length _ _ _ _ _ _ _ _ _ G2) as Lx.
    assert (Small : forall k jk j, nth_error jss k = Some jk -> In j jk -> j < length rs).
    { intros k jk j Hk I. destruct (same_length_nth jss es k jk (eq_sym G4) Hk) as [ek Hek]. destruct (same_length_nth es (session_starts seed es) k ek G3 Hek) as [[hk pk] Hpk].
      destruct (course_at _ _ _ _ _ _ (G5 _ _ _ _ _ Hek Hpk Hk)) as [_ B]. apply In_nth_error in I. destruct I as [m Hm].
      destruct (B m j Hm) as [r [x [X _]]]. apply nth_error_Some. congruence. }
    assert (Last : forall X (l : list X) x k y, nth_error (l ++ [x]) k = Some y -> (k < length l /\ nth_error l k = Some y) \/ (k = length l /\ y = x)).
    { intros X l x k y H. destruct (lt_dec k (length l)) as [B|B]; [left; rewrite nth_error_app1 in H by exact B; auto|right].
      rewrite nth_error_app2 in H by lia. destruct (k - length l) as [|m] eqn:Em; [|destruct m; discriminate H]. cbn [nth_error] in H. split; [lia|congruence]. }
    exists (rs ++ rsx), (xs ++ xsx), tags, (jss ++ [js]). unfold session_starts. rewrite map_app. cbn [map]. constructor.
    + exact A.
    + exact V.
    + rewrite !app_length, map_length. reflexivity.
    + rewrite !app_length. cbn [length]. lia.
    + intros k ek hk pk jk H1 H2 H3. destruct (Last _ _ _ _ _ H1) as [[B1 H1']|[B1 ->]], (Last _ _ _ _ _ H2) as [[B2 H2']|[B2 X2]],
        (Last _ _ _ _ _ H3) as [[B3 H3']|[B3 ->]]; try rewrite map_length in B2; try lia.
      * apply (course_mono rs xs).
        -- intros j r H. rewrite nth_error_app1; [exact H|]. apply nth_error_Some. congruence.
        -- intros j h a H. rewrite nth_error_app1; [exact H|]. apply nth_error_Some. congruence.
        -- intros j I. apply nth_error_app1. rewrite Lx. exact (Small _ _ _ H3' I).
        -- exact (G5 _ _ _ _ _ H1' H2' H3').
      * injection X2 as -> ->. exact C.
    + intros j B. rewrite app_length in B. destruct (lt_dec j (length rs)) as [B'|B'].
      * destruct (G6 j B') as [k [jk [H1 H2]]]. exists k, jk. split; [|exact H2]. apply app_before. exact H1.
      * exists (length jss), js. split; [rewrite nth_error_app2, Nat.sub_diag by lia; reflexivity|]. apply in_seq. lia.
    + intros k k' jk jk' j H1 H2 I1 I2. destruct (Last _ _ _ _ _ H1) as [[B1 H1']|[B1 ->]], (Last _ _ _ _ _ H2) as [[B2 H2']|[B2 ->]].
      * exact (G7 _ _ _ _ _ H1' H2' I1 I2).
      * pose proof (Small _ _ _ H1' I1). apply in_seq in I2. lia.
      * pose proof (Small _ _ _ H2' I2). apply in_seq in I1. lia.
      * congruence.
Qed.

(** ** What follows *)

Section Going.
Variables (es : list (session L)) (s : shared) (ps : list (process report)) (rs : list (runner L)) (xs : states L)
  (tags : list path) (jss : list (list nat)).
Hypothesis Step : in_step L seed ts rows es.
Hypothesis G : going es s ps rs xs tags jss.
Let A : agreed L seed ts rows rs := go_agreed _ _ _ _ _ _ _ G.
Let V : Inv rs s0 s tags xs := go_inv _ _ _ _ _ _ _ G.

(** The session of a runner. *)
Lemma session_of j r : nth_error rs j = Some r -> exists i js, session_with es (ru_trial r) i /\ nth_error jss i = Some js /\ In j js.
Proof.
  intros H. destruct (go_owned _ _ _ _ _ _ _ G j) as [i [js [H1 H2]]]; [apply nth_error_Some; congruence|]. exists i, js. split; [|auto].
  destruct (same_length_nth jss es i js (eq_sym (go_jss _ _ _ _ _ _ _ G)) H1) as [e He]. destruct (same_length_nth es ps i e (go_ps _ _ _ _ _ _ _ G) He) as [[h p] Hp].
  destruct (course_at _ _ _ _ _ _ (go_course _ _ _ _ _ _ _ G _ _ _ _ _ He Hp H1)) as [_ B]. apply In_nth_error in H2. destruct H2 as [k Hk].
  destruct (B k j Hk) as [r' [x [X1 [_ X2]]]]. exists e. split; [exact He|]. assert (r' = r) by congruence. subst r'. eapply nth_error_In. exact X2.
Qed.
Lemma sessions_differ j j' r r' i i' js js' : nth_error rs j = Some r -> nth_error rs j' = Some r' -> ru_trial r = ru_trial r' -> j <> j' ->
  nth_error jss i = Some js -> In j js -> nth_error jss i' = Some js' -> In j' js' -> i <> i'.
Proof.
  intros H1 H2 E N J1 I1 J2 I2 <-. assert (js' = js) by congruence. subst js'.
  destruct (same_length_nth jss es i js (eq_sym (go_jss _ _ _ _ _ _ _ G)) J1) as [e He]. destruct (same_length_nth es ps i e (go_ps _ _ _ _ _ _ _ G) He) as [[h p] Hp].
  destruct (course_at _ _ _ _ _ _ (go_course _ _ _ _ _ _ _ G _ _ _ _ _ He Hp J1)) as [_ B].
  apply In_nth_error in I1. destruct I1 as [k Hk]. apply In_nth_error in I2. destruct I2 as [k' Hk'].
  destruct (B k j Hk) as [a [x [X1 [_ X2]]]]. destruct (B k' j' Hk') as [b [y [Y1 [_ Y2]]]].
  assert (a = r) by congruence. assert (b = r') by congruence. subst a b. rewrite <- E in Y2.
  destruct (Step e (nth_error_In _ _ He)) as [Nd _]. rewrite NoDup_nth_error in Nd.
  assert (k = k') by (apply Nd; [apply nth_error_Some; congruence|congruence]). subst k'. congruence.
Qed.
Lemma two_of t : two_runners rs t -> two_sessions es t.
Proof.
  intros [j [k [[r [H1 H2]] [[r' [H3 H4]] N]]]]. destruct (session_of _ _ H1) as [i [js [S1 [J1 I1]]]]. destruct (session_of _ _ H3) as [i' [js' [S2 [J2 I2]]]].
  rewrite H2 in S1. rewrite H4 in S2. exists i, i'. split; [exact S1|]. split; [exact S2|]. eapply sessions_differ; [exact H1|exact H3| |exact N|eassumption..]. congruence.
Qed.
Lemma three_of t : three_runners rs t -> three_sessions es t.
Proof.
  intros [j [k [l [[r [H1 H2]] [[r' [H3 H4]] [[r'' [H5 H6]] [N1 [N2 N3]]]]]]]].
  destruct (session_of _ _ H1) as [i [js [S1 [J1 I1]]]]. destruct (session_of _ _ H3) as [i' [js' [S2 [J2 I2]]]]. destruct (session_of _ _ H5) as [i'' [js'' [S3 [J3 I3]]]].
  rewrite H2 in S1. rewrite H4 in S2. rewrite H6 in S3. exists i, i', i''. split; [exact S1|]. split; [exact S2|]. split; [exact S3|].
  split; [|split]; (eapply sessions_differ; [ | | | |eassumption..]); try eassumption; congruence.
Qed.

Lemma done_table j r h a g : nth_error rs j = Some r -> nth_error xs j = Some (h, Done L (a, g)) ->
  (exists tb, a = Ok tb /\ possible_table L rows s0 (ru_trial r) tb) \/
  (a = Err FileNotFoundError /\ unreadable L (ru_trial r) s0 /\ two_sessions es (ru_trial r) /\
   (seen s0 (out (ru_trial r)) = None -> three_sessions es (ru_trial r))).
Proof.
  intros H1 H2.
  destruct (at_answer L seed ts rows rs s0 A s tags xs V j r (a, g) H1) as [[tb [Rd X]]|[U [X|[[X [Y Z]]|[c [tb [Pa [Pr X]]]]]]]].
  - apply (done_answered L seed rows rs xs _ _ _ _ H1 H2).
  - left. exists tb. split; [exact (f_equal fst X)|]. left. left. exact Rd.
  - left. eexists. split; [exact (f_equal fst X)|]. left. right. split; [exact U|reflexivity].
  - right. split; [exact (f_equal fst X)|]. split; [exact U|]. split; [apply two_of; exact Y|]. intros N. apply three_of. exact (Z N).
  - left. exists tb. split; [exact (f_equal fst X)|]. right. split; [exact U|]. exists c. auto.
Qed.
Lemma trail_tables g l js tbs g' : trail rs xs g l js tbs g' -> Forall2 (possible_table L rows s0) l tbs.
Proof.
  induction 1 as [g|g t l j js tb tbs r h g1 g2 H1 H2 H3 H4 H5 IH]; constructor; [|exact IH].
  destruct (done_table _ _ _ _ _ H1 H4) as [[tb' [E P]]|[E _]]; [|discriminate E]. injection E as <-. rewrite <- H2. exact P.
Qed.

Lemma going_answer i e a g : nth_error es i = Some e -> answered ps i (a, g) ->
  (exists tbs, a = Ok tbs /\ Forall2 (possible_table L rows s0) (se_trials e) tbs) \/
  (a = Err FileNotFoundError /\ exists t, In t (se_trials e) /\ unreadable L t s0 /\ two_sessions es t /\
   (seen s0 (out t) = None -> three_sessions es t)).
Proof.
  intros He [h Hp]. destruct (same_length_nth es jss i e (go_jss _ _ _ _ _ _ _ G) He) as [js Hj].
  pose proof (go_course _ _ _ _ _ _ _ G _ _ _ _ _ He Hp Hj) as C.
  inversion C as [h0 done js0 tbs g0 t rest nows j r ph Et T H1 H2 H3 H4 H5 Eh Ep Ejs|h0 hx done js0 tbs g0 t rest j r y g' Et T H1 H2 H3 H4 Eh Ep Ejs|h0 js0 tbs g0 T Eh Ep Ejs]; subst h0.
  - exfalso. assert (NR : ~ is_ret (prog_of L seed rows r ph)).
    { intros [x X]. exact (H5 x (ended_done L seed ts rows rs s0 s tags xs V j r h ph x H1 H4 X)). }
    exact (plug_going _ _ _ (pbind_going _ _ NR) Ep).
  - right. destruct (done_table _ _ _ _ _ H1 H4) as [[tb [E _]]|[E [U [T2 T3]]]]; [discriminate E|]. split; [congruence|].
    exists t. rewrite H2 in *. split; [rewrite Et; apply in_or_app; right; left; reflexivity|]. auto.
  - left. exists tbs. split; [reflexivity|]. eapply trail_tables. exact T.
Qed.

Lemma going_files t : In t ts ->
  (seen s (out t) = seen s0 (out t) /\ seen s (pend t) = seen s0 (pend t)) \/
  (unreadable L t s0 /\ (exists i, session_with es t i) /\
   (seen s (out t) = None \/ exists c, seen s (out t) = Some (File c) /\ patchy c (lab_print L [rows t]))).
Proof.
  intros Ht. destruct (at_files L seed ts rows rs s0 Sep s tags xs V t Ht) as [H|[U [[r [Hr Et]] F]]]; [left; exact H|right].
  split; [exact U|]. split; [|exact F]. apply In_nth_error in Hr. destruct Hr as [j Hj]. destruct (session_of _ _ Hj) as [i [_ [S _]]]. exists i. rewrite <- Et. exact S.
Qed.

(** When all have ended, those that answered with tables have evaluated all their trials. *)
Lemma going_end i e t tbs g : all_ended ps -> nth_error es i = Some e -> answered ps i (Ok tbs, g) -> In t (se_trials e) -> unreadable L t s0 ->
  seen s (out t) = Some (File (lab_print L [rows t])) /\ seen s (pend t) = None.
Proof.
  intros All He [h Hp] It U. destruct (same_length_nth es jss i e (go_jss _ _ _ _ _ _ _ G) He) as [js Hj].
  assert (D : all_ended (concrete L seed rows rs xs)).
  { intros j x Hx. apply concrete_nth in Hx. destruct Hx as [r [h1 [ph [H1 [H2 ->]]]]]. cbn [snd].
    destruct (session_of _ _ H1) as [i1 [js1 [[e1 [S1 S2]] [J1 I1]]]]. destruct (same_length_nth es ps i1 e1 (go_ps _ _ _ _ _ _ _ G) S1) as [[h2 p2] Hp2].
    destruct (All i1 _ Hp2) as [a Ea]. cbn [snd] in Ea. subst p2. pose proof (go_course _ _ _ _ _ _ _ G _ _ _ _ _ S1 Hp2 J1) as C1.
    assert (TD : forall g0 l js0 tbs0 g1, trail rs xs g0 l js0 tbs0 g1 -> In j js0 -> exists a0, prog_of L seed rows r ph = Ret a0).
    { intros g0 l js0 tbs0 g1 T I. apply In_nth_error in I. destruct I as [k Hk]. destruct (trail_at _ _ _ _ _ _ _ T) as [_ [_ T3]].
      destruct (T3 k j Hk) as [r1 [hh [tb [gg [X1 [_ [_ X4]]]]]]]. assert (ph = Done L (Ok tb, gg)) by congruence. subst ph. eexists. reflexivity. }
    inversion C1 as [h0 done js0 tbs1 g0 t0 rest nows j0 r0 ph0 Et T K1 K2 K3 K4 K5 Eh Ep Ejs|h0 hx done js0 tbs1 g0 t0 rest j0 r0 y g' Et T K1 K2 K3 K4 Eh Ep Ejs|h0 js0 tbs1 g0 T Eh Ep Ejs]; subst h0.
    - exfalso. assert (NR : ~ is_ret (prog_of L seed rows r0 ph0)).
      { intros [x X]. exact (K5 x (ended_done L seed ts rows rs s0 s tags xs V j0 r0 h2 ph0 x K1 K4 X)). }
      exact (plug_going _ _ _ (pbind_going _ _ NR) Ep).
    - rewrite <- Ejs in I1. apply in_app_or in I1. destruct I1 as [I1|[<-|[]]]; [exact (TD _ _ _ _ _ T I1)|].
      assert (ph = Done L (Err y, g')) by congruence. subst ph. eexists. reflexivity.
    - exact (TD _ _ _ _ _ T I1). }
  pose proof (go_course _ _ _ _ _ _ _ G _ _ _ _ _ He Hp Hj) as C.
  destruct (at_end L seed ts rows rs s0 Sep s tags xs V t) as [E1 [E2 _]]; auto.
  - destruct (Step e (nth_error_In _ _ He)) as [_ [_ R]]. apply (R t It).
  - apply In_nth_error in It. destruct It as [k Hk].
    assert (T : exists g', trail rs xs (se_generators e) (se_trials e) js tbs g').
    { inversion C as [h0 done js0 tbs0 g0 t0 rest nows j0 r0 ph0 Et T K1 K2 K3 K4 K5 Eh Ep Ejs| |h0 js0 tbs1 g0 T Eh Ep Ejs]; subst.
      - exfalso. assert (NR : ~ is_ret (prog_of L seed rows r0 ph0)).
        { intros [x X]. exact (K5 x (ended_done L seed ts rows rs s0 s tags xs V j0 r0 h ph0 x K1 K4 X)). }
        exact (plug_going _ _ _ (pbind_going _ _ NR) Ep).
      - eauto. }
    destruct T as [g' T]. destruct (trail_at _ _ _ _ _ _ _ T) as [T1 [_ T3]].
    destruct (nth_error js k) as [j|] eqn:Ej; [|apply nth_error_None in Ej; assert (k < length (se_trials e)) by (apply nth_error_Some; congruence); lia].
    destruct (T3 k j Ej) as [r [hh [tb [gg [X1 [X2 _]]]]]]. exists r. split; [eapply nth_error_In; exact X1|congruence].
Qed.
End Going.
End Sessions.
