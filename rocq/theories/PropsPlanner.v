(** C60: a planner session. *)
From Coq Require Import Lqa.
From Verif Require Import Prelude ModelReachPoint ModelData DataLemmas ReachPointLemmas
  ModelPrivacy SpecPrivacy PrivacyLemmas ModelHalo SpecHalo HaloLemmas ModelStrategy PropsHalo
  ModelPlanner SpecPlanner.
Notation length := List.length.
Open Scope Z_scope.

Lemma session_app {X} {S : planner_strategy X} cs cs' : forall (pl : planner S) w,
  session pl w (cs ++ cs') =
  let '(l, pl', w') := session pl w cs in
  let '(l', pl'', w'') := session pl' w' cs' in (l ++ l', pl'', w'').
Proof.
  induction cs as [|c cs IH]; intros pl w; cbn [session app].
  - destruct (session pl w cs') as [[l' pl''] w'']. reflexivity.
  - destruct (planner_step pl w c) as [[a pl1] w1]. rewrite IH.
    destruct (session pl1 w1 cs) as [[l pl2] w2]. destruct (session pl2 w2 cs') as [[l' pl3] w3]. reflexivity.
Qed.
Lemma step_halo {X} {S : planner_strategy X} c : forall (pl : planner S) w a pl' w',
  planner_step pl w c = (a, pl', w') -> pl_halo pl' = pl_halo pl.
Proof.
  intros pl w a pl' w' H. destruct c; cbn in H; [|injection H as _ <- _; reflexivity..].
  unfold fit_model in H. destruct (ps_fit S (pl_halo pl) b w) as [[m|e] w1]; injection H as _ <- _; reflexivity.
Qed.
Lemma session_halo {X} {S : planner_strategy X} cs : forall (pl : planner S) w l pl' w',
  session pl w cs = (l, pl', w') -> pl_halo pl' = pl_halo pl /\ length l = length cs.
Proof.
  induction cs as [|c cs IH]; intros pl w l pl' w' H; cbn [session] in H.
  - injection H as <- <- _. split; reflexivity.
  - destruct (planner_step pl w c) as [[a pl1] w1] eqn:E1. destruct (session pl1 w1 cs) as [[l2 pl2] w2] eqn:E2.
    injection H as <- <- _. destruct (IH _ _ _ _ _ E2) as [I1 I2]. split; [|cbn; congruence].
    rewrite I1. exact (step_halo c pl w a pl1 w1 E1).
Qed.
Lemma session_no_fit {X} {S : planner_strategy X} cs : no_fit cs -> forall (pl : planner S) w l pl' w',
  session pl w cs = (l, pl', w') -> pl' = pl /\ w' = w.
Proof.
  induction cs as [|c cs IH]; intros N pl w l pl' w' H; cbn [session] in H.
  - injection H as _ <- <-. split; reflexivity.
  - assert (no_fit cs) as N' by (intros x Hx; apply N; right; exact Hx).
    assert (~ is_fit c) as Nc by (apply N; left; reflexivity).
    destruct c as [b|s m|s m]; [destruct Nc; exact I| |]; cbn [planner_step] in H;
      destruct (session pl w cs) as [[l2 pl2] w2] eqn:E2; injection H as _ <- <-; exact (IH N' _ _ _ _ _ E2).
Qed.

Lemma session_at {X} {S : planner_strategy X} cs i c : nth_error cs i = Some c ->
  forall (pl : planner S) w l pl' w', session pl w cs = (l, pl', w') ->
  exists l1 pl1 w1 a pl2 w2, session pl w (firstn i cs) = (l1, pl1, w1) /\
    planner_step pl1 w1 c = (a, pl2, w2) /\ nth_error l i = Some a.
Proof.
  revert i. induction cs as [|d cs IH]; intros i Hc pl w l pl' w' H; [destruct i; discriminate Hc|].
  cbn [session] in H. destruct (planner_step pl w d) as [[a pl1] w1] eqn:E1.
  destruct (session pl1 w1 cs) as [[l2 pl2] w2] eqn:E2. injection H as <- _ _.
  destruct i as [|i]; cbn [nth_error firstn] in *.
  - injection Hc as ->. exists [], pl, w, a, pl1, w1. auto.
  - destruct (IH i Hc _ _ _ _ _ E2) as [l3 [pl3 [w3 [b [pl4 [w4 [F1 [F2 F3]]]]]]]].
    exists (a :: l3), pl3, w3, b, pl4, w4. cbn [session]. rewrite E1, F1. auto.
Qed.

(** The truth does not depend on what was fitted or asked before, nor on how often. *)
Theorem C60_truth : forall X (S : planner_strategy X) h w cs l pl w' i spends m,
  session (mk_planner S h) w cs = (l, pl, w') -> nth_error cs i = Some (AskTruth spends m) ->
  nth_error l i = Some (Truth (true_reach_by_spend h spends m)).
Proof.
  intros X S h w cs l pl w' i spends m H Hc.
  destruct (session_at cs i _ Hc _ _ _ _ _ H) as [l1 [pl1 [w1 [a [pl2 [w2 [F1 [F2 F3]]]]]]]].
  cbn [planner_step] in F2. injection F2 as <- _ _. rewrite F3. unfold planner_true_reach.
  destruct (session_halo _ _ _ _ _ _ F1) as [-> _]. reflexivity.
Qed.
Print Assumptions C60_truth.

(** Before the first fit there is no model to ask. *)
Theorem C60_no_model : forall X (S : planner_strategy X) h w cs l pl w' i spends m,
  session (mk_planner S h) w cs = (l, pl, w') -> nth_error cs i = Some (AskModel spends m) ->
  no_fit (firstn i cs) -> nth_error l i = Some (Modeled (Err OtherError)).
Proof.
  intros X S h w cs l pl w' i spends m H Hc N.
  destruct (session_at cs i _ Hc _ _ _ _ _ H) as [l1 [pl1 [w1 [a [pl2 [w2 [F1 [F2 F3]]]]]]]].
  destruct (session_no_fit _ N _ _ _ _ _ F1) as [-> ->].
  cbn [planner_step] in F2. injection F2 as <- _ _. exact F3.
Qed.
Print Assumptions C60_no_model.

(** After a fit and until the next one, the model asked is the one that fit gave, if it gave
    one; the fit sees the world as all earlier calls left it. If the fit raised, the model is
    the one there was before. *)
Theorem C60_latest_model : forall X (S : planner_strategy X) h w before b between spends m l pl w' l0 pl0 w0,
  session (mk_planner S h) w before = (l0, pl0, w0) ->
  session (mk_planner S h) w (before ++ Fit b :: between ++ [AskModel spends m]) = (l, pl, w') ->
  no_fit between ->
  match ps_fit S h b w0 with
  | (Ok mo, w1) => w' = w1 /\ nth_error l (length before) = Some (Fitted (Ok tt)) /\
                   last l (Fitted (Ok tt)) = Modeled (ps_by_spend S mo spends m)
  | (Err e, w1) => w' = w1 /\ nth_error l (length before) = Some (Fitted (Err e)) /\
                   last l (Fitted (Ok tt)) =
                   last (fst (fst (session (mk_planner S h) w (before ++ between ++ [AskModel spends m])))) (Fitted (Ok tt))
  end.
Proof.
  intros X S h w before b between spends m l pl w' l0 pl0 w0 H0 H N.
  destruct (session_halo _ _ _ _ _ _ H0) as [Hh L0]. cbn [mk_planner pl_halo] in Hh.
  rewrite session_app, H0 in H. cbn [session] in H. cbn [planner_step] in H. unfold fit_model in H.
  rewrite Hh in H. destruct (ps_fit S h b w0) as [[mo|e] w1].
  - set (pl1 := {| pl_halo := h; pl_model := Some mo |}) in H. rewrite session_app in H.
    destruct (session pl1 w1 between) as [[l2 pl2] w2] eqn:E2.
    destruct (session_no_fit _ N _ _ _ _ _ E2) as [-> ->].
    cbn [session planner_step] in H. injection H as <- <- <-. split; [reflexivity|].
    rewrite <- L0, nth_error_app2, Nat.sub_diag by lia. split; [reflexivity|].
    rewrite app_comm_cons, app_assoc, last_last. reflexivity.
  - rewrite session_app in H. destruct (session pl0 w1 between) as [[l2 pl2] w2] eqn:E2.
    destruct (session_no_fit _ N _ _ _ _ _ E2) as [-> ->].
    cbn [session planner_step] in H. injection H as <- <- <-. split; [reflexivity|].
    rewrite <- L0, nth_error_app2, Nat.sub_diag by lia. split; [reflexivity|].
    rewrite session_app, H0, session_app. destruct (session pl0 w0 between) as [[l3 pl3] w3] eqn:E3.
    destruct (session_no_fit _ N _ _ _ _ _ E3) as [-> ->]. cbn [session planner_step fst].
    rewrite app_comm_cons, !app_assoc, !last_last. reflexivity.
Qed.
Print Assumptions C60_latest_model.

(** Queries are free. If every fit stays within the budget it is given, so does a session
    within the budgets of its fits added up, whatever raises. *)
Theorem C60_session_within_budget : forall X (S : planner_strategy X) h cs w l pl w' es,
  (forall b, sensible_budget b -> stays_within (ps_fit S h b) (epsilon b) (delta b)) ->
  sensible_calls cs -> Forall valid_event es -> w_tracker w = tracker_of es ->
  session (mk_planner S h) w cs = (l, pl, w') ->
  (epsilon (privacy_consumption (w_tracker w')) <=
     epsilon (privacy_consumption (w_tracker w)) + granted epsilon cs)%Q /\
  (delta (privacy_consumption (w_tracker w')) <=
     delta (privacy_consumption (w_tracker w)) + granted delta cs)%Q.
Proof.
  intros X S h cs w l pl w' es HS Hcs He Hw H.
  assert (forall cs (pl0 : planner S) w es l pl w', pl_halo pl0 = h -> sensible_calls cs -> Forall valid_event es ->
    w_tracker w = tracker_of es -> session pl0 w cs = (l, pl, w') ->
    (epsilon (privacy_consumption (w_tracker w')) <= epsilon (privacy_consumption (w_tracker w)) + granted epsilon cs)%Q /\
    (delta (privacy_consumption (w_tracker w')) <= delta (privacy_consumption (w_tracker w)) + granted delta cs)%Q) as G.
  { clear - HS. induction cs as [|c cs IH]; intros pl0 w es l pl w' Hh Hcs He Hw H; cbn [session] in H.
    - injection H as _ _ <-. unfold granted. cbn. split; lra.
    - destruct (planner_step pl0 w c) as [[a pl1] w1] eqn:E1. destruct (session pl1 w1 cs) as [[l2 pl2] w2] eqn:E2.
      injection H as _ _ <-.
      assert (sensible_calls cs) as Hcs' by (intros b Hb; apply Hcs; right; exact Hb).
      pose proof (step_halo c pl0 w a pl1 w1 E1) as Hh1. rewrite Hh in Hh1.
      assert (granted epsilon (c :: cs) = match c with Fit b => epsilon b | _ => 0 end + granted epsilon cs)%Q as Ge
        by (destruct c; reflexivity).
      assert (granted delta (c :: cs) = match c with Fit b => delta b | _ => 0 end + granted delta cs)%Q as Gd
        by (destruct c; reflexivity).
      rewrite Ge, Gd. clear Ge Gd.
      destruct c as [b|s m|s m]; cbn [planner_step] in E1.
      + assert (sensible_budget b) as Hb by (apply Hcs; left; reflexivity).
        destruct (HS b Hb w es He Hw) as [es' [V [T K]]]. specialize (K (length es')).
        rewrite firstn_all, <- T in K.
        assert (w1 = snd (ps_fit S h b w)) as ->.
        { unfold fit_model in E1. rewrite Hh in E1. destruct (ps_fit S h b w) as [[mo|e] w3]; injection E1 as _ _ <-; reflexivity. }
        destruct (IH pl1 _ (es ++ es') _ _ _ Hh1 Hcs' ltac:(apply Forall_app; split; assumption) T E2) as [I1 I2].
        split; lra.
      + injection E1 as _ <- <-. destruct (IH pl0 w es _ _ _ Hh Hcs' He Hw E2) as [I1 I2]. split; lra.
      + injection E1 as _ <- <-. destruct (IH pl0 w es _ _ _ Hh Hcs' He Hw E2) as [I1 I2]. split; lra. }
  exact (G cs (mk_planner S h) w es l pl w' eq_refl Hcs He Hw H).
Qed.
Print Assumptions C60_session_within_budget.

(** If every fit that returns uses up its budget, a session whose fits all returned uses up all
    of it. *)
Theorem C60_session_exact : forall X (S : planner_strategy X) h cs w l pl w' es,
  (forall b, sensible_budget b -> charges (ps_fit S h b) (epsilon b) (delta b)) ->
  sensible_calls cs -> Forall valid_event es -> w_tracker w = tracker_of es ->
  session (mk_planner S h) w cs = (l, pl, w') ->
  (forall e, ~ In (Fitted (Err e)) l) ->
  (epsilon (privacy_consumption (w_tracker w')) ==
     epsilon (privacy_consumption (w_tracker w)) + granted epsilon cs)%Q /\
  (delta (privacy_consumption (w_tracker w')) ==
     delta (privacy_consumption (w_tracker w)) + granted delta cs)%Q.
Proof.
  intros X S h cs w l pl w' es HS Hcs He Hw H Hl.
  assert (forall cs (pl0 : planner S) w es l pl w', pl_halo pl0 = h -> sensible_calls cs -> Forall valid_event es ->
    w_tracker w = tracker_of es -> session pl0 w cs = (l, pl, w') -> (forall e, ~ In (Fitted (Err e)) l) ->
    (epsilon (privacy_consumption (w_tracker w')) == epsilon (privacy_consumption (w_tracker w)) + granted epsilon cs)%Q /\
    (delta (privacy_consumption (w_tracker w')) == delta (privacy_consumption (w_tracker w)) + granted delta cs)%Q) as G.
  { clear - HS. induction cs as [|c cs IH]; intros pl0 w es l pl w' Hh Hcs He Hw H Hl; cbn [session] in H.
    - injection H as _ _ <-. unfold granted. cbn. split; lra.
    - destruct (planner_step pl0 w c) as [[a pl1] w1] eqn:E1. destruct (session pl1 w1 cs) as [[l2 pl2] w2] eqn:E2.
      injection H as <- _ <-.
      assert (sensible_calls cs) as Hcs' by (intros b Hb; apply Hcs; right; exact Hb).
      assert (forall e, ~ In (Fitted (Err e)) l2) as Hl' by (intros e Hin; apply (Hl e); right; exact Hin).
      pose proof (step_halo c pl0 w a pl1 w1 E1) as Hh1. rewrite Hh in Hh1.
      assert (granted epsilon (c :: cs) = match c with Fit b => epsilon b | _ => 0 end + granted epsilon cs)%Q as Ge
        by (destruct c; reflexivity).
      assert (granted delta (c :: cs) = match c with Fit b => delta b | _ => 0 end + granted delta cs)%Q as Gd
        by (destruct c; reflexivity).
      rewrite Ge, Gd. clear Ge Gd.
      destruct c as [b|s m|s m]; cbn [planner_step] in E1.
      + assert (sensible_budget b) as Hb by (apply Hcs; left; reflexivity).
        destruct (HS b Hb w es He Hw) as [es' [V [T [_ [_ K]]]]].
        unfold fit_model in E1. rewrite Hh in E1.
        destruct (ps_fit S h b w) as [[mo|e] w3] eqn:Ef; injection E1 as <- <- <-.
        2: { exfalso. apply (Hl e). left. reflexivity. }
        cbn [fst snd] in *. destruct (K mo eq_refl) as [K1 K2].
        destruct (IH _ _ (es ++ es') _ _ _ Hh1 Hcs' ltac:(apply Forall_app; split; assumption) T E2 Hl') as [I1 I2].
        split; lra.
      + injection E1 as _ <- <-. destruct (IH pl0 w es _ _ _ Hh Hcs' He Hw E2 Hl') as [I1 I2]. split; lra.
      + injection E1 as _ <- <-. destruct (IH pl0 w es _ _ _ Hh Hcs' He Hw E2 Hl') as [I1 I2]. split; lra. }
  exact (G cs (mk_planner S h) w es l pl w' eq_refl Hcs He Hw H Hl).
Qed.
Print Assumptions C60_session_exact.

(** The two strategies of the framework, with any models and any way to ask them. *)
Definition m3_planner X (S : modelers) (gt : bool) P (ask : curve S + surface S -> list Q -> Z -> result P)
  : planner_strategy X :=
  {| ps_model := curve S + surface S; ps_point := P; ps_fit := m3_fit S gt; ps_by_spend := ask |}.
Definition single_planner X (S : modelers) P (ask : curve S -> list Q -> Z -> result P)
  : planner_strategy X :=
  {| ps_model := curve S; ps_point := P; ps_fit := single_publisher_fit S; ps_by_spend := ask |}.

Theorem C60_m3_session : forall X S gt P ask h cs w l pl w' es,
  honest_estimator X -> sensible_calls cs -> Forall valid_event es -> w_tracker w = tracker_of es ->
  session (mk_planner (m3_planner X S gt P ask) h) w cs = (l, pl, w') ->
  (epsilon (privacy_consumption (w_tracker w')) <=
     epsilon (privacy_consumption (w_tracker w)) + granted epsilon cs)%Q /\
  (delta (privacy_consumption (w_tracker w')) <=
     delta (privacy_consumption (w_tracker w)) + granted delta cs)%Q /\
  ((2 < h_publisher_count h)%nat -> (forall e, ~ In (Fitted (Err e)) l) ->
   (epsilon (privacy_consumption (w_tracker w')) ==
      epsilon (privacy_consumption (w_tracker w)) + granted epsilon cs)%Q).
Proof.
  intros X S gt P ask h cs w l pl w' es HX Hcs He Hw H.
  destruct (C60_session_within_budget X _ h cs w l pl w' es
    (fun b Hb => C23_m3_within_budget X S gt h b HX Hb) Hcs He Hw H) as [G1 G2].
  split; [exact G1|]. split; [exact G2|]. intros Hp Hl.
  exact (proj1 (C60_session_exact X _ h cs w l pl w' es
    (fun b Hb => C23_m3_exact X S gt h b HX Hb Hp) Hcs He Hw H Hl)).
Qed.
Print Assumptions C60_m3_session.

Theorem C60_single_publisher_session : forall X S P ask h cs w l pl w' es,
  honest_estimator X -> sensible_calls cs -> Forall valid_event es -> w_tracker w = tracker_of es ->
  session (mk_planner (single_planner X S P ask) h) w cs = (l, pl, w') ->
  (epsilon (privacy_consumption (w_tracker w')) <=
     epsilon (privacy_consumption (w_tracker w)) + granted epsilon cs)%Q /\
  ((forall e, ~ In (Fitted (Err e)) l) ->
   (epsilon (privacy_consumption (w_tracker w')) ==
      epsilon (privacy_consumption (w_tracker w)) + granted epsilon cs)%Q).
Proof.
  intros X S P ask h cs w l pl w' es HX Hcs He Hw H. split.
  - exact (proj1 (C60_session_within_budget X _ h cs w l pl w' es
      (fun b Hb => C23_single_publisher_within_budget X S h b HX Hb) Hcs He Hw H)).
  - intros Hl. exact (proj1 (C60_session_exact X _ h cs w l pl w' es
      (fun b Hb => C23_single_publisher_exact X S h b HX Hb) Hcs He Hw H Hl)).
Qed.
Print Assumptions C60_single_publisher_session.

(** Two fits with queries around them: there is no model before, the second model answers
    after, and both budgets are used up. *)
Definition ex_ask (m : reach_point Z Z + list (reach_point Z Z)) (spends : list Q) (k : Z) : result Z :=
  match m with inl _ => Err ValueError | inr l => Ok (Z.of_nat (length l) + k) end.
Definition ex_calls : list planner_call :=
  [AskModel [] 1; Fit ex_budget; AskModel [] 1; Fit ex_budget; AskTruth [4#100; 0; 0]%Q 1; AskModel [] 3].
Definition ex_session := session (mk_planner (m3_planner ex_externals ex_modelers false Z ex_ask) ex_halo3) ex_world ex_calls.
Example C60_example : exists p,
  fst (fst ex_session) =
    [Modeled (Err OtherError); Fitted (Ok tt); Modeled (Ok 5); Fitted (Ok tt); Truth (Ok p); Modeled (Ok 7)] /\
  sensible_calls ex_calls /\ (granted epsilon ex_calls == 2)%Q /\
  (epsilon (privacy_consumption (w_tracker (snd ex_session))) == 2)%Q.
Proof.
  eexists. split; [vm_compute; reflexivity|]. split.
  - intros b [E|[E|[E|[E|[E|[E|[]]]]]]]; try discriminate E; injection E as <-; split; unfold ex_budget; simpl; lra.
  - split; vm_compute; reflexivity.
Qed.
