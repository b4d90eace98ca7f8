From Coq Require Import String Lqa Permutation Qabs.
From Verif Require Import Prelude ModelPrivacy SpecPrivacy DataLemmas.
Notation length := List.length.
Open Scope Z_scope.

(** The two projections treated uniformly. *)
Definition is_sel (sel : budget -> Q) : Prop := sel = epsilon \/ sel = delta.

Fixpoint total_at_fn (sel : budget -> Q) (x : Q) (es : list noising_event) : Q :=
  match es with
  | [] => 0%Q
  | e :: r => ((if contains (ev_buckets e) x then sel (ev_budget e) else 0) + total_at_fn sel x r)%Q
  end.

Lemma consumption_at_sel sel t x : is_sel sel ->
  (sel (consumption_at t x) == total_at_fn sel x (tr_events t))%Q.
Proof.
  intros Hs. unfold consumption_at.
  assert (forall es acc, (sel (fold_left (fun acc e =>
    if contains (ev_buckets e) x
    then {| epsilon := epsilon acc + epsilon (ev_budget e);
            delta := delta acc + delta (ev_budget e) |}
    else acc) es acc) == sel acc + total_at_fn sel x es)%Q) as H.
  { induction es as [|e es IH]; intros acc; simpl; [lra|].
    rewrite IH. destruct (contains (ev_buckets e) x); [|lra].
    destruct Hs as [-> | ->]; simpl; lra. }
  rewrite H. destruct Hs as [-> | ->]; simpl; lra.
Qed.

Lemma py_max2_le a b c : (py_max2 a b <= c <-> a <= c /\ b <= c)%Q.
Proof.
  unfold py_max2. destruct (Qltb a b) eqn:E.
  - apply Qltb_lt in E. split; intros; [split|]; lra.
  - apply Qltb_ge in E. split; intros; [split|]; lra.
Qed.
Lemma py_max2_cases a b : py_max2 a b = a \/ py_max2 a b = b.
Proof. unfold py_max2. destruct (Qltb a b); auto. Qed.

Lemma fold_sel_max sel t (l : list Q) acc : is_sel sel ->
  let f := fold_left (fun acc x =>
    let c := consumption_at t x in
    {| epsilon := py_max2 (epsilon acc) (epsilon c);
       delta := py_max2 (delta acc) (delta c) |}) l acc in
  (sel acc <= sel f)%Q /\ (forall x, In x l -> (sel (consumption_at t x) <= sel f)%Q) /\
  (sel f = sel acc \/ exists x, In x l /\ sel f = sel (consumption_at t x)).
Proof.
  intros Hs. revert acc. induction l as [|y l IH]; intros acc; simpl.
  - split; [lra|]. split; [intros x []|]. auto.
  - destruct (IH {| epsilon := py_max2 (epsilon acc) (epsilon (consumption_at t y));
       delta := py_max2 (delta acc) (delta (consumption_at t y)) |}) as [H1 [H2 H3]].
    assert (sel {| epsilon := py_max2 (epsilon acc) (epsilon (consumption_at t y));
       delta := py_max2 (delta acc) (delta (consumption_at t y)) |} =
       py_max2 (sel acc) (sel (consumption_at t y))) as E by (destruct Hs as [-> | ->]; reflexivity).
    rewrite E in H1, H3. simpl in *.
    apply py_max2_le in H1. destruct H1 as [H1 H1'].
    split; auto. split.
    + intros x [<-|Hx]; auto.
    + destruct H3 as [H3|[x [Hx H3]]]; [|right; exists x; auto].
      destruct (py_max2_cases (sel acc) (sel (consumption_at t y))) as [E'|E']; rewrite E' in H3; auto.
      right. exists y. auto.
Qed.

(** privacy_consumption as a maximum. *)
Lemma consumption_spec sel t : is_sel sel -> tr_starts t <> [] ->
  (0 <= sel (privacy_consumption t))%Q /\
  (forall x, In x (tr_starts t) -> (total_at_fn sel x (tr_events t) <= sel (privacy_consumption t))%Q) /\
  ((forall x, In x (tr_starts t) -> (0 <= total_at_fn sel x (tr_events t))%Q) ->
   exists x, In x (tr_starts t) /\ (sel (privacy_consumption t) == total_at_fn sel x (tr_events t))%Q).
Proof.
  intros Hs Hne.
  destruct (fold_sel_max sel t (tr_starts t) {| epsilon := 0; delta := 0 |} Hs) as [H1 [H2 H3]].
  change (fold_left _ (tr_starts t) {| epsilon := 0; delta := 0 |}) with (privacy_consumption t) in *.
  assert (sel {| epsilon := 0; delta := 0 |} = 0%Q) as E by (destruct Hs as [-> | ->]; reflexivity).
  rewrite E in *. split; auto. split.
  - intros x Hx. rewrite <- (consumption_at_sel sel t x Hs). auto.
  - intros Hpos. destruct H3 as [H3|[x [Hx H3]]].
    + destruct (tr_starts t) as [|x l] eqn:El; [congruence|]. exists x. split; [left; auto|].
      apply Qle_antisym; [rewrite H3; apply Hpos; left; auto|].
      rewrite <- (consumption_at_sel sel t x Hs). apply H2. left; auto.
    + exists x. split; auto. rewrite H3. apply consumption_at_sel; auto.
Qed.

(** Starting points. *)
Lemma set_addQ_in x y l : In y (set_addQ x l) -> In y l \/ y = x.
Proof.
  unfold set_addQ. destruct (existsb _ l); auto. rewrite in_app_iff. simpl. intuition.
Qed.
Lemma set_addQ_incl x y l : In y l -> In y (set_addQ x l).
Proof. unfold set_addQ. destruct (existsb _ l); auto. rewrite in_app_iff. auto. Qed.
Lemma set_addQ_has x l : exists y, In y (set_addQ x l) /\ (y == x)%Q.
Proof.
  unfold set_addQ. destruct (existsb _ l) eqn:E.
  - apply existsb_exists in E. destruct E as [y [Hy E]]. exists y. split; auto.
    apply Qeq_bool_iff in E. symmetry; auto.
  - exists x. rewrite in_app_iff. simpl. split; auto. reflexivity.
Qed.

Lemma fold_append es : forall t,
  tr_events (fold_left append es t) = tr_events t ++ es /\
  (forall y, In y (tr_starts t) -> In y (tr_starts (fold_left append es t))) /\
  (forall y, In y (tr_starts (fold_left append es t)) ->
     In y (tr_starts t) \/ exists e, In e es /\ y = smallest_index (ev_buckets e)) /\
  (forall e, In e es -> exists y, In y (tr_starts (fold_left append es t)) /\
     (y == smallest_index (ev_buckets e))%Q).
Proof.
  induction es as [|e es IH]; intros t; simpl.
  - rewrite app_nil_r. split; auto. split; auto. split; auto. intros e [].
  - destruct (IH (append t e)) as [H1 [H2 [H3 H4]]]. simpl in *.
    split; [rewrite H1, <- app_assoc; auto|]. split; [|split].
    + intros y Hy. apply H2, set_addQ_incl; auto.
    + intros y Hy. destruct (H3 y Hy) as [H|[e' [He' ->]]].
      * apply set_addQ_in in H. destruct H; auto. right. exists e. auto.
      * right. exists e'. auto.
    + intros e' [<-|He']; auto.
      destruct (set_addQ_has (smallest_index (ev_buckets e)) (tr_starts t)) as [y [Hy Ey]].
      exists y. split; auto.
Qed.

Lemma tracker_of_events es : tr_events (tracker_of es) = es.
Proof. destruct (fold_append es new_tracker) as [H _]. unfold tracker_of. rewrite H. auto. Qed.
Lemma tracker_of_starts_0 es : In 0%Q (tr_starts (tracker_of es)).
Proof. destruct (fold_append es new_tracker) as [_ [H _]]. apply H. left; auto. Qed.
Lemma tracker_of_starts_ne es : tr_starts (tracker_of es) <> [].
Proof. pose proof (tracker_of_starts_0 es). intros E. rewrite E in H. destruct H. Qed.
Lemma tracker_of_start e es : In e es ->
  exists y, In y (tr_starts (tracker_of es)) /\ (y == smallest_index (ev_buckets e))%Q.
Proof. destruct (fold_append es new_tracker) as [_ [_ [_ H]]]. apply H. Qed.
Lemma tracker_of_starts_inv es y : In y (tr_starts (tracker_of es)) ->
  y = 0%Q \/ exists e, In e es /\ y = smallest_index (ev_buckets e).
Proof.
  destruct (fold_append es new_tracker) as [_ [_ [H _]]]. intros Hy. apply H in Hy.
  destruct Hy as [[<-|[]]|Hy]; auto.
Qed.

(** [contains] is membership mod 1. *)
Lemma contains_spec b x : (0 <= smallest_index b < 1)%Q -> (0 <= sampling_rate b <= 1)%Q ->
  (0 <= x < 1)%Q -> (contains b x = true <-> in_range b x).
Proof.
  intros Hs Hr Hx. unfold contains, in_range.
  destruct (Qleb (smallest_index b) x) eqn:E.
  - apply Qleb_le in E. rewrite Qltb_lt. split.
    + intros H. exists 0. change (inject_Z 0) with 0%Q. lra.
    + intros [n [H1 H2]]. destruct (Z.le_gt_cases n 0) as [Hn|Hn].
      * destruct (Z.eq_dec n 0) as [->|]; [change (inject_Z 0) with 0%Q in *; lra|].
        assert (inject_Z n <= inject_Z (-1))%Q by (rewrite <- Zle_Qle; lia).
        change (inject_Z (-1)) with (-1)%Q in *. lra.
      * assert (inject_Z 1 <= inject_Z n)%Q by (rewrite <- Zle_Qle; lia).
        change (inject_Z 1) with 1%Q in *. lra.
  - apply Qleb_gt in E. rewrite Qltb_lt. split.
    + intros H. exists 1. change (inject_Z 1) with 1%Q. lra.
    + intros [n [H1 H2]]. destruct (Z.le_gt_cases n 0) as [Hn|Hn].
      * assert (inject_Z n <= inject_Z 0)%Q by (rewrite <- Zle_Qle; lia).
        change (inject_Z 0) with 0%Q in *. lra.
      * assert (inject_Z 1 <= inject_Z n)%Q by (rewrite <- Zle_Qle; lia).
        change (inject_Z 1) with 1%Q in *. lra.
Qed.

Lemma total_at_fn_spec sel x es v : Forall valid_event es -> (0 <= x < 1)%Q ->
  total_at sel x es v -> (v == total_at_fn sel x es)%Q.
Proof.
  intros Hv Hx H. induction H; simpl; [lra| |]; inversion Hv; subst;
    destruct H3 as [? [? [? [? [? ?]]]]].
  - apply contains_spec in H; auto. rewrite H, IHtotal_at by auto. lra.
  - destruct (contains (ev_buckets e) x) eqn:E.
    + apply contains_spec in E; auto. contradiction.
    + rewrite IHtotal_at by auto. lra.
Qed.

Lemma total_at_exists sel x es : Forall valid_event es -> (0 <= x < 1)%Q ->
  exists v, total_at sel x es v.
Proof.
  intros Hv Hx. induction es as [|e es IH]; [eexists; constructor|].
  inversion Hv; subst. destruct (IH H2) as [v Hv'].
  destruct (contains (ev_buckets e) x) eqn:E.
  - eexists. apply total_in; eauto. apply contains_spec; auto; destruct H1 as [? [? [? [? [? ?]]]]]; auto.
  - eexists. apply total_out; eauto. intros C. apply contains_spec in C; auto;
      destruct H1 as [? [? [? [? [? ?]]]]]; auto. congruence.
Qed.

Lemma total_at_fn_app sel x a b :
  (total_at_fn sel x (a ++ b) == total_at_fn sel x a + total_at_fn sel x b)%Q.
Proof. induction a; simpl; [lra|]. rewrite IHa. lra. Qed.

Lemma valid_sel sel e : is_sel sel -> valid_event e -> (0 <= sel (ev_budget e))%Q.
Proof. intros [-> | ->] [? [? ?]]; auto. Qed.

Lemma total_at_fn_nonneg sel x es : is_sel sel -> Forall valid_event es ->
  (0 <= total_at_fn sel x es)%Q.
Proof.
  intros Hs H. induction H as [|e es He H IH]; simpl; [lra|].
  pose proof (valid_sel sel e Hs He). destruct (contains (ev_buckets e) x); lra.
Qed.

(** Moving a point down to the nearest starting point only adds events. *)
Lemma total_at_fn_snap sel x y es : is_sel sel -> Forall valid_event es ->
  (y <= x)%Q ->
  (forall e, In e es -> (smallest_index (ev_buckets e) <= x -> smallest_index (ev_buckets e) <= y)%Q) ->
  (total_at_fn sel x es <= total_at_fn sel y es)%Q.
Proof.
  intros Hs Hv Hyx Hst. induction es as [|e es IH]; simpl; [lra|].
  inversion Hv; subst. specialize (IH H2 ltac:(intros; apply Hst; [right|]; auto)).
  pose proof (valid_sel sel e Hs H1) as Hp.
  assert (contains (ev_buckets e) x = true -> contains (ev_buckets e) y = true) as Hc.
  { unfold contains. specialize (Hst e (or_introl eq_refl)).
    destruct (Qleb (smallest_index (ev_buckets e)) x) eqn:E1.
    - apply Qleb_le in E1. specialize (Hst E1). apply Qleb_le in Hst. rewrite Hst, !Qltb_lt. lra.
    - apply Qleb_gt in E1. destruct (Qleb (smallest_index (ev_buckets e)) y) eqn:E2.
      + apply Qleb_le in E2. lra.
      + rewrite !Qltb_lt. lra. }
  destruct (contains (ev_buckets e) x); [rewrite Hc by auto; lra|].
  destruct (contains (ev_buckets e) y); lra.
Qed.

(** The largest element of a list that is at most [x]. *)
Lemma largest_below (l : list Q) (x : Q) :
  (exists y, In y l /\ (y <= x)%Q) ->
  exists y, In y l /\ (y <= x)%Q /\ forall z, In z l -> (z <= x)%Q -> (z <= y)%Q.
Proof.
  induction l as [|a l IH]; intros [y [Hy Hyx]]; [destruct Hy|].
  destruct (existsb (fun z => Qleb z x) l) eqn:E.
  - apply existsb_exists in E. destruct E as [w [Hw E]]. apply Qleb_le in E.
    destruct IH as [b [Hb [Hbx Hmax]]]; [eauto|].
    destruct (Qleb a x) eqn:Ea; [destruct (Qleb a b) eqn:Eab|].
    + apply Qleb_le in Eab. exists b. split; [right; auto|]. split; auto.
      intros z [<-|Hz] Hzx; auto.
    + apply Qleb_gt in Eab. apply Qleb_le in Ea. exists a. split; [left; auto|]. split; auto.
      intros z [<-|Hz] Hzx; [lra|]. specialize (Hmax z Hz Hzx). lra.
    + apply Qleb_gt in Ea. exists b. split; [right; auto|]. split; auto.
      intros z [<-|Hz] Hzx; [lra|]; auto.
  - assert (forall z, In z l -> ~ (z <= x)%Q) as Hn.
    { intros z Hz Hzx. apply Qleb_le in Hzx.
      rewrite <- not_true_iff_false in E. apply E. apply existsb_exists. eauto. }
    destruct Hy as [<-|Hy]; [|exfalso; eapply Hn; eauto].
    exists a. split; [left; auto|]. split; auto. intros z [<-|Hz] Hzx; [lra|].
    exfalso. eapply Hn; eauto.
Qed.

Lemma consumption_bound sel es x : is_sel sel -> Forall valid_event es -> (0 <= x < 1)%Q ->
  (total_at_fn sel x es <= sel (privacy_consumption (tracker_of es)))%Q.
Proof.
  intros Hs Hv Hx.
  destruct (largest_below (tr_starts (tracker_of es)) x) as [y [Hy [Hyx Hmax]]].
  { exists 0%Q. split; [apply tracker_of_starts_0|]. lra. }
  destruct (consumption_spec sel (tracker_of es) Hs (tracker_of_starts_ne es)) as [_ [H _]].
  specialize (H y Hy). rewrite tracker_of_events in H.
  eapply Qle_trans; [|exact H]. apply total_at_fn_snap; auto.
  intros e He Hex. destruct (tracker_of_start e es He) as [z [Hz Ez]].
  rewrite <- Ez in *. apply Hmax; auto.
Qed.

Lemma consumption_attained sel es : is_sel sel -> Forall valid_event es ->
  exists x, (0 <= x < 1)%Q /\
    (sel (privacy_consumption (tracker_of es)) == total_at_fn sel x es)%Q.
Proof.
  intros Hs Hv.
  destruct (consumption_spec sel (tracker_of es) Hs (tracker_of_starts_ne es)) as [_ [_ H]].
  destruct H as [x [Hx E]].
  { intros x _. rewrite tracker_of_events. apply total_at_fn_nonneg; auto. }
  rewrite tracker_of_events in E. exists x. split; auto.
  apply tracker_of_starts_inv in Hx. destruct Hx as [->|[e [He ->]]]; [lra|].
  rewrite Forall_forall in Hv. destruct (Hv e He) as [? [? [? [? ?]]]]. lra.
Qed.

Lemma total_at_fn_perm sel x a b : Permutation a b ->
  (total_at_fn sel x a == total_at_fn sel x b)%Q.
Proof.
  induction 1; simpl; lra.
Qed.

Fixpoint total_sel (sel : budget -> Q) (es : list noising_event) : Q :=
  match es with [] => 0%Q | e :: r => (sel (ev_budget e) + total_sel sel r)%Q end.

Lemma total_at_fn_full sel x es : Forall full_range es -> (0 <= x < 1)%Q ->
  (total_at_fn sel x es == total_sel sel es)%Q.
Proof.
  intros H Hx. induction H as [|e es He H IH]; simpl; [lra|]. destruct He as [H1 H2].
  assert (contains (ev_buckets e) x = true) as ->.
  { unfold contains. assert (Qleb (smallest_index (ev_buckets e)) x = true) as -> by (apply Qleb_le; lra).
    apply Qltb_lt. lra. }
  lra.
Qed.

(** Adding full-range events raises the consumption by exactly their sum. *)
Lemma consumption_add_full sel es fs : is_sel sel -> Forall valid_event es ->
  Forall valid_event fs -> Forall full_range fs ->
  (sel (privacy_consumption (tracker_of (es ++ fs))) ==
   sel (privacy_consumption (tracker_of es)) + total_sel sel fs)%Q.
Proof.
  intros Hs Hv Hvf Hf. assert (Forall valid_event (es ++ fs)) as Hva by (apply Forall_app; auto).
  apply Qle_antisym.
  - destruct (consumption_attained sel (es ++ fs) Hs Hva) as [x [Hx ->]].
    rewrite total_at_fn_app, (total_at_fn_full sel x fs) by auto.
    pose proof (consumption_bound sel es x Hs Hv Hx). lra.
  - destruct (consumption_attained sel es Hs Hv) as [x [Hx ->]].
    rewrite <- (total_at_fn_full sel x fs), <- total_at_fn_app by auto.
    apply consumption_bound; auto.
Qed.

Lemma total_sel_app sel a b : (total_sel sel (a ++ b) == total_sel sel a + total_sel sel b)%Q.
Proof. induction a; simpl; [lra|]. rewrite IHa. lra. Qed.
