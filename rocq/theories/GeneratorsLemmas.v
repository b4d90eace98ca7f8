(** Lemmas about the generators. *)
From Coq Require Import String Qround Permutation Lqa.
From Verif Require Import Prelude ModelReachPoint ModelData SpecData ReachPointLemmas
  DataLemmas DataLemmas2 DataLemmas3 ModelGenerators SpecGenerators.
Open Scope Z_scope.

(** ** Impression lists *)

Lemma times_shown_app u l l' : times_shown u (l ++ l') = times_shown u l + times_shown u l'.
Proof. unfold times_shown. rewrite filter_app, app_length. lia. Qed.

Lemma times_shown_repeat u x k :
  times_shown u (repeat x k) = if u =? x then Z.of_nat k else 0.
Proof.
  unfold times_shown. induction k; simpl.
  - destruct (u =? x); auto.
  - destruct (Z.eqb_spec u x); simpl in *; lia.
Qed.

Lemma times_shown_perm u l l' : Permutation l l' -> times_shown u l = times_shown u l'.
Proof. intros H. unfold times_shown. f_equal. apply Permutation_length, filter_perm; auto. Qed.

Lemma times_shown_in u l : In u l <-> 1 <= times_shown u l.
Proof.
  unfold times_shown. split.
  - intros H. assert (In u (filter (Z.eqb u) l)) as H1
      by (apply filter_In; split; auto; apply Z.eqb_refl).
    destruct (filter (Z.eqb u) l); [destruct H1|simpl; lia].
  - intros H. destruct (filter (Z.eqb u) l) as [|x r] eqn:E; [simpl in H; lia|].
    assert (In x (filter (Z.eqb u) l)) as H1 by (rewrite E; left; auto).
    apply filter_In in H1. destruct H1 as [H1 H2]. apply Z.eqb_eq in H2. subst. auto.
Qed.

Lemma times_shown_nonneg u l : 0 <= times_shown u l.
Proof. unfold times_shown. lia. Qed.

Definition copies (users ks : list Z) : list Z :=
  flat_map (fun p => py_repeat (fst p) (snd p)) (combine users ks).

Lemma extend_loop_spec {St} (draw : St -> result (Z * St)) users : forall acc st r st',
  extend_loop draw users acc st = Ok (r, st') ->
  exists ks, successive draw st ks st' /\ length ks = length users /\
             r = acc ++ copies users ks.
Proof.
  induction users as [|i users IH]; intros acc st r st' H; simpl in H.
  - inversion H; subst. exists []. split; [constructor|]. split; auto.
    unfold copies. simpl. rewrite app_nil_r. auto.
  - destruct (draw st) as [[k st1]|] eqn:E; simpl in H; [|discriminate].
    apply IH in H. destruct H as [ks [Hs [Hl ->]]]. exists (k :: ks).
    split; [econstructor; eauto|]. split; [simpl; auto|].
    unfold copies. simpl. rewrite <- app_assoc. auto.
Qed.

Lemma extend_loop_total {St} (draw : St -> result (Z * St)) users :
  (forall st, exists x st', draw st = Ok (x, st')) ->
  forall acc st, exists r st', extend_loop draw users acc st = Ok (r, st').
Proof.
  intros T. induction users as [|i users IH]; intros acc st; simpl; [eauto|].
  destruct (T st) as [x [st' ->]]. simpl. apply IH.
Qed.

Lemma copies_seq_shown n : forall s ks u, length ks = n ->
  times_shown u (copies (map (fun i => Z.of_nat i) (seq s n)) ks) =
  if (Z.of_nat s <=? u) && (u <? Z.of_nat s + Z.of_nat n)
  then Z.max 0 (nth (Z.to_nat (u - Z.of_nat s)) ks 0) else 0.
Proof.
  induction n; intros s ks u Hl.
  - cbn [seq map]. unfold copies. cbn [combine flat_map].
    change (times_shown u []) with 0.
    destruct ((Z.of_nat s <=? u) && (u <? Z.of_nat s + Z.of_nat 0)) eqn:E; auto.
    apply andb_true_iff in E. destruct E as [E1 E2].
    apply Z.leb_le in E1. apply Z.ltb_lt in E2. lia.
  - destruct ks as [|k ks]; [discriminate|]. cbn [length] in Hl.
    cbn [seq map]. unfold copies. cbn [combine flat_map fst snd].
    rewrite times_shown_app. fold (copies (map (fun i => Z.of_nat i) (seq (S s) n)) ks).
    rewrite (IHn (S s) ks u) by lia. unfold py_repeat. rewrite times_shown_repeat.
    destruct (Z.eqb_spec u (Z.of_nat s)).
    + subst u. rewrite Z.sub_diag. cbn [Z.to_nat nth].
      replace (Z.of_nat (S s) <=? Z.of_nat s) with false by (symmetry; apply Z.leb_gt; lia).
      cbn [andb]. replace ((Z.of_nat s <=? Z.of_nat s)) with true
        by (symmetry; apply Z.leb_le; lia).
      replace (Z.of_nat s <? Z.of_nat s + Z.of_nat (S n)) with true
        by (symmetry; apply Z.ltb_lt; lia).
      cbn [andb]. lia.
    + destruct (Z.leb_spec (Z.of_nat (S s)) u); cbn [andb].
      * replace (Z.of_nat s <=? u) with true by (symmetry; apply Z.leb_le; lia).
        cbn [andb].
        replace (u <? Z.of_nat (S s) + Z.of_nat n) with (u <? Z.of_nat s + Z.of_nat (S n))
          by (f_equal; lia).
        destruct (u <? Z.of_nat s + Z.of_nat (S n)); auto.
        replace (Z.to_nat (u - Z.of_nat s)) with (S (Z.to_nat (u - Z.of_nat (S s)))) by lia.
        cbn [nth]. lia.
      * destruct (Z.leb_spec (Z.of_nat s) u); cbn [andb]; lia.
Qed.

Lemma copies_range_shown n ks u : length ks = Z.to_nat n ->
  times_shown u (copies (py_range 0 n) ks) =
  if (0 <=? u) && (u <? n) then Z.max 0 (nth (Z.to_nat u) ks 0) else 0.
Proof.
  intros H. unfold py_range.
  replace (map (fun i => 0 + Z.of_nat i) (seq 0 (Z.to_nat (n - 0))))
    with (map (fun i => Z.of_nat i) (seq 0 (Z.to_nat n)))
    by (rewrite Z.sub_0_r; apply map_ext; intros; lia).
  rewrite copies_seq_shown by auto. change (Z.of_nat 0) with 0.
  rewrite Z.sub_0_r, Z.add_0_l.
  destruct (Z.leb_spec 0 u); cbn [andb]; auto.
  destruct (Z.ltb_spec u (Z.of_nat (Z.to_nat n))); destruct (Z.ltb_spec u n); auto; lia.
Qed.

Lemma range0_length n : length (py_range 0 n) = Z.to_nat n.
Proof. unfold py_range. rewrite map_length, seq_length. f_equal. lia. Qed.

Lemma successive_map {St A B} (draw : St -> result (A * St)) (f : A -> B) st ks st' :
  successive (fun s => '(x, s') <- draw s ;; Ok (f x, s')) st ks st' ->
  exists xs, successive draw st xs st' /\ ks = map f xs.
Proof.
  induction 1 as [|st x st1 xs st2 E H [ys [IH1 IH2]]].
  - exists []. split; [constructor|auto].
  - destruct (draw st) as [[y s']|] eqn:F; cbn [bind] in E; [|discriminate].
    inversion E; subst. exists (y :: ys). split; [econstructor; eauto|auto].
Qed.

Lemma successive_Forall {St A} (draw : St -> result (A * St)) (P : A -> Prop) :
  (forall st x st', draw st = Ok (x, st') -> P x) ->
  forall st ks st', successive draw st ks st' -> Forall P ks.
Proof. intros H st ks st' Hs. induction Hs; constructor; eauto. Qed.

Lemma Forall_nth_max ks i : Forall (fun x => 1 <= x) ks -> (i < length ks)%nat ->
  Z.max 0 (nth i ks 0) = nth i ks 0 /\ 1 <= nth i ks 0.
Proof.
  intros H Hi. rewrite Forall_forall in H.
  specialize (H (nth i ks 0) (nth_In _ _ Hi)). cbv beta in H. lia.
Qed.

(** The generator classes use one draw per user; each draw is at least 1. *)
Definition user_draw {St} (rng : numpy_rng St) (p : impression_params) : St -> result (Z * St) :=
  match p with
  | Homogeneous l => homogeneous_draw rng l
  | Heterogeneous a b => heterogeneous_draw rng a b
  | HeavyTailed s => rng_zipf rng s
  end.

Lemma user_draw_pos {St} (rng : numpy_rng St) p st x st' :
  numpy_behaves rng -> user_draw rng p st = Ok (x, st') -> 1 <= x.
Proof.
  intros N. destruct p; cbn [user_draw].
  - unfold homogeneous_draw. destruct (rng_poisson rng _ st) as [[y s]|] eqn:E; cbn [bind];
      [|discriminate].
    intros H. assert (Hx : 1 + y = x) by (inversion H; reflexivity). clear H.
    apply (nb_poisson _ N) in E. lia.
  - unfold heterogeneous_draw. destruct (rng_gamma rng _ _ st) as [[y s]|] eqn:E; cbn [bind];
      [|discriminate].
    destruct (rng_poisson rng _ s) as [[z s1]|] eqn:F; cbn [bind]; [|discriminate].
    intros H. assert (Hx : 1 + z = x) by (inversion H; reflexivity). clear H.
    apply (nb_poisson _ N) in F. lia.
  - intros H. apply (nb_zipf _ N) in H. lia.
Qed.

Lemma impression_call_inv {St} (rng : numpy_rng St) p n st imps st' :
  impression_call rng p n st = Ok (imps, st') ->
  exists ks st1, successive (user_draw rng p) st ks st1 /\ length ks = Z.to_nat n /\
    (imps, st') = rng_shuffle rng (copies (py_range 0 n) ks) st1.
Proof.
  assert (forall draw, ('(impressions, st1) <- extend_loop draw (py_range 0 n) [] st ;;
      Ok (rng_shuffle rng impressions st1)) = Ok (imps, st') ->
     exists ks st1, successive draw st ks st1 /\ length ks = Z.to_nat n /\
    (imps, st') = rng_shuffle rng (copies (py_range 0 n) ks) st1) as G.
  { intros draw H. destruct (extend_loop _ _ _ _) as [[r st1]|] eqn:E; simpl in H; [|discriminate].
    apply extend_loop_spec in E. destruct E as [ks [E1 [E2 E3]]]. simpl in E3. subst r.
    exists ks, st1. rewrite range0_length in E2. inversion H. auto. }
  destruct p; cbn [impression_call user_draw].
  - unfold homogeneous_call. apply G.
  - unfold heterogeneous_call. apply G.
  - unfold heavy_tailed_call. destruct (Qltb 1 zeta_s); [apply G|discriminate].
Qed.

Lemma shuffled {St} (rng : numpy_rng St) l st imps st' :
  numpy_behaves rng -> (imps, st') = rng_shuffle rng l st -> Permutation imps l.
Proof. intros N H. rewrite <- (nb_shuffle _ N l st), <- H. auto. Qed.

Lemma impressions_shown {St} (rng : numpy_rng St) p n st imps st' :
  numpy_behaves rng -> impression_call rng p n st = Ok (imps, st') ->
  exists ks st1, successive (user_draw rng p) st ks st1 /\ length ks = Z.to_nat n /\
    Forall (fun x => 1 <= x) ks /\
    (forall u, ~ 0 <= u < n -> times_shown u imps = 0) /\
    (forall u, 0 <= u < n -> times_shown u imps = nth (Z.to_nat u) ks 0).
Proof.
  intros N H. apply impression_call_inv in H. destruct H as [ks [st1 [H1 [H2 H3]]]].
  apply shuffled in H3; auto.
  assert (Forall (fun x => 1 <= x) ks) as F
    by (eapply successive_Forall; [|eauto]; intros; eapply user_draw_pos; eauto).
  exists ks, st1. split; [auto|]. split; [auto|]. split; [auto|].
  split; intros u Hu; rewrite (times_shown_perm _ _ _ H3), copies_range_shown by auto.
  - destruct (Z.leb_spec 0 u); destruct (Z.ltb_spec u n); simpl; auto. lia.
  - destruct (Z.leb_spec 0 u); destruct (Z.ltb_spec u n); simpl; try lia.
    apply Forall_nth_max; auto. lia.
Qed.

Lemma impressions_ids {St} (rng : numpy_rng St) p n st imps st' :
  numpy_behaves rng -> impression_call rng p n st = Ok (imps, st') ->
  forall u, In u imps <-> 0 <= u < n.
Proof.
  intros N H u. destruct (impressions_shown _ _ _ _ _ _ N H) as [ks [st1 [_ [Hl [Hf [H0 H1]]]]]].
  rewrite times_shown_in. split.
  - intros Hu. destruct (Z_le_dec 0 u), (Z_lt_dec u n); try lia;
      rewrite H0 in Hu by lia; lia.
  - intros Hu. rewrite H1 by auto. apply Forall_nth_max; auto. lia.
Qed.

(** ** Fixed prices *)

Lemma price_from_ids cpi imps : forall i, map fst (price_from cpi i imps) = imps.
Proof. induction imps; intros i; simpl; auto. rewrite IHimps. auto. Qed.

Lemma price_from_length cpi imps i : length (price_from cpi i imps) = length imps.
Proof. rewrite <- (map_length fst), price_from_ids. auto. Qed.

Lemma price_from_nth cpi imps : forall i k, (k < length imps)%nat ->
  nth_error (price_from cpi i imps) k =
  Some (nth k imps 0, (inject_Z (i + Z.of_nat k + 1) * cpi)%Q).
Proof.
  induction imps as [|u imps IH]; intros i k Hk; simpl in Hk; [lia|].
  destruct k; cbn [price_from nth_error nth].
  - replace (i + Z.of_nat 0 + 1) with (i + 1) by lia. auto.
  - rewrite IH by lia. replace (i + Z.of_nat (S k) + 1) with (i + 1 + Z.of_nat k + 1) by lia.
    auto.
Qed.

Lemma price_from_increasing cpi imps i : (0 <= cpi)%Q -> increasing_prices (price_from cpi i imps).
Proof.
  intros Hc. revert i. induction imps as [|u imps IH]; intros i; simpl; auto.
  destruct imps as [|v imps]; simpl; auto. split.
  - apply Qmult_le_compat_r; auto. rewrite <- Zle_Qle. lia.
  - apply IH.
Qed.

(** Number of impressions of user [u] at spend [s]: those among the first [floor(s/cpi)]. *)
Lemma price_le_iff cpi j s : (0 < cpi)%Q ->
  (Qle_bool (inject_Z j * cpi) s = true <-> j <= Qfloor (s / cpi)).
Proof.
  intros Hc. rewrite Qle_bool_iff. split; intros H.
  - rewrite <- (Qfloor_Z j). apply Qfloor_resp_le. apply Qle_shift_div_l; auto.
  - assert (inject_Z j <= s / cpi)%Q.
    { apply Qle_trans with (inject_Z (Qfloor (s / cpi))); [|apply Qfloor_le].
      rewrite <- Zle_Qle. auto. }
    assert (s == (s / cpi) * cpi)%Q by (field; intros E; rewrite E in Hc; apply (Qlt_irrefl 0); auto).
    rewrite H1. apply Qmult_le_compat_r; auto. apply Qlt_le_weak; auto.
Qed.

Lemma price_filter cpi s (f : Z -> bool) imps : (0 < cpi)%Q -> forall i, 0 <= i ->
  length (filter (fun r => f (fst r) && Qle_bool (snd r) s) (price_from cpi i imps)) =
  length (filter f (firstn (Z.to_nat (Qfloor (s / cpi) - i)) imps)).
Proof.
  intros Hc. induction imps as [|u imps IH]; intros i Hi; cbn [price_from filter].
  - rewrite firstn_nil. auto.
  - cbn [fst snd]. destruct (Qle_bool (inject_Z (i + 1) * cpi) s) eqn:E.
    + apply (price_le_iff cpi (i + 1) s Hc) in E. rewrite andb_true_r.
      replace (Z.to_nat (Qfloor (s / cpi) - i))
        with (S (Z.to_nat (Qfloor (s / cpi) - (i + 1)))) by lia.
      cbn [firstn filter]. destruct (f u); cbn [length]; rewrite IH by lia; auto.
    + rewrite andb_false_r. rewrite IH by lia.
      assert (~ i + 1 <= Qfloor (s / cpi)) as Hn.
      { intros Hle. apply (price_le_iff cpi (i + 1) s Hc) in Hle. congruence. }
      replace (Z.to_nat (Qfloor (s / cpi) - i)) with O by lia.
      replace (Z.to_nat (Qfloor (s / cpi) - (i + 1))) with O by lia. reflexivity.
Qed.

(** ** Relabelling *)

Lemma zip_dict_get_some ks : forall vs k, length ks = length vs -> In k ks ->
  exists v, zip_dict_get (combine ks vs) k = Ok v /\ In (k, v) (combine ks vs).
Proof.
  induction ks as [|a ks IH]; intros [|b vs] k Hl Hin; simpl in *; try lia; try (destruct Hin; fail).
  destruct (zip_dict_get (combine ks vs) k) as [w|] eqn:E.
  - exists w. split; auto. right. destruct (in_dec Z.eq_dec k ks) as [Hk|Hk].
    + destruct (IH vs k ltac:(lia) Hk) as [v [Hv1 Hv2]]. congruence.
    + exfalso. clear -E Hk. revert vs E. induction ks as [|c ks IH]; intros [|d vs] E;
        simpl in E; try discriminate.
      destruct (zip_dict_get (combine ks vs) k) eqn:F.
      * inversion E; subst. apply (IH (fun H => Hk (or_intror H)) _ F).
      * destruct (Z.eqb_spec k c); [|discriminate]. subst. apply Hk. left; auto.
  - destruct (Z.eqb_spec k a).
    + subst. exists b. auto.
    + destruct Hin as [->|Hin]; [congruence|].
      destruct (IH vs k ltac:(lia) Hin) as [v [Hv1 Hv2]]. congruence.
Qed.

(** A one to one map between two duplicate free lists of the same length. *)
Lemma zip_dict_bijection ks vs : NoDup ks -> NoDup vs -> length ks = length vs ->
  exists f, (forall k, In k ks -> zip_dict_get (combine ks vs) k = Ok (f k)) /\
    (forall k k', In k ks -> In k' ks -> f k = f k' -> k = k') /\
    (forall v, In v vs <-> exists k, In k ks /\ v = f k).
Proof.
  intros Nk Nv Hl.
  set (f := fun k => match zip_dict_get (combine ks vs) k with Ok v => v | Err _ => 0 end).
  assert (forall k, In k ks -> zip_dict_get (combine ks vs) k = Ok (f k) /\
                               In (k, f k) (combine ks vs)) as Hf.
  { intros k Hk. destruct (zip_dict_get_some ks vs k Hl Hk) as [v [E1 E2]].
    unfold f. rewrite E1. auto. }
  assert (forall k v k' v', In (k, v) (combine ks vs) -> In (k', v') (combine ks vs) ->
            (v = v' -> k = k') /\ (k = k' -> v = v')) as Hc.
  { clear f Hf. revert vs Nv Hl. induction Nk as [|a ks Ha Nk IH]; intros [|b vs] Nv Hl;
      simpl in *; try lia; intros k v k' v' H H'; try (destruct H; fail).
    inversion Nv as [|? ? Hb Nv']; subst.
    destruct H as [H|H]; destruct H' as [H'|H'].
    - inversion H; inversion H'; subst. auto.
    - inversion H; subst. split; intros; subst; exfalso.
      + apply Hb. eapply in_combine_r; eauto.
      + apply Ha. eapply in_combine_l; eauto.
    - inversion H'; subst. split; intros; subst; exfalso.
      + apply Hb. eapply in_combine_r; eauto.
      + apply Ha. eapply in_combine_l; eauto.
    - eapply IH; eauto. }
  exists f. split; [|split].
  - intros k Hk. apply Hf; auto.
  - intros k k' Hk Hk' E. destruct (Hf k Hk) as [_ H1], (Hf k' Hk') as [_ H2].
    destruct (Hc _ _ _ _ H1 H2) as [G _]. auto.
  - intros v. split.
    + intros Hv. destruct (In_nth vs v 0 Hv) as [i [Hi Ei]].
      exists (nth i ks 0). assert (In (nth i ks 0) ks) as Hk by (apply nth_In; lia).
      split; auto. destruct (Hf _ Hk) as [_ H1].
      assert (In (nth i ks 0, v) (combine ks vs)) as H2.
      { rewrite <- Ei. rewrite <- (combine_nth ks vs i 0 0 Hl).
        apply nth_In. rewrite combine_length. lia. }
      destruct (Hc _ _ _ _ H1 H2) as [_ G]. symmetry. auto.
    + intros [k [Hk ->]]. destruct (Hf k Hk) as [_ H1]. eapply in_combine_r; eauto.
Qed.

Lemma relabel_log (f : Z -> Z) d (log : list row) :
  (forall r, In r log -> zip_dict_get d (fst r) = Ok (f (fst r))) ->
  mapM (fun r => u <- zip_dict_get d (fst r) ;; Ok (u, snd r)) log =
  Ok (map (fun r => (f (fst r), snd r)) log).
Proof.
  induction log as [|r log IH]; intros H; simpl; auto.
  rewrite (H r (or_introl eq_refl)). simpl. rewrite IH by (intros; apply H; right; auto). auto.
Qed.
