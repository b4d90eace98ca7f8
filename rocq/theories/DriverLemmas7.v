(** Parallel runs; generators; the trials of a design. *)
From Coq Require Import String Ascii Permutation.
From Verif Require Import Prelude ModelReachPoint ModelData ModelHalo ModelAggregator ModelFiles SpecFiles
  FilesLemmas FilesLemmas2 FilesLemmas3 ModelDriver SpecDriver DriverLemmas DriverLemmas2 DriverLemmas3
  DriverLemmas4 DriverLemmas5 DriverLemmas6.
Open Scope Z_scope.

(** ** Generators *)

Lemma compute_row_other L t seed g m : m <> sp_generator (system_of t) ->
  snd (compute_row L t seed g) m = g m.
Proof.
  intros N. unfold compute_row. cbv zeta.
  match goal with |- context [match ?b with Ok _ => _ | Err _ => _ end] => destruct b as [[d h]|e] end; [|reflexivity].
  destruct (lab_fit L (td_strategy (tr_descriptor t)) h (trial_budget t) (lab_seed_global L seed)
     {| w_tracker := ModelPrivacy.new_tracker; w_rng := g (sp_generator (system_of t)) |}) as [fit w].
  cbn [snd]. unfold put_generator. apply Nat.eqb_neq in N. rewrite N. reflexivity.
Qed.

Lemma compute_row_own L t seed g g' :
  g (sp_generator (system_of t)) = g' (sp_generator (system_of t)) ->
  fst (compute_row L t seed g) = fst (compute_row L t seed g').
Proof.
  intros E. unfold compute_row. cbv zeta.
  match goal with |- context [match ?b with Ok _ => _ | Err _ => _ end] => destruct b as [[d h]|e] end; [|reflexivity].
  rewrite E.
  destruct (lab_fit L (td_strategy (tr_descriptor t)) h (trial_budget t) (lab_seed_global L seed)
     {| w_tracker := ModelPrivacy.new_tracker; w_rng := g' (sp_generator (system_of t)) |}) as [fit w].
  reflexivity.
Qed.

Lemma after_computing_other L seed m l : forall g,
  (forall t, In t l -> sp_generator (system_of t) <> m) -> after_computing L seed g l m = g m.
Proof.
  induction l as [|t l IH]; intros g H; cbn [after_computing]; [reflexivity|].
  rewrite IH by (intros x Hx; apply H; right; exact Hx). apply compute_row_other.
  intros X. apply (H t); [left; reflexivity|auto].
Qed.

Lemma own_generators_unaffected L seed g ts :
  (forall t t', In t ts -> In t' ts -> sp_generator (system_of t) = sp_generator (system_of t') -> t = t') ->
  unaffected L seed g ts.
Proof.
  intros H t l Ht Hl. apply compute_row_own. apply after_computing_other.
  intros x Hx E. destruct (Hl x Hx) as [A B]. apply B. apply H; auto.
Qed.

(** ** Parallel runs *)

Section Parallel.
Variables (L : lab) (ts : list trial).
Hypothesis sep : separate L ts.
Variables (seed : Z) (nows : nat -> text) (g : generators L) (d : disk).
Hypothesis Us : usable L ts d.

Definition legals (i : nat) : option node -> Prop :=
  match nth_error ts i with Some t => legal_of L t seed g | None => fun _ => False end.

Lemma nth_combine_seq {A} (l : list A) i : forall s,
  nth_error (combine (seq s (length l)) l) i =
  match nth_error l i with Some x => Some ((s + i)%nat, x) | None => None end.
Proof.
  revert i. induction l as [|y l IH]; intros i s; cbn [length seq combine].
  - destruct i; reflexivity.
  - destruct i as [|i]; cbn [nth_error]; [rewrite Nat.add_0_r; reflexivity|].
    rewrite IH. destruct (nth_error l i); [|reflexivity]. rewrite Nat.add_succ_r. reflexivity.
Qed.

Lemma workers_nth i t : nth_error ts i = Some t ->
  nth_error (workers L ts seed nows g) i = Some (evaluate L t seed (nows i) g).
Proof.
  intros H. unfold workers. rewrite nth_error_map, nth_combine_seq, H. reflexivity.
Qed.
Lemma workers_length : length (workers L ts seed nows g) = length ts.
Proof. unfold workers. rewrite map_length, combine_length, seq_length. lia. Qed.

Definition post (i : nat) (a : result table * generators L) (d' : disk) : Prop :=
  forall t, nth_error ts i = Some t -> evaluated L t seed (nows i) g d a d'.

Lemma workers_safe : all_safe L ts legals post (workers L ts seed nows g) d.
Proof.
  intros i t p Hi Hp. rewrite (workers_nth i t Hi) in Hp. assert (p = evaluate L t seed (nows i) g) by congruence.
  subst p. unfold legals. rewrite Hi.
  pose proof (nth_error_In _ _ Hi) as Ht.
  destruct (sep_trial L ts sep t Ht) as [A [B [C [D E]]]].
  destruct (proj2 Us t Ht) as [V1 [V2 V3]].
  eapply safe_post; [|apply evaluate_safe; auto].
  - intros a d' H t' Hi'. assert (t' = t) by congruence. subst t'. exact H.
  - intros q H. exists t. auto.
  - apply usable_inv. exact Us.
Qed.

Lemma together_usable d' : together L ts legals d d' -> usable L ts d'.
Proof.
  intros [[T1 T1'] [_ [T3 T4]]]. split; [exact T1|]. intros t Ht. destruct (proj2 Us t Ht) as [V1 [V2 V3]].
  split; [|].
  - intros q c D. apply T1'. exists t. auto.
  - destruct (In_nth_error _ _ Ht) as [i Hi]. destruct (T4 i t Hi) as [[->|A] [->|B]]; auto.
    + split; [|auto]. unfold legals in A. rewrite Hi in A. intros X. rewrite X in A. revert A. apply legal_not_dir.
    + split; [|auto]. unfold legals in A. rewrite Hi in A. intros X. rewrite X in A. revert A. apply legal_not_dir.
Qed.

Lemma together_only d' : together L ts legals d d' -> only_adds_directories L ts d d'.
Proof.
  intros [_ [_ [T3 _]]] q Hq.
  assert (Dec : (exists t, In t ts /\ (q = out_of L t \/ q = pending_path L t)) \/
                (forall t, In t ts -> q <> out_of L t /\ q <> pending_path L t)).
  { clear. induction ts as [|t l IH]; [right; intros t []|].
    destruct (path_dec q (out_of L t)) as [->|N1]; [left; exists t; split; [left; reflexivity|auto]|].
    destruct (path_dec q (pending_path L t)) as [->|N2]; [left; exists t; split; [left; reflexivity|auto]|].
    destruct IH as [[t' [A B]]|IH]; [left; exists t'; split; [right; exact A|exact B]|].
    right. intros t' [<-|H]; auto. }
  destruct Dec as [X|X]; [left; exact X|]. right. destruct (T3 q X) as [Y|[P [Y Z]]]; [contradiction|].
  split; [exact Y|]. split; [exact Z|]. exact P.
Qed.

Lemma worker_results_some ps rs : worker_results L ps = Some rs ->
  exists as_, ps = map (fun a => Ret a) as_ /\
    rs = fold_right (fun a r => tb <- fst a ;; tbs <- r ;; Ok (tb :: tbs)) (Ok []) as_.
Proof.
  revert rs. induction ps as [|p ps IH]; intros rs H; cbn [worker_results] in H.
  - exists []. split; [reflexivity|]. cbn. congruence.
  - destruct p as [[r g']|q k|e k]; try discriminate.
    destruct (worker_results L ps) as [rs'|] eqn:E; [|discriminate].
    destruct (IH rs' eq_refl) as [as_ [H1 H2]]. exists ((r, g') :: as_). cbn [map fold_right fst].
    split; [congruence|]. rewrite <- H2. congruence.
Qed.

Hypothesis Hcomp : computable L seed d g ts.

Lemma workers_finish schedule d' ps rs :
  interleave schedule d (workers L ts seed nows g) = (d', ps) -> worker_results L ps = Some rs ->
  usable L ts d' /\ only_adds_directories L ts d d' /\
  exists tbs, rs = Ok tbs /\ Forall2 (answers L seed d g) ts tbs /\
    Forall2 (fun t tb => has_result L t d tb /\ stat d' (out_of L t) = stat d (out_of L t) /\
                         stat d' (pending_path L t) = stat d (pending_path L t) \/
                         no_result L t d /\ done_with L t tb d') ts tbs.
Proof.
  intros E W.
  destruct (interleave_safe L ts sep legals post schedule d _ d' ps (usable_inv _ _ _ Us) workers_length workers_safe E)
    as [T [Hl S]].
  split; [apply together_usable; exact T|]. split; [apply together_only; exact T|].
  destruct (worker_results_some ps rs W) as [as_ [-> ->]]. rewrite map_length in Hl.
  assert (Ev : forall i t a, nth_error ts i = Some t -> nth_error as_ i = Some a ->
            evaluated L t seed (nows i) g d a d').
  { intros i t a Hi Ha.
    assert (Hp : nth_error (map (fun a => Ret a) as_) i = Some (Ret a)) by (rewrite nth_error_map, Ha; reflexivity).
    specialize (S i t (Ret a) Hi Hp). cbn [safe] in S. specialize (S d' (rely_refl _ _ _ d' (proj1 T))).
    apply S. exact Hi. }
  clear S T W E Us.
  assert (Gen : forall l as' k, length as' = length l -> (forall t, In t l -> In t ts) ->
    (forall i t a, nth_error l i = Some t -> nth_error as' i = Some a -> evaluated L t seed (nows (k + i)%nat) g d a d') ->
    exists tbs, fold_right (fun a r => tb <- fst a ;; tbs <- r ;; Ok (tb :: tbs)) (Ok []) as' = Ok tbs /\
      Forall2 (answers L seed d g) l tbs /\
      Forall2 (fun t tb => has_result L t d tb /\ stat d' (out_of L t) = stat d (out_of L t) /\
                         stat d' (pending_path L t) = stat d (pending_path L t) \/
                         no_result L t d /\ done_with L t tb d') l tbs).
  { induction l as [|t l IH]; intros as' k Hlen Hin H; destruct as' as [|a as']; try discriminate.
    - exists []. cbn. split; [reflexivity|]. split; constructor.
    - destruct (IH as' (S k)) as [tbs [E1 [E2 E3]]].
      + cbn in Hlen. lia.
      + intros t' Ht'. apply Hin. right. exact Ht'.
      + intros i t' a' Hi Ha. specialize (H (S i) t' a' Hi Ha). rewrite Nat.add_succ_r in H. exact H.
      + specialize (H O t a eq_refl eq_refl). rewrite Nat.add_0_r in H.
        destruct H as [[tb [R [Ea [S1 S2]]]]|[N H]].
        * exists (tb :: tbs). cbn [fold_right]. rewrite E1, Ea. cbn [fst bind]. split; [reflexivity|].
          split; constructor; auto. left. exact R.
        * destruct (Hcomp t (Hin t (or_introl eq_refl))) as [tb [R|[_ [row [Er ->]]]]]; [exfalso; exact (N _ R)|].
          destruct (compute_row L t seed g) as [r g'] eqn:Ec. cbn [fst] in Er. subst r. destruct H as [Ea D].
          exists ([row] :: tbs). cbn [fold_right]. rewrite E1, Ea. cbn [fst bind]. split; [reflexivity|].
          split; constructor; auto. right. split; [exact N|]. exists row. rewrite Ec. auto. }
  apply (Gen ts as_ O Hl); auto.
Qed.

Lemma all_results_read rest : forall nows' g' d' tbs, Forall2 (fun t tb => has_result L t d' tb) rest tbs ->
  finish (evaluate_all L rest seed nows' g') d' = ((Ok tbs, g'), d').
Proof.
  induction rest as [|t rest IH]; intros nows' g' d' tbs H; inversion H as [|? tb ? tbs' H1 H2]; subst.
  - reflexivity.
  - cbn [evaluate_all]. rewrite finish_pbind, (result_finish L t seed (nows' O) g' d' tb H1). cbn [fst snd].
    rewrite finish_pbind, (IH _ _ _ _ H2). reflexivity.
Qed.
End Parallel.

(** Any schedule can be continued until all programs are finished. *)
Section Schedules.
Context {A : Type}.
Lemma interleave_app s1 s2 : forall d (ps : list (prog A)),
  interleave (s1 ++ s2) d ps = (let '(d', ps') := interleave s1 d ps in interleave s2 d' ps').
Proof.
  induction s1 as [|i s1 IH]; intros d ps; [reflexivity|]. cbn [app interleave].
  destruct (nth_error ps i) as [p|]; [|apply IH]. destruct (advance d p). apply IH.
Qed.
Lemma set_nth_same {B} i (x : B) l : nth_error l i = Some x -> set_nth i x l = l.
Proof. revert i. induction l as [|y l IH]; intros [|i] H; cbn in *; try discriminate; [congruence|]. rewrite IH; auto. Qed.
Lemma set_nth_set_nth {B} i (x y : B) l : set_nth i x (set_nth i y l) = set_nth i x l.
Proof. revert i. induction l as [|z l IH]; intros [|i]; cbn; auto. rewrite IH. reflexivity. Qed.

Lemma run_one i : forall (p : prog A) d ps, nth_error ps i = Some p ->
  exists n d' a, interleave (repeat i n) d ps = (d', set_nth i (Ret a) ps).
Proof.
  induction p as [a|q k IH|e k IH]; intros d ps H.
  - exists O, d, a. cbn. rewrite set_nth_same; auto.
  - assert (Hl : (i < length ps)%nat) by (apply nth_error_Some; congruence).
    destruct (IH (stat d q) d (set_nth i (k (stat d q)) ps)) as [n [d' [a E]]]; [apply nth_error_set_nth; exact Hl|].
    exists (S n), d', a. cbn [repeat interleave]. rewrite H. cbn [advance]. rewrite E, set_nth_set_nth. reflexivity.
  - assert (Hl : (i < length ps)%nat) by (apply nth_error_Some; congruence).
    destruct (run_effect d e) as [w1|x] eqn:R.
    + destruct (IH (Ok tt) w1 (set_nth i (k (Ok tt)) ps)) as [n [d' [a E]]]; [apply nth_error_set_nth; exact Hl|].
      exists (S n), d', a. cbn [repeat interleave]. rewrite H. cbn [advance]. rewrite R, E, set_nth_set_nth. reflexivity.
    + destruct (IH (Err x) d (set_nth i (k (Err x)) ps)) as [n [d' [a E]]]; [apply nth_error_set_nth; exact Hl|].
      exists (S n), d', a. cbn [repeat interleave]. rewrite H. cbn [advance]. rewrite R, E, set_nth_set_nth. reflexivity.
Qed.

Lemma run_rest : forall m (ps : list (prog A)) d, (m <= length ps)%nat ->
  exists s d' as_, interleave s d ps = (d', map (fun a => Ret a) as_ ++ skipn m ps) /\ length as_ = m.
Proof.
  induction m as [|m IH]; intros ps d H.
  - exists [], d, []. split; reflexivity.
  - destruct (IH ps d ltac:(lia)) as [s [d' [as_ [E L]]]].
    destruct (nth_error ps m) as [p|] eqn:Hp; [|apply nth_error_None in Hp; lia].
    assert (Sk : skipn m ps = p :: skipn (S m) ps).
    { clear -Hp. revert ps Hp. induction m as [|m IH]; intros [|x ps] Hp; try discriminate.
      - cbn in *. congruence.
      - cbn [skipn]. apply IH. exact Hp. }
    rewrite Sk in E.
    assert (Hq : nth_error (map (fun a => Ret a) as_ ++ p :: skipn (S m) ps) m = Some p).
    { rewrite nth_error_app2; rewrite map_length, L; [|lia]. rewrite Nat.sub_diag. reflexivity. }
    destruct (run_one m p d' _ Hq) as [n [d2 [a E2]]].
    exists (s ++ repeat m n), d2, (as_ ++ [a]). split; [|rewrite app_length; cbn; lia].
    rewrite interleave_app, E, E2. f_equal. rewrite map_app, <- app_assoc. cbn [map app].
    clear -L. generalize (skipn (S m) ps). intros l. subst m.
    induction as_ as [|b as_ IH]; cbn; [reflexivity|]. f_equal. exact IH.
Qed.

Lemma run_to_end (ps : list (prog A)) d : exists s d' as_, interleave s d ps = (d', map (fun a => Ret a) as_).
Proof.
  destruct (run_rest (length ps) ps d (le_n _)) as [s [d' [as_ [E L]]]]. exists s, d', as_.
  rewrite skipn_all, app_nil_r in E. exact E.
Qed.
End Schedules.

Lemma worker_results_ret L as_ : exists rs, worker_results L (map (fun a => Ret a) as_) = Some rs.
Proof.
  induction as_ as [|[r g] as_ [rs IH]]; cbn [map worker_results]; [eauto|]. rewrite IH. eauto.
Qed.

(** ** The trials of a design *)

Lemma mapM_ok {A B} (f : A -> result B) l r : mapM f l = Ok r -> Forall2 (fun x y => f x = Ok y) l r.
Proof.
  revert r. induction l as [|x l IH]; intros r H; cbn [mapM] in H.
  - assert (r = []) by congruence. subst. constructor.
  - destruct (f x) as [y|] eqn:E; cbn [bind] in H; [|discriminate].
    destruct (mapM f l) as [ys|] eqn:E2; cbn [bind] in H; [|discriminate].
    assert (r = y :: ys) by congruence. subst. constructor; auto.
Qed.

Lemma kw_replace_spec kw key v : NoDup (map fst kw) ->
  Forall2 (fun x y => fst x = fst y /\ (fst x = key -> snd y = v) /\ (fst x <> key -> snd y = snd x)) kw (kw_replace kw key v).
Proof.
  induction kw as [|[k u] kw IH]; cbn [kw_replace map fst]; intros N; [constructor|].
  inversion N as [|? ? N1 N2]; subst. destruct (String.eqb key k) eqn:E.
  - apply String.eqb_eq in E. subst k. constructor; [cbn; intuition congruence|].
    assert (G : forall l : kwargs, ~ In key (map fst l) -> Forall2 (fun x y => fst x = fst y /\ (fst x = key -> snd y = v) /\ (fst x <> key -> snd y = snd x)) l l).
    { induction l as [|[k u'] l IHl]; intros Nl; constructor.
      - cbn. split; [reflexivity|]. split; [|reflexivity]. intros ->. exfalso. apply Nl. left. reflexivity.
      - apply IHl. intros X. apply Nl. right. exact X. }
    apply G. exact N1.
  - apply String.eqb_neq in E. constructor; [cbn; intuition congruence|]. apply IH. exact N2.
Qed.

Lemma update_adapted desc d desc' : NoDup (map fst (ep_test_kwargs (td_experiment desc))) ->
  update_descriptor desc d = Ok desc' -> adapted d desc desc'.
Proof.
  intros N E. unfold update_descriptor, update_system in E. unfold adapted.
  destruct (sp_fractions_generator (td_system desc)) as [f|].
  - destruct (f d) as [fr|] eqn:Ef; cbn [bind] in E; [|discriminate].
    assert (X : desc' = {| td_strategy := td_strategy desc;
      td_system := {| sp_fractions := fr; sp_ll := sp_ll (td_system desc); sp_generator := sp_generator (td_system desc);
                      sp_fractions_generator := None |};
      td_experiment := update_experiment (td_experiment desc) d |}) by congruence.
    subst desc'. cbn. repeat (split; [reflexivity|]). apply kw_replace_spec. exact N.
  - cbn [bind] in E.
    assert (X : desc' = {| td_strategy := td_strategy desc;
      td_system := {| sp_fractions := sp_fractions (td_system desc); sp_ll := sp_ll (td_system desc);
                      sp_generator := sp_generator (td_system desc); sp_fractions_generator := None |};
      td_experiment := update_experiment (td_experiment desc) d |}) by congruence.
    subst desc'. cbn. repeat (split; [reflexivity|]). apply kw_replace_spec. exact N.
Qed.

Lemma Forall2_app' {A B} (R : A -> B -> Prop) a b a' b' : Forall2 R a b -> Forall2 R a' b' -> Forall2 R (a ++ a') (b ++ b').
Proof. intros H. induction H; cbn; auto. Qed.

Lemma all_trials x all : dictionaries x -> mapM (experiment_trials x) (dd_names (xd_data x)) = Ok all ->
  Forall2 (fun nd t => trial_for x (fst nd) (snd nd) t)
          (list_prod (dd_names (xd_data x)) (xd_descriptors x)) (concat all).
Proof.
  intros D H. apply mapM_ok in H. induction H as [|n ts ns all H1 H2 IH]; [constructor|].
  cbn [list_prod concat]. apply Forall2_app'; [|exact IH]. unfold experiment_trials in H1. apply mapM_ok in H1.
  unfold dictionaries in D. revert D H1. clear. generalize (xd_descriptors x). intros l D H1.
  revert D. induction H1 as [|desc t descs ts E H1 IH1]; intros D; [constructor|].
  cbn [map]. constructor; [|apply IH1; intros q Hq; apply D; right; exact Hq]. cbn [fst snd].
  destruct (dd_by_name (xd_data x) n) as [d|] eqn:Ed; cbn [bind] in E; [|discriminate].
  destruct (update_descriptor desc d) as [desc'|] eqn:Eu; cbn [bind] in E; [|discriminate].
  assert (X : t = {| tr_experiment_dir := xd_dir x; tr_design := xd_data x; tr_data_set := n; tr_descriptor := desc';
     tr_analysis := xd_analysis x |}) by congruence.
  subst t. unfold trial_for. cbn. repeat (split; [reflexivity|]). exists d. split; [exact Ed|].
  apply update_adapted; [apply D; left; reflexivity|exact Eu].
Qed.

Section Dedup.
Variable L : lab.
Notation name := (trial_name L).

Lemma existsb_name t seen : existsb (String.eqb (name t)) seen = true <-> In (name t) seen.
Proof.
  rewrite existsb_exists. split.
  - intros [x [H E]]. apply String.eqb_eq in E. congruence.
  - intros H. exists (name t). split; [exact H|apply String.eqb_refl].
Qed.

Lemma dedup_spec all : forall seen,
  let ts := remove_duplicates L seen all in
  part_of ts all /\ NoDup (map name ts) /\ (forall t, In t ts -> ~ In (name t) seen) /\
  (forall t, In t all -> In (name t) seen \/ exists t', In t' ts /\ name t' = name t) /\
  (forall t, In t ts -> exists l1 l2, all = l1 ++ t :: l2 /\ forall u, In u l1 -> name u <> name t).
Proof.
  induction all as [|t all IH]; intros seen; cbv zeta; cbn [remove_duplicates].
  - split; [constructor|]. split; [constructor|]. split; [intros t []|]. split; [intros t []|intros t []].
  - destruct (existsb (String.eqb (name t)) seen) eqn:E.
    + apply existsb_name in E. destruct (IH seen) as [P [N [S [C Fi]]]].
      split; [constructor; exact P|]. split; [exact N|]. split; [exact S|]. split.
      * intros u [<-|Hu]; [left; exact E|]. apply C. exact Hu.
      * intros u Hu. destruct (Fi u Hu) as [l1 [l2 [-> Hl]]]. exists (t :: l1), l2. split; [reflexivity|].
        intros v [<-|Hv]; [|auto]. intros X. apply (S u Hu). rewrite <- X. exact E.
    + assert (E' : ~ In (name t) seen) by (intros X; apply existsb_name in X; congruence).
      destruct (IH (name t :: seen)) as [P [N [S [C Fi]]]].
      split; [constructor; exact P|]. split.
      { cbn [map]. constructor; [|exact N]. intros X. apply in_map_iff in X. destruct X as [u [Eu Hu]].
        apply (S u Hu). left. auto. }
      split. { intros u [<-|Hu]; [exact E'|]. intros X. apply (S u Hu). right. exact X. }
      split.
      * intros u [<-|Hu]; [right; exists t; split; [left; reflexivity|reflexivity]|].
        destruct (C u Hu) as [[X|X]|[t' [H1 H2]]]; [right; exists t; split; [left; reflexivity|exact X]|left; exact X|].
        right. exists t'. split; [right; exact H1|exact H2].
      * intros u [<-|Hu]; [exists [], all; split; [reflexivity|intros v []]|].
        destruct (Fi u Hu) as [l1 [l2 [-> Hl]]]. exists (t :: l1), l2. split; [reflexivity|].
        intros v [<-|Hv]; [|auto]. intros X. apply (S u Hu). left. exact X.
Qed.

(** Names tell data sets and settings apart. *)
Lemma name_same t t' : prints_floats (lab_float L) ->
  ~ In ":"%char (chars (tr_data_set t)) -> ~ In ":"%char (chars (tr_data_set t')) ->
  plain_descriptor (lab_float L) (tr_descriptor t) -> plain_descriptor (lab_float L) (tr_descriptor t') ->
  (name t = name t' <-> same_trial t t').
Proof.
  intros PF C C' P P'. unfold name, same_trial. rewrite <- (descriptor_same _ PF _ _ P P'). split.
  - intros E. apply str_inj in E. change (chars "::") with (":"%char :: [":"%char]) in E. cbn [app] in E.
    assert (X : split_on ":" (chars (tr_data_set t) ++ ":"%char :: ":"%char :: show_descriptor (lab_float L) (tr_descriptor t)) =
                split_on ":" (chars (tr_data_set t') ++ ":"%char :: ":"%char :: show_descriptor (lab_float L) (tr_descriptor t')))
      by (rewrite E; reflexivity).
    rewrite !split_on_app in X by auto.
    assert (Y : chars (tr_data_set t) = chars (tr_data_set t')) by congruence.
    split; [apply chars_inj; exact Y|]. rewrite Y in E. apply app_inv_head in E. congruence.
  - intros [-> ->]. reflexivity.
Qed.
Lemma name_apart t t' : tells_floats_apart (lab_float L) ->
  ~ In ":"%char (chars (tr_data_set t)) -> ~ In ":"%char (chars (tr_data_set t')) ->
  plain_descriptor (lab_float L) (tr_descriptor t) -> plain_descriptor (lab_float L) (tr_descriptor t') ->
  name t = name t' -> same_trial t t'.
Proof.
  intros PF C C' P P' E. unfold name in E. apply str_inj in E.
  change (chars "::") with (":"%char :: [":"%char]) in E. cbn [app] in E.
  assert (X : split_on ":" (chars (tr_data_set t) ++ ":"%char :: ":"%char :: show_descriptor (lab_float L) (tr_descriptor t)) =
              split_on ":" (chars (tr_data_set t') ++ ":"%char :: ":"%char :: show_descriptor (lab_float L) (tr_descriptor t')))
    by (rewrite E; reflexivity).
  rewrite !split_on_app in X by auto.
  assert (Y : chars (tr_data_set t) = chars (tr_data_set t')) by congruence.
  split; [apply chars_inj; exact Y|]. apply (descriptor_apart _ PF _ _ P P').
  rewrite Y in E. apply app_inv_head in E. congruence.
Qed.
End Dedup.
