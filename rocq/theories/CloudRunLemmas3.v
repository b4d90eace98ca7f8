(** Runs on cloud storage: several attempts, the end of a run, runs one after the other. *)
From Coq Require Import String Ascii Permutation Sorted.
From Verif Require Import Prelude ModelReachPoint ModelData ModelAggregator ModelFiles SpecData SpecFiles
  DataLemmas FilesLemmas FilesLemmas2 FilesLemmas3 ModelHalo ModelDriver SpecDriver DriverLemmas DriverLemmas4 DriverLemmas8
  ModelExecute SpecExecute ExecuteLemmas
  ModelCloud SpecCloud CloudLemmas CloudLemmas2 CloudLemmas3 CloudLemmas4 ModelCloudRun SpecCloudRun CloudRunLemmas CloudRunLemmas2.
From Verif Require PropsDriver3.
Open Scope Z_scope.

Lemma used_ok {L : lab} attempts (ps : list (cprog (result table * generators L))) used l : forall i rs,
  (forall k tb r g', nth_error l k = Some tb -> nth_error attempts (used (i + k)%nat) = Some (i + k)%nat ->
     nth_error ps (used (i + k)%nat) = Some (CRet (r, g')) -> r = Ok tb) ->
  used_results L attempts ps used i (length l) = Some rs ->
  rs = Ok l /\ forall k, (k < length l)%nat -> nth_error attempts (used (i + k)%nat) = Some (i + k)%nat /\
    exists r g', nth_error ps (used (i + k)%nat) = Some (CRet (r, g')).
Proof.
  induction l as [|tb l IH]; intros i rs H E; cbn [length used_results] in E.
  - injection E as <-. split; [reflexivity|]. intros k Hk. cbn [length] in Hk. lia.
  - destruct (nth_error attempts (used i)) as [j|] eqn:Ea; [|discriminate E].
    destruct (nth_error ps (used i)) as [p|] eqn:Ep; [|discriminate E]. destruct p as [[r g']| |]; try discriminate E.
    destruct (j =? i)%nat eqn:Ej; [|discriminate E]. apply Nat.eqb_eq in Ej. subst j.
    destruct (used_results L attempts ps used (S i) (length l)) as [rs'|] eqn:E'; [|discriminate E].
    destruct (IH (S i) rs') as [-> H2]; [|exact E'|].
    { intros k tb' r' g'' X Y Z. replace (S i + k)%nat with (i + S k)%nat in * by lia. exact (H (S k) tb' r' g'' X Y Z). }
    assert (r = Ok tb) as ->.
    { apply (H O tb r g' eq_refl); rewrite Nat.add_0_r; assumption. }
    cbn [bind] in E. injection E as <-. split; [reflexivity|]. intros [|k] Hk.
    + rewrite Nat.add_0_r. split; [exact Ea|]. exists (Ok tb), g'. exact Ep.
    + cbn [length] in Hk. specialize (H2 k ltac:(lia)). replace (S i + k)%nat with (i + S k)%nat in H2 by lia. exact H2.
Qed.
Lemma used_ends {L : lab} attempts (ps : list (cprog (result table * generators L))) used n : forall i,
  (forall k, (i <= k < i + n)%nat -> nth_error attempts (used k) = Some k /\ exists a, nth_error ps (used k) = Some (CRet a)) ->
  exists rs, used_results L attempts ps used i n = Some rs.
Proof.
  induction n as [|n IH]; intros i H; cbn [used_results]; [eexists; reflexivity|].
  destruct (H i ltac:(lia)) as [E1 [[r g'] E2]]. rewrite E1, E2, Nat.eqb_refl.
  destruct (IH (S i)) as [rs ->]; [intros k Hk; apply H; lia|]. eexists. reflexivity.
Qed.
(** If one of those used has failed, there is an error. *)
Lemma used_fails {L : lab} attempts (ps : list (cprog (result table * generators L))) used n : forall i j rs,
  (i <= j < i + n)%nat -> (forall r g', nth_error attempts (used j) = Some j ->
     nth_error ps (used j) = Some (CRet (r, g')) -> exists e, r = Err e) ->
  used_results L attempts ps used i n = Some rs -> exists e, rs = Err e.
Proof.
  induction n as [|n IH]; intros i j rs Hj H E; [lia|]. cbn [used_results] in E.
  destruct (nth_error attempts (used i)) as [k|] eqn:Ea; [|discriminate E].
  destruct (nth_error ps (used i)) as [p|] eqn:Ep; [|discriminate E]. destruct p as [[r g']| |]; try discriminate E.
  destruct (k =? i)%nat eqn:Ek; [|discriminate E]. apply Nat.eqb_eq in Ek. subst k.
  destruct (used_results L attempts ps used (S i) n) as [rs'|] eqn:E'; [|discriminate E]. injection E as <-.
  destruct (Nat.eq_dec i j) as [->|D].
  - destruct (H r g' Ea Ep) as [e ->]. exists e. reflexivity.
  - destruct (IH (S i) j rs') as [e ->]; [lia|exact H|exact E'|]. destruct r as [tb|e']; cbn [bind]; eexists; reflexivity.
Qed.

Section Run.
Variable L : lab.
Variable dr : driver L.
Notation seed := (dr_seed L dr).
Variable g : generators L.
Variables local data : string.
Variable ts : list trial.
Hypothesis Sane : cloud_trials L local ts.
Hypothesis Back : reads_back L seed g ts.
Variable xs : list path.
Notation R := (results_object L (to_path local)).
Notation M := (marker_object L (to_path local)).
Notation usable_now := (cloud_usable L (to_path local) ts).
Notation touches := (cloud_touches L seed g (to_path local) ts xs).
Notation answer := (result table * generators L)%type.
Notation answers := (cloud_answers L seed (to_path local)).
Notation stored := (stored L local).
Notation free := (free xs).
Variable tbs : list table.
Notation kept := (kept L seed g local ts xs (concat tbs)).
Hypothesis Clear : forall x, In x xs -> forall t, In t ts ->
  ~ within x (R t) /\ ~ within x (M t) /\ ~ within (R t) x /\ ~ within (M t) x.
Hypothesis Single : forall x y, In x xs -> In y xs -> within x y -> y = x.
Hypothesis Deep : forall x, In x xs -> (2 <= length (snd x))%nat.

(** ** Several attempts *)

Lemma has_jobs nows attempts : (forall i, In i attempts -> (i < length ts)%nat) ->
  exists jobs, attempt_programs L ts seed nows g attempts = map (start seed) jobs /\ length jobs = length attempts /\
    (forall k i, nth_error attempts k = Some i -> exists t now, nth_error ts i = Some t /\
       nth_error jobs k = Some {| jb_trial := t; jb_now := now; jb_generators := g |}) /\
    (forall j, In j jobs -> In (jb_trial j) ts /\ jb_generators j = g).
Proof.
  intros H. unfold attempt_programs. generalize O.
  induction attempts as [|i attempts IH]; intros n.
  - exists []. split; [reflexivity|]. split; [reflexivity|]. split; [intros [|k] i X; discriminate X|intros j []].
  - destruct (IH (fun k X => H k (or_intror X)) (S n)) as [jobs [E1 [E2 [E3 E4]]]].
    destruct (nth_error ts i) as [t|] eqn:Et; [|exfalso; apply nth_error_None in Et; specialize (H i (or_introl eq_refl)); lia].
    exists ({| jb_trial := t; jb_now := nows n; jb_generators := g |} :: jobs). cbn [length seq combine map fst snd].
    rewrite Et, E1. split; [reflexivity|]. split; [rewrite E2; reflexivity|]. split.
    + intros [|k] i' X; cbn [nth_error] in *; [|exact (E3 k i' X)]. injection X as <-. exists t, (nows n). split; [exact Et|reflexivity].
    + intros j [<-|J]; [|exact (E4 j J)]. cbn [jb_trial jb_generators]. split; [exact (nth_error_In _ _ Et)|reflexivity].
Qed.

(** What any number of attempts leave, and what those that have ended give. *)
Lemma attempts_leave nows attempts schedule o : (forall i, In i attempts -> (i < length ts)%nat) ->
  usable_now o -> free o -> readable L local ts o ->
  let '(o', ps) := cloud_interleave schedule o (attempt_programs L ts seed nows g attempts) in
  kept o o' /\ length ps = length attempts /\
  (forall k i t r g', nth_error attempts k = Some i -> nth_error ts i = Some t -> nth_error ps k = Some (CRet (r, g')) ->
     r = expected L (to_path local) o (fun t => fst (compute_row L t seed g)) t /\
     (forall tb, r = Ok tb -> stored o' t tb)) /\
  (forall k, (k < length attempts)%nat -> (8 <= count_occ Nat.eq_dec schedule k)%nat -> exists a, nth_error ps k = Some (CRet a)) /\
  ((forall k, (k < length attempts)%nat -> exists a, nth_error ps k = Some (CRet a)) ->
   forall t, In t ts -> obj_find o (R t) = None -> obj_find o' (R t) <> None -> obj_find o' (M t) = None).
Proof.
  intros Ha U F Rd. destruct (has_jobs nows attempts Ha) as [jobs [E1 [E2 [E3 E4]]]]. rewrite E1.
  assert (J : forall j, In j jobs -> In (jb_trial j) ts /\
    fst (compute_row L (jb_trial j) seed (jb_generators j)) = fst (compute_row L (jb_trial j) seed g)).
  { intros j Ij. destruct (E4 j Ij) as [H1 H2]. rewrite H2. split; [exact H1|reflexivity]. }
  pose proof (attempts_safe L local ts Sane seed (fun t => fst (compute_row L t seed g)) o Rd Back jobs J U schedule) as H.
  destruct (interleave_phases L local ts Sane seed (fun t => fst (compute_row L t seed g)) o Rd Back jobs J schedule o
    (map (start seed) jobs) (fun _ => (8%nat, false))) as [phs P].
  { apply start_sound. exact U. }
  { split; [apply map_length|]. intros i j p Ej Ep. rewrite nth_error_map, Ej in Ep. injection Ep as <-. apply ph_start. }
  { intros t I N [c X]. unfold has in X. congruence. }
  destruct (cloud_interleave schedule o (map (start seed) jobs)) as [o' ps]. destruct P as [So [[Len _] _]].
  destruct H as [_ [_ [_ [_ [H5 [H6 H7]]]]]]. rewrite E2 in *.
  split; [apply sound_kept; assumption|]. split; [exact Len|]. split; [|split].
  - intros k i t r g' Ek Et Ep. destruct (E3 k i Ek) as [t' [now [Et' Ej]]]. assert (t' = t) as -> by congruence.
    destruct (H5 k _ r g' Ej Ep) as [X Y]. cbn [jb_trial] in *. split; [exact X|]. exact Y.
  - exact H6.
  - intros X t I N H. destruct (obj_find o' (R t)) as [c|] eqn:E; [|contradiction]. exact (H7 X t c I N E).
Qed.

(** ** The end of a run *)

Lemma usable_place o x c : In x xs -> usable_now o -> usable_now (obj_put o x c).
Proof.
  intros I [N H]. split; [apply obj_put_nodup; exact N|]. intros t q m It J. apply obj_put_in in J; [|exact N].
  destruct J as [[-> _]|[_ J]]; [|exact (H t q m It J)]. destruct (Clear x I t It) as [_ [_ [C1 C2]]].
  split; intros W; exfalso; [exact (C1 W)|exact (C2 W)].
Qed.
Lemma kept_place o x tb : In x xs -> Permutation tb (concat tbs) -> usable_now o -> free o -> kept o (obj_put o x (lab_print L tb)).
Proof.
  intros I P U F. assert (U' := usable_place o x (lab_print L tb) I U).
  assert (T : touches o (obj_put o x (lab_print L tb))).
  { split.
    - intros t It. destruct (Clear x I t It) as [C1 [C2 _]].
      rewrite !obj_find_put, !other_key; [|intros <-; apply C2, within_refl|intros <-; apply C1, within_refl].
      destruct (obj_find o (R t)); auto.
    - intros q _ Hq. rewrite obj_find_put, other_key; [reflexivity|]. intros ->. exact (Hq I). }
  split; [exact U'|]. split; [exact (touches_free L seed g local ts xs Clear Single o _ U U' F T)|]. split; [exact T|].
  intros y _. rewrite obj_find_put. destruct (path_eqb y x); [right; exists tb; split; [exact P|reflexivity]|left; reflexivity].
Qed.
Lemma place_stat o x : In x xs -> free o -> cloud_stat o x = match obj_find o x with Some c => Some (File c) | None => None end.
Proof. intros I F. apply below_none; [apply Deep; exact I|]. intros q c J W. exact (F x q c I J W). Qed.

Lemma finish_write {A} o x c (k : result unit -> cprog A) : In x xs -> free o ->
  cloud_finish (write_object x c k) o = cloud_finish (k (Ok tt)) (obj_put o x c).
Proof.
  intros I F. unfold write_object. cbn [cloud_finish]. rewrite (place_stat o x I F). destruct (obj_find o x); reflexivity.
Qed.
Lemma along_write {A} (K : objects -> Prop) o x c (k : result unit -> cprog A) : In x xs -> free o -> K o ->
  along K (k (Ok tt)) (obj_put o x c) -> along K (write_object x c k) o.
Proof.
  intros I F H1 H2. unfold write_object. cbn [along]. split; [exact H1|]. rewrite (place_stat o x I F).
  destruct (obj_find o x); cbn [along]; split; assumption.
Qed.

Variable out : path.
Hypothesis Out : cloud_path (dr_output L dr) = Ok out.
Hypothesis Iout : In out xs.

Lemma report_ends o tb : Permutation tb (concat tbs) -> usable_now o -> free o ->
  cloud_finish (cloud_report L dr tb) o = (Ok tb, obj_put o out (lab_print L tb)) /\
  along (kept o) (cloud_report L dr tb) o.
Proof.
  intros P U F. unfold cloud_report. rewrite Out. split; [rewrite finish_write by assumption; reflexivity|].
  apply along_write; [exact Iout|exact F|apply kept_refl; assumption|]. cbn [along]. split; [apply kept_place; assumption|exact I].
Qed.

Lemma through_ends o x tb : Permutation tb (concat tbs) -> usable_now o -> free o -> In x xs -> lab_parse L (lab_print L tb) = Ok tb ->
  forall temp, cloud_temp temp = Ok x ->
  let f := cloud_finish (cloud_through_file L dr temp tb) o in
  fst f = Ok tb /\ obj_find (snd f) out = Some (lab_print L tb) /\ obj_find (snd f) x = Some (lab_print L tb) /\
  along (kept o) (cloud_through_file L dr temp tb) o.
Proof.
  intros P U F Ix Rd temp Et. cbv zeta. unfold cloud_through_file. rewrite Et, finish_write by assumption. cbn [cloud_finish].
  pose proof (kept_place o x tb Ix P U F) as K. pose proof K as [U1 [F1 _]].
  destruct (report_ends (obj_put o x (lab_print L tb)) tb P U1 F1) as [E1 E2].
  rewrite (place_stat _ x Ix F1), obj_find_put, same_key. cbn [parse_node]. rewrite Rd, E1. cbn [fst snd].
  split; [reflexivity|]. split; [rewrite obj_find_put, same_key; reflexivity|]. split.
  - rewrite !obj_find_put, same_key. destruct (path_eqb x out); reflexivity.
  - apply along_write; [exact Ix|exact F|apply kept_refl; assumption|]. cbn [along]. split; [exact K|].
    rewrite (place_stat _ x Ix F1), obj_find_put, same_key. cbn [parse_node]. rewrite Rd.
    apply (along_mono (kept (obj_put o x (lab_print L tb)))); [|exact E2]. intros o1. apply kept_trans. exact K.
Qed.

Hypothesis ne : ts <> [].
Hypothesis Un : unaffected L seed g ts.

Lemma tbs_len o : Forall2 (answers o g) ts tbs -> length tbs = length ts /\ tbs <> [].
Proof. intros A. apply Forall2_len in A. split; [symmetry; exact A|]. clear -ne A. intros ->. destruct ts; [contradiction|discriminate]. Qed.

Lemma in_order_ends o nows : usable_now o -> free o -> Forall2 (answers o g) ts tbs ->
  let p := cloud_in_order L dr ts nows g in
  fst (cloud_finish p o) = Ok (concat tbs) /\ obj_find (snd (cloud_finish p o)) out = Some (lab_print L (concat tbs)) /\
  Forall2 (stored (snd (cloud_finish p o))) ts tbs /\
  (forall t, In t ts -> obj_find o (R t) = None -> obj_find (snd (cloud_finish p o)) (M t) = None) /\
  along (kept o) p o.
Proof.
  intros U F A. cbv zeta. destruct (tbs_len o A) as [_ Ne].
  destruct (serial L seed g local ts Sane Back xs (concat tbs) Clear Single Un ts tbs [] g nows o) as [E1 [E2 [E3 E4]]]; auto.
  { eapply answers_readable; eassumption. }
  { intros t []. }
  unfold cloud_in_order. rewrite finish_cbind.
  set (a := cloud_finish (cloud_evaluate_all L ts seed nows g) o) in *.
  pose proof (along_end _ _ _ E2) as K. fold a in K. pose proof K as [U1 [F1 _]].
  rewrite E1. cbn [bind]. rewrite (concat_tables_ok tbs Ne).
  destruct (report_ends (snd a) (concat tbs) (Permutation_refl _) U1 F1) as [H1 H2]. rewrite H1. cbn [fst snd].
  pose proof (along_end _ _ _ H2) as K2. rewrite H1 in K2. cbn [snd] in K2.
  split; [reflexivity|]. split; [rewrite obj_find_put, same_key; reflexivity|]. split; [|split].
  - eapply Forall2_impl_In; [|exact E3]. intros t tb It _. apply (kept_stored L seed g local ts xs (concat tbs)); assumption.
  - intros t It N. rewrite obj_find_put, other_key; [exact (E4 t It N)|]. intros <-.
    destruct (Clear (M t) Iout t It) as [_ [C _]]. apply C, within_refl.
  - apply along_bind; [exact E2|]. fold a. rewrite E1. cbn [bind]. rewrite (concat_tables_ok tbs Ne).
    apply (along_mono (kept (snd a))); [|exact H2]. intros o1. apply kept_trans. exact K.
Qed.

(** What is kept while a run goes on, whatever comes of it. *)
Definition finished (o : objects) (tb : table) (ca : call) (f : result table * objects) : Prop :=
  fst f = Ok tb /\ Permutation tb (concat tbs) /\ (ca_beam ca = false -> tb = concat tbs) /\
  kept o (snd f) /\ Forall2 (stored (snd f)) ts tbs /\ obj_find (snd f) out = Some (lab_print L tb) /\
  (ca_beam ca = false -> forall t, In t ts -> obj_find o (R t) = None -> obj_find (snd f) (M t) = None).

Lemma all_results o o1 attempts ps used : Forall2 (answers o g) ts tbs ->
  (forall k i t r g', nth_error attempts k = Some i -> nth_error ts i = Some t -> nth_error ps k = Some (CRet (r, g')) ->
     r = expected L (to_path local) o (fun t => fst (compute_row L t seed g)) t /\ (forall tb, r = Ok tb -> stored o1 t tb)) ->
  forall rs, used_results L attempts ps used 0 (length ts) = Some rs ->
  rs = Ok tbs /\ Forall2 (stored o1) ts tbs /\ forall k, (k < length ts)%nat -> exists a, nth_error ps (used k) = Some (CRet a).
Proof.
  intros A H rs E. destruct (tbs_len o A) as [Len _]. rewrite <- Len in E.
  assert (G : forall k tb, nth_error tbs k = Some tb -> exists t, nth_error ts k = Some t /\ answers o g t tb).
  { clear -A. induction A as [|t tb l l' A1 A2 IH]; intros [|k] tb' X; cbn [nth_error] in *; try discriminate X; [|exact (IH k tb' X)].
    injection X as <-. exists t. split; [reflexivity|exact A1]. }
  destruct (used_ok attempts ps used tbs O rs) as [-> U]; [|exact E|].
  - intros k tb r g' X Y Z. cbn [Nat.add] in *. destruct (G k tb X) as [t [Et At]].
    destruct (H _ _ t r g' Y Et Z) as [-> _]. apply answers_expected. exact At.
  - split; [reflexivity|]. split.
    + assert (V : forall k t tb, nth_error ts k = Some t -> nth_error tbs k = Some tb -> stored o1 t tb).
      { intros k t tb Et Etb. destruct (U k) as [U1 [r [g' U2]]]; [apply nth_error_Some; congruence|]. cbn [Nat.add] in *.
        destruct (H _ _ t r g' U1 Et U2) as [Er Sr]. apply Sr. rewrite Er. destruct (G k tb Etb) as [t' [Et' At]].
        assert (t' = t) as -> by congruence. apply answers_expected. exact At. }
      clear -V Len. revert tbs Len V. induction ts as [|t l IH]; intros [|tb l'] Len V; try discriminate Len; constructor.
      * exact (V O t tb eq_refl eq_refl).
      * apply IH; [injection Len as Len; exact Len|]. intros k. exact (V (S k)).
    + intros k Hk. destruct (U k) as [_ [r [g' U2]]]; [lia|]. exists (r, g'). exact U2.
Qed.

Lemma begin_ends o ca c : usable_now o -> free o -> Forall2 (answers o g) ts tbs ->
  cloud_call_ok L ts xs (concat tbs) ca c ->
  let '(r, o1) := cloud_begin L dr ca c ts g o in
  kept o o1 /\
  match r with
  | None => True
  | Some r => exists p tb, r = Ok p /\ finished o tb ca (cloud_finish p o1) /\ along (kept o) p o1
  end.
Proof.
  intros U F A CO. pose proof (answers_readable _ _ _ _ _ _ _ A) as Rd. destruct (tbs_len o A) as [Len Ne]. unfold cloud_begin.
  destruct (ca_beam ca) eqn:B; [|destruct (ca_cores ca =? 1)].
  - destruct (CO B) as [C1 [C2 [C3 [x [C4 C5]]]]].
    pose proof (attempts_leave (cc_now c) (cc_attempts c) (cc_schedule c) o C1 U F Rd) as H.
    destruct (cloud_interleave _ o _) as [o1 ps]. destruct H as [K [_ [H _]]].
    destruct (used_results L (cc_attempts c) ps (cc_used c) 0 (length ts)) as [rs|] eqn:E; [|split; [exact K|exact I]].
    split; [exact K|]. destruct (all_results o o1 _ ps _ A H rs E) as [-> [St _]]. cbn [bind].
    destruct (PropsDriver3.C38_combine_any (cc_combine c tbs) tbs (C2 tbs) Ne) as [tb [Et Pt]]. rewrite Et. cbn [bind].
    pose proof K as [U1 [F1 _]].
    destruct (through_ends o1 x tb Pt U1 F1 C5 (C3 tb Pt) (ca_temp ca) C4) as [T1 [T2 [_ T4]]].
    exists (cloud_through_file L dr (ca_temp ca) tb), tb. split; [reflexivity|]. split.
    + split; [exact T1|]. split; [exact Pt|]. split; [congruence|].
      split; [apply (kept_trans L seed g local ts xs (concat tbs) o o1); [exact K|exact (along_end _ _ _ T4)]|].
      split; [|split; [exact T2|congruence]].
      eapply Forall2_impl_In; [|exact St]. intros t tb' It _. apply (kept_stored L seed g local ts xs (concat tbs)); [exact It|exact (along_end _ _ _ T4)].
    + apply (along_mono (kept o1)); [|exact T4]. intros o2. apply kept_trans. exact K.
  - split; [apply kept_refl; assumption|].
    destruct (in_order_ends o (cc_now c) U F A) as [E1 [E2 [E3 [E4 E5]]]].
    exists (cloud_in_order L dr ts (cc_now c) g), (concat tbs). split; [reflexivity|]. split; [|exact E5].
    split; [exact E1|]. split; [reflexivity|]. split; [reflexivity|]. split; [exact (along_end _ _ _ E5)|].
    split; [exact E3|]. split; [exact E2|]. intros _. exact E4.
  - assert (C1 : forall i, In i (seq 0 (length ts)) -> (i < length ts)%nat) by (intros i X; apply in_seq in X; lia).
    pose proof (attempts_leave (cc_now c) (seq 0 (length ts)) (cc_schedule c) o C1 U F Rd) as H.
    destruct (cloud_interleave _ o _) as [o1 ps]. destruct H as [K [Lp [H [_ Mk]]]].
    destruct (used_results L (seq 0 (length ts)) ps (fun i => i) 0 (length ts)) as [rs|] eqn:E; [|split; [exact K|exact I]].
    split; [exact K|]. destruct (all_results o o1 _ ps _ A H rs E) as [-> [St All]]. cbn [bind].
    pose proof K as [U1 [F1 _]].
    assert (A1 : Forall2 (answers o1 g) ts tbs).
    { eapply Forall2_impl_In; [|exact St]. intros t tb _ _ X. left. exact X. }
    destruct (in_order_ends o1 (cc_later c) U1 F1 A1) as [E1 [E2 [E3 [E4 E5]]]].
    exists (cloud_in_order L dr ts (cc_later c) g), (concat tbs). split; [reflexivity|]. split.
    + split; [exact E1|]. split; [reflexivity|]. split; [reflexivity|].
      pose proof (along_end _ _ _ E5) as K2.
      split; [apply (kept_trans L seed g local ts xs (concat tbs) o o1); assumption|].
      split; [exact E3|]. split; [exact E2|]. intros _ t It N.
      assert (S1 : exists tb, stored o1 t tb).
      { clear -St It. induction St as [|t0 tb0 l l' S0 S1 IH]; [destruct It|]. destruct It as [->|It]; [exists tb0; exact S0|exact (IH It)]. }
      destruct S1 as [tb [cc [Ec _]]]. destruct K2 as [_ [_ [[T _] _]]]. specialize (T t It). rewrite Ec in T. destruct T as [_ ->].
      apply (Mk); [|exact It|exact N|congruence]. intros k Hk. apply All. rewrite seq_length in Hk. exact Hk.
    + apply (along_mono (kept o1)); [|exact E5]. intros o2. apply kept_trans. exact K.
Qed.

(** ** Runs one after the other *)

Variable o0 : objects.
Hypothesis Ha : has_address data.
Hypothesis Ed : dr_data_design L dr = cloud_address data.
Hypothesis Hf : forall n, cloud_stat o0 (entry (to_path data) n) = Some Dir -> file_name n.
Hypothesis Ok0 : objects_ok o0.
Hypothesis P0 : cloud_prepare L dr o0 = Ok (ts, g).
Hypothesis Apart : cloud_apart L local data ts.
Hypothesis Outside : forall x, In x xs -> ~ within (to_path data) x.
Hypothesis A0 : Forall2 (answers o0 g) ts tbs.

Lemma prepared_again o : kept o0 o -> exists ts', cloud_prepare L dr o = Ok (ts', g) /\ Forall2 alike ts ts'.
Proof.
  intros [[N _] [_ [[_ T] _]]]. apply (cloud_prepare_again L dr data o0 o ts g); try assumption.
  intros q W _. apply T.
  - intros t It. destruct (Apart t It) as [B1 B2]. split; intros ->; [exact (B1 W)|exact (B2 W)].
  - intros I. exact (Outside q I W).
Qed.
Lemma answers_later o : kept o0 o -> Forall2 (answers o g) ts tbs.
Proof. intros K. eapply Forall2_impl_In; [|exact A0]. intros t tb It _. apply (kept_answers L seed g local ts Back xs (concat tbs)); assumption. Qed.

Lemma one_run o ca c : kept o0 o -> cloud_call_ok L ts xs (concat tbs) ca c ->
  (forall n, kept o0 (cloud_stopped_execute L dr ca c n o)) /\
  match cloud_execute L dr ca c o with
  | None => True
  | Some f => exists tb, finished o tb ca f
  end.
Proof.
  intros K CO. destruct (prepared_again o K) as [ts' [E Al]]. pose proof (answers_later o K) as A.
  pose proof K as [U [F _]]. unfold cloud_stopped_execute, cloud_execute. rewrite E.
  pose proof (begin_ends o ca c U F A CO) as H. pose proof (alike_cloud_begin L dr ca c ts ts' g o Al) as S.
  destruct (cloud_begin L dr ca c ts g o) as [r o1]. destruct (cloud_begin L dr ca c ts' g o) as [r' o1'].
  destruct S as [S1 S2]. cbn [fst snd] in S1, S2. subst o1'. destruct H as [K1 H].
  assert (K2 : kept o0 o1) by (apply (kept_trans L seed g local ts xs (concat tbs) o0 o); assumption).
  destruct r as [[p|e]|], r' as [[p'|e']|]; try contradiction.
  - destruct H as [p0 [tb [Ep [Fi Al1]]]]. injection Ep as <-. split.
    + intros n. rewrite (csame_steps n p p' o1 S2). apply (kept_trans L seed g local ts xs (concat tbs) o0 o); [exact K|]. apply along_steps. exact Al1.
    + rewrite (csame_finish p p' S2). exists tb. exact Fi.
  - destruct H as [p0 [tb [Ep _]]]. discriminate Ep.
  - split; [intros _; exact K2|exact I].
Qed.
Lemma past_kept l : forall o, kept o0 o -> Forall (fun a => cloud_call_ok L ts xs (concat tbs) (cp_call a) (cp_course a)) l ->
  kept o0 (cloud_after_past L dr o l).
Proof.
  induction l as [|a l IH]; intros o K H; [exact K|]. inversion H as [|? ? H1 H2]; subst. unfold cloud_after_past. cbn [fold_left].
  apply IH; [|exact H2]. apply (proj1 (one_run o (cp_call a) (cp_course a) K H1)).
Qed.

(** ** Enough requests *)
Lemma run_goes_on o ca c : kept o0 o -> cloud_call_ok L ts xs (concat tbs) ca c ->
  (ca_beam ca = true -> forall i, (i < length ts)%nat -> nth_error (cc_attempts c) (cc_used c i) = Some i /\
     (8 <= count_occ Nat.eq_dec (cc_schedule c) (cc_used c i))%nat) ->
  (ca_beam ca = false -> ca_cores ca <> 1 -> forall i, (i < length ts)%nat -> (8 <= count_occ Nat.eq_dec (cc_schedule c) i)%nat) ->
  cloud_execute L dr ca c o <> None.
Proof.
  intros K CO HB HP. destruct (prepared_again o K) as [ts' [E Al]]. pose proof (answers_later o K) as A.
  pose proof K as [U [F _]]. unfold cloud_execute. rewrite E. pose proof (answers_readable _ _ _ _ _ _ _ A) as Rd.
  pose proof (alike_cloud_begin L dr ca c ts ts' g o Al) as S.
  assert (X : fst (cloud_begin L dr ca c ts g o) <> None).
  { unfold cloud_begin. destruct (ca_beam ca) eqn:B; [|destruct (ca_cores ca =? 1) eqn:C].
    - destruct (CO B) as [C1 _].
      pose proof (attempts_leave (cc_now c) (cc_attempts c) (cc_schedule c) o C1 U F Rd) as H.
      destruct (cloud_interleave _ o _) as [o1 ps]. destruct H as [_ [_ [_ [H _]]]].
      destruct (used_ends (cc_attempts c) ps (cc_used c) (length ts) O) as [rs ->]; [|discriminate].
      intros k Hk. destruct (HB eq_refl k ltac:(lia)) as [H1 H2]. split; [exact H1|]. apply H; [|exact H2]. apply nth_error_Some. congruence.
    - discriminate.
    - assert (C1 : forall i, In i (seq 0 (length ts)) -> (i < length ts)%nat) by (intros i X; apply in_seq in X; lia).
      pose proof (attempts_leave (cc_now c) (seq 0 (length ts)) (cc_schedule c) o C1 U F Rd) as H.
      destruct (cloud_interleave _ o _) as [o1 ps]. destruct H as [_ [_ [_ [H _]]]].
      destruct (used_ends (seq 0 (length ts)) ps (fun i => i) (length ts) O) as [rs ->]; [|discriminate].
      intros k Hk. apply Z.eqb_neq in C. split; [|apply H; [rewrite seq_length; lia|apply HP; [reflexivity|exact C|lia]]].
      rewrite (nth_error_nth' _ O) by (rewrite seq_length; lia). rewrite seq_nth by lia. reflexivity. }
  destruct (cloud_begin L dr ca c ts g o) as [r o1]. destruct (cloud_begin L dr ca c ts' g o) as [r' o1'].
  destruct S as [_ S2]. cbn [fst snd] in *. destruct r as [[p|e]|], r' as [[p'|e']|]; try contradiction; discriminate.
Qed.
End Run.
