(** Runs on cloud storage that fail; the place of the temporary object. *)
From Coq Require Import String Ascii Permutation Sorted.
From Verif Require Import Prelude ModelReachPoint ModelData ModelAggregator ModelFiles SpecData SpecFiles
  DataLemmas FilesLemmas FilesLemmas2 FilesLemmas3 ModelHalo ModelDriver SpecDriver DriverLemmas DriverLemmas4 DriverLemmas8
  ModelExecute SpecExecute ExecuteLemmas
  ModelCloud SpecCloud CloudLemmas CloudLemmas2 CloudLemmas3 CloudLemmas4 ModelCloudRun SpecCloudRun CloudRunLemmas CloudRunLemmas2
  CloudRunLemmas3.
From Verif Require PropsDriver3.
Open Scope Z_scope.

Section Fails.
Variable L : lab.
Variable dr : driver L.
Notation seed := (dr_seed L dr).
Variable g : generators L.
Variable local : string.
Variable ts : list trial.
Hypothesis Sane : cloud_trials L local ts.
Notation R := (results_object L (to_path local)).
Notation M := (marker_object L (to_path local)).
Notation usable_now := (cloud_usable L (to_path local) ts).
Variable t : trial.
Hypothesis It : In t ts.
Hypothesis Bad : forall g', exists e, fst (compute_row L t seed g') = Err e.

Lemma serial_fails l : forall nows gg o, In t l -> (forall u, In u l -> In u ts) -> usable_now o -> obj_find o (R t) = None ->
  exists e, fst (fst (cloud_finish (cloud_evaluate_all L l seed nows gg) o)) = Err e.
Proof.
  induction l as [|u l IH]; intros nows gg o Hi Hl U N; [destruct Hi|]. cbn [cloud_evaluate_all]. rewrite finish_cbind.
  set (a := cloud_finish (cloud_evaluate L u seed (nows O) gg) o). assert (Iu : In u ts) by (apply Hl; left; reflexivity).
  assert (S : (exists e, fst (fst a) = Err e) \/ (u <> t /\ usable_now (snd a) /\ obj_find (snd a) (R t) = None)).
  { destruct (path_dec (R u) (R t)) as [X|X].
    - apply (R_inj L local ts Sane) in X; [|exact Iu|exact It]. subst u. left.
      pose proof (finish_evaluate L local ts Sane t seed (nows O) gg o It U) as H. cbv zeta in H. fold a in H.
      destruct H as [_ [_ H]]; [intros c tb Y; congruence|]. destruct (Bad gg) as [e E]. destruct (compute_row L t seed gg) as [r g'].
      cbn [fst] in E. subst r. exists e. rewrite (proj1 H). reflexivity.
    - right. split; [intros ->; exact (X eq_refl)|].
      assert (D : (exists c tb, obj_find o (R u) = Some c /\ lab_parse L c = Ok tb) \/
                  (forall c tb, obj_find o (R u) = Some c -> lab_parse L c <> Ok tb)).
      { destruct (obj_find o (R u)) as [c|]; [|right; intros c tb Y; discriminate Y].
        destruct (lab_parse L c) as [tb|e] eqn:P; [left; exists c, tb; split; [reflexivity|exact P]|].
        right. intros c' tb Y. injection Y as <-. rewrite P. discriminate. }
      destruct D as [[c [tb [E P]]]|D].
      + unfold a. rewrite (finish_read L local ts Sane u seed (nows O) gg o c tb Iu U E P). cbn [snd]. split; assumption.
      + pose proof (finish_evaluate L local ts Sane u seed (nows O) gg o Iu U D) as H. cbv zeta in H. fold a in H.
        destruct H as [H1 [H2 _]]. split; [exact H1|]. rewrite H2; [exact N|intros Y; symmetry in Y; exact (X Y)|apply (R_not_M L local ts Sane)]. }
  destruct (fst (fst a)) as [tb|e] eqn:E; [|exists e; reflexivity].
  destruct S as [[e S]|[D [U' N']]]; [discriminate S|]. destruct Hi as [->|Hi]; [contradiction|].
  rewrite finish_cbind. destruct (IH (fun n => nows (S n)) (snd (fst a)) (snd a) Hi (fun v Hv => Hl v (or_intror Hv)) U' N') as [e ->].
  exists e. reflexivity.
Qed.

Lemma cloud_fails o ca c r o' : cloud_prepare L dr o = Ok (ts, g) -> reads_back L seed g ts ->
  usable_now o -> readable L local ts o -> obj_find o (R t) = None ->
  (ca_beam ca = true -> forall i, In i (cc_attempts c) -> (i < length ts)%nat) ->
  cloud_execute L dr ca c o = Some (r, o') -> exists e, r = Err e.
Proof.
  intros P Back U Rd N Ha E. unfold cloud_execute in E. rewrite P in E. destruct (In_nth_error _ _ It) as [j Ej].
  assert (Hj : (j < length ts)%nat) by (apply nth_error_Some; congruence).
  assert (Ex : exists e, expected L (to_path local) o (fun t => fst (compute_row L t seed g)) t = Err e).
  { unfold expected. rewrite N. destruct (Bad g) as [e ->]. exists e. reflexivity. }
  assert (F : free [] o) by (intros x q c0 []).
  assert (Leave : forall nows attempts schedule o1 ps used rs, (forall i, In i attempts -> (i < length ts)%nat) ->
    cloud_interleave schedule o (attempt_programs L ts seed nows g attempts) = (o1, ps) ->
    used_results L attempts ps used 0 (length ts) = Some rs -> exists e, rs = Err e).
  { intros nows attempts schedule o1 ps used rs Hi Ei Eu.
    pose proof (attempts_leave L dr g local ts Sane Back [] [] (fun x (X : In x []) => match X with end) (fun x y (X : In x []) => match X with end)
      nows attempts schedule o Hi U F Rd) as H. rewrite Ei in H. destruct H as [_ [_ [H _]]].
    apply (used_fails attempts ps used (length ts) O j rs); [lia| |exact Eu]. intros r0 g' X Y.
    destruct (H _ _ t r0 g' X Ej Y) as [-> _]. exact Ex. }
  assert (Order : forall nows o1, usable_now o1 -> obj_find o1 (R t) = None ->
    exists e, fst (cloud_finish (cloud_in_order L dr ts nows g) o1) = Err e).
  { intros nows o1 U1 N1. unfold cloud_in_order. rewrite finish_cbind.
    destruct (serial_fails ts nows g o1 It (fun u Hu => Hu) U1 N1) as [e ->]. exists e. reflexivity. }
  unfold cloud_begin in E. destruct (ca_beam ca); [|destruct (ca_cores ca =? 1)].
  - destruct (cloud_interleave _ o _) as [o1 ps] eqn:Ei. destruct (used_results _ _ ps _ _ _) as [rs|] eqn:Eu; [|discriminate E].
    destruct (Leave _ _ _ _ _ _ _ (Ha eq_refl) Ei Eu) as [e ->]. cbn [bind] in E. injection E as <- _. exists e. reflexivity.
  - destruct (Order (cc_now c) o U N) as [e X]. destruct (cloud_finish (cloud_in_order L dr ts (cc_now c) g) o) as [r1 o1].
    cbn [fst] in X. subst r1. injection E as <- _. exists e. reflexivity.
  - destruct (cloud_interleave _ o _) as [o1 ps] eqn:Ei. destruct (used_results _ _ ps _ _ _) as [rs|] eqn:Eu; [|discriminate E].
    assert (Hi : forall i, In i (seq 0 (length ts)) -> (i < length ts)%nat) by (intros i X; apply in_seq in X; lia).
    destruct (Leave _ _ _ _ _ _ _ Hi Ei Eu) as [e ->]. cbn [bind] in E. injection E as <- _. exists e. reflexivity.
Qed.
End Fails.

(** ** The temporary object *)

Lemma temp_address local : (exists r, local = String "/" r) -> cloud_temp (cloud_address local) = Ok (entry (to_path local) "temp_result.csv").
Proof.
  intros [r ->]. unfold cloud_temp. assert (truthy (cloud_address (String "/" r)) = true) as -> by reflexivity.
  assert (String.append (cloud_address (String "/" r)) "/temp_result.csv" = cloud_address (String.append (String "/" r) (String slash "temp_result.csv"))) as -> by reflexivity.
  rewrite cloud_path_address; [|eexists; reflexivity]. f_equal.
  assert (N : file_name "temp_result.csv") by (split; [discriminate|]; split; [discriminate|]; split; [discriminate|];
    cbn; intros X; repeat (destruct X as [X|X]; [discriminate X|]); exact X).
  rewrite !to_path_slash. unfold entry. cbn [fst snd String.append].
  rewrite to_path_slash. f_equal. rewrite !to_path_kept. cbn [snd]. rewrite list_ascii_app.
  change (list_ascii_of_string (String slash "temp_result.csv")) with (slash :: list_ascii_of_string "temp_result.csv").
  rewrite kept_app, (kept_name _ N). reflexivity.
Qed.

Section Temp.
Variable L : lab.
Variable local : string.
Variable ts : list trial.
Hypothesis Sane : cloud_trials L local ts.
Notation R := (results_object L (to_path local)).
Notation M := (marker_object L (to_path local)).
Notation temp := (entry (to_path local) "temp_result.csv").

Lemma temp_not_M t : temp <> M t.
Proof.
  intros E. destruct Sane as [_ [H [N _]]].
  destruct (exists_last (l:=snd (to_path local))) as [l [x El]]; [destruct (snd (to_path local)); [cbn in H; lia|discriminate]|].
  rewrite El, last_last in N. unfold marker_object, entry, parent in E. cbn [fst snd] in E. rewrite El, removelast_last in E.
  apply pair_eq in E. destruct E as [_ E]. apply app_inj_tail in E. destruct E as [E _]. apply app_inj_tail in E. destruct E as [_ E]. exact (N E).
Qed.
Lemma temp_clear t : tr_data_set t <> "temp_result.csv"%string ->
  ~ within temp (R t) /\ ~ within temp (M t) /\ ~ within (R t) temp /\ ~ within (M t) temp.
Proof.
  intros D. split; [|split; [|split]].
  - intros [rest E]. unfold results_object, entry in E. cbn [fst snd] in E. apply pair_eq in E. destruct E as [_ E].
    rewrite <- !app_assoc in E. apply app_inv_head in E. cbn [app] in E. injection E as E _. exact (D E).
  - intros W. apply within_same in W; [|rewrite entry_length, (M_length L local ts Sane); reflexivity].
    exact (temp_not_M t (eq_sym W)).
  - intros W. apply within_length in W. rewrite entry_length, R_length in W. lia.
  - intros W. apply within_same in W; [|rewrite entry_length, (M_length L local ts Sane); reflexivity]. exact (temp_not_M t W).
Qed.
End Temp.
