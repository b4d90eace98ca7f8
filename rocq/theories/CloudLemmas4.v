(** One process at a time on cloud storage: a complete run, and runs that were stopped. *)
From Coq Require Import String Ascii.
From Verif Require Import Prelude ModelReachPoint ModelData ModelAggregator ModelFiles SpecData SpecFiles
  FilesLemmas FilesLemmas2 FilesLemmas3 ModelHalo ModelDriver SpecDriver DriverLemmas4 ModelCloud SpecCloud
  CloudLemmas CloudLemmas2 CloudLemmas3.
Open Scope Z_scope.

Section One.
Variable L : lab.
Variable local : string.
Variable ts : list trial.
Hypothesis Sane : cloud_trials L local ts.
Notation R := (results_object L (to_path local)).
Notation M := (marker_object L (to_path local)).
Notation usable_now := (cloud_usable L (to_path local) ts).
Notation answer := (result table * generators L)%type.

(** Only the two objects of [t] may differ. *)
Definition only (t : trial) (o o' : objects) : Prop := forall q, q <> R t -> q <> M t -> obj_find o' q = obj_find o q.

Lemma same_key p : path_eqb p p = true.
Proof. apply path_eqb_spec. reflexivity. Qed.
Lemma other_key p q : p <> q -> path_eqb p q = false.
Proof. intros H. destruct (path_eqb p q) eqn:E; [apply path_eqb_spec in E; contradiction|reflexivity]. Qed.

Lemma finish_recompute t seed now g o : In t ts -> usable_now o ->
  let out := cloud_finish (cloud_recompute L t seed now g (R t)) o in
  usable_now (snd out) /\ only t o (snd out) /\
  match compute_row L t seed g with
  | (Ok row, g') => fst out = (Ok [row], g') /\ obj_find (snd out) (R t) = Some (lab_print L [row]) /\ obj_find (snd out) (M t) = None
  | (Err e, g') => fst out = (Err e, g') /\ obj_find (snd out) (R t) = obj_find o (R t) /\
                   obj_find (snd out) (M t) = Some (pending_text L t now)
  end.
Proof.
  intros I U. cbv zeta. rewrite (recompute_is L local ts Sane) by exact I. cbn [cloud_finish]. rewrite (M_stat L local ts Sane) by assumption.
  assert (X : (match match obj_find o (M t) with Some c => Some (File c) | None => None end with
     | Some Dir => CRet (Err OtherError, g)
     | _ => CAct (Upload (M t) (pending_text L t now))
             (match compute_row L t seed g with (Err e, g') => CRet (Err e, g') | (Ok row, g') => keep L local t row g' end)
     end) = CAct (Upload (M t) (pending_text L t now))
             (match compute_row L t seed g with (Err e, g') => CRet (Err e, g') | (Ok row, g') => keep L local t row g' end))
    by (destruct (obj_find o (M t)); reflexivity).
  rewrite X. clear X. cbn [cloud_finish cloud_run]. pose proof (usable_put_M L local ts Sane o t (pending_text L t now) U) as U1.
  set (o1 := obj_put o (M t) (pending_text L t now)) in *.
  assert (RM : R t <> M t) by (apply (R_not_M L local ts Sane)).
  assert (E1 : obj_find o1 (M t) = Some (pending_text L t now)) by (unfold o1; rewrite obj_find_put, same_key; reflexivity).
  assert (E2 : obj_find o1 (R t) = obj_find o (R t)) by (unfold o1; rewrite obj_find_put, other_key by exact RM; reflexivity).
  assert (E3 : only t o o1) by (intros q _ Q; unfold o1; rewrite obj_find_put, other_key by exact Q; reflexivity).
  destruct (compute_row L t seed g) as [[row|e] g'].
  - unfold keep, write_object. cbn [cloud_finish]. rewrite (R_stat L local ts) by assumption.
    assert (X : (match match obj_find o1 (R t) with Some c => Some (File c) | None => None end with
       | Some Dir => CRet (Err OtherError, g') | _ => CAct (Upload (R t) (lab_print L [row])) (clean L local t row g') end)
       = CAct (Upload (R t) (lab_print L [row])) (clean L local t row g')) by (destruct (obj_find o1 (R t)); reflexivity).
    rewrite X. clear X. cbn [cloud_finish cloud_run]. pose proof (usable_put_R L local ts Sane o1 t (lab_print L [row]) U1) as U2.
    set (o2 := obj_put o1 (R t) (lab_print L [row])) in *.
    assert (G1 : obj_find o2 (M t) = Some (pending_text L t now)).
    { unfold o2. rewrite obj_find_put, other_key by (intros Y; exact (RM (eq_sym Y))). exact E1. }
    assert (G2 : obj_find o2 (R t) = Some (lab_print L [row])) by (unfold o2; rewrite obj_find_put, same_key; reflexivity).
    unfold clean, unlink_object. cbn [cloud_finish]. rewrite (M_stat L local ts Sane o2 t U2 I), G1. cbn [cloud_finish].
    rewrite (M_stat L local ts Sane o2 t U2 I), G1. cbn [cloud_finish cloud_run fst snd].
    split; [apply (usable_remove L local ts); exact U2|]. split.
    + intros q Q1 Q2. rewrite obj_find_remove, other_key by exact Q2. unfold o2. rewrite obj_find_put, other_key by exact Q1. apply E3; assumption.
    + split; [reflexivity|]. split.
      * rewrite obj_find_remove, other_key by exact RM. exact G2.
      * rewrite obj_find_remove, same_key. reflexivity.
  - cbn [cloud_finish fst snd]. split; [exact U1|]. split; [exact E3|]. split; [reflexivity|]. split; assumption.
Qed.

Lemma finish_read t seed now g o c tb : In t ts -> usable_now o -> obj_find o (R t) = Some c -> lab_parse L c = Ok tb ->
  cloud_finish (cloud_evaluate L t seed now g) o = ((Ok tb, g), o).
Proof.
  intros I U E P. unfold cloud_evaluate. rewrite (R_path L local ts Sane) by exact I. cbn [cloud_finish].
  rewrite (R_stat L local ts) by assumption. rewrite E. cbn [cloud_finish]. rewrite (R_stat L local ts) by assumption. rewrite E.
  cbn [parse_node]. rewrite P. reflexivity.
Qed.

Lemma finish_evaluate t seed now g o : In t ts -> usable_now o ->
  (forall c tb, obj_find o (R t) = Some c -> lab_parse L c <> Ok tb) ->
  let out := cloud_finish (cloud_evaluate L t seed now g) o in
  usable_now (snd out) /\ only t o (snd out) /\
  match compute_row L t seed g with
  | (Ok row, g') => fst out = (Ok [row], g') /\ obj_find (snd out) (R t) = Some (lab_print L [row]) /\ obj_find (snd out) (M t) = None
  | (Err e, g') => fst out = (Err e, g') /\ obj_find (snd out) (R t) = None /\
                   obj_find (snd out) (M t) = Some (pending_text L t now)
  end.
Proof.
  intros I U N. cbv zeta. unfold cloud_evaluate. rewrite (R_path L local ts Sane) by exact I. cbn [cloud_finish].
  rewrite (R_stat L local ts) by assumption. destruct (obj_find o (R t)) as [c|] eqn:E.
  - cbn [cloud_finish]. rewrite (R_stat L local ts) by assumption. rewrite E. cbn [parse_node].
    destruct (lab_parse L c) as [tb|e] eqn:P; [exfalso; exact (N c tb eq_refl P)|]. unfold unlink_object. cbn [cloud_finish].
    rewrite (R_stat L local ts) by assumption. rewrite E. cbn [cloud_finish]. rewrite (R_stat L local ts) by assumption. rewrite E.
    cbn [cloud_finish cloud_run]. pose proof (usable_remove L local ts o (R t) U) as U1.
    pose proof (finish_recompute t seed now g (obj_remove o (R t)) I U1) as H. cbv zeta in H. destruct H as [H1 [H2 H3]].
    split; [exact H1|]. split.
    + intros q Q1 Q2. rewrite H2 by assumption. rewrite obj_find_remove, other_key by exact Q1. reflexivity.
    + rewrite obj_find_remove, same_key in H3. exact H3.
  - pose proof (finish_recompute t seed now g o I U) as H. cbv zeta in H. rewrite E in H. exact H.
Qed.

(** ** Stopped runs of one trial *)

Variable t : trial.
Hypothesis It : In t ts.
Variable seed : Z.
Variable row : list (string * cell).
Variable o0 : objects.

Definition kept_so_far (o : objects) : Prop :=
  usable_now o /\ only t o0 o /\
  (obj_find o (R t) = obj_find o0 (R t) \/ obj_find o (R t) = None \/ obj_find o (R t) = Some (lab_print L [row])).

(** Every request of the program keeps this, whatever the bucket is when it is made. *)
Fixpoint fine {A} (p : cprog A) : Prop :=
  match p with
  | CRet _ => True
  | CLook q k => forall o, kept_so_far o -> fine (k (cloud_stat o q))
  | CAct e k => (forall o, kept_so_far o -> kept_so_far (cloud_run o e)) /\ fine k
  end.

Lemma fine_advances {A} n : forall (p : cprog A) o, fine p -> kept_so_far o -> kept_so_far (fst (cloud_advances n o p)).
Proof.
  induction n as [|n IH]; intros p o Fp K; [exact K|]. cbn [cloud_advances]. destruct p as [a|q k|e k]; cbn [cloud_advance].
  - apply IH; assumption.
  - apply IH; [exact (Fp o K)|exact K].
  - destruct Fp as [H1 H2]. apply IH; [exact H2|exact (H1 o K)].
Qed.

Lemma keep_M o c : kept_so_far o -> kept_so_far (obj_put o (M t) c).
Proof.
  intros [U [O H]]. split; [apply (usable_put_M L local ts Sane); exact U|]. split.
  - intros q Q1 Q2. rewrite obj_find_put, other_key by exact Q2. apply O; assumption.
  - rewrite obj_find_put, other_key by (apply (R_not_M L local ts Sane)). exact H.
Qed.
Lemma keep_unmark o : kept_so_far o -> kept_so_far (obj_remove o (M t)).
Proof.
  intros [U [O H]]. split; [apply (usable_remove L local ts); exact U|]. split.
  - intros q Q1 Q2. rewrite obj_find_remove, other_key by exact Q2. apply O; assumption.
  - rewrite obj_find_remove, other_key by (apply (R_not_M L local ts Sane)). exact H.
Qed.
Lemma keep_R o : kept_so_far o -> kept_so_far (obj_put o (R t) (lab_print L [row])).
Proof.
  intros [U [O H]]. split; [apply (usable_put_R L local ts Sane); exact U|]. split.
  - intros q Q1 Q2. rewrite obj_find_put, other_key by exact Q1. apply O; assumption.
  - right. right. rewrite obj_find_put, same_key. reflexivity.
Qed.
Lemma keep_drop o : kept_so_far o -> kept_so_far (obj_remove o (R t)).
Proof.
  intros [U [O H]]. split; [apply (usable_remove L local ts); exact U|]. split.
  - intros q Q1 Q2. rewrite obj_find_remove, other_key by exact Q1. apply O; assumption.
  - right. left. rewrite obj_find_remove, same_key. reflexivity.
Qed.

Lemma fine_recompute now g : fst (compute_row L t seed g) = Ok row -> fine (cloud_recompute L t seed now g (R t)).
Proof.
  intros E. rewrite (recompute_is L local ts Sane) by exact It. cbn [fine]. intros o K. pose proof K as [U _].
  rewrite (M_stat L local ts Sane) by assumption.
  assert (X : fine (CAct (Upload (M t) (pending_text L t now))
             (match compute_row L t seed g with (Err e, g') => CRet (Err e, g') | (Ok row, g') => keep L local t row g' end))).
  { cbn [fine cloud_run]. split; [intros o1; apply keep_M|].
    destruct (compute_row L t seed g) as [[row'|e] g']; [|exact I]. cbn [fst] in E. injection E as ->.
    unfold keep, write_object. cbn [fine]. intros o1 [U1 K1]. rewrite (R_stat L local ts) by assumption.
    assert (Y : fine (CAct (Upload (R t) (lab_print L [row])) (clean L local t row g'))).
    { cbn [fine cloud_run]. split; [intros o2; apply keep_R|]. unfold clean, unlink_object. cbn [fine]. intros o2 [U2 K2].
      rewrite (M_stat L local ts Sane) by assumption. destruct (obj_find o2 (M t)); [|exact I]. cbn [fine]. intros o3 [U3 K3].
      rewrite (M_stat L local ts Sane) by assumption. destruct (obj_find o3 (M t)); cbn [fine cloud_run]; (split; [intros o4; apply keep_unmark|exact I]). }
    destruct (obj_find o1 (R t)); exact Y. }
  destruct (obj_find o (M t)); exact X.
Qed.
Lemma fine_evaluate now g : fst (compute_row L t seed g) = Ok row -> fine (cloud_evaluate L t seed now g).
Proof.
  intros E. unfold cloud_evaluate. rewrite (R_path L local ts Sane) by exact It. cbn [fine]. intros o [U _].
  rewrite (R_stat L local ts) by assumption. destruct (obj_find o (R t)) as [c|]; [|apply fine_recompute; exact E].
  cbn [fine]. intros o1 [U1 _]. rewrite (R_stat L local ts) by assumption.
  destruct (parse_node L _) as [tb|e]; [exact I|]. unfold unlink_object. cbn [fine]. intros o2 [U2 _]. rewrite (R_stat L local ts) by assumption.
  destruct (obj_find o2 (R t)); [|exact I]. cbn [fine]. intros o3 [U3 _]. rewrite (R_stat L local ts) by assumption.
  destruct (obj_find o3 (R t)); cbn [fine cloud_run]; (split; [intros o4; apply keep_drop|apply fine_recompute; exact E]).
Qed.

Lemma stopped_kept (l : list (job L * nat)) : forall o,
  (forall a, In a l -> jb_trial (fst a) = t /\ fst (compute_row L t seed (jb_generators (fst a))) = Ok row) ->
  kept_so_far o -> kept_so_far (fold_left (cloud_stopped seed) l o).
Proof.
  induction l as [|a l IH]; intros o H K; [exact K|]. cbn [fold_left]. apply IH; [intros b I; apply H; right; exact I|].
  destruct (H a (or_introl eq_refl)) as [E1 E2]. unfold cloud_stopped, start. rewrite E1. apply fine_advances; [|exact K].
  apply fine_evaluate. exact E2.
Qed.
End One.
