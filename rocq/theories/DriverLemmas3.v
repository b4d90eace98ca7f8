(** Interrupted evaluations. *)
From Coq Require Import String Ascii.
From Verif Require Import Prelude ModelAggregator ModelFiles SpecFiles FilesLemmas FilesLemmas2 FilesLemmas3
  ModelDriver SpecDriver DriverLemmas DriverLemmas2.
Open Scope Z_scope.

Lemma usable_inv L ts d : usable L ts d -> inv (place_of L ts) d.
Proof. intros [H1 H2]. split; [exact H1|]. intros q c [t [Ht D]]. destruct (H2 t Ht) as [H _]. auto. Qed.

Lemma legal_not_dir L t seed g : ~ legal_of L t seed g (Some Dir).
Proof. intros [X|[row [g' [c [_ [X _]]]]]]; discriminate. Qed.

Lemma on_the_way_dec dir q : on_the_way dir q \/ ~ on_the_way dir q.
Proof.
  destruct (path_dec q (prefix dir (length (snd q)))) as [E|N].
  - destruct (le_lt_dec (length (snd q)) (length (snd dir))) as [H|H].
    + destruct (snd q) as [|x l] eqn:Eq.
      * right. intros [H1 _]. congruence.
      * left. apply on_the_way_prefix. exists (length (x :: l)). split; [cbn in *; lia|exact E].
    + right. intros X. apply on_the_way_prefix in X. destruct X as [n [Hn ->]].
      unfold prefix in H. cbn in H. rewrite firstn_length in H. lia.
  - right. intros X. apply on_the_way_prefix in X. destruct X as [n [Hn ->]].
    apply N. unfold prefix. cbn. rewrite firstn_length, Nat.min_l by lia. reflexivity.
Qed.

(** Facts about one trial on its own. *)
Section Single.
Variables (L : lab) (t : trial) (seed : Z).
Hypothesis sep : separate L [t].

Lemma single_safe now g d : usable L [t] d ->
  safe (out_of L t) (pending_path L t) (place_of L [t]) (legal_of L t seed g)
    (evaluate L t seed now g) (evaluated L t seed now g d) d.
Proof.
  intros U. destruct (sep_trial L [t] sep t ltac:(left; reflexivity)) as [A [B [C [D E]]]].
  destruct U as [U1 U2]. destruct (U2 t ltac:(left; reflexivity)) as [V1 [V2 V3]].
  apply evaluate_safe; auto.
  - intros q H. exists t. split; [left; reflexivity|exact H].
  - apply usable_inv. split; auto.
Qed.

Lemma guar_usable g d d' : usable L [t] d ->
  guar (out_of L t) (pending_path L t) (place_of L [t]) (legal_of L t seed g) d d' -> usable L [t] d'.
Proof.
  intros [U1 U2] [[G1 G1'] [_ [_ [G4 G5]]]]. destruct (U2 t ltac:(left; reflexivity)) as [V1 [V2 V3]].
  split; [exact G1|]. intros t' [<-|[]]. split; [|split].
  - intros q c D. apply G1'. exists t. split; [left; reflexivity|exact D].
  - destruct G4 as [->|G4]; [auto|]. intros X. rewrite X in G4. revert G4. apply legal_not_dir.
  - destruct G5 as [->|G5]; auto.
Qed.

Lemma guar_only g d d' :
  guar (out_of L t) (pending_path L t) (place_of L [t]) (legal_of L t seed g) d d' ->
  only_adds_directories L [t] d d'.
Proof.
  intros [_ [_ [G3 _]]] q Hq.
  destruct (path_dec q (out_of L t)) as [->|N1].
  { left. exists t. split; [left; reflexivity|auto]. }
  destruct (path_dec q (pending_path L t)) as [->|N2].
  { left. exists t. split; [left; reflexivity|auto]. }
  destruct (G3 q N1 N2) as [E|[P [E1 E2]]]; [contradiction|]. right. auto.
Qed.

Lemma stopped_guar (a : attempt L) d : usable L [t] d ->
  guar (out_of L t) (pending_path L t) (place_of L [t]) (legal_of L t seed (at_generators a)) d
       (stopped t seed d a).
Proof.
  intros U. unfold stopped.
  exact (proj1 (safe_advances _ _ _ _ _ _ _ d (usable_inv _ _ _ U) (single_safe (at_now a) (at_generators a) d U))).
Qed.

Lemma attempts_usable (l : list (attempt L)) : forall d, usable L [t] d -> usable L [t] (after_attempts t seed d l).
Proof.
  induction l as [|a l IH]; intros d U; [exact U|]. cbn. apply IH.
  eapply guar_usable; [exact U|]. apply stopped_guar; auto.
Qed.

Lemma attempts_only (l : list (attempt L)) : forall d, usable L [t] d -> only_adds_directories L [t] d (after_attempts t seed d l).
Proof.
  induction l as [|a l IH]; intros d U; [intros q H; contradiction|]. cbn.
  assert (U1 : usable L [t] (stopped t seed d a)) by (eapply guar_usable; [exact U|apply stopped_guar; auto]).
  pose proof (guar_only _ _ _ (stopped_guar a d U)) as O1.
  pose proof (IH _ U1) as O2. unfold after_attempts in O2.
  intros q Hq. set (w := stopped t seed d a) in *. set (w' := fold_left (stopped t seed) l w) in *.
  destruct (path_dec q (out_of L t)) as [->|N1].
  { left. exists t. split; [left; reflexivity|auto]. }
  destruct (path_dec q (pending_path L t)) as [->|N2].
  { left. exists t. split; [left; reflexivity|auto]. }
  assert (M : forall x y z, (stat y q = stat x q \/ (stat x q = None /\ stat y q = Some Dir /\
                 exists t0, In t0 [t] /\ directory_of L t0 q)) -> stat z q = stat y q -> stat z q <> stat x q ->
                 (stat x q = None /\ stat z q = Some Dir /\ exists t0, In t0 [t] /\ directory_of L t0 q)).
  { intros x y z [H|[H1 [H2 H3]]] Hz Hn; [congruence|]. split; [auto|]. split; [congruence|auto]. }
  assert (dec : forall x y : option node, x = y \/ x <> y).
  { intros [[|a1]|] [[|b1]|]; try (left; reflexivity); try (right; discriminate).
    destruct (list_eq_dec ascii_dec a1 b1) as [->|N]; [auto|]. right. congruence. }
  right.
  assert (H1 : stat w q = stat d q \/ (stat d q = None /\ stat w q = Some Dir /\
                 exists t0, In t0 [t] /\ directory_of L t0 q)).
  { destruct (dec (stat w q) (stat d q)) as [E|N]; [auto|]. right.
    destruct (O1 q N) as [[t0 [[<-|[]] [X|X]]]|X]; [contradiction|contradiction|exact X]. }
  destruct (dec (stat w' q) (stat w q)) as [E|N].
  - eapply M; eauto.
  - destruct (O2 q N) as [[t0 [[<-|[]] [X|X]]]|[X1 [X2 X3]]]; [contradiction|contradiction|].
    split; [|auto]. destruct H1 as [<-|[H1 _]]; auto.
Qed.

(** What can be in the results file after any number of interrupted runs. *)
Lemma attempts_result (l : list (attempt L)) : forall d, usable L [t] d ->
  let n := stat (after_attempts t seed d l) (out_of L t) in
  n = stat d (out_of L t) \/ n = None \/
  exists a row g' c, In a l /\ compute_row L t seed (at_generators a) = (Ok row, g') /\
    n = Some (File c) /\ written_part c (lab_print L [row]).
Proof.
  induction l as [|a l IH]; intros d U n; [left; reflexivity|]. subst n. cbn.
  assert (G : guar (out_of L t) (pending_path L t) (place_of L [t]) (legal_of L t seed (at_generators a)) d
                (stopped t seed d a)) by (apply stopped_guar; auto).
  assert (U1 : usable L [t] (stopped t seed d a)) by (eapply guar_usable; eauto).
  destruct (IH _ U1) as [E|[E|[b [row [g' [c [Hb H]]]]]]]; unfold after_attempts in *.
  - rewrite E. destruct G as [_ [_ [_ [[G|[G|[row [g' [c G]]]]] _]]]].
    + auto.
    + right. left. exact G.
    + right. right. exists a, row, g', c. split; [left; reflexivity|exact G].
  - auto.
  - right. right. exists b, row, g', c. split; [right; exact Hb|exact H].
Qed.

Lemma finish_evaluated now g d : usable L [t] d ->
  evaluated L t seed now g d (fst (finish (evaluate L t seed now g) d)) (snd (finish (evaluate L t seed now g) d)) /\
  usable L [t] (snd (finish (evaluate L t seed now g) d)) /\
  only_adds_directories L [t] d (snd (finish (evaluate L t seed now g) d)).
Proof.
  intros U. destruct (safe_finish _ _ _ _ _ _ d (usable_inv _ _ _ U) (single_safe now g d U)) as [P G].
  split; [exact P|]. split; [eapply guar_usable; eauto|eapply guar_only; eauto].
Qed.

(** Once there is a result, nothing changes any more. *)
Lemma result_finish now g d tb : has_result L t d tb ->
  finish (evaluate L t seed now g) d = ((Ok tb, g), d).
Proof.
  clear sep. intros [c [E P]]. unfold evaluate. fold (out_of L t). cbn [finish]. rewrite E.
  cbn [finish]. rewrite E, P. reflexivity.
Qed.

Lemma result_stopped d tb (a : attempt L) : has_result L t d tb -> stopped t seed d a = d.
Proof.
  clear sep. intros [c [E P]]. unfold stopped. destruct (at_steps a) as [|[|n]]; cbn [advances]; [reflexivity| |].
  - unfold evaluate. cbn [advance advances fst]. reflexivity.
  - unfold evaluate. fold (out_of L t). cbn [advance]. rewrite E. cbn [advance]. rewrite E, P.
    induction n as [|n IH]; [reflexivity|]. cbn [advances advance]. exact IH.
Qed.

Lemma result_attempts (l : list (attempt L)) d tb : has_result L t d tb -> after_attempts t seed d l = d.
Proof.
  clear sep. intros H. induction l as [|a l IH]; [reflexivity|]. cbn. rewrite (result_stopped d tb a H). exact IH.
Qed.

(** ** Every crash point is possible *)

Lemma advances_add {A} n m : forall d (p : prog A),
  advances (n + m) d p = (let '(d', p') := advances n d p in advances m d' p').
Proof.
  clear. induction n as [|n IH]; intros d p; cbn [Nat.add advances]; [reflexivity|].
  destruct (advance d p) as [w q]. apply IH.
Qed.

Lemma advances_ops {A} os rest (k : result unit -> prog A) : forall d d',
  run_ops d os = (Ok tt, d') -> advances (length os) d (acts (map Plain os ++ rest) k) = (d', acts rest k).
Proof.
  clear. induction os as [|o os IH]; intros d d' E; cbn [map app length advances acts advance].
  - cbn in E. congruence.
  - cbn [run_ops] in E. cbn [run_effect]. destruct (run_op d o) as [w|e]; [|discriminate].
    apply IH. exact E.
Qed.

Lemma way_no_file d dir : disk_ok d -> (forall q c, on_the_way dir q -> stat d q <> Some (File c)) ->
  no_file_on_the_way d dir.
Proof. intros _ H p c W. auto. Qed.

(** Steps of [recompute] up to the moment when [c] has been written to the results file. *)
Lemma recompute_reaches now g d row g' c whole_rest :
  usable L [t] d -> compute_row L t seed g = (Ok row, g') -> lab_print L [row] = c ++ whole_rest ->
  exists n d', fst (advances n d (recompute L t seed now g)) = d' /\
    stat d' (out_of L t) = Some (File c) /\
    stat d' (pending_path L t) = Some (File (pending_text L t now)).
Proof.
  intros U Er Ew. destruct (sep_trial L [t] sep t ltac:(left; reflexivity)) as [A [B [C [D E]]]].
  destruct U as [U1 U2]. destruct (U2 t ltac:(left; reflexivity)) as [V1 [V2 V3]].
  set (out := out_of L t) in *. set (pend := pending_path L t) in *.
  assert (Dir1 : forall q, on_the_way (parent pend) q -> place_of L [t] q).
  { intros q H. exists t. split; [left; reflexivity|]. right. exact H. }
  assert (Dir2 : forall q, on_the_way (parent out) q -> place_of L [t] q).
  { intros q H. exists t. split; [left; reflexivity|]. left. exact H. }
  (* the marker *)
  destruct (mkdir_ok d (parent pend) U1) as [w1 [R1 [K1 [S1 [F1 G1]]]]].
  { intros q x H. apply V1. right. exact H. }
  assert (P1 : stat w1 pend = stat d pend).
  { apply G1. intros X. apply E. apply Dir1. exact X. }
  assert (O1 : stat w1 out = stat d out).
  { apply G1. intros X. apply D. apply Dir1. exact X. }
  destruct (write_file_ok w1 pend (pending_text L t now) K1 B S1) as [w2 [R2 [K2 [S2 F2]]]]; [congruence|].
  (* the results *)
  destruct (mkdir_ok w2 (parent out) K2) as [w3 [R3 [K3 [S3 [F3 G3]]]]].
  { intros q x H Y.
    assert (Nq : q <> pend) by (intros Z; subst q; apply E; apply Dir2; exact H).
    rewrite F2 in Y by auto.
    destruct (on_the_way_dec (parent pend) q) as [W|W].
    - rewrite (F1 q W) in Y. discriminate.
    - rewrite (G1 q W) in Y. revert Y. apply V1. left. exact H. }
  assert (P3 : stat w3 pend = stat w2 pend).
  { apply G3. intros X. apply E. apply Dir2. exact X. }
  assert (O3 : stat w3 out = stat d out).
  { rewrite G3 by (intros X; apply D; apply Dir2; exact X). rewrite F2 by auto. exact O1. }
  destruct (write_file_ok w3 out c K3 A S3) as [w4 [R4 [K4 [S4 F4]]]]; [congruence|].
  assert (Q1 : run_ops d (mkdir_ops (parent pend) ++ write_file_ops pend (pending_text L t now)) = (Ok tt, w2)).
  { rewrite (run_ops_app _ _ _ _ R1). exact R2. }
  assert (Q2 : run_ops w2 (mkdir_ops (parent out) ++ write_file_ops out c) = (Ok tt, w4)).
  { rewrite (run_ops_app _ _ _ _ R3). exact R4. }
  exists (length (mkdir_ops (parent pend) ++ write_file_ops pend (pending_text L t now)) +
          length (mkdir_ops (parent out) ++ write_file_ops out c))%nat, w4.
  split; [|split; [exact S4|rewrite F4 by auto; congruence]].
  unfold recompute, save. cbv zeta. fold (out_of L t). fold out pend. rewrite advances_add.
  rewrite <- (app_nil_r (map Plain (mkdir_ops (parent pend) ++ _))).
  rewrite (advances_ops _ _ _ _ _ Q1). cbn [acts]. rewrite Er, Ew.
  assert (W : write_file_ops out (c ++ whole_rest) = write_file_ops out c ++ map (Append out) whole_rest).
  { unfold write_file_ops. rewrite map_app. reflexivity. }
  rewrite W, (app_assoc (mkdir_ops (parent out))).
  rewrite (map_app Plain), <- app_assoc. rewrite (advances_ops _ _ _ _ _ Q2). reflexivity.
Qed.

End Single.
