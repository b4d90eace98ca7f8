(** Runs on cloud storage: what is kept at every request, and what is there at the end. *)
From Coq Require Import String Ascii Permutation Sorted.
From Verif Require Import Prelude ModelReachPoint ModelData ModelAggregator ModelFiles SpecData SpecFiles
  DataLemmas FilesLemmas FilesLemmas2 FilesLemmas3 ModelHalo ModelDriver SpecDriver DriverLemmas DriverLemmas4 DriverLemmas8
  ModelExecute SpecExecute ExecuteLemmas
  ModelCloud SpecCloud CloudLemmas CloudLemmas2 CloudLemmas3 CloudLemmas4 ModelCloudRun SpecCloudRun CloudRunLemmas.
Open Scope Z_scope.

(** [K] holds before every request of the program and at its end. *)
Fixpoint along {A} (K : objects -> Prop) (p : cprog A) (o : objects) : Prop :=
  K o /\ match p with
         | CRet _ => True
         | CLook q k => along K (k (cloud_stat o q)) o
         | CAct e k => along K k (cloud_run o e)
         end.
Lemma along_here {A} K (p : cprog A) o : along K p o -> K o.
Proof. destruct p; cbn [along]; tauto. Qed.
Lemma along_steps {A} K n : forall (p : cprog A) o, along K p o -> K (fst (cloud_steps n o p)).
Proof.
  induction n as [|n IH]; intros p o H; [exact (along_here K p o H)|]. cbn [cloud_steps].
  destruct p as [a|q k|e k]; cbn [cloud_advance along] in *; apply IH; [exact H|apply H|apply H].
Qed.
Lemma along_end {A} K (p : cprog A) : forall o, along K p o -> K (snd (cloud_finish p o)).
Proof. induction p as [a|q k IH|e k IH]; intros o [H1 H2]; cbn [cloud_finish snd]; auto. Qed.
Lemma along_bind {A B} K (p : cprog A) (f : A -> cprog B) : forall o, along K p o ->
  along K (f (fst (cloud_finish p o))) (snd (cloud_finish p o)) -> along K (cbind p f) o.
Proof.
  induction p as [a|q k IH|e k IH]; intros o H1 H2; cbn [cbind cloud_finish] in *; [exact H2| |];
    destruct H1 as [H1 H3]; cbn [along]; (split; [exact H1|apply IH; assumption]).
Qed.
Lemma along_mono {A} (K K' : objects -> Prop) (p : cprog A) : (forall o, K o -> K' o) -> forall o, along K p o -> along K' p o.
Proof.
  intros H. induction p as [a|q k IH|e k IH]; intros o [H1 H2]; cbn [along]; (split; [apply H; exact H1|]); auto.
Qed.
Lemma finish_cbind {A B} (p : cprog A) (f : A -> cprog B) : forall o,
  cloud_finish (cbind p f) o = cloud_finish (f (fst (cloud_finish p o))) (snd (cloud_finish p o)).
Proof. induction p as [a|q k IH|e k IH]; intros o; cbn [cbind cloud_finish]; auto. Qed.

Section Run.
Variable L : lab.
Variable seed : Z.
Variable g : generators L.
Variables local data : string.
Variable ts : list trial.
Hypothesis Sane : cloud_trials L local ts.
Hypothesis Back : reads_back L seed g ts.
Variable xs : list path.
Notation R := (results_object L (to_path local)).
Notation M := (marker_object L (to_path local)).
Notation usable_now := (cloud_usable L (to_path local) ts).
Notation touches := (cloud_touches L seed g (to_path local) ts xs).
Notation outcome := (fun t => fst (compute_row L t seed g)).
Notation answer := (result table * generators L)%type.

Lemma touches_refl o : touches o o.
Proof. split; [|reflexivity]. intros t I. destruct (obj_find o (R t)); auto. Qed.
Lemma touches_trans o o' o'' : touches o o' -> touches o' o'' -> touches o o''.
Proof.
  intros [A1 A2] [B1 B2]. split.
  - intros t I. specialize (A1 t I). specialize (B1 t I). destruct (obj_find o (R t)) as [c|].
    + destruct A1 as [E1 E2]. rewrite E1 in B1. destruct B1 as [F1 F2]. split; congruence.
    + destruct A1 as [E1|[row [E1 E2]]].
      * rewrite E1 in B1. exact B1.
      * rewrite E2 in B1. right. exists row. split; [exact E1|apply B1].
  - intros q H1 H2. rewrite B2, A2 by assumption. reflexivity.
Qed.

(** A text that a run may leave at the other places. *)
Variable whole : table.
Definition tables_at (o o' : objects) : Prop :=
  forall x, In x xs -> obj_find o' x = obj_find o x \/
    exists tb, Permutation tb whole /\ obj_find o' x = Some (lab_print L tb).
Lemma tables_trans o o' o'' : tables_at o o' -> tables_at o' o'' -> tables_at o o''.
Proof. intros A B x I. destruct (B x I) as [E|H]; [|right; exact H]. rewrite E. exact (A x I). Qed.

(** The places are none of the objects of the trials. *)
Hypothesis Clear : forall x, In x xs -> forall t, In t ts ->
  ~ within x (R t) /\ ~ within x (M t) /\ ~ within (R t) x /\ ~ within (M t) x.
Hypothesis Single : forall x y, In x xs -> In y xs -> within x y -> y = x.
Hypothesis Deep : forall x, In x xs -> (2 <= length (snd x))%nat.

Definition free (o : objects) : Prop := forall x q c, In x xs -> In (q, c) o -> within x q -> q = x.
Definition kept (o o' : objects) : Prop := usable_now o' /\ free o' /\ touches o o' /\ tables_at o o'.
Lemma kept_refl o : usable_now o -> free o -> kept o o.
Proof. intros U F. split; [exact U|]. split; [exact F|]. split; [apply touches_refl|]. intros x _. left. reflexivity. Qed.
Lemma kept_trans o o' o'' : kept o o' -> kept o' o'' -> kept o o''.
Proof.
  intros [_ [_ [A3 A4]]] [B1 [B2 [B3 B4]]]. split; [exact B1|]. split; [exact B2|]. split; [exact (touches_trans _ _ _ A3 B3)|exact (tables_trans _ _ _ A4 B4)].
Qed.
Lemma touches_free o o' : usable_now o -> usable_now o' -> free o -> touches o o' -> free o'.
Proof.
  intros U [N _] F [T1 T2] x q c I J W. apply obj_find_in in J; [|exact N].
  destruct (in_dec path_dec q (map R ts ++ map M ts)) as [H|H].
  - exfalso. apply in_app_iff in H. destruct H as [H|H]; apply in_map_iff in H; destruct H as [t [<- H]];
      destruct (Clear x I t H) as [C1 [C2 _]]; [exact (C1 W)|exact (C2 W)].
  - destruct (in_dec path_dec q xs) as [H2|H2]; [exact (Single x q I H2 W)|].
    apply (F x q c I); [|exact W]. apply obj_find_some_in. rewrite <- T2; [exact J| |exact H2].
    intros t It. split; intros ->; apply H; apply in_app_iff; [left|right]; apply in_map_iff; exists t; (split; [reflexivity|exact It]).
Qed.

(** A state that a process can be in is one that is kept. *)
Notation sound := (sound L local ts (fun t => fst (compute_row L t seed g))).
Lemma sound_kept o o' : usable_now o -> free o -> sound o o' -> kept o o'.
Proof.
  intros U F [U' [Fi [Ke El]]].
  assert (T : touches o o').
  { split.
    - intros t I. destruct (obj_find o (R t)) as [c|] eqn:E.
      + split; [exact (Ke t c I E)|]. apply El. intros t' I'. split; [intros X; symmetry in X; exact (R_not_M L local ts Sane _ _ X)|].
        intros N X. assert (X' : t = t') by (apply (M_inj L local ts Sane); assumption). subst t'. congruence.
      + destruct (obj_find o' (R t)) as [c|] eqn:E'; [right|left; reflexivity]. apply (Fi t c I) in E'. unfold final in E'. rewrite E in E'.
        destruct E' as [row [E1 ->]]. exists row. split; [exact E1|reflexivity].
    - intros q H _. apply El. intros t I. destruct (H t I). split; [assumption|intros _; assumption]. }
  split; [exact U'|]. split; [exact (touches_free o o' U U' F T)|]. split; [exact T|].
  intros x I. left. apply El. intros t It. destruct (Clear x I t It) as [C1 [C2 _]].
  split; [intros ->; apply C1, within_refl|intros _ ->; apply C2, within_refl].
Qed.

(** What is there can be read. *)
Definition readable (o : objects) : Prop := forall t c, In t ts -> obj_find o (R t) = Some c -> exists tb, lab_parse L c = Ok tb.
Lemma kept_readable o o' : kept o o' -> readable o -> readable o'.
Proof.
  intros [_ [_ [[T _] _]]] H t c I E. specialize (T t I). destruct (obj_find o (R t)) as [c0|] eqn:E0.
  - destruct T as [T _]. apply (H t c I). congruence.
  - destruct T as [T|[row [T1 T2]]]; [congruence|]. exists [row]. rewrite E in T2. injection T2 as ->. exact (Back t row I T1).
Qed.
Notation answers := (cloud_answers L seed (to_path local)).
Lemma kept_answers o o' t tb : In t ts -> kept o o' -> answers o g t tb -> answers o' g t tb.
Proof.
  intros I [_ [_ [[T _] _]]] A. specialize (T t I). destruct A as [[c [E P]]|[E [row [Er ->]]]]; rewrite E in T.
  - left. exists c. split; [apply T|exact P].
  - destruct T as [T|[row' [T1 T2]]]; [right; split; [exact T|exists row; split; [exact Er|reflexivity]]|].
    left. exists (lab_print L [row']). assert (row' = row) as -> by congruence. split; [exact T2|exact (Back t row I Er)].
Qed.
Lemma answers_readable o tbs : Forall2 (answers o g) ts tbs -> readable o.
Proof.
  intros H t c I E. assert (exists tb, answers o g t tb) as [tb A].
  { clear -H I. induction H as [|t0 tb0 l l' H0 H IH]; [destruct I|]. destruct I as [->|I]; [exists tb0; exact H0|exact (IH I)]. }
  destruct A as [[c' [E' P]]|[E' _]]; [|congruence]. exists tb. congruence.
Qed.
Lemma answers_expected o t tb : answers o g t tb -> expected L (to_path local) o (fun t => fst (compute_row L t seed g)) t = Ok tb.
Proof.
  unfold expected. intros [[c [E P]]|[E [row [Er ->]]]]; rewrite E; [exact P|]. rewrite Er. reflexivity.
Qed.

(** ** One trial *)

Lemma along_phase o0 j n : forall o h p, readable o0 -> usable_now o0 -> free o0 ->
  sound o0 o -> In (jb_trial j) ts -> fst (compute_row L (jb_trial j) seed (jb_generators j)) = fst (compute_row L (jb_trial j) seed g) ->
  phase L local seed (fun t => fst (compute_row L t seed g)) o0 o j n h p -> along (kept o0) p o.
Proof.
  induction n as [n IH] using (well_founded_induction lt_wf). intros o h p Rd U F So I E P.
  pose proof (sound_kept o0 o U F So) as K.
  destruct n as [|n].
  - destruct (phase_zero L local ts seed _ o0 o j h p I P) as [a ->]. split; [exact K|exact Logic.I].
  - destruct (phase_step L local ts Sane seed _ o0 Rd Back o j _ h p So I E P) as [o' [p' [n' [h' [Ea [So' [P' [Le _]]]]]]]].
    assert (A : along (kept o0) p' o') by (apply (IH n' ltac:(lia) o' h' p'); assumption).
    destruct p as [a|q k|e k]; cbn [cloud_advance] in Ea; cbn [along]; (split; [exact K|]); [exact Logic.I| |];
      apply pair_eq in Ea; destruct Ea as [-> ->]; exact A.
Qed.
Lemma along_evaluate o t now gg : readable o -> usable_now o -> free o -> In t ts ->
  fst (compute_row L t seed gg) = fst (compute_row L t seed g) -> along (kept o) (cloud_evaluate L t seed now gg) o.
Proof.
  intros Rd U F I E. set (j := {| jb_trial := t; jb_now := now; jb_generators := gg |}).
  apply (along_phase o j 8 o false); try assumption.
  - apply start_sound. exact U.
  - apply (ph_start L local seed _ o o j).
Qed.
Lemma along_evaluate_read o t now gg c tb : usable_now o -> free o -> In t ts -> obj_find o (R t) = Some c -> lab_parse L c = Ok tb ->
  along (kept o) (cloud_evaluate L t seed now gg) o.
Proof.
  intros U F I E P. unfold cloud_evaluate. rewrite (R_path L local ts Sane) by exact I. cbn [along]. split; [apply kept_refl; assumption|].
  rewrite (R_stat L local ts) by assumption. rewrite E. cbn [along]. split; [apply kept_refl; assumption|].
  rewrite (R_stat L local ts) by assumption. rewrite E. cbn [parse_node]. rewrite P. cbn [along]. split; [apply kept_refl; assumption|exact Logic.I].
Qed.

(** ** The trials one after the other *)

Hypothesis Un : unaffected L seed g ts.

Lemma after_snoc l t : snd (compute_row L t seed (after_computing L seed g l)) = after_computing L seed g (l ++ [t]).
Proof. revert t. clear. generalize g. induction l as [|x l IH]; intros g0 t; cbn [after_computing app]; [reflexivity|apply IH]. Qed.

Definition stored (o : objects) (t : trial) (tb : table) : Prop := exists c, obj_find o (R t) = Some c /\ lab_parse L c = Ok tb.
Lemma kept_stored o o' t tb : In t ts -> kept o o' -> stored o t tb -> stored o' t tb.
Proof.
  intros I [_ [_ [[T _] _]]] [c [E P]]. specialize (T t I). rewrite E in T. exists c. split; [apply T|exact P].
Qed.
Lemma only_kept o t o' : usable_now o -> free o -> In t ts -> usable_now o' -> only L local t o o' -> obj_find o (R t) = None ->
  (obj_find o' (R t) = None \/ exists row, outcome t = Ok row /\ obj_find o' (R t) = Some (lab_print L [row])) -> kept o o'.
Proof.
  intros U F I U' O N H.
  assert (T : touches o o').
  { split.
    - intros t' I'. destruct (path_dec (R t') (R t)) as [X|X].
      + apply (R_inj L local ts Sane) in X; [|exact I'|exact I]. subst t'. rewrite N. exact H.
      + assert (t' <> t) by (intros ->; exact (X eq_refl)).
        assert (E : obj_find o' (R t') = obj_find o (R t')) by (apply O; [exact X|apply (R_not_M L local ts Sane)]).
        rewrite E. destruct (obj_find o (R t')) as [c|]; [|left; reflexivity]. split; [reflexivity|].
        apply O; [intros Y; symmetry in Y; exact (R_not_M L local ts Sane _ _ Y)|]. intros Y. apply (M_inj L local ts Sane) in Y; auto.
    - intros q Hq _. destruct (Hq t I). apply O; assumption. }
  split; [exact U'|]. split; [exact (touches_free o o' U U' F T)|]. split; [exact T|].
  intros x Ix. left. destruct (Clear x Ix t I) as [C1 [C2 _]]. apply O; intros ->; [apply C1, within_refl|apply C2, within_refl].
Qed.

Lemma serial l : forall tbs done gg nows o, (forall t, In t l -> In t ts) -> usable_now o -> free o -> readable o ->
  gg = after_computing L seed g done -> (forall t, In t done -> In t ts /\ obj_find o (R t) <> None) ->
  Forall2 (answers o g) l tbs ->
  let p := cloud_evaluate_all L l seed nows gg in
  fst (fst (cloud_finish p o)) = Ok tbs /\ along (kept o) p o /\ Forall2 (stored (snd (cloud_finish p o))) l tbs /\
  (forall t, In t l -> obj_find o (R t) = None -> obj_find (snd (cloud_finish p o)) (M t) = None).
Proof.
  induction l as [|t l IH]; intros tbs done gg nows o Hl U F Rd Eg Hd A; inversion A as [|? tb ? tbs' A1 A2]; subst; cbv zeta.
  - cbn [cloud_evaluate_all cloud_finish fst snd]. split; [reflexivity|]. split; [split; [apply kept_refl; assumption|exact Logic.I]|].
    split; [constructor|]. intros t [].
  - set (gg := after_computing L seed g done) in *. assert (I : In t ts) by (apply Hl; left; reflexivity).
    cbn [cloud_evaluate_all]. rewrite finish_cbind.
    set (a := cloud_finish (cloud_evaluate L t seed (nows O) gg) o).
    assert (S : along (kept o) (cloud_evaluate L t seed (nows O) gg) o /\ kept o (snd a) /\ fst (fst a) = Ok tb /\ stored (snd a) t tb /\
      (obj_find o (R t) = None -> obj_find (snd a) (M t) = None) /\
      exists done', snd (fst a) = after_computing L seed g done' /\ forall u, In u done' -> In u ts /\ obj_find (snd a) (R u) <> None).
    { destruct A1 as [[c [E P]]|[E [row [Er ->]]]].
      - unfold a. rewrite (finish_read L local ts Sane t seed (nows O) gg o c tb I U E P). cbn [fst snd].
        split; [eapply along_evaluate_read; eassumption|]. split; [apply kept_refl; assumption|]. split; [reflexivity|].
        split; [exists c; split; assumption|]. split; [congruence|]. exists done. split; [reflexivity|exact Hd].
      - assert (Ec : fst (compute_row L t seed gg) = Ok row).
        { unfold gg. rewrite (Un t done I); [exact Er|]. intros u Hu. destruct (Hd u Hu) as [D1 D2]. split; [exact D1|]. intros ->. exact (D2 E). }
        pose proof (finish_evaluate L local ts Sane t seed (nows O) gg o I U) as H. cbv zeta in H. fold a in H.
        destruct H as [H1 [H2 H3]]; [intros c tb X; congruence|].
        destruct (compute_row L t seed gg) as [r g'] eqn:Eq. cbn [fst] in Ec. subst r. destruct H3 as [H3 [H4 H5]].
        assert (K : kept o (snd a)) by (apply (only_kept o t); auto; right; exists row; split; assumption).
        split; [apply along_evaluate; auto; rewrite Eq; cbn [fst]; symmetry; exact Er|]. split; [exact K|]. rewrite H3. cbn [fst snd]. split; [reflexivity|].
        split; [exists (lab_print L [row]); split; [exact H4|exact (Back t row I Er)]|]. split; [intros _; exact H5|].
        exists (done ++ [t]). split.
        + rewrite <- after_snoc. fold gg. rewrite Eq. reflexivity.
        + intros u Hu. apply in_app_iff in Hu. destruct Hu as [Hu|[<-|[]]]; [|split; [exact I|congruence]].
          destruct (Hd u Hu) as [D1 D2]. split; [exact D1|]. destruct K as [_ [_ [[T _] _]]]. specialize (T u D1).
          destruct (obj_find o (R u)) as [c|]; [|contradiction]. destruct T as [T _]. rewrite T. discriminate. }
    destruct S as [S1 [S2 [S3 [S4 [S5 [done' [S6 S7]]]]]]]. rewrite S3.
    pose proof S2 as [U' [F' _]].
    assert (A2' : Forall2 (answers (snd a) g) l tbs').
    { eapply Forall2_impl_In; [|exact A2]. intros u tb' Hu _ Au. apply (kept_answers o); [apply Hl; right; exact Hu|exact S2|exact Au]. }
    destruct (IH tbs' done' (snd (fst a)) (fun n => nows (S n)) (snd a)) as [J1 [J2 [J3 J4]]]; auto.
    { intros u Hu. apply Hl. right. exact Hu. }
    { exact (kept_readable o _ S2 Rd). }
    set (b := cloud_finish (cloud_evaluate_all L l seed (fun n => nows (S n)) (snd (fst a))) (snd a)) in *.
    rewrite !finish_cbind. fold b. rewrite J1. cbn [cloud_finish fst snd].
    assert (Kb : kept o (snd b)).
    { apply (kept_trans o (snd a)); [exact S2|]. exact (along_end _ _ _ J2). }
    split; [reflexivity|]. split; [|split].
    + apply along_bind; [exact S1|]. fold a. rewrite S3. apply along_bind.
      * apply (along_mono (kept (snd a))); [|exact J2]. intros o1. apply kept_trans. exact S2.
      * fold b. rewrite J1. split; [exact Kb|exact Logic.I].
    + constructor; [|exact J3]. apply (kept_stored (snd a)); [exact I|exact (along_end _ _ _ J2)|exact S4].
    + intros u [<-|Hu] N.
      * pose proof (along_end _ _ _ J2) as [_ [_ [[T _] _]]]. fold b in T. specialize (T t I). destruct S4 as [c [Ec _]]. rewrite Ec in T.
        destruct T as [_ ->]. exact (S5 N).
      * destruct (obj_find (snd a) (R u)) as [c|] eqn:Eu; [|exact (J4 u Hu Eu)].
        assert (Iu : In u ts) by (apply Hl; right; exact Hu).
        pose proof (along_end _ _ _ J2) as [_ [_ [[T _] _]]]. fold b in T. specialize (T u Iu). rewrite Eu in T. destruct T as [_ ->].
        (* computed just now: it is the same trial *)
        destruct (path_dec (R u) (R t)) as [X|X].
        -- apply (R_inj L local ts Sane) in X; [|exact Iu|exact I]. subst u. exact (S5 N).
        -- exfalso. destruct A1 as [[c' [E P]]|[E _]].
           ++ revert Eu. unfold a. rewrite (finish_read L local ts Sane t seed (nows O) gg o c' tb I U E P). cbn [snd]. congruence.
           ++ pose proof (finish_evaluate L local ts Sane t seed (nows O) gg o I U) as H. cbv zeta in H. fold a in H.
              destruct H as [_ [H2 _]]; [intros c0 tb0 Y; congruence|]. rewrite H2 in Eu; [congruence|exact X|apply (R_not_M L local ts Sane)].
Qed.
End Run.
