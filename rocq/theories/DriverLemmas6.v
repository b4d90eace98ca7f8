(** Runs of several trials, one after the other. *)
From Coq Require Import String Ascii.
From Verif Require Import Prelude ModelAggregator ModelFiles SpecFiles FilesLemmas FilesLemmas2 FilesLemmas3
  ModelDriver SpecDriver DriverLemmas DriverLemmas2 DriverLemmas3 DriverLemmas4.
Open Scope Z_scope.

Lemma finish_pbind {A B} (p : prog A) (f : A -> prog B) : forall d,
  finish (pbind p f) d = (let '(a, w1) := finish p d in finish (f a) w1).
Proof.
  induction p as [a|q k IH|e k IH]; intros d; cbn [pbind finish]; [reflexivity|apply IH|].
  destruct (run_effect d e); apply IH.
Qed.

(** A stopped sequence of two programs: the first has been stopped, or it is finished. *)
Lemma advances_pbind {A B} (p : prog A) (f : A -> prog B) : forall n d,
  advances n d (pbind p f) = (let '(d', p') := advances n d p in (d', pbind p' f)) \/
  exists a d1 m, finish p d = (a, d1) /\ advances n d (pbind p f) = advances m d1 (f a).
Proof.
  induction p as [a|q k IH|e k IH]; intros n d.
  - right. exists a, d, n. split; reflexivity.
  - destruct n as [|n]; [left; reflexivity|]. cbn [pbind advances advance finish]. apply IH.
  - destruct n as [|n]; [left; reflexivity|]. cbn [pbind advances advance finish].
    destruct (run_effect d e); apply IH.
Qed.

Section Many.
Variables (L : lab) (ts : list trial).
Hypothesis sep : separate L ts.

Lemma separate_one t : In t ts -> separate L [t].
Proof.
  intros H. destruct sep as [S1 [S2 S3]]. split; [|split].
  - intros t' [<-|[]]. auto.
  - cbn [map app]. destruct (sep_trial L ts sep t H) as [_ [_ [N _]]].
    constructor; [intros [X|[]]; auto|]. constructor; [intros []|constructor].
  - intros t1 t2 [<-|[]] [<-|[]]. auto.
Qed.

Lemma usable_one t d : In t ts -> usable L ts d -> usable L [t] d.
Proof. intros H [U1 U2]. split; [exact U1|]. intros t' [<-|[]]. auto. Qed.

Lemma NoDup_map_inj {A B} (f : A -> B) l x y : NoDup (map f l) -> In x l -> In y l -> f x = f y -> x = y.
Proof.
  induction l as [|z l IH]; cbn [map]; intros N Hx Hy E; [destruct Hx|]. inversion N as [|? ? N1 N2]; subst.
  destruct Hx as [->|Hx], Hy as [->|Hy]; auto.
  - exfalso. apply N1. rewrite E. apply in_map. exact Hy.
  - exfalso. apply N1. rewrite <- E. apply in_map. exact Hx.
Qed.

Lemma separate_NoDup : NoDup ts.
Proof. destruct sep as [_ [S2 _]]. apply NoDup_app_l in S2. apply NoDup_map_inv in S2. exact S2. Qed.

Lemma others t t' : In t ts -> In t' ts -> t <> t' ->
  out_of L t <> out_of L t' /\ pending_path L t <> pending_path L t' /\
  out_of L t <> pending_path L t' /\ pending_path L t <> out_of L t'.
Proof.
  intros Ht Ht' N. apply In_nth_error in Ht, Ht'. destruct Ht as [i Hi], Ht' as [j Hj].
  apply (sep_other L ts sep i j t t' Hi Hj). intros ->. congruence.
Qed.

(** What one trial does, seen by all. *)
Lemma frame t d d' : In t ts -> usable L ts d -> usable L [t] d' -> only_adds_directories L [t] d d' ->
  usable L ts d' /\ only_adds_directories L ts d d' /\
  forall t', In t' ts -> t' <> t ->
    stat d' (out_of L t') = stat d (out_of L t') /\ stat d' (pending_path L t') = stat d (pending_path L t').
Proof.
  intros Ht U U1 O.
  assert (Fr : forall t', In t' ts -> t' <> t ->
    stat d' (out_of L t') = stat d (out_of L t') /\ stat d' (pending_path L t') = stat d (pending_path L t')).
  { intros t' Ht' N. destruct (others t' t Ht' Ht N) as [D1 [D2 [D3 D4]]].
    destruct (proj2 (proj2 sep) t t' Ht Ht') as [E1 E2].
    split.
    - destruct (node_dec (stat d' (out_of L t')) (stat d (out_of L t'))) as [X|X]; [exact X|exfalso].
      destruct (O _ X) as [[t0 [[<-|[]] [Y|Y]]]|[_ [_ [t0 [[<-|[]] Y]]]]]; auto.
    - destruct (node_dec (stat d' (pending_path L t')) (stat d (pending_path L t'))) as [X|X]; [exact X|exfalso].
      destruct (O _ X) as [[t0 [[<-|[]] [Y|Y]]]|[_ [_ [t0 [[<-|[]] Y]]]]]; auto. }
  split; [|split; [|exact Fr]].
  - split; [apply U1|]. intros t' Ht'. destruct (proj2 U t' Ht') as [V1 [V2 V3]].
    split; [|].
    + intros q c D X.
      destruct (node_dec (stat d' q) (stat d q)) as [Y|Y]; [apply (V1 q c D); congruence|].
      destruct (O q Y) as [[t0 [[<-|[]] [Z|Z]]]|[_ [Z _]]]; [| |congruence].
      * subst q. destruct (proj2 (proj2 sep) t' t Ht' Ht) as [E1 _]. auto.
      * subst q. destruct (proj2 (proj2 sep) t' t Ht' Ht) as [_ E2]. auto.
    + destruct (node_dec (stat d' (out_of L t')) (stat d (out_of L t'))) as [E1|E1],
        (node_dec (stat d' (pending_path L t')) (stat d (pending_path L t'))) as [E2|E2].
      * rewrite E1, E2. auto.
      * assert (t' = t).
        { destruct (O _ E2) as [[t0 [[<-|[]] [Y|Y]]]|[_ [_ [t0 [[<-|[]] Y]]]]].
          - exfalso. destruct sep as [_ [S2 _]]. eapply NoDup_app_disj; [exact S2|apply in_map; exact Ht|].
            rewrite <- Y. apply in_map. exact Ht'.
          - destruct sep as [_ [S2 _]]. apply NoDup_app_r in S2. eapply NoDup_map_inj; eauto.
          - exfalso. destruct (proj2 (proj2 sep) t t' Ht Ht'). auto. }
        subst t'. apply (proj2 U1 t (or_introl eq_refl)).
      * assert (t' = t).
        { destruct (O _ E1) as [[t0 [[<-|[]] [Y|Y]]]|[_ [_ [t0 [[<-|[]] Y]]]]].
          - destruct sep as [_ [S2 _]]. apply NoDup_app_l in S2. eapply NoDup_map_inj; eauto.
          - exfalso. destruct sep as [_ [S2 _]]. eapply NoDup_app_disj; [exact S2|apply in_map; exact Ht'|].
            rewrite Y. apply in_map. exact Ht.
          - exfalso. destruct (proj2 (proj2 sep) t t' Ht Ht'). auto. }
        subst t'. apply (proj2 U1 t (or_introl eq_refl)).
      * assert (t' = t).
        { destruct (O _ E1) as [[t0 [[<-|[]] [Y|Y]]]|[_ [_ [t0 [[<-|[]] Y]]]]].
          - destruct sep as [_ [S2 _]]. apply NoDup_app_l in S2. eapply NoDup_map_inj; eauto.
          - exfalso. destruct sep as [_ [S2 _]]. eapply NoDup_app_disj; [exact S2|apply in_map; exact Ht'|].
            rewrite Y. apply in_map. exact Ht.
          - exfalso. destruct (proj2 (proj2 sep) t t' Ht Ht'). auto. }
        subst t'. apply (proj2 U1 t (or_introl eq_refl)).
  - intros q Hq. destruct (O q Hq) as [[t0 [[<-|[]] X]]|[X [Y [t0 [[<-|[]] Z]]]]].
    + left. exists t. auto.
    + right. split; [auto|]. split; [auto|]. exists t. auto.
Qed.

Lemma has_result_stat t d d' tb : stat d' (out_of L t) = stat d (out_of L t) ->
  (has_result L t d' tb <-> has_result L t d tb).
Proof. intros E. unfold has_result. rewrite E. reflexivity. Qed.
Lemma no_result_stat t d d' : stat d' (out_of L t) = stat d (out_of L t) ->
  (no_result L t d' <-> no_result L t d).
Proof. intros E. unfold no_result. split; intros H tb X; apply (H tb); apply (has_result_stat t d d' tb E); exact X. Qed.
Lemma result_dec t d : (exists tb, has_result L t d tb) \/ no_result L t d.
Proof.
  destruct (stat d (out_of L t)) as [[|c]|] eqn:E.
  - right. intros tb [c [X _]]. congruence.
  - destruct (lab_parse L c) as [tb|e] eqn:P.
    + left. exists tb, c. auto.
    + right. intros tb [c' [X Y]]. congruence.
  - right. intros tb [c [X _]]. congruence.
Qed.
Lemma has_result_fun t d tb tb' : has_result L t d tb -> has_result L t d tb' -> tb = tb'.
Proof. intros [c [E P]] [c' [E' P']]. congruence. Qed.

(** One complete evaluation. *)
Lemma evaluate_one t seed now g d : In t ts -> usable L ts d ->
  exists a d', finish (evaluate L t seed now g) d = (a, d') /\
    evaluated L t seed now g d a d' /\ usable L ts d' /\ only_adds_directories L ts d d' /\
    (forall t', In t' ts -> t' <> t -> stat d' (out_of L t') = stat d (out_of L t')) /\
    (forall tb, has_result L t d tb -> d' = d).
Proof.
  intros Ht U. destruct (finish_evaluated L t seed (separate_one t Ht) now g d (usable_one t d Ht U)) as [E [U1 O1]].
  destruct (finish (evaluate L t seed now g) d) as [a d'] eqn:Ef. cbn [fst snd] in *.
  destruct (frame t d d' Ht U U1 O1) as [U2 [O2 Fr]].
  exists a, d'. split; [reflexivity|]. split; [exact E|]. split; [exact U2|]. split; [exact O2|].
  split; [intros t' H1 H2; apply (Fr t' H1 H2)|].
  intros tb R. rewrite (result_finish L t seed now g d tb R) in Ef. congruence.
Qed.

Section Run.
Variables (seed : Z) (g0 : generators L) (w : disk).
Hypothesis Hun : unaffected L seed g0 ts.
Hypothesis Hcomp : computable L seed w g0 ts.

(** The state of the run: some trials have been computed, the others are as in the beginning. *)
Definition reached (rest : list trial) (g : generators L) (d : disk) : Prop :=
  usable L ts d /\
  (forall t, In t rest -> In t ts /\ stat d (out_of L t) = stat w (out_of L t)) /\
  exists l, g = after_computing L seed g0 l /\ forall x, In x l -> In x ts /\ ~ In x rest.

Lemma after_computing_app l l' g : after_computing L seed g (l ++ l') =
  after_computing L seed (after_computing L seed g l) l'.
Proof. revert g. induction l as [|t l IH]; intros g; cbn [app after_computing]; auto. Qed.

Lemma reached_row t rest g d : reached (t :: rest) g d ->
  fst (compute_row L t seed g) = fst (compute_row L t seed g0).
Proof.
  intros [_ [H [l [-> Hl]]]]. apply Hun; [apply H; left; reflexivity|].
  intros x Hx. destruct (Hl x Hx) as [A B]. split; [exact A|]. intros ->. apply B. left. reflexivity.
Qed.

Lemma reached_step t rest g d now : NoDup (t :: rest) -> reached (t :: rest) g d ->
  exists tb g' d', finish (evaluate L t seed now g) d = ((Ok tb, g'), d') /\
    answers L seed w g0 t tb /\ reached rest g' d' /\ only_adds_directories L ts d d' /\
    (has_result L t w tb /\ stat d' (out_of L t) = stat w (out_of L t) \/
     no_result L t w /\ stat d' (out_of L t) = Some (File (lab_print L tb))) /\
    (forall t', In t' ts -> t' <> t -> stat d' (out_of L t') = stat d (out_of L t')).
Proof.
  intros ND R. pose proof (reached_row t rest g d R) as Row. destruct R as [U [H [l [Eg Hl]]]].
  destruct (H t (or_introl eq_refl)) as [Ht Es].
  destruct (evaluate_one t seed now g d Ht U) as [a [d' [Ef [Ev [U' [O' [Fr Same]]]]]]].
  inversion ND as [|? ? N1 N2]; subst.
  assert (Rest : forall t', In t' rest -> In t' ts /\ stat d' (out_of L t') = stat w (out_of L t')).
  { intros t' Ht'. destruct (H t' (or_intror Ht')) as [A B]. split; [exact A|]. rewrite <- B.
    apply Fr; [exact A|]. intros ->. contradiction. }
  set (g := after_computing L seed g0 l) in *.
  destruct Ev as [[tb [R1 [Ea [E1 _]]]]|[N Ev]].
  - exists tb, g, d'. rewrite Ef, Ea. split; [reflexivity|].
    assert (Rw : has_result L t w tb) by (apply (has_result_stat t w d tb Es); exact R1).
    split; [left; exact Rw|].
    split.
    { split; [exact U'|]. split; [exact Rest|]. exists l. split; [reflexivity|]. intros x Hx.
      destruct (Hl x Hx) as [A B]. split; [exact A|]. intros X. apply B. right. exact X. }
    split; [exact O'|]. split; [|exact Fr]. left. split; [exact Rw|]. congruence.
  - assert (Nw : no_result L t w) by (apply (no_result_stat t w d Es); exact N).
    destruct (Hcomp t Ht) as [tb An]. destruct An as [X|[_ [row [Er ->]]]]; [exfalso; exact (Nw _ X)|].
    rewrite <- Row in Er. destruct (compute_row L t seed g) as [r g'] eqn:Ec. cbn [fst] in Er. subst r.
    destruct Ev as [Ea [E1 E2]]. exists [row], g', d'. rewrite Ef, Ea. split; [reflexivity|].
    split. { right. split; [exact Nw|]. exists row. split; [rewrite <- Row; reflexivity|reflexivity]. }
    split.
    { split; [exact U'|]. split; [exact Rest|]. exists (l ++ [t]). split.
      - rewrite after_computing_app. fold g. cbn [after_computing]. rewrite Ec. reflexivity.
      - intros x Hx. apply in_app_iff in Hx. destruct Hx as [Hx|[<-|[]]]; [|auto].
        destruct (Hl x Hx) as [A B]. split; [exact A|]. intros X. apply B. right. exact X. }
    split; [exact O'|]. split; [|exact Fr]. right. auto.
Qed.

Lemma run_all rest : forall nows g d, NoDup rest -> reached rest g d ->
  exists tbs g' d', finish (evaluate_all L rest seed nows g) d = ((Ok tbs, g'), d') /\
    Forall2 (answers L seed w g0) rest tbs /\ usable L ts d' /\ only_adds_directories L ts d d' /\
    Forall2 (fun t tb => has_result L t w tb /\ stat d' (out_of L t) = stat w (out_of L t) \/
       no_result L t w /\ stat d' (out_of L t) = Some (File (lab_print L tb))) rest tbs /\
    (forall t', In t' ts -> ~ In t' rest -> stat d' (out_of L t') = stat d (out_of L t')).
Proof.
  induction rest as [|t rest IH]; intros nows g d ND R.
  - exists [], g, d. cbn. split; [reflexivity|]. split; [constructor|]. split; [apply R|].
    split; [intros q X; contradiction|]. split; [constructor|auto].
  - destruct (reached_step t rest g d (nows O) ND R) as [tb [g1 [d1 [E1 [A1 [R1 [O1 [S1 F1]]]]]]]].
    inversion ND as [|? ? N1 N2]; subst.
    destruct (IH (fun n => nows (S n)) g1 d1 N2 R1) as [tbs [g2 [d2 [E2 [A2 [U2 [O2 [S2 F2]]]]]]]].
    exists (tb :: tbs), g2, d2. cbn [evaluate_all]. rewrite finish_pbind, E1. cbn [fst snd].
    rewrite finish_pbind, E2. cbn [fst snd finish]. split; [reflexivity|].
    split; [constructor; auto|]. split; [exact U2|]. split; [eapply only_adds_trans; eauto|].
    assert (Ht : In t ts) by (apply R; left; reflexivity).
    split.
    + constructor; [|exact S2]. rewrite (F2 t Ht N1). exact S1.
    + intros t' H1 H2. rewrite F2, F1; [reflexivity|exact H1| |exact H1|].
      * intros ->. apply H2. left. reflexivity.
      * intros X. apply H2. right. exact X.
Qed.

(** A run that has been stopped: every results file is as in the beginning, absent, or a part
    of the printed row. *)
Definition halfway (d : disk) : Prop :=
  usable L ts d /\ only_adds_directories L ts w d /\
  forall t, In t ts ->
    stat d (out_of L t) = stat w (out_of L t) \/
    (no_result L t w /\
     (stat d (out_of L t) = None \/
      exists row c, fst (compute_row L t seed g0) = Ok row /\
        stat d (out_of L t) = Some (File c) /\ written_part c (lab_print L [row]))).

Lemma advances_ret {A} (a : A) n d : advances n d (Ret a) = (d, Ret a).
Proof. induction n as [|n IH]; [reflexivity|]. cbn [advances advance]. exact IH. Qed.

Lemma finish_advances {A} (p : prog A) : forall d, exists n, advances n d p = (snd (finish p d), Ret (fst (finish p d))).
Proof.
  induction p as [a|q k IH|e k IH]; intros d.
  - exists O. reflexivity.
  - destruct (IH (stat d q) d) as [n E]. exists (S n). cbn [advances advance finish]. exact E.
  - cbn [finish]. destruct (run_effect d e) as [w1|x] eqn:R.
    + destruct (IH (Ok tt) w1) as [n E]. exists (S n). cbn [advances advance]. rewrite R. exact E.
    + destruct (IH (Err x) d) as [n E]. exists (S n). cbn [advances advance]. rewrite R. exact E.
Qed.

Lemma halfway_step t rest g d d' : reached (t :: rest) g d -> halfway d ->
  usable L ts d' -> only_adds_directories L ts d d' ->
  (forall t', In t' ts -> t' <> t -> stat d' (out_of L t') = stat d (out_of L t')) ->
  (stat d' (out_of L t) = stat d (out_of L t) \/
     (no_result L t w /\
     (stat d' (out_of L t) = None \/
      exists row c, fst (compute_row L t seed g0) = Ok row /\
        stat d' (out_of L t) = Some (File c) /\ written_part c (lab_print L [row])))) ->
  halfway d'.
Proof.
  intros R [H1 [H2 H3]] U O Fr Ht. split; [exact U|]. split; [eapply only_adds_trans; eauto|].
  intros t' Ht'. destruct (path_dec (out_of L t') (out_of L t)) as [E|N].
  - rewrite E. assert (t' = t).
    { destruct sep as [_ [S2 _]]. apply NoDup_app_l in S2. eapply NoDup_map_inj; eauto. apply R. left. reflexivity. }
    subst t'. destruct Ht as [Ht|Ht]; [|right; exact Ht]. rewrite Ht. apply H3. exact Ht'.
  - rewrite Fr; [apply H3; exact Ht'|exact Ht'|]. intros ->. contradiction.
Qed.

Lemma run_stopped rest : forall nows g d n, NoDup rest -> reached rest g d -> halfway d ->
  halfway (fst (advances n d (evaluate_all L rest seed nows g))).
Proof.
  induction rest as [|t rest IH]; intros nows g d n ND R H.
  - cbn [evaluate_all]. rewrite advances_ret. exact H.
  - cbn [evaluate_all].
    destruct (advances_pbind (evaluate L t seed (nows O) g) (fun a =>
      match fst a with
      | Err e => Ret (Err e, snd a)
      | Ok tb => pbind (evaluate_all L rest seed (fun n => nows (S n)) (snd a)) (fun b =>
                 match fst b with
                 | Err e => Ret (Err e, snd b)
                 | Ok tbs => Ret (Ok (tb :: tbs), snd b)
                 end)
      end) n d) as [E|[a [d1 [m [E1 E2]]]]].
    + rewrite E. clear E. set (at1 := {| at_now := nows O; at_generators := g; at_steps := n |}).
      assert (X : fst (advances n d (evaluate L t seed (nows O) g)) = stopped t seed d at1) by reflexivity.
      destruct (advances n d (evaluate L t seed (nows O) g)) as [w1 p1]. cbn [fst] in *. rewrite X. clear X.
      assert (Ht : In t ts) by (apply R; left; reflexivity).
      assert (U : usable L [t] d) by (apply usable_one; [exact Ht|apply R]).
      pose proof (stopped_guar L t seed (separate_one t Ht) at1 d U) as G.
      pose proof (guar_usable L t seed _ d _ U G) as U1.
      pose proof (guar_only L t seed _ d _ G) as O1.
      destruct (frame t d _ Ht (proj1 R) U1 O1) as [U2 [O2 Fr]].
      destruct (result_dec t d) as [[tb Res]|Nr].
      * rewrite (result_stopped L t seed d tb at1 Res). exact H.
      * eapply halfway_step; [exact R|exact H|exact U2|exact O2|intros t' A B; apply (Fr t' A B)|].
        assert (Nw : no_result L t w).
        { apply (no_result_stat t w d); [|exact Nr]. apply R. left. reflexivity. }
        destruct G as [_ [_ [_ [[G|[G|[row [g' [c [G1 [G2 G3]]]]]]] _]]]].
        -- left. exact G.
        -- right. split; [exact Nw|]. left. exact G.
        -- right. split; [exact Nw|]. right. exists row, c. split; [|split; assumption].
           rewrite <- (reached_row t rest g d R). cbn [at_generators at1] in G1. rewrite G1. reflexivity.
    + destruct (reached_step t rest g d (nows O) ND R) as [tb [g1 [d1' [F1 [A1 [R1 [O1 [S1 Fr1]]]]]]]].
      rewrite E1 in F1. assert (a = (Ok tb, g1)) by congruence. assert (d1' = d1) by congruence. subst a d1'.
      cbn [fst snd] in E2. rewrite E2. clear E2 F1.
      inversion ND as [|? ? N1 N2]; subst.
      assert (H1 : halfway d1).
      { eapply halfway_step; [exact R|exact H|apply R1|exact O1|exact Fr1|].
        destruct S1 as [[S1 S2]|[S1 S2]].
        - left. rewrite S2. symmetry. apply R. left. reflexivity.
        - right. split; [exact S1|]. right. destruct A1 as [A1|[_ [row [A1 ->]]]]; [exfalso; exact (S1 _ A1)|].
          exists row, (lab_print L [row]). split; [exact A1|]. split; [exact S2|]. exists []. rewrite app_nil_r. reflexivity. }
      destruct (advances_pbind (evaluate_all L rest seed (fun n => nows (S n)) g1) (fun b =>
                 match fst b with
                 | Err e => Ret (Err e, snd b)
                 | Ok tbs => Ret (Ok (tb :: tbs), snd b)
                 end) m d1) as [E3|[b [d2 [k [E3 E4]]]]].
      * rewrite E3. specialize (IH (fun n => nows (S n)) g1 d1 m N2 R1 H1).
        destruct (advances m d1 (evaluate_all L rest seed (fun n => nows (S n)) g1)) as [w1 p1]. exact IH.
      * rewrite E4. destruct (finish_advances (evaluate_all L rest seed (fun n => nows (S n)) g1) d1) as [j Ej].
        specialize (IH (fun n => nows (S n)) g1 d1 j N2 R1 H1). rewrite Ej, E3 in IH. cbn [fst snd] in IH.
        destruct (fst b); rewrite advances_ret; exact IH.
Qed.

Lemma reached_start : usable L ts w -> reached ts g0 w.
Proof.
  intros U. split; [exact U|]. split; [auto|]. exists []. split; [reflexivity|]. intros x [].
Qed.
Lemma halfway_start : usable L ts w -> halfway w.
Proof. intros U. split; [exact U|]. split; [intros q X; contradiction|]. auto. Qed.

End Run.

Lemma halfway_computable seed g0 w d : computable L seed w g0 ts -> halfway seed g0 w d -> computable L seed d g0 ts.
Proof.
  intros C [_ [_ H]] t Ht. destruct (result_dec t d) as [[tb R]|N]; [exists tb; left; exact R|].
  destruct (C t Ht) as [tb [R|[_ [row [E ->]]]]].
  - exfalso. destruct (H t Ht) as [X|[X _]]; [|exact (X _ R)]. apply (N tb). apply (has_result_stat t w d tb X). exact R.
  - exists [row]. right. split; [exact N|]. exists row. auto.
Qed.

Lemma halfway_trans seed g0 w v d : halfway seed g0 w v -> halfway seed g0 v d -> halfway seed g0 w d.
Proof.
  intros [_ [O1 H1]] [U [O2 H2]]. split; [exact U|]. split; [eapply only_adds_trans; eauto|].
  intros t Ht. destruct (H2 t Ht) as [E|[N X]].
  - rewrite E. apply H1. exact Ht.
  - right. split; [|exact X]. destruct (H1 t Ht) as [E|[N' _]]; [|exact N'].
    apply (no_result_stat t w v E). exact N.
Qed.

Lemma runs_halfway seed g0 (l : list ((nat -> text) * nat)) : forall w, unaffected L seed g0 ts ->
  computable L seed w g0 ts -> usable L ts w -> halfway seed g0 w (after_runs L ts seed g0 w l).
Proof.
  induction l as [|a l IH]; intros w Un C U; [apply halfway_start; exact U|].
  unfold after_runs. cbn [fold_left].
  assert (H : halfway seed g0 w (stopped_run L ts seed g0 w a)).
  { unfold stopped_run. apply run_stopped; auto using separate_NoDup, reached_start, halfway_start. }
  eapply halfway_trans; [exact H|]. apply IH; [exact Un| |apply H].
  eapply halfway_computable; eauto.
Qed.

(** With a reader that takes complete files only, the answers are those of the beginning. *)
Lemma halfway_answers seed g0 w d t tb : halfway seed g0 w d -> In t ts ->
  reads_back L seed g0 ts -> refuses_all_parts L seed g0 ts ->
  answers L seed d g0 t tb -> answers L seed w g0 t tb.
Proof.
  intros [_ [_ H]] Ht RB RP A. destruct (H t Ht) as [E|[N X]].
  - destruct A as [R|[N [row [Er ->]]]].
    + left. apply (has_result_stat t w d tb E). exact R.
    + right. split; [apply (no_result_stat t w d E); exact N|]. exists row. auto.
  - right. split; [exact N|]. destruct A as [[c [Ec P]]|[_ A]]; [|exact A].
    destruct X as [X|[row [c' [Er [Ec' W]]]]]; [congruence|]. assert (c' = c) by congruence. subst c'.
    exists row. split; [exact Er|]. destruct (list_eq_dec Ascii.ascii_dec c (lab_print L [row])) as [->|Ne].
    + rewrite (RB t row Ht Er) in P. congruence.
    + exfalso. exact (RP t row Ht Er c tb W Ne P).
Qed.

Lemma answers_fun seed g0 w t tb tb' : answers L seed w g0 t tb -> answers L seed w g0 t tb' -> tb = tb'.
Proof.
  intros [R|[N [row [E ->]]]] [R'|[N' [row' [E' ->]]]].
  - eapply has_result_fun; eauto.
  - exfalso. exact (N' _ R).
  - exfalso. exact (N _ R').
  - congruence.
Qed.
End Many.
