(** One evaluation of a trial next to other programs, and many evaluations interleaved. *)
From Coq Require Import String Ascii.
From Verif Require Import Prelude ModelAggregator ModelFiles SpecFiles FilesLemmas FilesLemmas2 FilesLemmas3
  ModelDriver SpecDriver DriverLemmas.
Open Scope Z_scope.

Definition place_of (L : lab) (ts : list trial) (q : path) : Prop :=
  exists t, In t ts /\ directory_of L t q.

(** What an evaluation may leave in the results file. *)
Definition legal_of (L : lab) (t : trial) (seed : Z) (g : generators L) (n : option node) : Prop :=
  n = None \/ exists row g' c, compute_row L t seed g = (Ok row, g') /\
    n = Some (File c) /\ written_part c (lab_print L [row]).

(** What a complete evaluation does. *)
Definition evaluated (L : lab) (t : trial) (seed : Z) (now : text) (g : generators L) (d : disk)
    (a : result table * generators L) (d' : disk) : Prop :=
  (exists tb, has_result L t d tb /\ a = (Ok tb, g) /\
     stat d' (out_of L t) = stat d (out_of L t) /\ stat d' (pending_path L t) = stat d (pending_path L t)) \/
  (no_result L t d /\
   match compute_row L t seed g with
   | (Ok row, g') => a = (Ok [row], g') /\ done_with L t [row] d'
   | (Err e, g') => a = (Err e, g') /\ stat d' (out_of L t) = None /\
                    stat d' (pending_path L t) = Some (File (pending_text L t now))
   end).

Section One.
Variables (L : lab) (t : trial) (seed : Z) (now : text) (g : generators L) (place : path -> Prop).
Notation out := (out_of L t).
Notation pend := (pending_path L t).
Hypothesis out_nonroot : snd out <> [].
Hypothesis pend_nonroot : snd pend <> [].
Hypothesis different : out <> pend.
Hypothesis out_not_place : ~ place out.
Hypothesis pend_not_place : ~ place pend.
Hypothesis places : forall q, directory_of L t q -> place q.
Notation legal := (legal_of L t seed g).
Notation SAFE := (safe out pend place legal).
Notation INV := (inv place).

Lemma recompute_safe d w :
  INV w -> no_result L t d -> (forall c, stat w out <> Some (File c)) ->
  stat w out <> Some Dir -> stat w pend <> Some Dir ->
  SAFE (recompute L t seed now g) (evaluated L t seed now g d) w.
Proof.
  intros I NRs NF NO NP. unfold recompute, save. fold (out_of L t). rewrite map_app.
  rewrite <- (app_nil_r (map Plain (write_file_ops pend (pending_text L t now)))).
  apply safe_mkdir; auto.
  { intros q H. apply places. right. exact H. }
  intros w1 R1 E1. apply safe_write; auto.
  { apply R1. }
  { right. reflexivity. }
  { rewrite (rely_mine _ _ _ _ _ _ R1) by (right; reflexivity). exact NP. }
  { intros X. exfalso. apply different. auto. }
  intros w2 B2 E2. cbn [acts].
  assert (O2 : stat w2 out = stat w out).
  { rewrite (proj2 (proj2 B2)); [|left; reflexivity|auto]. apply R1. }
  destruct (compute_row L t seed g) as [[row|e] g'] eqn:Er.
  - rewrite map_app, <- !app_assoc. apply safe_mkdir; auto.
    { apply B2. }
    { intros q H. apply places. left. exact H. }
    intros w3 R3 E3.
    assert (P3 : stat w3 pend = stat w2 pend) by (eapply rely_mine; [exact R3|right; reflexivity]).
    assert (O3 : stat w3 out = stat w2 out) by (eapply rely_mine; [exact R3|left; reflexivity]).
    apply safe_write; auto.
    { apply R3. }
    { left. reflexivity. }
    { rewrite O3, O2. auto. }
    { intros _ c' W. right. exists row, g', c'. auto. }
    intros w4 B4 E4. cbn [acts safe]. intros w5 R5. cbn [run_effect].
    assert (P5 : stat w5 pend = Some (File (pending_text L t now))).
    { rewrite (rely_mine _ _ _ _ _ _ R5) by (right; reflexivity).
      rewrite (proj2 (proj2 B4)); [|right; reflexivity|auto]. congruence. }
    assert (O5 : stat w5 out = Some (File (lab_print L [row]))).
    { rewrite (rely_mine _ _ _ _ _ _ R5) by (left; reflexivity). exact E4. }
    rewrite P5.
    destruct (remove_mine out pend place legal out_nonroot pend_nonroot w5 pend _ (proj1 R5)
                ltac:(right; reflexivity) P5) as [G6 [B6 E6]].
    { intros X. exfalso. apply different. auto. }
    split; [exact G6|]. intros w7 R7. right. split; [exact NRs|]. rewrite Er.
    split; [reflexivity|]. split.
    + rewrite (rely_mine _ _ _ _ _ _ R7) by (left; reflexivity).
      rewrite (proj2 (proj2 B6)); [exact O5|left; reflexivity|auto].
    + rewrite (rely_mine _ _ _ _ _ _ R7) by (right; reflexivity). exact E6.
  - cbn [safe]. intros w3 R3. right. split; [exact NRs|]. rewrite Er. split; [reflexivity|]. split.
    + rewrite (rely_mine _ _ _ _ _ _ R3) by (left; reflexivity). rewrite O2.
      destruct (stat w out) as [[|c]|]; [contradiction|exfalso; eapply NF; eauto|reflexivity].
    + rewrite (rely_mine _ _ _ _ _ _ R3) by (right; reflexivity). exact E2.
Qed.

Lemma evaluate_safe d :
  INV d -> stat d out <> Some Dir -> stat d pend <> Some Dir ->
  SAFE (evaluate L t seed now g) (evaluated L t seed now g d) d.
Proof.
  intros I NO NP. unfold evaluate. fold (out_of L t). cbn [safe]. intros w1 R1.
  assert (E1 : stat w1 out = stat d out) by (eapply rely_mine; [exact R1|left; reflexivity]).
  assert (P1 : stat w1 pend = stat d pend) by (eapply rely_mine; [exact R1|right; reflexivity]).
  destruct (stat w1 out) as [[|c]|] eqn:O1.
  - exfalso. congruence.
  - cbn [safe]. intros w2 R2.
    assert (E2 : stat w2 out = Some (File c)).
    { rewrite (rely_mine _ _ _ _ _ _ R2) by (left; reflexivity). exact O1. }
    assert (P2 : stat w2 pend = stat d pend).
    { rewrite (rely_mine _ _ _ _ _ _ R2) by (right; reflexivity). exact P1. }
    rewrite E2. destruct (lab_parse L c) as [tb|e] eqn:Ep.
    + cbn [safe]. intros w3 R3. left. exists tb. split; [exists c; split; [congruence|exact Ep]|].
      split; [reflexivity|]. split.
      * rewrite (rely_mine _ _ _ _ _ _ R3) by (left; reflexivity). congruence.
      * rewrite (rely_mine _ _ _ _ _ _ R3) by (right; reflexivity). exact P2.
    + cbn [safe]. intros w3 R3. cbn [run_effect].
      assert (E3 : stat w3 out = Some (File c)).
      { rewrite (rely_mine _ _ _ _ _ _ R3) by (left; reflexivity). exact E2. }
      assert (P3 : stat w3 pend = stat d pend).
      { rewrite (rely_mine _ _ _ _ _ _ R3) by (right; reflexivity). exact P2. }
      rewrite E3.
      destruct (remove_mine out pend place legal out_nonroot pend_nonroot w3 out _ (proj1 R3)
                  ltac:(left; reflexivity) E3) as [G4 [B4 E4]].
      { intros _. left. reflexivity. }
      split; [exact G4|]. apply recompute_safe.
      * apply B4.
      * intros tb [c' [X Y]]. congruence.
      * intros c'. rewrite E4. discriminate.
      * rewrite E4. discriminate.
      * rewrite (proj2 (proj2 B4)); [congruence|right; reflexivity|auto].
  - apply recompute_safe.
    + apply R1.
    + intros tb [c' [X Y]]. congruence.
    + intros c. congruence.
    + congruence.
    + congruence.
Qed.

End One.

(** ** Many evaluations *)

Section Many.
Variables (L : lab) (ts : list trial).
Hypothesis sep : separate L ts.
Notation place := (place_of L ts).
Notation INV := (inv place).

Lemma sep_trial t : In t ts ->
  snd (out_of L t) <> [] /\ snd (pending_path L t) <> [] /\ out_of L t <> pending_path L t /\
  ~ place (out_of L t) /\ ~ place (pending_path L t).
Proof.
  intros H. destruct sep as [S1 [S2 S3]]. destruct (S1 t H) as [A B]. split; [auto|]. split; [auto|].
  split; [|split].
  - intros E. apply in_map with (f := out_of L) in H as Ho. pose proof (in_map (pending_path L) _ _ H) as Hp.
    rewrite <- E in Hp. clear -S2 Ho Hp.
    induction (map (out_of L) ts) as [|x l IH]; [destruct Ho|]. cbn [app] in S2. inversion S2; subst.
    destruct Ho as [->|Ho]; [|auto]. apply H1. apply in_or_app. auto.
  - intros [t' [H' D]]. destruct (S3 t' t H' H). contradiction.
  - intros [t' [H' D]]. destruct (S3 t' t H' H). contradiction.
Qed.

Lemma NoDup_app_l {A} (a b : list A) : NoDup (a ++ b) -> NoDup a.
Proof.
  induction a as [|x a IH]; cbn [app]; intros H; [constructor|]. inversion H; subst.
  constructor; [|auto]. intros X. apply H2. apply in_or_app. auto.
Qed.
Lemma NoDup_app_r {A} (a b : list A) : NoDup (a ++ b) -> NoDup b.
Proof. induction a as [|x a IH]; cbn [app]; intros H; [auto|]. inversion H; auto. Qed.
Lemma NoDup_app_disj {A} (a b : list A) x : NoDup (a ++ b) -> In x a -> In x b -> False.
Proof.
  induction a as [|y a IH]; cbn [app]; intros H Ha Hb; [destruct Ha|]. inversion H; subst.
  destruct Ha as [->|Ha]; [|auto]. apply H2. apply in_or_app. auto.
Qed.

Lemma NoDup_map_nth {A B} (f : A -> B) l i j x y : NoDup (map f l) ->
  nth_error l i = Some x -> nth_error l j = Some y -> i <> j -> f x <> f y.
Proof.
  intros N Hi Hj D E. apply D. rewrite NoDup_nth_error in N. apply N.
  - rewrite map_length. apply nth_error_Some. congruence.
  - rewrite !nth_error_map, Hi, Hj. cbn. congruence.
Qed.

Lemma sep_other i j t t' : nth_error ts i = Some t -> nth_error ts j = Some t' -> i <> j ->
  out_of L t <> out_of L t' /\ pending_path L t <> pending_path L t' /\
  out_of L t <> pending_path L t' /\ pending_path L t <> out_of L t'.
Proof.
  intros Hi Hj N. destruct sep as [_ [S2 _]].
  split; [eapply NoDup_map_nth; [apply NoDup_app_l in S2; exact S2|eauto|eauto|auto]|].
  split; [eapply NoDup_map_nth; [apply NoDup_app_r in S2; exact S2|eauto|eauto|auto]|].
  apply nth_error_In in Hi, Hj. split; intros E.
  - eapply NoDup_app_disj; [exact S2|apply in_map; exact Hi|]. rewrite E. apply in_map. exact Hj.
  - eapply NoDup_app_disj; [exact S2|apply in_map; exact Hj|]. rewrite <- E. apply in_map. exact Hi.
Qed.

Variable legals : nat -> option node -> Prop.

Definition guar_at (i : nat) (t : trial) : disk -> disk -> Prop :=
  guar (out_of L t) (pending_path L t) place (legals i).

Lemma guar_rely i j t t' d d' :
  nth_error ts i = Some t -> nth_error ts j = Some t' -> i <> j -> guar_at i t d d' ->
  rely (out_of L t') (pending_path L t') place d d'.
Proof.
  intros Hi Hj N [G1 [G2 [G3 _]]]. destruct (sep_other i j t t' Hi Hj N) as [D1 [D2 [D3 D4]]].
  destruct (sep_trial t' (nth_error_In _ _ Hj)) as [_ [_ [_ [NO NP]]]].
  split; [exact G1|]. split; [|split; [|exact G2]].
  - destruct (G3 (out_of L t')) as [E|[P _]]; auto. contradiction.
  - destruct (G3 (pending_path L t')) as [E|[P _]]; auto. contradiction.
Qed.

(** What all of them together do. *)
Definition together (d d' : disk) : Prop :=
  INV d' /\ keeps_dirs d d' /\
  (forall q, (forall t, In t ts -> q <> out_of L t /\ q <> pending_path L t) ->
     stat d' q = stat d q \/ (place q /\ stat d q = None /\ stat d' q = Some Dir)) /\
  (forall i t, nth_error ts i = Some t ->
     (stat d' (out_of L t) = stat d (out_of L t) \/ legals i (stat d' (out_of L t))) /\
     (stat d' (pending_path L t) = stat d (pending_path L t) \/ stat d' (pending_path L t) <> Some Dir)).

Lemma together_refl d : INV d -> together d d.
Proof. intros I. split; [auto|]. split; [intros q; auto|]. auto. Qed.
Lemma together_trans a b c : together a b -> together b c -> together a c.
Proof.
  intros [A1 [A2 [A3 A4]]] [B1 [B2 [B3 B4]]]. split; [auto|]. split; [intros q H; auto|]. split.
  - intros q N. destruct (A3 q N) as [E|[P [E1 E2]]]; destruct (B3 q N) as [E'|[P' [E1' E2']]].
    + left. congruence.
    + right. rewrite <- E. auto.
    + right. split; [auto|]. split; [auto|congruence].
    + congruence.
  - intros i t H. destruct (A4 i t H) as [C1 C2], (B4 i t H) as [C1' C2']. split.
    + destruct C1' as [->|]; auto.
    + destruct C2' as [->|]; auto.
Qed.

Lemma guar_together i t d d' : nth_error ts i = Some t -> guar_at i t d d' -> together d d'.
Proof.
  intros Hi G. pose proof G as [G1 [G2 [G3 [G4 G5]]]]. split; [auto|]. split; [auto|]. split.
  - intros q N. destruct (N t (nth_error_In _ _ Hi)). apply G3; auto.
  - intros j t' Hj. destruct (Nat.eq_dec i j) as [<-|N].
    + assert (t' = t) by congruence. subst t'. auto.
    + destruct (guar_rely i j t t' d d' Hi Hj N G) as [_ [E1 [E2 _]]]. auto.
Qed.

Lemma nth_error_set_nth {A} i (x : A) l : (i < length l)%nat -> nth_error (set_nth i x l) i = Some x.
Proof. revert l. induction i; destruct l; cbn; intros; try lia; auto. apply IHi. lia. Qed.
Lemma nth_error_set_nth_neq {A} i j (x : A) l : i <> j -> nth_error (set_nth i x l) j = nth_error l j.
Proof. revert j l. induction i; destruct l, j; cbn; intros; try congruence; auto. Qed.
Lemma set_nth_length {A} i (x : A) l : length (set_nth i x l) = length l.
Proof. revert l. induction i; destruct l; cbn; auto. Qed.

Definition all_safe {A} (Post : nat -> A -> disk -> Prop) (ps : list (prog A)) (d : disk) : Prop :=
  forall i t p, nth_error ts i = Some t -> nth_error ps i = Some p ->
    safe (out_of L t) (pending_path L t) place (legals i) p (Post i) d.

Lemma interleave_safe {A} (Post : nat -> A -> disk -> Prop) schedule : forall d ps d' ps',
  INV d -> length ps = length ts -> all_safe Post ps d ->
  interleave schedule d ps = (d', ps') ->
  together d d' /\ length ps' = length ts /\ all_safe Post ps' d'.
Proof.
  induction schedule as [|i schedule IH]; intros d ps d' ps' I Hl S E; cbn [interleave] in E.
  - assert (d' = d) by congruence. assert (ps' = ps) by congruence. subst.
    split; [apply together_refl; auto|]. auto.
  - destruct (nth_error ps i) as [p|] eqn:Hp; [|eapply IH; eauto].
    assert (Hi : exists t, nth_error ts i = Some t).
    { destruct (nth_error ts i) eqn:X; [eauto|]. apply nth_error_None in X.
      assert (i < length ps)%nat by (apply nth_error_Some; congruence). lia. }
    destruct Hi as [t Hi].
    destruct (safe_advance _ _ _ _ p (Post i) d I (S i t p Hi Hp)) as [G Sn].
    destruct (advance d p) as [w1 p1]. cbn [fst snd] in *.
    assert (Hlen : (i < length ps)%nat) by (apply nth_error_Some; congruence).
    destruct (IH w1 (set_nth i p1 ps) d' ps') as [T [Hl' S']]; auto.
    + apply G.
    + rewrite set_nth_length. auto.
    + intros j t' p' Hj Hp'. destruct (Nat.eq_dec i j) as [<-|N].
      * rewrite nth_error_set_nth in Hp' by auto. assert (t' = t) by congruence. assert (p' = p1) by congruence.
        subst. exact Sn.
      * rewrite nth_error_set_nth_neq in Hp' by auto. eapply safe_rely; [eapply S; eauto|].
        eapply guar_rely; [exact Hi|exact Hj|auto|exact G].
    + split; [|auto]. eapply together_trans; [eapply guar_together; [exact Hi|exact G]|exact T].
Qed.

End Many.
