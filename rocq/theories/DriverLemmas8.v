(** Designs and accumulations. *)
From Coq Require Import String Ascii Permutation.
From Verif Require Import Prelude ModelReachPoint ModelData ModelHalo ModelAggregator ModelFiles SpecFiles
  FilesLemmas FilesLemmas2 FilesLemmas3 ModelDriver SpecDriver DriverLemmas DriverLemmas2 DriverLemmas3
  DriverLemmas4 DriverLemmas5 DriverLemmas6 DriverLemmas7.
Open Scope Z_scope.

Lemma adapted_plain F d a b : adapted d a b -> plain_descriptor F a -> plain_descriptor F b.
Proof.
  intros [A1 [_ [_ [_ [_ [_ [_ [_ [A2 A3]]]]]]]]] [P1 [P2 [P3 [P4 [P5 [P6 [P7 P8]]]]]]].
  unfold plain_descriptor. rewrite A1, A2. repeat (split; [assumption|]).
  intros k v H. clear -A3 P8 H. unfold plain_kwargs in P8.
  revert P8 H. induction A3 as [|[k1 v1] [k2 v2] l l' [E1 [E2 E3]] H2 IH]; intros P8 H; [destruct H|].
  cbn [fst snd] in *. destruct H as [H|H].
  - assert (Ek : k2 = k) by congruence. assert (Ev : v2 = v) by congruence. subst k2 v2 k1.
    destruct (P8 k v1 (or_introl eq_refl)) as [Q1 Q2]. split; [exact Q1|]. intros s Hs.
    destruct (string_dec k "npublishers") as [D|D]; [rewrite (E2 D) in Hs; discriminate|].
    apply Q2. rewrite (E3 D) in Hs. exact Hs.
  - apply IH; [|exact H]. intros k' v' Hk. apply P8. right. exact Hk.
Qed.

Lemma part_of_In {A} (s l : list A) x : part_of s l -> In x s -> In x l.
Proof. intros H. induction H; intros Hx; [exact Hx|right; auto|]. destruct Hx as [->|Hx]; [left; reflexivity|right; auto]. Qed.

Lemma Forall2_In_r {A B} (R : A -> B -> Prop) l l' y : Forall2 R l l' -> In y l' -> exists x, In x l /\ R x y.
Proof.
  intros H. induction H as [|x z l l' H1 H2 IH]; intros Hy; [destruct Hy|].
  destruct Hy as [<-|Hy]; [exists x; split; [left; reflexivity|exact H1]|].
  destruct (IH Hy) as [u [A1 A2]]. exists u. split; [right; exact A1|exact A2].
Qed.

Lemma generated_sane L x ts : dictionaries x -> sane_design L x -> generate_trials L x = Ok ts ->
  markers_differ L ts -> sane_trials L ts.
Proof.
  intros D [S1 [S2 [S3 [S4 [S5 S6]]]]] E M. unfold generate_trials in E.
  destruct (mapM (experiment_trials x) (dd_names (xd_data x))) as [all|] eqn:Ea; cbn [bind] in E; [|discriminate].
  assert (Et : ts = remove_duplicates L [] (concat all)) by congruence. clear E.
  pose proof (all_trials x all D Ea) as Al.
  destruct (dedup_spec L (concat all) []) as [P [N [_ [C _]]]]. rewrite <- Et in *.
  exists (xd_dir x). split; [exact S1|]. split; [exact S2|]. split; [|split; [exact M|]].
  - intros t Ht. pose proof (part_of_In _ _ _ P Ht) as Hc.
    destruct (Forall2_In_r _ _ _ _ Al Hc) as [[n desc] [Hn [T1 [T2 [T3 [T4 [d [T5 T6]]]]]]]]. cbn [fst snd] in *.
    apply in_prod_iff in Hn. destruct Hn as [Hn Hd]. split; [exact T1|]. split; [rewrite T3; auto|].
    split; [|apply S6]. apply descriptor_no_slash; [exact S5|]. eapply adapted_plain; [exact T6|]. auto.
  - clear -N. induction ts as [|t ts IH]; cbn [map] in *; constructor.
    + inversion N as [|? ? N1 N2]; subst. intros X. apply N1. apply in_map_iff in X. destruct X as [u [E Hu]].
      apply in_map_iff. exists u. split; [|exact Hu]. unfold trial_name.
      assert (E1 : tr_data_set u = tr_data_set t) by congruence.
      assert (E2 : show_descriptor (lab_float L) (tr_descriptor u) = show_descriptor (lab_float L) (tr_descriptor t)) by congruence.
      rewrite E1, E2. reflexivity.
    + inversion N; auto.
Qed.

(** ** Accumulations *)

Fixpoint accumulation_size (a : accumulation) : nat :=
  match a with
  | Inputs _ => 1
  | Merged l => S (fold_right (fun b n => accumulation_size b + n)%nat O l)
  end.

Lemma fold_add l : forall acc, fold_left add_input l acc = acc ++ l.
Proof.
  induction l as [|x l IH]; intros acc; cbn [fold_left]; [rewrite app_nil_r; reflexivity|].
  rewrite IH. unfold add_input. rewrite <- app_assoc. reflexivity.
Qed.

Lemma accumulator_inputs a : accumulator a = inputs_of a.
Proof.
  assert (G : forall n a, (accumulation_size a <= n)%nat -> accumulator a = inputs_of a).
  { induction n as [|n IH]; intros b H; [destruct b; cbn in H; lia|].
    destruct b as [l|l]; cbn [accumulator inputs_of]; [apply fold_add|].
    cbn [accumulation_size] in H. apply le_S_n in H. revert H.
    induction l as [|c l IHl]; intros H; [reflexivity|]. cbn [flat_map fold_right] in *.
    rewrite IH by lia. rewrite IHl by lia. reflexivity. }
  apply (G (accumulation_size a)). lia.
Qed.

(** ** Loading *)

Lemma concat_tables_ok tbs : tbs <> [] -> concat_tables tbs = Ok (concat tbs).
Proof. destruct tbs; [contradiction|reflexivity]. Qed.

Lemma Forall2_nonempty {A B} (R : A -> B -> Prop) l l' : Forall2 R l l' -> l <> [] -> l' <> [].
Proof. intros H. destruct H; [contradiction|discriminate]. Qed.

Lemma Forall2_impl_In {A B} (R S : A -> B -> Prop) l l' :
  (forall x y, In x l -> In y l' -> R x y -> S x y) -> Forall2 R l l' -> Forall2 S l l'.
Proof.
  intros H F. induction F as [|x y l l' H1 H2 IH]; constructor.
  - apply H; [left; reflexivity|left; reflexivity|exact H1].
  - apply IH. intros a b Ha Hb. apply H; right; assumption.
Qed.
Lemma Forall2_and {A B} (R S : A -> B -> Prop) l l' : Forall2 R l l' -> Forall2 S l l' ->
  Forall2 (fun x y => R x y /\ S x y) l l'.
Proof. intros H. induction H; intros G; inversion G; subst; constructor; auto. Qed.
Lemma Forall2_fun {A B} (R : A -> B -> Prop) l a b : (forall x y y', R x y -> R x y' -> y = y') ->
  Forall2 R l a -> Forall2 R l b -> a = b.
Proof.
  intros Fn H. revert b. induction H as [|x y l a H1 H2 IH]; intros b G; inversion G as [|? z ? b' G1 G2]; subst; [reflexivity|].
  rewrite (Fn x y z H1 G1), (IH b' G2). reflexivity.
Qed.

Section Load.
Variables (L : lab) (ts : list trial).
Hypothesis sep : separate L ts.
Variables (seed : Z) (g : generators L) (d : disk).
Hypothesis Us : usable L ts d.
Hypothesis Hcomp : computable L seed d g ts.
Hypothesis ne : ts <> [].

Lemma load_all nows : unaffected L seed g ts ->
  exists tbs d', load L ts seed nows g d = (Ok (concat tbs), d') /\ Forall2 (answers L seed d g) ts tbs /\
    usable L ts d' /\ only_adds_directories L ts d d' /\
    Forall2 (fun t tb => has_result L t d tb /\ stat d' (out_of L t) = stat d (out_of L t) \/
       no_result L t d /\ stat d' (out_of L t) = Some (File (lab_print L tb))) ts tbs.
Proof.
  intros Hun.
  destruct (run_all L ts sep seed g d Hun Hcomp ts nows g d (separate_NoDup L ts sep) (reached_start L ts seed g d Us))
    as [tbs [g' [d' [E [F1 [F2 [F3 [F4 _]]]]]]]].
  exists tbs, d'. split; [|auto]. unfold load. rewrite E. cbn [bind].
  rewrite concat_tables_ok; [reflexivity|]. eapply Forall2_nonempty; eauto.
Qed.

Lemma load_results nows tbs d2 : Forall2 (fun t tb => has_result L t d2 tb) ts tbs ->
  load L ts seed nows g d2 = (Ok (concat tbs), d2).
Proof.
  intros H. unfold load. rewrite (all_results_read L seed ts nows g d2 tbs H). cbn [bind].
  rewrite concat_tables_ok; [reflexivity|]. eapply Forall2_nonempty; eauto.
Qed.

(** With a reader that reads back what was printed, a finished run has left all results. *)
Lemma left_results d' tbs : reads_back L seed g ts ->
  Forall2 (answers L seed d g) ts tbs ->
  Forall2 (fun t tb => has_result L t d tb /\ stat d' (out_of L t) = stat d (out_of L t) \/
       no_result L t d /\ stat d' (out_of L t) = Some (File (lab_print L tb))) ts tbs ->
  Forall2 (fun t tb => has_result L t d' tb) ts tbs.
Proof.
  intros RB F1 F2. eapply Forall2_impl_In; [|exact (Forall2_and _ _ _ _ F1 F2)].
  intros t tb Ht _ [A [[[c [E P]] S]|[N S]]].
  - exists c. split; [congruence|exact P].
  - destruct A as [R|[_ [row [E ->]]]]; [exfalso; exact (N _ R)|].
    exists (lab_print L [row]). split; [exact S|]. apply (RB t row Ht E).
Qed.
End Load.

(** A trial that cannot be computed makes its worker fail. *)
Lemma failing_worker L as_ a e : In a as_ -> fst a = Err e ->
  exists e', fold_right (fun (a : result table * generators L) r => tb <- fst a ;; tbs <- r ;; Ok (tb :: tbs)) (Ok []) as_ = Err e'.
Proof.
  induction as_ as [|b as_ IH]; intros H E; [destruct H|]. cbn [fold_right]. destruct H as [->|H].
  - rewrite E. cbn [bind]. eauto.
  - destruct (IH H E) as [e' E']. rewrite E'. destruct (fst b); cbn [bind]; eauto.
Qed.
