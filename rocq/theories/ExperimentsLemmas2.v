(** Products of levels. *)
From Coq Require Import String Ascii Qround Permutation Lqa.
From Verif Require Import Prelude ModelReachPoint ModelData DataLemmas ModelAggregator ModelFiles SpecFiles ModelHalo
  ModelDriver SpecDriver ModelDesigns SpecDesigns DesignsLemmas5 DesignsLemmas7 ModelExperiments SpecExperiments.
Open Scope Z_scope.

Lemma same_strategy_sym a b : same_strategy a b -> same_strategy b a.
Proof. intros [A [B [C [D [E F]]]]]. unfold same_strategy. auto 10 using same_kwargs_sym. Qed.
Lemma same_numbers_sym a b : Forall2 same_number a b -> Forall2 same_number b a.
Proof. intros H. induction H; constructor; auto using same_number_sym. Qed.
Lemma same_settings_sym a b : same_settings a b -> same_settings b a.
Proof.
  intros [A [[B1 [B2 B3]] [C1 [C2 [C3 [C4 [C5 C6]]]]]]].
  split; [apply same_strategy_sym; exact A|].
  split; [split; [apply same_numbers_sym; exact B1|auto using same_number_sym]|].
  unfold same_experiment. auto 10 using same_number_sym, same_kwargs_sym.
Qed.
Lemma same_choice_sym d a b : same_choice d a b -> same_choice d b a.
Proof. intros [x [y [P [Q S]]]]. exists y, x. auto using same_settings_sym. Qed.

(** What choices that ask for the same have in common. *)
Lemma same_choice_parts d a b : same_choice d a b ->
  same_strategy (ch_strategy a) (ch_strategy b) /\
  (exists x y, spends_on (ch_spends a) d x /\ spends_on (ch_spends b) d y /\ Forall2 same_number x y) /\
  (same_number (lp_decay_rate (ch_ll a)) (lp_decay_rate (ch_ll b)) /\
   same_number (lp_sketch_size (ch_ll a)) (lp_sketch_size (ch_ll b))) /\
  (same_number (fst (ch_budget a)) (fst (ch_budget b)) /\ same_number (snd (ch_budget a)) (snd (ch_budget b))) /\
  ch_replica a = ch_replica b /\ ch_frequency a = ch_frequency b /\
  (fst (ch_points a) = fst (ch_points b) /\
   exists x y, kwargs_on d (snd (ch_points a)) x /\ kwargs_on d (snd (ch_points b)) y /\ same_kwargs x y).
Proof.
  intros [x [y [[P1 [P2 [P3 [P4 [P5 [P6 [P7 P8]]]]]]] [[Q1 [Q2 [Q3 [Q4 [Q5 [Q6 [Q7 Q8]]]]]]] [S1 [[S2 [S3 S4]] [S5 [S6 [S7 [S8 [S9 S10]]]]]]]]]]].
  rewrite <- P1, <- Q1, <- P3, <- Q3, <- P4, <- Q4, <- P5, <- Q5, <- P6, <- Q6, <- P7, <- Q7. cbn [fst snd].
  split; [exact S1|]. split; [eauto|]. split; [auto|]. split; [auto|]. split; [auto|]. split; [auto|]. split; [auto|]. eauto.
Qed.

Lemma apart_key {A B} (sa : A -> A -> Prop) (sb : B -> B -> Prop) (key : B -> A) f l : apart sa l ->
  (forall a, In a l -> apart sb (f a)) -> (forall a x, In x (f a) -> key x = a) ->
  (forall x y, sb x y -> sa (key x) (key y)) -> apart sb (flat_map f l).
Proof.
  intros H H1 H2 H3. apply (apart_flat_map sa); [exact H|exact H1|].
  intros a b x y Ix Iy S. rewrite <- (H2 a x Ix), <- (H2 b y Iy). auto.
Qed.

Ltac peel := repeat match goal with
  | H : In _ (flat_map _ _) |- _ => apply in_flat_map in H; let a := fresh "a" in let I := fresh "I" in destruct H as [a [I H]]
  | H : In _ (map _ _) |- _ => apply in_map_iff in H; let a := fresh "a" in let I := fresh "I" in destruct H as [a [<- I]]
  end.

Lemma product_in L c : In c (product_choices L) <-> combines L c.
Proof.
  unfold product_choices, combines. split.
  - intros H. peel. cbn. auto 10.
  - intros [H1 [H2 [H3 [H4 [H5 [H6 H7]]]]]].
    repeat (apply in_flat_map; eexists; split; [eassumption|]). apply in_map_iff.
    exists (ch_points c). split; [destruct c; reflexivity|exact H7].
Qed.
Lemma product_length L : length (product_choices L) =
  (length (tl_strategies L) * (length (tl_spends L) * (length (tl_ll L) * (length (tl_budgets L) *
   (length (tl_replicas L) * (length (tl_frequencies L) * length (tl_points L)))))))%nat.
Proof. unfold product_choices. repeat (apply flat_map_len; intros ?). apply map_length. Qed.

Lemma product_apart d L : levels_differ d L -> pairwise_different (same_choice d) (product_choices L).
Proof.
  intros [D1 [D2 [D3 [D4 [D5 [D6 D7]]]]]]. apply apart_pairwise; [apply same_choice_sym|]. unfold product_choices.
  apply (apart_key same_strategy _ ch_strategy); [apply pairwise_apart; exact D1| |intros a x H; peel; reflexivity|
    intros x y H; apply same_choice_parts in H; tauto]. intros a1 _.
  eapply (apart_key _ _ ch_spends); [apply pairwise_apart; exact D2| |intros a x H; peel; reflexivity|
    intros x y H; apply same_choice_parts in H; tauto]. intros a2 _.
  eapply (apart_key _ _ ch_ll); [apply pairwise_apart; exact D3| |intros a x H; peel; reflexivity|
    intros x y H; apply same_choice_parts in H; tauto]. intros a3 _.
  eapply (apart_key _ _ ch_budget); [apply pairwise_apart; exact D4| |intros a x H; peel; reflexivity|
    intros x y H; apply same_choice_parts in H; tauto]. intros a4 _.
  eapply (apart_key eq _ ch_replica); [apply NoDup_apart; exact D5| |intros a x H; peel; reflexivity|
    intros x y H; apply same_choice_parts in H; tauto]. intros a5 _.
  eapply (apart_key eq _ ch_frequency); [apply NoDup_apart; exact D6| |intros a x H; peel; reflexivity|
    intros x y H; apply same_choice_parts in H; tauto]. intros a6 _.
  eapply (apart_map _ _); [apply pairwise_apart; exact D7|]. intros x y H. apply same_choice_parts in H. cbn in H. tauto.
Qed.

(** ** Single publishers *)

Lemma single_in L c : In c (single_choices L) <-> combines_single L c.
Proof.
  unfold single_choices, combines_single. split.
  - intros H. peel. cbn. do 5 eexists. repeat (split; [eassumption || reflexivity|]). reflexivity.
  - intros [m [f [dr [ss [pt [H1 [H2 [H3 [H4 [H5 [H6 [H7 [H8 [H9 [E1 [E2 [E3 [E4 [E5 [E6 [E7 [E8 [E9 [E10 E11]]]]]]]]]]]]]]]]]]]]]]]].
    apply in_flat_map. exists m. split; [exact H1|]. apply in_flat_map. exists f. split; [exact H2|].
    apply in_flat_map. exists dr. split; [exact H3|]. apply in_flat_map. exists ss. split; [exact H4|].
    repeat (apply in_flat_map; eexists; split; [eassumption|]). apply in_map_iff.
    exists (ch_frequency c). split; [|exact H9].
    destruct c as [[? ? ? ? ? ?] sp [? ? ?] [e dl] r fr po]. cbn in *. subst. destruct m. reflexivity.
Qed.
Lemma single_length L : length (single_choices L) =
  (length (sl_strategies L) * (length (sl_fractions L) * (length (sl_decay_rates L) * (length (sl_sketch_sizes L) *
   (length (sl_epsilons L) * (length (sl_deltas L) * (length (sl_replicas L) *
   (length (sl_test_points L) * length (sl_frequencies L)))))))))%nat.
Proof. unfold single_choices. repeat (apply flat_map_len; intros ?). apply map_length. Qed.

Lemma single_apart d L : single_levels_differ L -> pairwise_different (same_choice d) (single_choices L).
Proof.
  intros [D1 [D2 [D3 [D4 [D5 [D6 [D7 [D8 D9]]]]]]]]. apply apart_pairwise; [apply same_choice_sym|]. unfold single_choices.
  eapply apart_flat_map; [apply pairwise_apart; exact D1| |].
  2:{ intros a b x y Ix Iy S. apply same_choice_parts in S. destruct S as [[_ [_ [S1 [S2 _]]]] _].
      peel. cbn in S1, S2. auto. }
  intros a1 _. eapply apart_flat_map; [apply pairwise_apart; exact D2| |].
  2:{ intros a b x y Ix Iy S. apply same_choice_parts in S. destruct S as [_ [[u [v [S1 [S2 S3]]]] _]].
      peel. cbn in S1, S2. subst u v. inversion S3; subst. assumption. }
  intros a2 _. eapply apart_flat_map; [apply pairwise_apart; exact D3| |].
  2:{ intros a b x y Ix Iy S. apply same_choice_parts in S. peel. cbn in S. tauto. }
  intros a3 _. eapply apart_flat_map; [apply pairwise_apart; exact D4| |].
  2:{ intros a b x y Ix Iy S. apply same_choice_parts in S. peel. cbn in S. tauto. }
  intros a4 _. eapply apart_flat_map; [apply pairwise_apart; exact D5| |].
  2:{ intros a b x y Ix Iy S. apply same_choice_parts in S. peel. cbn in S. tauto. }
  intros a5 _. eapply apart_flat_map; [apply pairwise_apart; exact D6| |].
  2:{ intros a b x y Ix Iy S. apply same_choice_parts in S. peel. cbn in S. tauto. }
  intros a6 _. eapply apart_flat_map; [apply NoDup_apart; exact D7| |].
  2:{ intros a b x y Ix Iy S. apply same_choice_parts in S. peel. cbn in S. tauto. }
  intros a7 _. eapply apart_flat_map; [apply NoDup_apart; exact D8| |].
  2:{ intros a b x y Ix Iy S. apply same_choice_parts in S. destruct S as [_ [_ [_ [_ [_ [_ [_ [u [v [S1 [S2 S3]]]]]]]]]]].
      peel. cbn [ch_points snd] in S1, S2. unfold kwargs_on in S1, S2.
      inversion S1 as [|? [k1 v1] ? ? [X1 [_ X2]] X3]; subst. inversion S2 as [|? [k2 v2] ? ? [Y1 [_ Y2]] Y3]; subst.
      inversion S3 as [|? ? ? ? [_ Z1] _]; subst. cbn [fst snd] in *.
      rewrite X2, Y2 in Z1 by discriminate. exact Z1. }
  intros a8 _. eapply apart_map; [apply NoDup_apart; exact D9|].
  intros x y H. apply same_choice_parts in H. cbn in H. tauto.
Qed.

(** ** The shipped levels *)

Definition strategy_same_check (a b : strategy_descriptor) : bool :=
  String.eqb (sd_strategy a) (sd_strategy b) && kwargs_same_check (sd_strategy_kwargs a) (sd_strategy_kwargs b) &&
  String.eqb (sd_single a) (sd_single b) && kwargs_same_check (sd_single_kwargs a) (sd_single_kwargs b) &&
  String.eqb (sd_multi a) (sd_multi b) && kwargs_same_check (sd_multi_kwargs a) (sd_multi_kwargs b).
Lemma strategy_same_checked a b : same_strategy a b -> strategy_same_check a b = true.
Proof.
  intros [A [B [C [D [E F]]]]]. unfold strategy_same_check. rewrite A, C, E, !String.eqb_refl.
  rewrite !kwargs_same_checked by assumption. reflexivity.
Qed.
Definition budget_same_check (a b : number * number) : bool :=
  number_same_check (fst a) (fst b) && number_same_check (snd a) (snd b).
Definition ll_same_check (a b : ll_parameters) : bool :=
  number_same_check (lp_decay_rate a) (lp_decay_rate b) && number_same_check (lp_sketch_size a) (lp_sketch_size b).

Definition kinds_apart (L : trial_levels) : bool :=
  all_apart strategy_same_check (tl_strategies L) && all_apart ll_same_check (tl_ll L) &&
  all_apart budget_same_check (tl_budgets L) && all_apart Z.eqb (tl_replicas L) && all_apart Z.eqb (tl_frequencies L) &&
  all_apart (fun a b => String.eqb (fst a) (fst b)) (tl_points L).

Lemma kinds_differ d L : kinds_apart L = true ->
  pairwise_different (fun a b => exists x y, spends_on a d x /\ spends_on b d y /\ Forall2 same_number x y) (tl_spends L) ->
  levels_differ d L.
Proof.
  unfold kinds_apart. rewrite !andb_true_iff. intros [[[[[H1 H2] H3] H4] H5] H6] Hs.
  split; [apply (all_apart_different _ strategy_same_check); auto using same_strategy_sym, strategy_same_checked|].
  split; [exact Hs|].
  split. { apply (all_apart_different _ ll_same_check); [intros a b [X Y]; auto using same_number_sym| |exact H2].
    intros a b [X Y]. unfold ll_same_check. rewrite !number_same_checked by assumption. reflexivity. }
  split. { apply (all_apart_different _ budget_same_check); [intros a b [X Y]; auto using same_number_sym| |exact H3].
    intros a b [X Y]. unfold budget_same_check. rewrite !number_same_checked by assumption. reflexivity. }
  split; [apply Z_distinct; exact H4|]. split; [apply Z_distinct; exact H5|].
  apply (all_apart_different _ (fun a b => String.eqb (fst a) (fst b))); [| |exact H6].
  - intros a b [E [x [y [X [Y Z]]]]]. split; [auto|]. exists y, x. auto using same_kwargs_sym.
  - intros a b [E _]. rewrite E. apply String.eqb_refl.
Qed.

(** Two functions of the data set that differ for the first publisher. *)
Lemma spends_apart d f g x y : publisher_count d <> 0%nat ->
  (forall l, f d = Ok l -> nth_error l 0 = Some x) -> (forall l, g d = Ok l -> nth_error l 0 = Some y) ->
  ~ same_number x y -> ~ same_number y x ->
  pairwise_different (fun a b => exists x y, spends_on a d x /\ spends_on b d y /\ Forall2 same_number x y)
    [FromDataSet f; FromDataSet g].
Proof.
  intros Nz Hf Hg N1 N2 [|[|[|i]]] [|[|[|j]]] a b Ha Hb [u [v [Su [Sv F]]]]; try reflexivity; try discriminate;
    exfalso; cbn in Ha, Hb; injection Ha as <-; injection Hb as <-; cbn in Su, Sv.
  - apply N1. apply Hf in Su. apply Hg in Sv. destruct u, v; try discriminate. inversion F; subst. cbn in Su, Sv. congruence.
  - apply N2. apply Hf in Sv. apply Hg in Su. destruct u, v; try discriminate. inversion F; subst. cbn in Su, Sv. congruence.
Qed.
Lemma alike_first (x : number) n l : n <> 0%nat -> Ok (repeat x n) = (Ok l : result _) -> nth_error l 0 = Some x.
Proof. destruct n; [contradiction|]. intros _ E. injection E as <-. reflexivity. Qed.
Lemma cycled_first (x : number) r n l : n <> 0%nat -> Ok (cycled (x :: r) n) = (Ok l : result _) -> nth_error l 0 = Some x.
Proof.
  destruct n as [|n]; [contradiction|]. intros _ E. injection E as <-. unfold cycled.
  cbn [seq map nth_error]. rewrite Nat.mod_0_l by discriminate. reflexivity.
Qed.

Lemma m3_differ d : publisher_count d <> 0%nat -> levels_differ d m3_trial_levels.
Proof.
  intros Nz. apply kinds_differ; [reflexivity|].
  apply (spends_apart d _ _ (PFloat (2 # 10)) (PFloat (1 # 10)) Nz); [intros l; apply alike_first; exact Nz|
    intros l; apply cycled_first; exact Nz| |]; intros X; discriminate X.
Qed.
Lemma analysis_differ d : publisher_count d <> 0%nat -> levels_differ d analysis_trial_levels.
Proof.
  intros Nz. apply kinds_differ; [reflexivity|].
  apply (spends_apart d _ _ (PFloat (6 # 10)) (PFloat (4 # 10)) Nz); [intros l; apply alike_first; exact Nz|
    intros l; apply cycled_first; exact Nz| |]; intros X; discriminate X.
Qed.
Lemma single_differ : single_levels_differ single_trial_levels.
Proof.
  repeat split; try (apply (all_apart_different _ number_same_check); auto using same_number_sym, number_same_checked; reflexivity);
    try (apply Z_distinct; reflexivity).
  apply (all_apart_different _ (fun a b => String.eqb (fst a) (fst b) && kwargs_same_check (snd a) (snd b))); [| |reflexivity].
  - intros a b [X Y]. auto using same_kwargs_sym.
  - intros a b [X Y]. rewrite X, String.eqb_refl, kwargs_same_checked by assumption. reflexivity.
Qed.

(** ** Clear choices *)

Definition no_strings_check (kw : kwargs) : bool :=
  forallb (fun kv => plain_check (fst kv) && match snd kv with VStr _ => false | _ => true end) kw.
Lemma no_strings_checked F kw : no_strings_check kw = true -> plain_kwargs F kw.
Proof.
  unfold no_strings_check. rewrite forallb_forall. intros H k v I. specialize (H _ I). cbn [fst snd] in H.
  apply andb_true_iff in H. destruct H as [H1 H2]. split; [apply plain_checked; exact H1|]. intros s ->. discriminate.
Qed.
Fixpoint keys_differ (l : list string) : bool :=
  match l with [] => true | a :: r => negb (existsb (String.eqb a) r) && keys_differ r end.
Lemma keys_distinct l : keys_differ l = true -> NoDup l.
Proof.
  induction l as [|a l IH]; intros H; [constructor|]. cbn in H. apply andb_true_iff in H. destruct H as [H1 H2].
  constructor; [|auto]. intros I. apply negb_true_iff in H1. assert (X : existsb (String.eqb a) l = true); [|congruence].
  apply existsb_exists. exists a. split; [exact I|apply String.eqb_refl].
Qed.
Definition strategy_check (s : strategy_descriptor) : bool :=
  plain_check (sd_strategy s) && no_strings_check (sd_strategy_kwargs s) && plain_check (sd_single s) &&
  no_strings_check (sd_single_kwargs s) && plain_check (sd_multi s) && no_strings_check (sd_multi_kwargs s).
Definition points_check (p : string * kwargs) : bool :=
  plain_check (fst p) && no_strings_check (snd p) && keys_differ (map fst (snd p)).
Lemma choice_clear F d c : strategy_check (ch_strategy c) = true -> points_check (ch_points c) = true ->
  (exists l, spends_on (ch_spends c) d l) -> clear_choice F d c.
Proof.
  unfold strategy_check, points_check. rewrite !andb_true_iff. intros [[[[[A1 A2] A3] A4] A5] A6] [[B1 B2] B3] H.
  split; [exact H|]. split; [apply keys_distinct; exact B3|].
  auto 10 using plain_checked, no_strings_checked.
Qed.
Lemma product_clear F d L c : forallb strategy_check (tl_strategies L) = true -> forallb points_check (tl_points L) = true ->
  (forall s, In s (tl_spends L) -> exists l, spends_on s d l) -> In c (product_choices L) -> clear_choice F d c.
Proof.
  intros H1 H2 H3 I. apply product_in in I. destruct I as [I1 [I2 [_ [_ [_ [_ I7]]]]]].
  rewrite forallb_forall in H1, H2. apply choice_clear; auto.
Qed.
Lemma single_clear F d L c : forallb (fun s => plain_check (fst s) && no_strings_check (snd s)) (sl_strategies L) = true ->
  In c (single_choices L) -> clear_choice F d c.
Proof.
  intros H I. apply single_in in I.
  destruct I as [m [f [dr [ss [pt [H1 [H2 [H3 [H4 [H5 [H6 [H7 [H8 [H9 [E1 [E2 [E3 [E4 [E5 [E6 [E7 [E8 [E9 [E10 E11]]]]]]]]]]]]]]]]]]]]]]]].
  rewrite forallb_forall in H. specialize (H m H1). apply andb_true_iff in H. destruct H as [P1 P2].
  apply choice_clear.
  - unfold strategy_check. rewrite E1, E2, E3, E4, E5, E6, P1, P2. reflexivity.
  - rewrite E11. reflexivity.
  - rewrite E7. exists [f]. reflexivity.
Qed.
