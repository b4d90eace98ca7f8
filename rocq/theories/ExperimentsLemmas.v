(** The trials of an experimental design made from choices. *)
From Coq Require Import String Ascii Qround Permutation Lqa.
From Verif Require Import Prelude ModelReachPoint ModelData DataLemmas ModelAggregator ModelFiles SpecFiles ModelHalo
  ModelDriver SpecDriver DriverLemmas4 DriverLemmas5 DriverLemmas7 DriverLemmas8 PropsDriver3
  ModelDesigns SpecDesigns DesignsLemmas4 DesignsLemmas5 ModelExperiments SpecExperiments.
Open Scope Z_scope.

(** ** Making the trials *)

Lemma numbered_nth cs i : nth_error (numbered cs) i = option_map (make_descriptor i) (nth_error cs i).
Proof.
  unfold numbered. rewrite nth_error_map, nth_combine_seq. destruct (nth_error cs i); reflexivity.
Qed.
Lemma numbered_length cs : length (numbered cs) = length cs.
Proof. unfold numbered. rewrite map_length, combine_length, seq_length. lia. Qed.
Lemma numbered_in cs desc : In desc (numbered cs) -> exists i c, nth_error cs i = Some c /\ desc = make_descriptor i c.
Proof.
  intros H. apply In_nth_error in H. destruct H as [i H]. rewrite numbered_nth in H.
  destruct (nth_error cs i) as [c|] eqn:E; [|discriminate]. exists i, c. split; [exact E|]. cbn in H. congruence.
Qed.

Lemma adapted_plays i c d t : adapted d (make_descriptor i c) t -> plays c d t /\ sp_generator (td_system t) = i.
Proof.
  intros [A1 [A2 [A3 [A4 [A5 [A6 [A7 [A8 [A9 A10]]]]]]]]]. cbn in *. split; [|exact A3]. unfold plays.
  split; [exact A1|]. split; [destruct (ch_spends c); exact A4|]. split; [exact A2|].
  split; [rewrite A5, A6; destruct (ch_budget c); reflexivity|]. auto.
Qed.

Lemma plays_update i c d : (exists l, spends_on (ch_spends c) d l) -> exists t, update_descriptor (make_descriptor i c) d = Ok t.
Proof.
  intros [l H]. unfold update_descriptor, update_system. cbn. destruct (ch_spends c) as [x|f]; cbn in H |- *; [eauto|].
  rewrite H. cbn [bind]. eauto.
Qed.

Lemma mapM_exists {A B} (f : A -> result B) l : (forall a, In a l -> exists b, f a = Ok b) -> exists r, mapM f l = Ok r.
Proof.
  induction l as [|a l IH]; intros H; [exists []; reflexivity|]. cbn [mapM].
  destruct (H a (or_introl eq_refl)) as [b ->]. cbn [bind]. destruct IH as [r ->]; [intros; apply H; right; assumption|].
  eexists. reflexivity.
Qed.

Lemma clear_plain F d i c : clear_choice F d c -> plain_descriptor F (make_descriptor i c).
Proof. intros [_ [_ H]]. exact H. Qed.

Lemma apart_Forall2 {A B} (R : A -> A -> Prop) (R' : B -> B -> Prop) (S : A -> B -> Prop) l l' :
  Forall2 S l l' -> (forall a b x y, In a l -> In b l -> S a x -> S b y -> R' x y -> R a b) -> apart R l -> apart R' l'.
Proof.
  intros F. induction F as [|a x l l' H F IH]; intros C Ap; [constructor|].
  inversion Ap as [|? ? A1 A2]; subst. constructor.
  - apply Forall_forall. intros y Iy Ry. destruct (Forall2_In_r _ _ _ _ F Iy) as [b [Ib Sb]].
    rewrite Forall_forall in A1. apply (A1 b Ib). apply (C a b x y); auto; [left; reflexivity|right; exact Ib].
  - apply IH; [|exact A2]. intros a' b x' y Ia Ib. apply C; right; assumption.
Qed.

Lemma apart_NoDup {A B} (f : A -> B) l : apart (fun a b => f a = f b) l <-> NoDup (map f l).
Proof.
  split.
  - intros H. unfold apart in H. induction H as [|a l Ha H IH]; [constructor|]. cbn [map]. constructor; [|exact IH].
    intros I. apply in_map_iff in I. destruct I as [b [E Ib]]. rewrite Forall_forall in Ha. exact (Ha b Ib (eq_sym E)).
  - intros H. unfold apart. induction l as [|a l IH]; [constructor|]. cbn [map] in H. inversion H as [|? ? N1 N2]; subst. constructor.
    + apply Forall_forall. intros b Ib E. apply N1. apply in_map_iff. exists b. auto.
    + apply IH. exact N2.
Qed.

Lemma apart_combine {A} (R : A -> A -> Prop) l : forall s, apart R l ->
  apart (fun p q : nat * A => R (snd p) (snd q)) (combine (seq s (length l)) l).
Proof.
  induction l as [|a l IH]; intros s H; [constructor|]. inversion H as [|? ? H1 H2]; subst. cbn [length seq combine]. constructor.
  - apply Forall_forall. intros [i b] I. apply in_combine_r in I. rewrite Forall_forall in H1. cbn [snd]. apply H1. exact I.
  - apply IH. exact H2.
Qed.

Lemma dedup_id L all : forall seen, (forall t, In t all -> ~ In (trial_name L t) seen) -> NoDup (map (trial_name L) all) ->
  remove_duplicates L seen all = all.
Proof.
  induction all as [|t all IH]; intros seen H N; [reflexivity|]. cbn [remove_duplicates map] in *.
  inversion N as [|? ? N1 N2]; subst.
  destruct (existsb (String.eqb (trial_name L t)) seen) eqn:E.
  - exfalso. apply (H t (or_introl eq_refl)). apply existsb_name. exact E.
  - f_equal. apply IH; [|exact N2]. intros u Hu [X|X].
    + apply N1. rewrite X. apply in_map. exact Hu.
    + exact (H u (or_intror Hu) X).
Qed.

Lemma cut_slash a : forall a' r r', ~ In slash a -> ~ In slash a' -> a ++ slash :: r = a' ++ slash :: r' -> a = a' /\ r = r'.
Proof.
  induction a as [|x a IH]; intros [|y a'] r r' H H' E; cbn [app] in E.
  - split; congruence.
  - exfalso. apply H'. left. congruence.
  - exfalso. apply H. left. congruence.
  - destruct (IH a' r r') as [-> ->]; [intros X; apply H; right; exact X|intros X; apply H'; right; exact X|congruence|].
    split; congruence.
Qed.

Lemma paths_names L t t' : tr_experiment_dir t = tr_experiment_dir t' -> file_name (tr_data_set t) -> file_name (tr_data_set t') ->
  results_path (lab_float L) t = results_path (lab_float L) t' -> trial_name L t = trial_name L t'.
Proof.
  intros Ed [_ [_ [_ N]]] [_ [_ [_ N']]] E. unfold results_path in E. apply str_inj in E. rewrite Ed in E.
  apply app_inv_head in E. injection E as E2.
  apply cut_slash in E2; [|exact N|exact N']. destruct E2 as [E2 E3]. apply app_inv_tail in E3.
  unfold trial_name. rewrite E2, E3. reflexivity.
Qed.

Lemma prod_flat {A B} (l : list A) (l' : list B) : list_prod l l' = flat_map (fun a => map (pair a) l') l.
Proof. induction l as [|a l IH]; [reflexivity|]. cbn [list_prod flat_map]. rewrite IH. reflexivity. Qed.

(** [combine] with positions, as a relation between lists. *)
Lemma prod_numbered {A} names cs (R : string * trial_descriptor -> A -> Prop) (S : string * (nat * choice) -> A -> Prop) all :
  (forall n i c t, nth_error cs i = Some c -> R (n, make_descriptor i c) t -> S (n, (i, c)) t) ->
  Forall2 R (list_prod names (numbered cs)) all ->
  Forall2 S (list_prod names (combine (seq 0 (length cs)) cs)) all.
Proof.
  intros H F.
  assert (G : list_prod names (numbered cs) = map (fun p => (fst p, make_descriptor (fst (snd p)) (snd (snd p))))
     (list_prod names (combine (seq 0 (length cs)) cs))).
  { rewrite !prod_flat, map_flat_map. apply flat_map_same. intros n. unfold numbered. rewrite !map_map. reflexivity. }
  assert (I : forall p, In p (list_prod names (combine (seq 0 (length cs)) cs)) -> nth_error cs (fst (snd p)) = Some (snd (snd p))).
  { intros [n [i c]] Ip. apply in_prod_iff in Ip. destruct Ip as [_ Ip]. cbn [fst snd]. apply In_nth_error in Ip.
    destruct Ip as [k Ek]. rewrite nth_combine_seq in Ek. destruct (nth_error cs k) as [c'|] eqn:E; [|discriminate].
    cbn in Ek. assert (X : i = k /\ c = c') by (split; congruence). destruct X as [-> ->]. exact E. }
  rewrite G in F. clear G. revert F I. generalize (list_prod names (combine (seq 0 (length cs)) cs)). intros l F I.
  remember (map (fun p => (fst p, make_descriptor (fst (snd p)) (snd (snd p)))) l) as m eqn:Em. revert l Em I.
  induction F as [|x t m all Hx F IH]; intros [|[n [i c]] l] Em I; try discriminate; [constructor|].
  cbn [map] in Em. constructor.
  - apply H; [apply (I _ (or_introl eq_refl))|]. cbn [fst snd] in Em. congruence.
  - apply IH; [congruence|]. intros p Ip. apply I. right. exact Ip.
Qed.

Section Trials.
Variable L : lab.
Variable x : experimental_design.
Variable cs : list choice.
Notation F := (lab_float L).
Hypothesis HD : xd_descriptors x = numbered cs.
Hypothesis HF : tells_floats_apart F.
Hypothesis HN : good_data (xd_data x) (fun d => (forall c, In c cs -> clear_choice F d c) /\ pairwise_different (same_choice d) cs).

Lemma design_dictionaries : dd_names (xd_data x) <> [] -> dictionaries x.
Proof.
  intros Ne desc Id. rewrite HD in Id. apply numbered_in in Id. destruct Id as [i [c [Hc ->]]].
  destruct HN as [_ H]. destruct (dd_names (xd_data x)) as [|n r] eqn:En; [contradiction|].
  destruct (H n (or_introl eq_refl)) as [_ [_ [d [_ [C _]]]]].
  destruct (C c (nth_error_In _ _ Hc)) as [_ [N _]]. exact N.
Qed.

Lemma experiment_trials_ok n : In n (dd_names (xd_data x)) -> exists ts, experiment_trials x n = Ok ts.
Proof.
  intros Hn. destruct HN as [_ H]. destruct (H n Hn) as [_ [_ [d [Ed [C _]]]]]. unfold experiment_trials.
  apply mapM_exists. intros desc Id. rewrite HD in Id. apply numbered_in in Id. destruct Id as [i [c [Hc ->]]].
  rewrite Ed. cbn [bind]. destruct (C c (nth_error_In _ _ Hc)) as [Sp _].
  destruct (plays_update i c d Sp) as [t ->]. cbn [bind]. eauto.
Qed.

Lemma trials_made : exists ts, generate_trials L x = Ok ts /\ one_trial_each L x cs ts.
Proof.
  destruct (dd_names (xd_data x)) as [|n0 r0] eqn:En.
  { exists []. unfold generate_trials, one_trial_each. rewrite En. cbn. repeat constructor. }
  assert (Ne : dd_names (xd_data x) <> []) by (rewrite En; discriminate). clear n0 r0 En.
  pose proof (design_dictionaries Ne) as D.
  destruct (mapM_exists (experiment_trials x) (dd_names (xd_data x)) experiment_trials_ok) as [all Ea].
  pose proof (all_trials x all D Ea) as Al. rewrite HD in Al.
  assert (R : Forall2 (fun nic t => runs x (fst nic) (fst (snd nic)) (snd (snd nic)) t /\ plain_descriptor F (tr_descriptor t))
     (list_prod (dd_names (xd_data x)) (combine (seq 0 (length cs)) cs)) (concat all)).
  { apply (prod_numbered _ _ (fun p t => forall i c, nth_error cs i = Some c -> snd p = make_descriptor i c ->
        runs x (fst p) i c t /\ plain_descriptor F (tr_descriptor t))); [|eapply Forall2_impl_In; [|exact Al]].
    - intros n i c t Hc H. exact (H i c Hc eq_refl).
    - cbv beta. intros [n desc] t Ip It [T1 [T2 [T3 [T4 [d [T5 T6]]]]]] i c Hc Ed. cbn [fst snd] in *. subst desc.
      apply in_prod_iff in Ip. destruct Ip as [In1 _]. destruct HN as [_ H]. destruct (H n In1) as [_ [_ [d' [Ed' [C _]]]]].
      assert (d' = d) by congruence. subst d'. split.
      + apply adapted_plays in T6. destruct T6 as [T6 T7]. unfold runs. repeat (split; [assumption|]). exists d. auto.
      + eapply adapted_plain; [exact T6|]. apply (clear_plain F d). apply C. eapply nth_error_In. exact Hc. }
  assert (Rn : forall t, In t (concat all) -> tr_experiment_dir t = xd_dir x /\ In (tr_data_set t) (dd_names (xd_data x))).
  { intros t It. destruct (Forall2_In_r _ _ _ _ R It) as [[n [i c]] [I [[T1 [_ [T3 _]]] _]]].
    cbn [fst snd] in *. apply in_prod_iff in I. split; [exact T1|rewrite T3; apply I]. }
  assert (Ap : NoDup (map (trial_name L) (concat all))).
  { apply apart_NoDup.
    apply (apart_Forall2 (fun p q => fst p = fst q /\ exists d, dd_by_name (xd_data x) (fst p) = Ok d /\ same_choice d (snd (snd p)) (snd (snd q))) _ _ _ _ R).
    - intros [n [i c]] [n' [i' c']] t t' Ip Iq [[R1 [R2 [R3 [R4 [_ [d [R5 R6]]]]]]] P1] [[Q1 [Q2 [Q3 [Q4 [_ [d' [Q5 Q6]]]]]]] P2] E.
      cbn [fst snd] in *. apply in_prod_iff in Ip, Iq. destruct Ip as [Ip1 Ip2], Iq as [Iq1 Iq2].
      destruct HN as [_ H]. destruct (H n Ip1) as [_ [Hc _]]. destruct (H n' Iq1) as [_ [Hc' _]].
      rewrite <- R3 in Hc. rewrite <- Q3 in Hc'.
      apply (name_apart L t t' HF Hc Hc' P1 P2) in E. destruct E as [E1 E2]. split; [congruence|]. exists d. split; [exact R5|].
      exists (tr_descriptor t), (tr_descriptor t'). split; [exact R6|]. split; [|exact E2].
      assert (d' = d) by congruence. subst d'. exact Q6.
    - rewrite prod_flat. destruct HN as [Nd H]. apply (apart_flat_map eq).
      + apply (apart_NoDup (fun a : string => a)). rewrite map_id. exact Nd.
      + intros n In1. destruct (H n In1) as [_ [_ [d [Ed [_ Pd]]]]].
        apply (apart_map (fun p q : nat * choice => same_choice d (snd p) (snd q))).
        * apply apart_combine. apply pairwise_apart. exact Pd.
        * intros p q [_ [d' [Ed' Sd]]]. cbn [fst snd] in *. assert (d' = d) by congruence. subst d'. exact Sd.
      + intros a b p q Ip Iq [E _]. apply in_map_iff in Ip, Iq. destruct Ip as [p' [<- _]], Iq as [q' [<- _]]. exact E. }
  exists (concat all). split; [|split].
  - unfold generate_trials. rewrite Ea. cbn [bind]. f_equal. apply dedup_id; [intros ? ? []|exact Ap].
  - eapply Forall2_impl_In; [|exact R]. cbv beta. intros a t _ _ [H _]. exact H.
  - apply apart_NoDup. apply apart_NoDup in Ap.
    revert Ap. clear R. revert Rn. generalize (concat all). intros l Rn Ap. unfold apart in *.
    induction Ap as [|t l H1 H2 IH]; [constructor|]. constructor.
    + apply Forall_forall. intros u Iu E. rewrite Forall_forall in H1. apply (H1 u Iu).
      destruct (Rn t (or_introl eq_refl)) as [D1 N1]. destruct (Rn u (or_intror Iu)) as [D2 N2].
      destruct HN as [_ H]. apply paths_names; [congruence|apply H; exact N1|apply H; exact N2|exact E].
    + apply IH. intros u Iu. apply Rn. right. exact Iu.
Qed.
End Trials.
