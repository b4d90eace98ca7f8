(** Latin hypercube designs of experiments. *)
From Coq Require Import String Ascii Qround Permutation Lqa.
From Verif Require Import Prelude ModelReachPoint ModelData DataLemmas ModelAggregator ModelFiles SpecFiles ModelHalo
  ModelDriver SpecDriver ModelDesigns SpecDesigns DesignsLemmas4 DesignsLemmas5 ModelExperiments SpecExperiments ExperimentsLemmas.
Open Scope Z_scope.

Lemma column_latin k samples j : latin_in k samples -> (j < k)%nat -> latin (map (fun s => repeat (nth j s 0%Q) 6) samples).
Proof.
  intros [Pt La] Hj. unfold latin. rewrite map_length. split.
  - apply Forall_forall. intros p Ip. apply in_map_iff in Ip. destruct Ip as [s [<- Is]]. rewrite Forall_forall in Pt.
    destruct (Pt s Is) as [Ls Fs]. split; [apply repeat_length|]. apply Forall_forall. intros q Iq. apply repeat_spec in Iq. subst q.
    rewrite Forall_forall in Fs. apply Fs. apply nth_In. lia.
  - intros i Hi. rewrite map_map. etransitivity; [|apply (La j Hj)].
    rewrite (map_ext _ (fun s => Qfloor (nth j s 0%Q * inject_Z (Z.of_nat (length samples))))); [reflexivity|].
    intros s. do 6 (destruct i as [|i]; [reflexivity|]). lia.
Qed.

Lemma column_shares k samples j n i : latin_in k samples -> (j < k)%nat -> (i < n)%nat ->
  even_share (length samples) n (count_occ Nat.eq_dec (map (fun s => index_of n (nth j s 0%Q)) samples) i).
Proof.
  intros La Hj Hi. pose proof (shares _ 0 n i (column_latin k samples j La Hj) ltac:(lia) Hi) as H.
  rewrite map_length, map_map in H. exact H.
Qed.

(** The positions of the levels that a point stands for. *)
Record at_levels (L : trial_levels) (s : list Q) (c : choice) : Prop := {
  al_strategy : nth_error (tl_strategies L) (index_of (length (tl_strategies L)) (nth 0 s 0%Q)) = Some (ch_strategy c);
  al_spends : nth_error (tl_spends L) (index_of (length (tl_spends L)) (nth 1 s 0%Q)) = Some (ch_spends c);
  al_ll : nth_error (tl_ll L) (index_of (length (tl_ll L)) (nth 2 s 0%Q)) = Some (ch_ll c);
  al_budget : nth_error (tl_budgets L) (index_of (length (tl_budgets L)) (nth 3 s 0%Q)) = Some (ch_budget c);
  al_replica : nth_error (tl_replicas L) (index_of (length (tl_replicas L)) (nth 4 s 0%Q)) = Some (ch_replica c);
  al_frequency : nth_error (tl_frequencies L) (index_of (length (tl_frequencies L)) (nth 5 s 0%Q)) = Some (ch_frequency c);
  al_points : nth_error (tl_points L) (index_of (length (tl_points L)) (nth 6 s 0%Q)) = Some (ch_points c) }.

Lemma pick_key_ok {A} (l : list A) s k : l <> [] -> point_in 7 s -> (k < 7)%nat ->
  exists v, pick_key l s k = Ok v /\ nth_error l (index_of (length l) (nth k s 0%Q)) = Some v /\ chosen l (nth k s 0%Q) v.
Proof.
  intros Ne [Ls Fs] Hk. unfold pick_key. destruct (nth_error s k) as [q|] eqn:E; [|apply nth_error_None in E; lia].
  rewrite (nth_error_nth _ _ 0%Q E). apply pick_ok; [exact Ne|]. rewrite Forall_forall in Fs. apply Fs. eapply nth_error_In. exact E.
Qed.

Lemma sample_choice_ok L s : has_trial_levels L -> point_in 7 s ->
  exists c, sample_choice L s = Ok c /\ choice_at L s c /\ at_levels L s c.
Proof.
  intros [M0 [M1 [M2 [M3 [M4 [M5 M6]]]]]] P. unfold sample_choice.
  destruct (pick_key_ok _ s 0 M0 P ltac:(lia)) as [v0 [-> [A0 B0]]].
  destruct (pick_key_ok _ s 1 M1 P ltac:(lia)) as [v1 [-> [A1 B1]]].
  destruct (pick_key_ok _ s 2 M2 P ltac:(lia)) as [v2 [-> [A2 B2]]].
  destruct (pick_key_ok _ s 3 M3 P ltac:(lia)) as [v3 [-> [A3 B3]]].
  destruct (pick_key_ok _ s 4 M4 P ltac:(lia)) as [v4 [-> [A4 B4]]].
  destruct (pick_key_ok _ s 5 M5 P ltac:(lia)) as [v5 [-> [A5 B5]]].
  destruct (pick_key_ok _ s 6 M6 P ltac:(lia)) as [v6 [-> [A6 B6]]].
  cbn [bind]. eexists. split; [reflexivity|]. split; [|constructor; assumption]. unfold choice_at. cbn. auto 10.
Qed.

Lemma sample_choices_ok L samples : has_trial_levels L -> Forall (point_in 7) samples ->
  exists cs, mapM (sample_choice L) samples = Ok cs /\ Forall2 (choice_at L) samples cs /\ Forall2 (at_levels L) samples cs.
Proof.
  intros HL F. induction F as [|s samples P F IH].
  - exists []. split; [reflexivity|]. split; constructor.
  - destruct IH as [cs [E [F1 F2]]]. destruct (sample_choice_ok L s HL P) as [c [Ec [C1 C2]]].
    exists (c :: cs). cbn [mapM]. rewrite Ec. cbn [bind]. rewrite E. cbn [bind]. split; [reflexivity|]. split; constructor; assumption.
Qed.

Lemma evenly_at {A} (lv : list A) field j samples cs : latin_in 7 samples -> (j < 7)%nat ->
  Forall2 (fun s c => nth_error lv (index_of (length lv) (nth j s 0%Q)) = Some (field c)) samples cs ->
  evenly lv field cs.
Proof.
  intros La Hj H. exists (map (fun s => index_of (length lv) (nth j s 0%Q)) samples). split.
  - clear La. induction H as [|s c samples cs E H IH]; [constructor|]. cbn [map]. constructor; assumption.
  - intros k Hk. rewrite <- (Forall2_len _ _ _ H). apply (column_shares 7); assumption.
Qed.

Lemma sample_evenly L samples cs : latin_in 7 samples -> Forall2 (at_levels L) samples cs ->
  evenly (tl_strategies L) ch_strategy cs /\ evenly (tl_spends L) ch_spends cs /\ evenly (tl_ll L) ch_ll cs /\
  evenly (tl_budgets L) ch_budget cs /\ evenly (tl_replicas L) ch_replica cs /\
  evenly (tl_frequencies L) ch_frequency cs /\ evenly (tl_points L) ch_points cs.
Proof.
  intros La H.
  assert (G : forall P : list Q -> choice -> Prop, (forall s c, at_levels L s c -> P s c) -> Forall2 P samples cs).
  { intros P HP. clear La. induction H; constructor; auto. }
  split; [apply (evenly_at _ _ 0 samples); [exact La|lia|apply G; intros s c A; apply A]|].
  split; [apply (evenly_at _ _ 1 samples); [exact La|lia|apply G; intros s c A; apply A]|].
  split; [apply (evenly_at _ _ 2 samples); [exact La|lia|apply G; intros s c A; apply A]|].
  split; [apply (evenly_at _ _ 3 samples); [exact La|lia|apply G; intros s c A; apply A]|].
  split; [apply (evenly_at _ _ 4 samples); [exact La|lia|apply G; intros s c A; apply A]|].
  split; [apply (evenly_at _ _ 5 samples); [exact La|lia|apply G; intros s c A; apply A]|].
  apply (evenly_at _ _ 6 samples); [exact La|lia|apply G; intros s c A; apply A].
Qed.
