(** Names of data sets without ':', the shipped data designs, and the shipped trials. *)
From Coq Require Import String Ascii Permutation Sorted Lqa.
From Verif Require Import Prelude ModelReachPoint ModelData DataLemmas ModelHalo ModelAggregator ModelFiles SpecFiles
  FilesLemmas3 ModelDriver SpecDriver DriverLemmas DriverLemmas2 DriverLemmas4 DriverLemmas5
  ModelDesigns SpecDesigns DesignsLemmas DesignsLemmas2 DesignsLemmas3 DesignsLemmas4 DesignsLemmas5 DesignsLemmas7 DesignsLemmas8
  ModelExperiments SpecExperiments ExperimentsLemmas2 ExperimentsLemmas5 ExperimentsLemmas6
  ModelExecute SpecExecute SpecPipeline.
From Verif Require PropsDesigns.
Open Scope Z_scope.

(** ** Names without ':' *)

Notation mark := ":"%char.
Definition unmarked (s : string) : bool := negb (existsb (Ascii.eqb mark) (chars s)).
Lemma unmarked_in s : unmarked s = true -> ~ In mark (chars s).
Proof.
  intros H X. apply negb_true_iff in H. assert (Y : existsb (Ascii.eqb mark) (chars s) = true).
  { apply existsb_exists. exists mark. split; [exact X|reflexivity]. }
  congruence.
Qed.

Definition unmarked_value (v : value) : bool := match v with VStr s => unmarked s | _ => true end.
Definition unmarked_generator (g : generator_parameters) : bool :=
  unmarked (gn_name g) && forallb (fun kv => unmarked (fst kv) && unmarked_value (snd kv)) (gn_params g).

Lemma unmarked_app a b : ~ In mark a -> ~ In mark b -> ~ In mark (a ++ b).
Proof. rewrite in_app_iff. tauto. Qed.
Lemma unmarked_cons c b : c <> mark -> ~ In mark b -> ~ In mark (c :: b).
Proof. intros H H1 [X|X]; auto. Qed.
Lemma unmarked_joined c l : c <> mark -> Forall (fun x => ~ In mark x) l -> ~ In mark (joined c l).
Proof.
  intros Hc H. induction H as [|x l Hx Hl IH]; [intros []|]. destruct l as [|y l]; [exact Hx|].
  rewrite joined_cons. apply unmarked_app; [exact Hx|]. apply unmarked_cons; auto.
Qed.
Lemma unmarked_int z : ~ In mark (str_of_int z).
Proof. intros I. apply str_of_int_char in I. destruct I as [I|[I|[v D]]]; try discriminate. inversion D. Qed.

Section Marks.
Variable F : float_format.
Hypothesis HF : forall q, ~ In mark (show_float F q).

Lemma unmarked_number n : ~ In mark (show_number F n).
Proof. destruct n; [apply unmarked_int|apply HF]. Qed.
Lemma unmarked_shown v : unmarked_value v = true -> ~ In mark (show_value F v).
Proof.
  destruct v as [n|s|[]]; intros H; [apply unmarked_number|apply unmarked_in; exact H|apply (unmarked_in "True"); reflexivity|apply (unmarked_in "False"); reflexivity].
Qed.
Lemma unmarked_shown_generator g : unmarked_generator g = true -> ~ In mark (show_generator F g).
Proof.
  intros H. apply andb_true_iff in H. destruct H as [H1 H2]. unfold show_generator.
  apply unmarked_app; [apply unmarked_in; exact H1|]. destruct (gn_params g) as [|kv kw] eqn:E; [intros []|].
  rewrite show_kwargs_cons. apply unmarked_cons; [discriminate|].
  apply unmarked_app; [|apply unmarked_cons; [discriminate|intros []]].
  apply unmarked_joined; [discriminate|]. apply Forall_forall. intros x Hx. apply in_map_iff in Hx.
  destruct Hx as [[k v] [<- Hk]]. rewrite forallb_forall in H2. specialize (H2 _ Hk). cbn [fst snd] in H2.
  apply andb_true_iff in H2. destruct H2 as [H2 H3]. rewrite item_eq.
  apply unmarked_app; [apply unmarked_in; exact H2|]. apply unmarked_cons; [discriminate|]. apply unmarked_shown. exact H3.
Qed.

Lemma unmarked_set p : fp_name p = ""%string -> ~ In mark (chars (fp_id p)) ->
  unmarked_generator (fp_pricing p) = true -> unmarked_generator (fp_impressions p) = true ->
  unmarked_generator (fp_overlap p) = true -> ~ In mark (chars (set_name_of F p)).
Proof.
  intros N I G1 G2 G3. unfold set_name_of. fold (str (show_set F p)). rewrite chars_str. rewrite show_set_unnamed by exact N.
  repeat (apply unmarked_app; [first [apply unmarked_int | apply unmarked_number | apply unmarked_shown_generator; assumption
     | apply unmarked_in; reflexivity]|]).
  unfold id_part. destruct (truthy (fp_id p)); [|intros []].
  apply unmarked_app; [apply unmarked_in; reflexivity|exact I].
Qed.

Definition unmarked_levels (V : levels) : bool :=
  forallb unmarked_generator (lv_pricing V) && forallb unmarked_generator (lv_impressions V) &&
  forallb unmarked_generator (lv_overlap V).
Lemma unmarked_level V : unmarked_levels V = true ->
  (forall g, In g (lv_pricing V) -> unmarked_generator g = true) /\
  (forall g, In g (lv_impressions V) -> unmarked_generator g = true) /\
  (forall g, In g (lv_overlap V) -> unmarked_generator g = true).
Proof.
  intros H. apply andb_true_iff in H. destruct H as [H H3]. apply andb_true_iff in H. destruct H as [H1 H2].
  rewrite forallb_forall in H1, H2, H3. auto.
Qed.
End Marks.

(** ** The shipped data designs *)

(** Settings that can be made into a data design. *)
Definition makes_sets (F : float_format) (few : nat -> Prop) (c : config) (n : nat) : Prop :=
  exists ps, c = map Ok ps /\ length ps = n /\ Forall (writable F) ps /\ NoDup (map (set_name_of F) ps) /\
    (forall p, In p ps -> ~ In mark (chars (set_name_of F p))) /\
    (forall p, In p ps -> few (Z.to_nat (fp_num_publishers p))).

Lemma cartesian_sets F (few : nat -> Prop) V n : tells_floats_apart F -> (forall q, ~ In mark (show_float F q)) ->
  workable F V -> levels_apart V = true -> unmarked_levels V = true ->
  Forall (fun k => few (Z.to_nat k)) (lv_num_publishers V) ->
  (length (lv_num_publishers V) * (length (lv_largest V) * (length (lv_ratio V) *
    (length (lv_pricing V) * (length (lv_impressions V) * length (lv_overlap V))))))%nat = n ->
  makes_sets F few (cartesian_config V) n.
Proof.
  intros T M [Pl Fe] Ap Un Fw Hn. pose proof (levels_apart_different V Ap) as Df.
  destruct (PropsDesigns.C51_cartesian V) as [ps [E [In_ [Hl ND]]]]. destruct (ND Df) as [_ ND']. specialize (ND' F T Pl).
  destruct (unmarked_level V Un) as [U1 [U2 U3]]. destruct Pl as [P1 [P2 P3]]. rewrite Forall_forall in P1, P2, P3, Fw.
  exists ps. split; [exact E|]. split; [congruence|]. split.
  { apply Forall_forall. intros p I. apply In_ in I. split; [apply Fe; exact I|].
    destruct I as [N0 [Ni [_ [_ [_ [C4 [C5 C6]]]]]]].
    apply set_file_name; [exact T|]. split; [exact N0|]. split; [rewrite Ni; apply plain_checked; reflexivity|]. auto. }
  split; [exact ND'|]. split.
  - intros p I. apply In_ in I. destruct I as [N0 [Ni [_ [_ [_ [C4 [C5 C6]]]]]]].
    apply unmarked_set; [exact M|exact N0|rewrite Ni; intros []|auto|auto|auto].
  - intros p I. apply In_ in I. apply Fw. apply I.
Qed.

Lemma shipped_analysis_sets F : tells_floats_apart F -> words_are_words F -> (forall q, ~ In mark (show_float F q)) ->
  makes_sets F (fun n => n <> 0%nat) analysis_config 72.
Proof.
  intros T Wd M. apply cartesian_sets; [exact T|exact M|exact (analysis_workable F Wd)|reflexivity|reflexivity| |reflexivity].
  repeat constructor; discriminate.
Qed.
Lemma shipped_simple_sets F : tells_floats_apart F -> words_are_words F -> (forall q, ~ In mark (show_float F q)) ->
  makes_sets F (fun n => n <> 0%nat) simple_config 27.
Proof.
  intros T Wd M. apply cartesian_sets; [exact T|exact M|exact (simple_workable F Wd)|reflexivity|reflexivity| |reflexivity].
  repeat constructor; discriminate.
Qed.
Lemma shipped_single_sets F : tells_floats_apart F -> words_are_words F -> (forall q, ~ In mark (show_float F q)) ->
  makes_sets F (fun n => n = 1%nat) single_publisher_config 80.
Proof.
  intros T Wd M. apply cartesian_sets; [exact T|exact M|exact (single_publisher_workable F Wd)|reflexivity|reflexivity| |reflexivity].
  repeat constructor; discriminate.
Qed.

Lemma shipped_m3_sets F samples ps : tells_floats_apart F -> words_are_words F -> (forall q, ~ In mark (show_float F q)) ->
  Forall point samples -> m3_config m3_levels samples = map Ok ps -> Forall order_is_kept ps ->
  makes_sets F (fun n => n <> 0%nat) (m3_config m3_levels samples) (length samples).
Proof.
  intros T Wd M Pt E Or. exists ps. split; [exact E|].
  destruct (PropsDesigns.C51_m3_universe m3_levels samples m3_has_levels Pt m3_ratios m3_largest) as [ps0 [ps' [E0 [E' [W ND]]]]].
  assert (Inj : forall a b : list set_parameters, map (@Ok set_parameters) a = map Ok b -> a = b).
  { induction a as [|x a IH]; intros [|y b] Ex; try discriminate; [reflexivity|].
    cbn [map] in Ex. f_equal; [congruence|]. apply IH. congruence. }
  assert (ps' = ps) as -> by (apply Inj; congruence).
  destruct (lhs_config_ok m3_levels samples m3_has_levels Pt) as [ps1 [E1 [Len1 H]]].
  assert (ps1 = ps0) as -> by (apply Inj; congruence).
  pose proof (Forall2_len _ _ _ W) as LW. rewrite Forall_forall in Pt, Or.
  assert (Fe : forall p, In p ps -> exists s p0 k, point s /\ from_levels m3_levels k s p0 /\ levels_at m3_levels s p0 /\ with_universe p0 p).
  { intros p Ip. apply In_nth_error in Ip. destruct Ip as [k Hp]. assert (Hk : (k < length ps)%nat) by (apply nth_error_Some; congruence).
    destruct (nth_error ps0 k) as [p0|] eqn:E2; [|apply nth_error_None in E2; lia].
    destruct (nth_error samples k) as [s|] eqn:Es; [|apply nth_error_None in Es; lia].
    destruct (H k s p0 Es E2) as [A B]. exists s, p0, k. split; [exact (Pt s (nth_error_In _ _ Es))|]. split; [exact A|]. split; [exact B|].
    clear -W Hp E2. revert k Hp E2. induction W as [|y z l l' Hyz W IH]; intros [|k] Hp E2; try discriminate.
    - cbn in *. congruence.
    - apply (IH k); assumption. }
  split; [congruence|]. split; [|split; [apply ND|split]].
  - apply Forall_forall. intros p Ip. destruct (Fe p Ip) as [s [p0 [k [A [B [C D]]]]]].
    destruct (m3_feasible F s p0 p k Wd A B C D) as [X [Y _]]. split; [apply Y, Or, Ip|apply set_file_name; assumption].
  - intros p Ip. destruct (Fe p Ip) as [s [p0 [k [A [[B1 [B2 _]] [C D]]]]]].
    destruct (unmarked_level m3_levels eq_refl) as [U1 [U2 U3]].
    assert (I4 : In (fp_pricing p0) (lv_pricing m3_levels)) by (eapply nth_error_In; apply C).
    assert (I5 : In (fp_impressions p0) (lv_impressions m3_levels)) by (eapply nth_error_In; apply C).
    assert (I6 : In (fp_overlap p0) (lv_overlap m3_levels)) by (eapply nth_error_In; apply C).
    destruct D as [D1 [D2 [_ [_ [_ [D6 [D7 [D8 D9]]]]]]]].
    apply unmarked_set; [exact M|congruence| |rewrite D6; auto|rewrite D7; auto|].
    + rewrite D2, B2. fold (str (str_of_int (Z.of_nat k))). rewrite chars_str. apply unmarked_int.
    + destruct (string_dec (gn_name (fp_overlap p0)) "Independent") as [Y|Y]; [|rewrite (D8 Y); auto].
      destruct (D9 Y) as [r [g [u [_ [G2 [G3 [_ [G5 _]]]]]]]]. unfold unmarked_generator. rewrite G3, G5. cbn [forallb fst snd].
      assert (Ug : unmarked_value g = true).
      { specialize (U3 _ I6). apply andb_true_iff in U3. destruct U3 as [_ U3]. rewrite forallb_forall in U3.
        specialize (U3 _ G2). apply andb_true_iff in U3. apply U3. }
      rewrite Ug. reflexivity.
  - intros p Ip. destruct (Fe p Ip) as [s [p0 [k [A [B [C D]]]]]].
    destruct (m3_feasible F s p0 p k Wd A B C D) as [_ [Y _]]. pose proof (Y (Or p Ip)) as [Z _]. lia.
Qed.

(** ** The shipped trials *)

Lemma m3_always L : always_rows L (fun n => n <> 0%nat) (product_choices m3_trial_levels).
Proof.
  intros d Hd. split; [|apply product_apart, m3_differ; exact Hd].
  intros c Hc. apply product_in in Hc. split; [apply m3_clear; exact Hc|].
  split; [apply (known_checked m3_trial_levels _ eq_refl Hc)|].
  destruct Hc as [_ [C _]]. destruct (full_spends d _ _ _ C) as [r [Sr El]]. exists r. split; [exact Sr|lia].
Qed.
Lemma analysis_always L : always_rows L (fun n => n <> 0%nat) (product_choices analysis_trial_levels).
Proof.
  intros d Hd. split; [|apply product_apart, analysis_differ; exact Hd].
  intros c Hc. apply product_in in Hc. split; [apply analysis_clear; exact Hc|].
  split; [apply (known_checked analysis_trial_levels _ eq_refl Hc)|].
  destruct Hc as [_ [C _]]. destruct (full_spends d _ _ _ C) as [r [Sr El]]. exists r. split; [exact Sr|lia].
Qed.
Lemma single_always L : always_rows L (fun n => n = 1%nat) (single_choices single_trial_levels).
Proof.
  intros d Hd. split; [|apply single_apart, single_differ].
  intros c Hc. apply single_in in Hc. split; [apply single_choice_clear; exact Hc|].
  split; [apply single_known; exact Hc|].
  destruct Hc as [m [f [dr [ss [pt [_ [_ [_ [_ [_ [_ [_ [_ [_ [_ [_ [_ [_ [_ [_ [-> _]]]]]]]]]]]]]]]]]]]]]. cbn [spends_on].
  exists [f]. split; [reflexivity|]. rewrite Hd. cbn. lia.
Qed.
