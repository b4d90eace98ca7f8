(** C64: a whole evaluation, from the parameters of the data sets to the table. *)
From Coq Require Import String Ascii Permutation Sorted.
From Verif Require Import Prelude ModelReachPoint ModelData DataLemmas ModelHalo ModelAggregator SpecAggregator ModelFiles SpecFiles
  FilesLemmas FilesLemmas2 FilesLemmas3 ModelGenerators SpecGenerators ModelDriver SpecDriver DriverLemmas DriverLemmas2 DriverLemmas4
  DriverLemmas5 SpecTrial ModelDesigns SpecDesigns ModelExperiments SpecExperiments ExperimentsLemmas2
  ModelExecute SpecExecute ExecuteLemmas4 SpecPipeline PipelineLemmas PipelineLemmas2 PipelineLemmas3 PipelineLemmas4
  ExampleDriver ExampleDesigns.
From Verif Require PropsGenerators PropsTestPoints PropsDesigns PropsExecute PropsExperiments PropsHalo.
Open Scope Z_scope.

Section Whole.
Context {St : Type} (rng : numpy_rng St) (x : synthetic_externals seq_options) (L : lab).
Notation F := (lab_float L).
Hypothesis env : environment rng x F.
Hypothesis floats : tells_floats_apart F.

(** The data sets of a list of parameters are made; then the driver evaluates the trials, one for
    each data set and each choice of the experimental design. Whatever way it is run, the answer is
    a table with one row for each of them, that says which data set and which settings it is
    about. *)
Theorem C64_pipeline : forall dr fs ps cs g st (few : nat -> Prop),
  good_start L dr (st_disk fs) ->
  ps <> [] -> Forall (writable F) ps -> NoDup (map (set_name_of F) ps) ->
  (forall p, In p ps -> ~ In ":"%char (chars (set_name_of F p))) ->
  (forall p, In p ps -> few (Z.to_nat (fp_num_publishers p))) ->
  cs <> [] -> dr_fetch L dr (dr_seed L dr) = Ok (numbered cs, g) -> always_rows L few cs ->
  exists fs' de, generate_design rng x F fs (dr_data_design L dr) (map Ok ps) st = (Ok de, fs') /\
    evaluates L dr (st_disk fs) (st_disk fs') g
      (fun ca tb => table_for L ps cs ca tb /\ length tb = (length ps * length cs)%nat).
Proof.
  intros dr fs ps cs g st few [K [NF [Fr [New Md5]]]] ne W ND Col Few ce Ef Al.
  destruct (PropsDesigns.C51_generate rng x F fs (dr_data_design L dr) ps st env K NF W ND (fun p _ => Fr _)) as [fs' [de [E Fl]]].
  exists fs', de. split; [exact E|]. intros xs ca c Hts Ox Px r d' Ex.
  destruct (whole_run L dr (sx_pow x) fs fs' de ps cs g few Fl K Fr W ND Col floats Ef Few Al New Md5 ne ce xs ca c r d' Hts Ox Px Ex)
    as [tb [ts [A1 [A2 [A3 [A4 [A5 A6]]]]]]].
  exists tb, ts. auto 7.
Qed.

(** The settings of the M3 evaluation on data sets with publishers: 288 rows for each of them. *)
Theorem C64_m3 : forall dr fs ps g st, good_start L dr (st_disk fs) ->
  ps <> [] -> Forall (writable F) ps -> NoDup (map (set_name_of F) ps) ->
  (forall p, In p ps -> ~ In ":"%char (chars (set_name_of F p))) ->
  dr_fetch L dr (dr_seed L dr) = Ok (m3_experiments, g) ->
  exists cs fs' de, (forall c, In c cs <-> SpecExperiments.combines m3_trial_levels c) /\
    generate_design rng x F fs (dr_data_design L dr) (map Ok ps) st = (Ok de, fs') /\
    evaluates L dr (st_disk fs) (st_disk fs') g
      (fun ca tb => table_for L ps cs ca tb /\ length tb = (length ps * 288)%nat).
Proof.
  intros dr fs ps g st G ne W ND Col Ef. exists (product_choices m3_trial_levels).
  assert (Le : length (product_choices m3_trial_levels) = 288%nat) by (rewrite product_length; reflexivity).
  destruct (C64_pipeline dr fs ps (product_choices m3_trial_levels) g st (fun n => n <> 0%nat) G ne W ND Col) as [fs' [de [E Ev]]].
  - intros p Ip. rewrite Forall_forall in W. destruct (W p Ip) as [[X _] _]. lia.
  - intros X. rewrite X in Le. discriminate.
  - exact Ef.
  - apply m3_always.
  - exists fs', de. split; [apply product_in|]. split; [exact E|]. rewrite Le in Ev. exact Ev.
Qed.

(** A shipped data design with shipped trials. *)
Lemma shipped_pipeline dr fs conf m few cs g st : good_start L dr (st_disk fs) -> makes_sets F few conf m -> m <> 0%nat ->
  cs <> [] -> dr_fetch L dr (dr_seed L dr) = Ok (numbered cs, g) -> always_rows L few cs ->
  exists ps fs' de, conf = map Ok ps /\ generate_design rng x F fs (dr_data_design L dr) conf st = (Ok de, fs') /\
    evaluates L dr (st_disk fs) (st_disk fs') g
      (fun ca tb => table_for L ps cs ca tb /\ length tb = (m * length cs)%nat).
Proof.
  intros G [ps [-> [Lp [W [ND [Col Few]]]]]] Nm ce Ef Al.
  destruct (C64_pipeline dr fs ps cs g st few G) as [fs' [de [E Ev]]]; auto.
  { intros X. rewrite X in Lp. cbn in Lp. congruence. }
  exists ps, fs', de. split; [reflexivity|]. split; [exact E|]. rewrite Lp in Ev. exact Ev.
Qed.

Hypothesis words : words_are_words F.
Hypothesis unmarked_floats : forall q, ~ In ":"%char (show_float F q).

(** The shipped analysis: 72 data sets, 96 choices, 6912 rows. *)
Theorem C64_analysis : forall dr fs g st, good_start L dr (st_disk fs) ->
  dr_fetch L dr (dr_seed L dr) = Ok (analysis_experiments, g) ->
  exists ps cs fs' de, analysis_config = map Ok ps /\ (forall c, In c cs <-> SpecExperiments.combines analysis_trial_levels c) /\
    generate_design rng x F fs (dr_data_design L dr) analysis_config st = (Ok de, fs') /\
    evaluates L dr (st_disk fs) (st_disk fs') g
      (fun ca tb => table_for L ps cs ca tb /\ Z.of_nat (length tb) = 6912).
Proof.
  intros dr fs g st G Ef.
  assert (Le : length (product_choices analysis_trial_levels) = 96%nat) by (rewrite product_length; reflexivity).
  destruct (shipped_pipeline dr fs analysis_config 72 (fun n => n <> 0%nat) (product_choices analysis_trial_levels) g st G
    (shipped_analysis_sets F floats words unmarked_floats)) as [ps [fs' [de [Ec [E Ev]]]]];
    [discriminate|intros X; rewrite X in Le; discriminate|exact Ef|apply analysis_always|].
  exists ps, (product_choices analysis_trial_levels), fs', de. split; [exact Ec|]. split; [apply product_in|]. split; [exact E|].
  intros xs ca c H1 H2 H3 r d' Ex. destruct (Ev xs ca c H1 H2 H3 r d' Ex) as [tb [ts [A [[B C] D]]]].
  exists tb, ts. split; [exact A|]. split; [|exact D]. split; [exact B|]. rewrite C, Le. reflexivity.
Qed.

(** The shipped designs for single publishers: 80 data sets, 225 choices, 18000 rows. *)
Theorem C64_single_publisher : forall dr fs g st, good_start L dr (st_disk fs) ->
  dr_fetch L dr (dr_seed L dr) = Ok (single_experiments, g) ->
  exists ps cs fs' de, single_publisher_config = map Ok ps /\ (forall c, In c cs <-> combines_single single_trial_levels c) /\
    generate_design rng x F fs (dr_data_design L dr) single_publisher_config st = (Ok de, fs') /\
    evaluates L dr (st_disk fs) (st_disk fs') g
      (fun ca tb => table_for L ps cs ca tb /\ Z.of_nat (length tb) = 18000).
Proof.
  intros dr fs g st G Ef.
  assert (Le : length (single_choices single_trial_levels) = 225%nat) by (rewrite single_length; reflexivity).
  destruct (shipped_pipeline dr fs single_publisher_config 80 (fun n => n = 1%nat) (single_choices single_trial_levels) g st G
    (shipped_single_sets F floats words unmarked_floats)) as [ps [fs' [de [Ec [E Ev]]]]];
    [discriminate|intros X; rewrite X in Le; discriminate|exact Ef|apply single_always|].
  exists ps, (single_choices single_trial_levels), fs', de. split; [exact Ec|]. split; [apply single_in|]. split; [exact E|].
  intros xs ca c H1 H2 H3 r d' Ex. destruct (Ev xs ca c H1 H2 H3 r d' Ex) as [tb [ts [A [[B C] D]]]].
  exists tb, ts. split; [exact A|]. split; [|exact D]. split; [exact B|]. rewrite C, Le, Nat2Z.inj_mul. reflexivity.
Qed.

(** The shipped M3 data design and the M3 trials: 288 rows for each point of the sample, if no
    point asks for another order of publishers of different sizes. *)
Theorem C64_m3_design : forall dr fs g st samples ps, good_start L dr (st_disk fs) ->
  samples <> [] -> Forall point samples -> m3_config m3_levels samples = map Ok ps -> Forall order_is_kept ps ->
  dr_fetch L dr (dr_seed L dr) = Ok (m3_experiments, g) ->
  exists cs fs' de, (forall c, In c cs <-> SpecExperiments.combines m3_trial_levels c) /\
    generate_design rng x F fs (dr_data_design L dr) (m3_config m3_levels samples) st = (Ok de, fs') /\
    evaluates L dr (st_disk fs) (st_disk fs') g
      (fun ca tb => table_for L ps cs ca tb /\ length tb = (length samples * 288)%nat).
Proof.
  intros dr fs g st samples ps G Ns Pt Em Or Ef.
  assert (Le : length (product_choices m3_trial_levels) = 288%nat) by (rewrite product_length; reflexivity).
  destruct (shipped_pipeline dr fs (m3_config m3_levels samples) (length samples) (fun n => n <> 0%nat) (product_choices m3_trial_levels) g st G
    (shipped_m3_sets F samples ps floats words unmarked_floats Pt Em Or)) as [ps' [fs' [de [Ec [E Ev]]]]];
    [destruct samples; [contradiction|discriminate]|intros X; rewrite X in Le; discriminate|exact Ef|apply m3_always|].
  assert (ps' = ps) as ->.
  { rewrite Em in Ec. clear -Ec. revert ps' Ec. induction ps as [|a l IH]; intros [|b l'] E; try discriminate; [reflexivity|].
    cbn [map] in E. f_equal; [congruence|]. apply IH. congruence. }
  exists (product_choices m3_trial_levels), fs', de. split; [apply product_in|]. split; [exact E|]. rewrite Le in Ev. exact Ev.
Qed.
End Whole.
Print Assumptions C64_pipeline.
Print Assumptions C64_m3.
Print Assumptions C64_analysis.
Print Assumptions C64_single_publisher.
Print Assumptions C64_m3_design.

(** ** Example: the shipped analysis in an environment in which everything can be computed *)

Definition bar_lab : lab :=
  {| lab_float := bar_format; lab_halo := PropsHalo.ex_externals;
     lab_global := bool; lab_seed_global := Z.even; lab_own := unit; lab_default_rng := fun _ => tt;
     lab_draws := PropsTestPoints.diagonal_rng; lab_model := Z; lab_fit := toy_fit; lab_ask := toy_ask;
     lab_training := fun m => Ok [inject_Z m];
     lab_traceback := fun e => match e with ValueError => "value"%string | _ => "other"%string end;
     lab_print := toy_print; lab_parse := toy_parse; lab_md5 := PropsExperiments.safe_md5 |}.
Definition bar_generators : generators bar_lab := fun _ => 0.
Definition bar_driver (xs : list trial_descriptor) : driver bar_lab :=
  {| dr_data_design := "/data"; dr_fetch := fun _ => Ok (xs, bar_generators);
     dr_output := "/out.csv"; dr_intermediates := "/exp"; dr_seed := 1; dr_analysis := "" |}.
Lemma bar_unmarked q : ~ In ":"%char (show_float bar_format q).
Proof.
  cbn [bar_format show_float]. apply unmarked_app; [apply unmarked_int|].
  apply unmarked_cons; [discriminate|apply unmarked_int].
Qed.

Lemma apart_tops a b : a <> b -> disjoint (true, [a]) (true, [b]).
Proof. intros N. split; intros [r E]; apply N; inversion E; reflexivity. Qed.

Lemma bar_start xs : good_start bar_lab (bar_driver xs) (st_disk PropsDesigns.nothing).
Proof.
  destruct (PropsDesigns.nothing_ok "/data") as [K [NF Fr]]. split; [exact K|]. split; [exact NF|]. split; [exact Fr|].
  split; [|exact PropsExperiments.safe_name]. split; [discriminate|]. split; [discriminate|].
  intros w [->| ->].
  - destruct (PropsDesigns.nothing_ok "/exp") as [_ [NF' Fr']]. split; [exact NF'|]. split; [exact Fr'|].
    apply apart_tops. discriminate.
  - destruct (PropsDesigns.nothing_ok "/pending") as [_ [NF' Fr']]. split; [exact NF'|]. split; [exact Fr'|].
    apply apart_tops. discriminate.
Qed.

Lemma bar_output xs : Forall (free_place bar_lab (bar_driver xs) (st_disk PropsDesigns.nothing)) [output_path bar_lab (bar_driver xs)].
Proof.
  constructor; [|constructor]. split; [discriminate|]. split; [discriminate|]. split; [reflexivity|].
  intros w [->|[->| ->]]; apply apart_tops; discriminate.
Qed.

(** The disk is empty, the data sets of the shipped analysis are made, the driver is run in one
    process, and answers a table with 6912 rows, which is then in the output file. *)
Example C64_example : let dr := bar_driver analysis_experiments in
  exists fs' de c d' tb,
    generate_design PropsGenerators.ex_rng ex_sets bar_format PropsDesigns.nothing "/data" analysis_config 0 = (Ok de, fs') /\
    execute bar_lab dr {| ca_cores := 1; ca_beam := false; ca_temp := "" |} c (st_disk fs') = Some (Ok tb, d') /\
    Z.of_nat (length tb) = 6912 /\ stat d' (to_path "/out.csv") = Some (File (toy_print tb)).
Proof.
  intros dr.
  destruct (C64_analysis PropsGenerators.ex_rng ex_sets bar_lab ex_environment bar_tells_apart bar_words bar_unmarked dr PropsDesigns.nothing
    bar_generators 0 (bar_start _) eq_refl) as [ps [cs [fs' [de [_ [_ [E Ev]]]]]]].
  set (c0 := {| co_now := fun _ => []; co_later := fun _ => []; co_schedule := []; co_combine := fun l => Inputs l |}).
  set (ca := {| ca_cores := 1; ca_beam := false; ca_temp := "" |}).
  destruct (PropsExecute.C53_ends bar_lab dr ca c0 (st_disk fs')) as [rest [r [d' Ex]]].
  destruct (Ev [output_path bar_lab dr] ca (continued c0 rest)) with (r := r) (d' := d') as [tb [ts [-> [[_ Ln] [_ [_ [Wr _]]]]]]].
  - intros ts _. split; [intros t t' _ _ X; exact (PropsExperiments.safe_md5_inj _ _ X)|].
    split; [intros [X|X]; [discriminate|contradiction]|discriminate].
  - left. reflexivity.
  - apply bar_output.
  - exact Ex.
  - exists fs', de, (continued c0 rest), d', tb. split; [exact E|]. split; [exact Ex|]. split; [exact Ln|exact Wr].
Qed.
