(** C65: the programs as they are started from a shell. *)
From Coq Require Import String Ascii Permutation.
From Verif Require Import Prelude ModelData ModelAggregator SpecAggregator ModelFiles SpecFiles FilesLemmas FilesLemmas2 ModelGenerators SpecGenerators
  ModelDriver SpecDriver DriverLemmas4 ModelDesigns SpecDesigns ModelExperiments SpecExperiments ModelExecute SpecExecute ExecuteLemmas4 SpecPipeline
  ModelCloud ModelCloudRun ModelMain SpecMain MainLemmas MainLemmas2 ExperimentsLemmas2 PipelineLemmas PipelineLemmas2 PipelineLemmas3 PipelineLemmas4 ModelShell SpecShell ShellLemmas ShellLemmas2 ExampleDriver ExampleDesigns.
From Verif Require PropsDesigns PropsMain PropsPipeline PropsGenerators PropsExecute PropsExperiments PropsHalo.
Open Scope Z_scope.

Section Generator.
Context {St : Type} (rng : numpy_rng St) (x : synthetic_externals seq_options) (F : float_format).
Variable default_rng : Z -> St.
Variable load_config : option string -> Z -> result config.
Variable library : string -> bool.
Notation start := (generator_main rng x F default_rng load_config library).

(** A line asks for one thing only. *)
Theorem C65_one_request : forall args q q', asks_for library args q -> asks_for library args q' -> q = q'.
Proof.
  intros args q q' H H'. apply generator_accepts in H, H'. destruct H as [got [rest [E ->]]], H' as [got' [rest' [E' ->]]]. congruence.
Qed.

(** Lines that ask for nothing, and use no flag of absl itself: the generator ends with 1, has
    done nothing and printed nothing. *)
Theorem C65_nothing_done : forall args fs, (forall q, ~ asks_for library args q) -> (forall a, In a args -> ~ for_absl library a) ->
  start args fs = (ExitsWith 1, fs, []).
Proof.
  intros args fs No Abs. unfold generator_main. destruct (absl_flags generator_flags library args) as [got rest| |] eqn:E; [|reflexivity|].
  - exfalso. apply (No (said got)). apply generator_accepts. eauto.
  - exfalso. destruct (flags_library _ _ _ E) as [a [I X]]. exact (Abs a I X).
Qed.

(** In particular all lines with an unknown flag, whatever comes after it. *)
Theorem C65_unknown_flag : forall items got a rest fs, Forall2 (sets generator_flag library) items got -> unknown_flag generator_flag a ->
  (forall b, In b (flag_line items ++ a :: rest) -> ~ for_absl library b) ->
  start (flag_line items ++ a :: rest) fs = (ExitsWith 1, fs, []).
Proof.
  intros items got a rest fs Fi U Abs. apply C65_nothing_done; [|exact Abs]. intros q H. apply generator_accepts in H. destruct H as [got' [rest' [E _]]].
  unfold absl_flags in E. destruct (existsb names_flag_file _); [discriminate E|]. revert E.
  apply (read_unknown_flag generator_flags library generator_proper items got).
  - apply (Forall2_iff _ _ _ _ (generator_sets library)). exact Fi.
  - destruct U as [two [n [Nn [Ea [D Dn]]]]]. exists two, n. split; [exact Nn|]. split; [exact Ea|]. split.
    + intros k Hk. apply (D k). apply generator_flags_spec. exact Hk.
    + intros m Hm Hk. apply (Dn m Hm). apply generator_flags_spec. exact Hk.
Qed.

Lemma start_said args fs q : asks_for library args q -> start args fs =
  match call_generator rng x F default_rng load_config (rq_dir q) (rq_config q) (rq_seed q) (rq_verbose q) fs with
  | (Ok _, fs', out) => (Returns, fs', out)
  | (Err e, fs', out) => (Raises e, fs', out)
  end.
Proof.
  intros H. apply generator_accepts in H. destruct H as [got [rest [E ->]]]. unfold generator_main. rewrite E. reflexivity.
Qed.

(** Without a directory, or with a seed that numpy does not take, nothing is done either. *)
Theorem C65_bad_seed : forall args q fs, asks_for library args q -> ~ (0 <= rq_seed q < 2 ^ 32) ->
  start args fs = (Raises ValueError, fs, []).
Proof.
  intros args q fs H B. rewrite (start_said _ _ _ H). unfold call_generator.
  destruct ((rq_seed q <? 0) || (4294967295 <? rq_seed q)) eqn:E; [reflexivity|]. exfalso. apply B.
  apply orb_false_iff in E. destruct E as [E1 E2]. apply Z.ltb_ge in E1, E2. change (2 ^ 32) with 4294967296. lia.
Qed.
Lemma seed_fine z : 0 <= z < 2 ^ 32 -> (z <? 0) || (4294967295 <? z) = false.
Proof. change (2 ^ 32) with 4294967296. intros H. apply orb_false_iff. split; apply Z.ltb_ge; lia. Qed.
Theorem C65_no_directory : forall args q fs, asks_for library args q -> 0 <= rq_seed q < 2 ^ 32 -> rq_dir q = None ->
  start args fs = (Raises TypeError, fs, []).
Proof. intros args q fs H B D. rewrite (start_said _ _ _ H). unfold call_generator. rewrite (seed_fine _ B), D. reflexivity. Qed.

(** If the file with the parameters cannot be used, there is an empty directory in the end. *)
Theorem C65_no_parameters : forall args q dir fs e, asks_for library args q -> 0 <= rq_seed q < 2 ^ 32 -> rq_dir q = Some dir ->
  load_config (rq_config q) (rq_seed q) = Err e -> environment rng x F ->
  disk_ok (st_disk fs) -> no_file_on_the_way (st_disk fs) (to_path dir) ->
  exists fs' d, start args fs = (Raises e, fs', []) /\ filled F (sx_pow x) fs dir [] fs' d.
Proof.
  intros args q dir fs e H B D Lc env K NF.
  destruct (PropsDesigns.C51_stops rng x F fs dir [] (Err e) [] e (default_rng (rq_seed q)) env K NF (Forall_nil _) (NoDup_nil _)) as [fs' [d [E Fl]]];
    [intros p []|left; reflexivity|].
  exists fs', d. split; [|exact Fl]. rewrite (start_said _ _ _ H). unfold call_generator. rewrite (seed_fine _ B), D.
  unfold generate_design in E. destruct (mk_design fs dir) as [[d0|e0] fs0]; cbn in E.
  - rewrite Lc. injection E as ->. reflexivity.
  - injection E as -> ->. reflexivity.
Qed.

(** What is printed does not matter for what is made; it is the names of the data sets that were
    begun, in their order. *)
Lemma printing verbose c : forall fs d st out, exists started rest, c = map Ok started ++ rest /\
  fill_printing rng x F verbose fs d c st out =
    (fill rng x F fs d c st, out ++ if verbose then map (set_name_of F) started else []) /\
  (forall d', fst (fill rng x F fs d c st) = Ok d' -> rest = []).
Proof.
  induction c as [|[p|e] c IH]; intros fs d st out.
  - exists [], []. cbn. split; [reflexivity|]. split; [destruct verbose; rewrite app_nil_r; reflexivity|reflexivity].
  - cbn [fill_printing fill].
    assert (O : forall l, (if verbose then out ++ [str (show_set F p)] else out) ++ (if verbose then map (set_name_of F) l else []) =
                out ++ (if verbose then map (set_name_of F) (p :: l) else [])).
    { intros l. destruct verbose; [rewrite <- app_assoc; reflexivity|reflexivity]. }
    assert (O0 : (if verbose then out ++ [str (show_set F p)] else out) = out ++ (if verbose then map (set_name_of F) [p] else [])).
    { rewrite <- (O []). destruct verbose; rewrite app_nil_r; reflexivity. }
    destruct (generate_set rng x F p st) as [[ds st']|e] eqn:G.
    + destruct (add F fs d ds) as [[d1|e] fs1] eqn:A.
      * destruct (IH fs1 d1 st' (if verbose then out ++ [str (show_set F p)] else out)) as [started [rest [E1 [E2 E3]]]].
        exists (p :: started), rest. split; [rewrite E1; reflexivity|]. split; [rewrite E2, O; reflexivity|exact E3].
      * exists [p], c. split; [reflexivity|]. split; [rewrite O0; reflexivity|]. intros d' H. discriminate H.
    + exists [p], c. split; [reflexivity|]. split; [rewrite O0; reflexivity|]. intros d' H. discriminate H.
  - exists [], (Err e :: c). split; [reflexivity|]. cbn. split; [destruct verbose; rewrite app_nil_r; reflexivity|]. intros d' H. discriminate H.
Qed.
Theorem C65_run : forall args q dir fs c r fs', asks_for library args q -> 0 <= rq_seed q < 2 ^ 32 -> rq_dir q = Some dir ->
  load_config (rq_config q) (rq_seed q) = Ok c ->
  generate_design rng x F fs dir c (default_rng (rq_seed q)) = (r, fs') ->
  exists started rest, c = map Ok started ++ rest /\ (forall d, r = Ok d -> rest = []) /\
    start args fs = (match r with Ok _ => Returns | Err e => Raises e end, fs', if rq_verbose q then map (set_name_of F) started else []).
Proof.
  intros args q dir fs c r fs' H B D Lc E. rewrite (start_said _ _ _ H). unfold call_generator. rewrite (seed_fine _ B), D.
  unfold generate_design in E. destruct (mk_design fs dir) as [[d0|e0] fs0].
  - rewrite Lc. destruct (printing (rq_verbose q) c fs0 d0 (default_rng (rq_seed q)) []) as [started [rest [E1 [E2 E3]]]].
    exists started, rest. split; [exact E1|]. rewrite E2, E. rewrite E in E3. cbn [fst app] in *. split; [exact E3|]. destruct r; reflexivity.
  - injection E as <- <-. exists [], c. split; [reflexivity|]. split; [discriminate|]. destruct (rq_verbose q); reflexivity.
Qed.

(** A line that asks for a design that can be made: it is made, from nothing but the file, the
    seed and the directory, and the generator prints the names of its data sets unless it is
    asked not to. *)
Theorem C65_design : forall args q dir fs ps, asks_for library args q -> 0 <= rq_seed q < 2 ^ 32 -> rq_dir q = Some dir ->
  load_config (rq_config q) (rq_seed q) = Ok (map Ok ps) -> environment rng x F ->
  disk_ok (st_disk fs) -> no_file_on_the_way (st_disk fs) (to_path dir) ->
  Forall (writable F) ps -> NoDup (map (set_name_of F) ps) ->
  (forall p, In p ps -> stat (st_disk fs) (entry (to_path dir) (set_name_of F p)) = None) ->
  exists fs' d, start args fs = (Returns, fs', if rq_verbose q then map (set_name_of F) ps else []) /\ filled F (sx_pow x) fs dir ps fs' d.
Proof.
  intros args q dir fs ps H B D Lc env K NF W ND Fr.
  destruct (PropsDesigns.C51_generate rng x F fs dir ps (default_rng (rq_seed q)) env K NF W ND Fr) as [fs' [d [E Fl]]].
  exists fs', d. split; [|exact Fl]. destruct (C65_run args q dir fs (map Ok ps) (Ok d) fs' H B D Lc E) as [started [rest [E1 [E2 E3]]]].
  rewrite (E2 d eq_refl), app_nil_r in E1. rewrite E3.
  assert (ps = started) as ->.
  { clear - E1. revert started E1. induction ps as [|p ps IH]; intros [|s l] E; try discriminate E; [reflexivity|]. injection E as -> E. f_equal. apply IH. exact E. }
  reflexivity.
Qed.
End Generator.

(** ** The driver *)

Section Driver.
Variable L : lab.
Variable load : string -> Z -> result (list trial_descriptor * generators L).
Variable beam : list string -> option pipeline.
Variable library : string -> bool.
Notation program := (driver_program L load beam library).

Lemma no_flags args rest : (forall a, In a args -> ~ flag_file a) -> remains args rest -> absl_flags (fun _ => None) library args = Accepted [] rest.
Proof.
  intros NF R. apply (flags_accepted (fun _ => None) library (fun n k H => match (eq_ind None (fun o => match o with None => True | _ => False end) I _ H) : False with end)).
  split; [exact NF|]. exists [], args. split; [reflexivity|]. split; [exact R|constructor].
Qed.

(** The options of the driver are read if they come after "--", or after an argument that is no
    flag. *)
Theorem C65_driver : forall name args rest c cc w, (forall a, In a args -> ~ flag_file a) -> remains args rest ->
  program name args c cc w = match main L load beam (name :: rest) c cc w with Some (e, w') => Some (inr e, w') | None => None end.
Proof. intros name args rest c cc w NF R. unfold driver_program. rewrite (no_flags args rest NF R). reflexivity. Qed.

(** A flag before them, the options of the driver included, ends the driver with 1; it has done
    nothing. *)
Theorem C65_driver_refuses : forall name a args c cc w, unknown_flag (fun _ _ => False) a ->
  (forall b, In b (a :: args) -> ~ for_absl library b) -> program name (a :: args) c cc w = Some (inl (ExitsWith 1), w).
Proof.
  intros name a args c cc w U Ab.
  assert (P : forall (m : string) (k : flag_kind), (fun _ => None) m = Some k -> flag_name m) by (intros m k H; discriminate H).
  unfold driver_program. destruct (absl_flags (fun _ => None) library (a :: args)) as [got rest| |] eqn:E; [|reflexivity|].
  - exfalso. unfold absl_flags in E. destruct (existsb names_flag_file _); [discriminate E|]. revert E.
    apply (read_unknown_flag (fun _ => None) library P [] [] a args got rest (Forall2_nil _)).
    destruct U as [two [n [Nn [Ea _]]]]. exists two, n. split; [exact Nn|]. split; [exact Ea|]. split; [intros k H; discriminate H|intros m _ H; discriminate H].
  - exfalso. destruct (flags_library _ _ _ E) as [b [I X]]. exact (Ab b I X).
Qed.
End Driver.

(** ** Both *)

(** The generator is started from the shell, then the driver, with its options after "--": the
    table that the driver leaves has a row for every data set and every choice of the
    experimental design. *)
Section Both.
Context {St : Type} (rng : numpy_rng St) (x : synthetic_externals seq_options) (L : lab).
Variable default_rng : Z -> St.
Variable load_config : option string -> Z -> result config.
Variable load : string -> Z -> result (list trial_descriptor * generators L).
Variable beam : list string -> option pipeline.
Variable library : string -> bool.
Notation F := (lab_float L).

Theorem C65_evaluation : forall args q name items a p fs ps cs g (few : nat -> Prop) dr,
  environment rng x F -> tells_floats_apart F ->
  asks_for library args q -> 0 <= rq_seed q < 2 ^ 32 -> rq_dir q = Some (ar_data a) ->
  load_config (rq_config q) (rq_seed q) = Ok (map Ok ps) ->
  Forall well_formed (Rest name :: items) -> meaning (Rest name :: items) a -> (forall s, In s (line items) -> ~ flag_file s) ->
  beam (name :: others items ++ [("--temp_location=" ++ ar_intermediates a)%string; ("--direct_num_workers=" ++ str (str_of_int (ar_cores a)))%string]) = Some p ->
  ~ PropsMain.names_dataflow p ->
  dr = {| dr_data_design := ar_data a; dr_fetch := load (ar_design a); dr_output := ar_output a;
          dr_intermediates := ar_intermediates a; dr_seed := ar_seed a; dr_analysis := ar_analysis a |} ->
  good_start L dr (st_disk fs) ->
  ps <> [] -> Forall (writable F) ps -> NoDup (map (set_name_of F) ps) ->
  (forall s, In s ps -> ~ In ":"%char (chars (set_name_of F s))) ->
  (forall s, In s ps -> few (Z.to_nat (fp_num_publishers s))) ->
  cs <> [] -> load (ar_design a) (ar_seed a) = Ok (numbered cs, g) -> always_rows L few cs ->
  exists fs', generator_main rng x F default_rng load_config library args fs =
      (Returns, fs', if rq_verbose q then map (set_name_of F) ps else []) /\
    forall xs c cc o ca, ca = {| ca_cores := ar_cores a; ca_beam := ar_beam a; ca_temp := pi_temp p |} ->
      (forall ts, SpecExecute.runs L dr (st_disk fs') ts g -> markers_differ L ts /\ way_ok L (ar_seed a) ts xs ca c) ->
      In (to_path (ar_output a)) xs -> Forall (free_place L dr (st_disk fs)) xs ->
      forall e w', driver_program L load beam library name ("--"%string :: line items) c cc (st_disk fs', o) = Some (e, w') ->
      exists tb ts d', e = inr (Runs (Ok tb)) /\ w' = (d', o) /\ table_for L ps cs ca tb /\ length tb = (length ps * length cs)%nat /\
        one_row_each L (ar_seed a) ts ca tb d' /\ written L dr ts xs tb (st_disk fs') d'.
Proof.
  intros args q name items a p fs ps cs g few dr env ap H B D Lc Wf M NF Eb ND Ed G Ne W Nd Col Few Ce Ef Al.
  destruct (PropsPipeline.C64_pipeline rng x L env ap dr fs ps cs g (default_rng (rq_seed q)) few G Ne W Nd Col Few Ce) as [fs' [de [E Ev]]].
  { rewrite Ed. exact Ef. }
  { exact Al. }
  exists fs'.
  assert (Dd : dr_data_design L dr = ar_data a) by (rewrite Ed; reflexivity).
  rewrite Dd in E.
  destruct (C65_run rng x F default_rng load_config library args q (ar_data a) fs (map Ok ps) (Ok de) fs' H B D Lc E) as [started [rest [E1 [E2 E3]]]].
  rewrite (E2 de eq_refl), app_nil_r in E1.
  assert (ps = started) as Es.
  { clear - E1. revert started E1. induction ps as [|s0 ps0 IH]; intros [|s l] E; try discriminate E; [reflexivity|]. injection E as -> E. f_equal. apply IH. exact E. }
  split; [rewrite E3, Es; reflexivity|].
  intros xs c cc o ca Eca Hts Ox Px e w' Hr.
  rewrite (C65_driver L load beam library name _ (line items) c cc _) in Hr.
  2:{ intros s [<-|I]; [intros [[|] [X|[v X]]]; discriminate X|exact (NF s I)]. }
  2:{ right. left. reflexivity. }
  assert (P : parse_known_args (name :: line items) = Parsed a (name :: others items)).
  { change (name :: line items) with (line (Rest name :: items)). apply PropsMain.C63_line. exists (Rest name :: items). auto. }
  unfold main in Hr. rewrite P in Hr. unfold pipeline_args in Hr. cbn [app] in Hr. rewrite Eb in Hr.
  destruct (on_dataflow p) eqn:Df; [contradiction ND; apply PropsMain.on_dataflow_spec; exact Df|].
  cbn [fst snd] in Hr. destruct (execute L (driver_of L load a) (call_of a p) c (st_disk fs')) as [[r d1]|] eqn:Ex; [|discriminate Hr].
  injection Hr as <- <-. assert (Ed' : driver_of L load a = dr) by (rewrite Ed; reflexivity). rewrite Ed' in Ex.
  assert (Ec : call_of a p = ca) by (rewrite Eca; reflexivity). rewrite Ec in Ex.
  assert (Sd : dr_seed L dr = ar_seed a) by (rewrite Ed; reflexivity).
  destruct (Ev xs ca c) with (r := r) (d' := d1) as [tb [ts [-> [[T1 T2] [_ [T3 T4]]]]]].
  - rewrite Sd. exact Hts.
  - unfold output_path. rewrite Ed. exact Ox.
  - exact Px.
  - exact Ex.
  - rewrite Sd in T3. exists tb, ts, d1. auto 7.
Qed.
End Both.
Print Assumptions C65_one_request.
Print Assumptions C65_nothing_done.
Print Assumptions C65_unknown_flag.
Print Assumptions C65_bad_seed.
Print Assumptions C65_no_directory.
Print Assumptions C65_no_parameters.
Print Assumptions C65_run.
Print Assumptions C65_design.
Print Assumptions C65_driver.
Print Assumptions C65_driver_refuses.
Print Assumptions C65_evaluation.

(** ** Examples *)

(** The flags that absl has itself, some of them. *)
Definition some_library (n : string) : bool :=
  existsb (String.eqb n) ["help"; "v"; "verbosity"; "flagfile"; "undefok"; "helpfull"; "logtostderr"]%string.

(** All kinds of ways to write the same line, and what it asks for. *)
Definition line_1 : list string := ["--output_dir=/data"; "--data_design_config=d.py"; "--random_seed=7"; "--noverbose"]%string.
Definition line_2 : list string := ["-verbose=F"; "--random_seed"; "0x3"; "-output_dir"; "/data"; "-random_seed= 07 "; "--data_design_config=e.py";
  "--data_design_config=d.py"; "word"; "--random_seed=9"; "--nonsense"]%string.
Definition quiet : request := {| rq_dir := Some "/data"%string; rq_config := Some "d.py"%string; rq_seed := 7; rq_verbose := false |}.
Example C65_lines_example : asks_for some_library line_1 quiet /\ asks_for some_library line_2 quiet /\
  asks_for some_library [] {| rq_dir := None; rq_config := None; rq_seed := 1; rq_verbose := true |}.
Proof. repeat split; apply generator_accepts; eexists; eexists; (split; [vm_compute; reflexivity|reflexivity]). Qed.

Lemma for_absl_none library args : existsb names_flag_file args = false ->
  (forall n, library n = true -> forall a, In a args -> ~ uses n a) -> forall a, In a args -> ~ for_absl library a.
Proof.
  intros N U a I [X|[n [Ln X]]]; [|exact (U n Ln a I X)]. apply flag_file_spec in X.
  assert (E : existsb names_flag_file args = true) by (apply existsb_exists; eauto). congruence.
Qed.

(** Lines that are refused: an unknown flag; a seed that is no integer; a flag with no value; a
    word that is no truth value. *)
Example C65_refused_example : forall rng x fs load_config,
  let start args := generator_main (St := Z) rng x bar_format (fun z => z) load_config some_library args fs in
  start ["--output_dir=/data"; "--seed=7"]%string = (ExitsWith 1, fs, []) /\
  start ["--random_seed=7.0"]%string = (ExitsWith 1, fs, []) /\
  start ["--random_seed=7"; "--output_dir"]%string = (ExitsWith 1, fs, []) /\
  start ["--verbose=maybe"]%string = (ExitsWith 1, fs, []).
Proof. intros. repeat split; reflexivity. Qed.
Example C65_unknown_example : unknown_flag generator_flag "--data_design=d.py".
Proof.
  exists true, "data_design"%string. split; [split; [discriminate|]; split; [|discriminate]; vm_compute; intros X; repeat (destruct X as [X|X]; [discriminate X|]); exact X|].
  split; [right; exists "d.py"%string; reflexivity|]. split; [intros k H; inversion H|intros m H; discriminate H].
Qed.

(** The two lines of the README: the generator makes the 80 data sets of the design for single
    publishers, the driver makes a table with 18000 rows. *)
Definition readme_generator : list string := ["--output_dir=/data"; "--data_design_config=data_generators/single_publisher_design.py"]%string.
Definition readme_driver : list item :=
  [Value DataDesignDir "/data" true; Value ExperimentalDesignFile "driver/single_publisher_design.py" true;
   Value OutputFile "/out.csv" true; Value IntermediatesDir "/exp" true; Value Cores "1" true].
Definition readme_asked : arguments :=
  {| ar_data := "/data"; ar_design := "driver/single_publisher_design.py"; ar_output := "/out.csv"; ar_intermediates := "/exp";
     ar_seed := 1; ar_cores := 1; ar_analysis := ""; ar_beam := false |}.
Example C65_readme_lines : "--"%string :: line readme_driver =
  ["--"; "--data_design_dir=/data"; "--experimental_design=driver/single_publisher_design.py"; "--output_file=/out.csv";
   "--intermediates_dir=/exp"; "--cores=1"]%string.
Proof. vm_compute. reflexivity. Qed.

Definition readme_load (config_file : option string) (_ : Z) : result config :=
  match config_file with
  | Some f => if String.eqb f "data_generators/single_publisher_design.py" then Ok single_publisher_config else Err FileNotFoundError
  | None => Err OtherError
  end.
Definition readme_module (name : string) (_ : Z) : result (list trial_descriptor * generators PropsPipeline.bar_lab) :=
  if String.eqb name "driver/single_publisher_design.py" then Ok (single_experiments, PropsPipeline.bar_generators) else Err FileNotFoundError.
Definition readme_name : string := "driver/experiment_driver.py".
Lemma readme_driver_fine : Forall well_formed (Rest readme_name :: readme_driver).
Proof.
  repeat (constructor; [|]); try constructor; try discriminate; cbn [well_formed];
    try (apply PropsMain.own_parses; vm_compute; auto); try (intros [X|X]; discriminate X).
  intros _. exists 1. apply py_int_spec. vm_compute. reflexivity.
Qed.
Lemma readme_driver_meaning : meaning (Rest readme_name :: readme_driver) readme_asked.
Proof.
  assert (P : parse_known_args (line (Rest readme_name :: readme_driver)) = Parsed readme_asked [readme_name]) by (vm_compute; reflexivity).
  unfold parse_known_args in P. rewrite <- (app_nil_r (line _)), (parse_line _ readme_driver_fine) in P.
  cbn [parse_from] in P. apply (completed_meaning _ _ _ _ readme_driver_fine) in P. exact (proj1 P).
Qed.
Example C65_readme_example : forall cc o, exists fs' names c d' tb,
  generator_main PropsGenerators.ex_rng ex_sets bar_format (fun z => z) readme_load some_library readme_generator PropsDesigns.nothing =
    (Returns, fs', names) /\ length names = 80%nat /\
  driver_program PropsPipeline.bar_lab readme_module PropsMain.plain_beam some_library readme_name ("--"%string :: line readme_driver) c cc (st_disk fs', o) =
    Some (inr (Runs (Ok tb)), (d', o)) /\
  Z.of_nat (length tb) = 18000 /\ stat d' (to_path "/out.csv") = Some (File (lab_print PropsPipeline.bar_lab tb)).
Proof.
  intros cc o. destruct (shipped_single_sets bar_format bar_tells_apart bar_words PropsPipeline.bar_unmarked) as [ps [Ec [Lp [W [ND [Col Few]]]]]].
  assert (Le : length (single_choices single_trial_levels) = 225%nat) by (rewrite single_length; reflexivity).
  set (dr := PropsPipeline.bar_driver single_experiments).
  set (ca := {| ca_cores := 1; ca_beam := false; ca_temp := "/exp" |}).
  destruct (C65_evaluation PropsGenerators.ex_rng ex_sets PropsPipeline.bar_lab (fun z => z) readme_load readme_module PropsMain.plain_beam some_library
    readme_generator {| rq_dir := Some "/data"%string; rq_config := Some "data_generators/single_publisher_design.py"%string; rq_seed := 1; rq_verbose := true |}
    readme_name readme_driver readme_asked {| pi_runner := None; pi_temp := "/exp" |} PropsDesigns.nothing ps (single_choices single_trial_levels) PropsPipeline.bar_generators
    (fun n => n = 1%nat) dr) as [fs' [E Ev]].
  - exact ex_environment.
  - exact bar_tells_apart.
  - apply generator_accepts. eexists. eexists. split; [vm_compute; reflexivity|reflexivity].
  - cbn [rq_seed]. split; [discriminate|reflexivity].
  - reflexivity.
  - cbn [rq_config readme_load String.eqb]. rewrite <- Ec. reflexivity.
  - exact readme_driver_fine.
  - exact readme_driver_meaning.
  - intros s I. vm_compute in I. repeat (destruct I as [<-|I]; [intros [[|] [X|[v X]]]; discriminate X|]). contradiction I.
  - vm_compute. reflexivity.
  - intros [X|X]; discriminate X.
  - reflexivity.
  - apply PropsPipeline.bar_start.
  - intros ->. discriminate Lp.
  - exact W.
  - exact ND.
  - exact Col.
  - exact Few.
  - intros X. rewrite X in Le. discriminate Le.
  - reflexivity.
  - apply single_always.
  - set (c0 := {| co_now := fun _ => []; co_later := fun _ => []; co_schedule := []; co_combine := fun l => Inputs l |}).
    destruct (PropsExecute.C53_ends PropsPipeline.bar_lab dr ca c0 (st_disk fs')) as [rest [r [d' Ex]]].
    exists fs', (map (set_name_of bar_format) ps), (continued c0 rest), d'.
    assert (Run : driver_program PropsPipeline.bar_lab readme_module PropsMain.plain_beam some_library readme_name
      ("--"%string :: line readme_driver) (continued c0 rest) cc (st_disk fs', o) = Some (inr (Runs r), (d', o))).
    { unfold driver_program. change (absl_flags _ _ _) with (Accepted [] (line readme_driver)). cbn iota beta.
      unfold main. change (parse_known_args _) with (Parsed readme_asked [readme_name]). cbn iota beta.
      change (PropsMain.plain_beam _) with (Some {| pi_runner := None; pi_temp := "/exp" |}). cbn iota beta.
      change (on_dataflow _) with false. cbn iota beta. cbn [fst snd].
      change (execute PropsPipeline.bar_lab _ _ _ (st_disk fs')) with (execute PropsPipeline.bar_lab dr ca (continued c0 rest) (st_disk fs')). rewrite Ex. reflexivity. }
    destruct (Ev [output_path PropsPipeline.bar_lab dr] (continued c0 rest) cc o ca eq_refl) with (3 := PropsPipeline.bar_output single_experiments) (4 := Run)
        as [tb [ts [d1 [A [B [_ [C [_ [D _]]]]]]]]].
    + intros ts _. split; [intros t t' _ _ X; exact (PropsExperiments.safe_md5_inj _ _ X)|].
      split; [intros [X|X]; [discriminate X|contradiction X; reflexivity]|discriminate].
    + left. reflexivity.
    + injection A as ->. injection B as <-. exists tb. split; [exact E|]. split; [rewrite map_length; exact Lp|]. split; [exact Run|].
      split; [|exact D]. rewrite C, Lp, Le, Nat2Z.inj_mul. reflexivity.
Qed.

(** ** What the documentation says and is not so *)

(** The two examples in the documentation of the generator name a flag that it does not have:
    whatever the files, it ends with 1 and has done nothing. *)
Theorem C65_documented_refuted : forall St (rng : numpy_rng St) x F default_rng load_config library fs f,
  library "output_dir"%string = false -> library "data_design"%string = false ->
  In f ["simple_data_design_example.py"; "lhs_data_design_example.py"]%string ->
  generator_main rng x F default_rng load_config library ["--output_dir=/tmp/simple-data-design"; "--data_design=" ++ f]%string fs = (ExitsWith 1, fs, []).
Proof.
  intros St rng x F default_rng load_config library fs f Nl Nl' If.
  assert (E : absl_flags generator_flags library ["--output_dir=/tmp/simple-data-design"; "--data_design=" ++ f]%string = FlagsRejected).
  { clear - Nl Nl' If. destruct If as [<-|[<-|[]]]; vm_compute in *; rewrite ?Nl, ?Nl'; reflexivity. }
  unfold generator_main. rewrite E. reflexivity.
Qed.

(** "--verbose false" does not make the generator quiet: the word is no value, and ends the
    flags; a seed after it is not read. *)
Theorem C65_stray_word_refuted : forall library,
  asks_for library ["--output_dir=/data"; "--verbose"; "false"; "--random_seed=7"]%string
    {| rq_dir := Some "/data"%string; rq_config := None; rq_seed := 1; rq_verbose := true |}.
Proof.
  intros library. apply generator_accepts. eexists. eexists. split; [vm_compute; reflexivity|reflexivity].
Qed.

(** Without "--" the driver does not even look at its own options. *)
Theorem C65_without_dashes_refuted : forall L load beam library name i items c cc w,
  i = BeamFlag \/ (exists o v joined, i = Value o v joined) -> (forall a, In a (line (i :: items)) -> ~ for_absl library a) ->
  driver_program L load beam library name (line (i :: items)) c cc w = Some (inl (ExitsWith 1), w).
Proof.
  intros L load beam library name i items c cc w Hi Ab.
  assert (P : exists a r, line (i :: items) = a :: r /\ unknown_flag (fun _ _ => False) a).
  { assert (N : forall n a, flag_name n -> (a = ("--" ++ n)%string \/ exists v, a = ("--" ++ n ++ "=" ++ v)%string) -> unknown_flag (fun _ _ => False) a).
    { intros n a Nn Ea. exists true, n. split; [exact Nn|]. split; [exact Ea|]. split; auto. }
    assert (G : forall n, In n ["use_apache_beam"; "data_design_dir"; "experimental_design"; "output_file"; "intermediates_dir"; "seed"; "cores"; "analysis_type"]%string -> flag_name n).
    { intros n I. repeat (destruct I as [<-|I]; [split; [discriminate|]; split; [|discriminate]; vm_compute; intros X;
        repeat (destruct X as [X|X]; [discriminate X|]); exact X|]). contradiction I. }
    destruct Hi as [->|[o [v [[|] ->]]]].
    - eexists. eexists. split; [reflexivity|]. apply (N "use_apache_beam"%string); [apply G; cbn; auto|left; reflexivity].
    - eexists. eexists. split; [reflexivity|]. destruct o.
      + apply (N "data_design_dir"%string); [apply G; cbn; auto 9|right; exists v; reflexivity].
      + apply (N "experimental_design"%string); [apply G; cbn; auto 9|right; exists v; reflexivity].
      + apply (N "output_file"%string); [apply G; cbn; auto 9|right; exists v; reflexivity].
      + apply (N "intermediates_dir"%string); [apply G; cbn; auto 9|right; exists v; reflexivity].
      + apply (N "seed"%string); [apply G; cbn; auto 9|right; exists v; reflexivity].
      + apply (N "cores"%string); [apply G; cbn; auto 9|right; exists v; reflexivity].
      + apply (N "analysis_type"%string); [apply G; cbn; auto 9|right; exists v; reflexivity].
    - eexists. eexists. split; [reflexivity|]. destruct o.
      + apply (N "data_design_dir"%string); [apply G; cbn; auto 9|left; reflexivity].
      + apply (N "experimental_design"%string); [apply G; cbn; auto 9|left; reflexivity].
      + apply (N "output_file"%string); [apply G; cbn; auto 9|left; reflexivity].
      + apply (N "intermediates_dir"%string); [apply G; cbn; auto 9|left; reflexivity].
      + apply (N "seed"%string); [apply G; cbn; auto 9|left; reflexivity].
      + apply (N "cores"%string); [apply G; cbn; auto 9|left; reflexivity].
      + apply (N "analysis_type"%string); [apply G; cbn; auto 9|left; reflexivity]. }
  destruct P as [a [r [E U]]]. rewrite E in *. apply C65_driver_refuses; [exact U|exact Ab].
Qed.
(** The line of the README without "--". *)
Example C65_without_dashes_example : forall c cc w,
  driver_program PropsPipeline.bar_lab readme_module PropsMain.plain_beam some_library readme_name (line readme_driver) c cc w = Some (inl (ExitsWith 1), w).
Proof.
  intros c cc w. assert (E : absl_flags (fun _ => None) some_library (line readme_driver) = FlagsRejected) by (vm_compute; reflexivity).
  unfold driver_program. rewrite E. reflexivity.
Qed.
Print Assumptions C65_documented_refuted.
Print Assumptions C65_stray_word_refuted.
Print Assumptions C65_without_dashes_refuted.
