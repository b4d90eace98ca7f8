(** C63: the command line of the experiment driver. *)
From Coq Require Import String Ascii Permutation.
From Verif Require Import Prelude ModelReachPoint ModelData ModelAggregator ModelFiles SpecData SpecFiles FilesLemmas FilesLemmas2 ModelDriver SpecDriver
  DriverLemmas4 ModelExecute SpecExecute ExecuteLemmas4 ExampleDriver PropsDriver PropsDriver3 PropsExecute ModelCloud SpecCloud ModelCloudRun SpecCloudRun PropsCloudRun
  ModelMain SpecMain MainLemmas MainLemmas2.
Open Scope Z_scope.
Open Scope list_scope.

(** Which lines are accepted, and what they mean. *)
Theorem C63_line : forall argv a rest, parse_known_args argv = Parsed a rest <->
  exists items, argv = line items /\ Forall well_formed items /\ meaning items a /\ rest = others items.
Proof. exact parsed_iff. Qed.

(** Which lines are answered with help: those that are well-formed up to an argument that asks
    for it. All others are refused. *)
Theorem C63_help : forall argv, parse_known_args argv = Help <->
  exists items h r, argv = line items ++ h :: r /\ Forall well_formed items /\ asks_help h.
Proof. exact help_iff. Qed.

(** A line does not mean two things. *)
Theorem C63_one_meaning : forall items items' a a', Forall well_formed items -> Forall well_formed items' ->
  line items = line items' -> meaning items a -> meaning items' a' -> a = a' /\ others items = others items'.
Proof.
  intros items items' a a' F F' E M M'.
  assert (P : parse_known_args (line items) = Parsed a (others items)) by (apply C63_line; exists items; auto).
  assert (P' : parse_known_args (line items) = Parsed a' (others items')) by (apply C63_line; exists items'; auto).
  rewrite P in P'. injection P' as H1 H2. auto.
Qed.

(** An option and its value may be one argument or two, if the value can stand alone. *)
Theorem C63_joined : forall before o v r, Forall well_formed before -> word v ->
  parse_known_args (line before ++ [spelling o; v] ++ r) =
  parse_known_args (line before ++ [(spelling o ++ "=" ++ v)%string] ++ r).
Proof.
  intros before o v r F W. unfold parse_known_args. rewrite !(parse_line before F). cbn [app parse_from].
  rewrite classify_store, classify_joined, str_chars, (proj2 (classify_word v) W). reflexivity.
Qed.

(** The order of the options does not matter, if none is given twice. *)
Definition options_of (items : list item) : list option_name :=
  flat_map (fun i => match i with Value o _ _ => [o] | _ => [] end) items.
Lemma options_given o items : In o (options_of items) <-> is_given o items.
Proof.
  unfold options_of, is_given. rewrite in_flat_map. split.
  - intros [[o' v j| |s] [H I]]; cbn in I; [|contradiction|contradiction]. destruct I as [->|[]]. eauto.
  - intros [v [j H]]. exists (Value o v j). split; [exact H|left; reflexivity].
Qed.
Lemma once_last o items v : NoDup (options_of items) -> (last_value o items v <-> exists j, In (Value o v j) items).
Proof.
  intros N. split.
  - intros [b [j [a [-> _]]]]. exists j. apply in_or_app. right. left. reflexivity.
  - intros [j H]. apply in_split in H. destruct H as [b [a ->]]. exists b, j, a. split; [reflexivity|].
    unfold options_of in N. rewrite flat_map_app in N. apply NoDup_remove_2 in N. intros G. apply N. apply in_or_app. right. apply options_given. exact G.
Qed.
Theorem C63_order : forall items items' a rest, Permutation items items' -> NoDup (options_of items) -> Forall well_formed items ->
  parse_known_args (line items) = Parsed a rest -> parse_known_args (line items') = Parsed a (others items').
Proof.
  intros items items' a rest P N F H.
  assert (N' : NoDup (options_of items')).
  { eapply Permutation_NoDup; [|exact N]. unfold options_of. apply Permutation_flat_map. exact P. }
  assert (F' : Forall well_formed items') by (eapply Permutation_Forall; [exact P|exact F]).
  assert (I : forall i, In i items <-> In i items') by (intros i; split; apply Permutation_in; [exact P|apply Permutation_sym; exact P]).
  assert (L : forall o v, last_value o items v <-> last_value o items' v).
  { intros o v. rewrite (once_last o items v N), (once_last o items' v N'). split; intros [j X]; exists j; apply I; exact X. }
  assert (G : forall o, is_given o items <-> is_given o items').
  { intros o. unfold is_given. split; intros [v [j X]]; exists v, j; apply I; exact X. }
  apply C63_line in H. destruct H as [items0 [E [F0 [M _]]]].
  assert (M0 : meaning items a).
  { assert (Q : parse_known_args (line items0) = Parsed a (others items0)) by (apply C63_line; exists items0; auto).
    rewrite <- E in Q. unfold parse_known_args in Q. rewrite <- (app_nil_r (line items)), (parse_line items F) in Q. cbn [app parse_from] in Q.
    apply (completed_meaning items _ _ _ F) in Q. exact (proj1 Q). }
  apply C63_line. exists items'. split; [reflexivity|]. split; [exact F'|]. split; [|reflexivity].
  destruct M0 as [M1 [M2 [M3 [M4 [M5 [M6 [M7 M8]]]]]]]. unfold meaning, number in *.
  repeat split; try (apply L; assumption).
  - destruct M5 as [[X Y]|[v [X Y]]]; [left; rewrite <- G; auto|right; exists v; rewrite <- L; auto].
  - destruct M6 as [[X Y]|[v [X Y]]]; [left; rewrite <- G; auto|right; exists v; rewrite <- L; auto].
  - destruct M7 as [[X Y]|X]; [left; rewrite <- G; auto|right; rewrite <- L; auto].
  - intros X. apply I, M8. exact X.
  - intros X. apply M8, I. exact X.
Qed.

(** An argument that is none of the options', such as one that is misspelt or cut short, changes
    nothing but what is passed on to Beam. *)
Theorem C63_others : forall before s after a rest, Forall well_formed before -> ~ own s ->
  parse_known_args (line before ++ s :: after) = Parsed a rest ->
  exists rest', parse_known_args (line before ++ after) = Parsed a (others before ++ rest') /\ rest = others before ++ s :: rest'.
Proof.
  intros before s after a rest F N H. unfold parse_known_args in *. rewrite (parse_line before F) in *. cbn [app parse_from] in *.
  assert (S : forall l g ex a rest, parse_from l g ex = Parsed a rest -> exists e, rest = ex ++ e /\ forall ex', parse_from l g ex' = Parsed a (ex' ++ e)).
  { assert (K : forall n l, (length l <= n)%nat -> forall g ex a rest, parse_from l g ex = Parsed a rest -> exists e, rest = ex ++ e /\ forall ex', parse_from l g ex' = Parsed a (ex' ++ e)).
    { induction n as [|n IH]; intros l Hn g ex a0 rest0 E.
      - destruct l as [|x l]; [|cbn in Hn; lia]. cbn [parse_from] in E. exists []. unfold completed in E. rewrite app_nil_r.
        destruct (gi_data g) eqn:E1, (gi_design g) eqn:E2, (gi_output g) eqn:E3, (gi_intermediates g) eqn:E4; try discriminate E. injection E as <- <-. split; [reflexivity|].
        intros ex'. cbn [parse_from]. unfold completed. rewrite app_nil_r, E1, E2, E3, E4. reflexivity.
      - destruct l as [|x l].
        { apply (IH [] ltac:(cbn; lia) g ex a0 rest0 E). }
        cbn [length] in Hn. cbn [parse_from] in *. destruct (classify x) as [|[o| |] [v|] b|].
        + destruct (IH l ltac:(lia) _ _ _ _ E) as [e [-> Q]]. exists (x :: e). split; [rewrite <- app_assoc; reflexivity|]. intros ex'. rewrite Q, <- app_assoc. reflexivity.
        + destruct (store o (str v) g) as [g'|]; [|discriminate E]. exact (IH l ltac:(lia) _ _ _ _ E).
        + destruct l as [|v l]; [discriminate E|]. destruct (classify v); try discriminate E. destruct (store o v g) as [g'|]; [|discriminate E].
          apply (IH l ltac:(cbn in Hn; lia) _ _ _ _ E).
        + discriminate E.
        + exact (IH l ltac:(lia) _ _ _ _ E).
        + destruct b; [unfold help_letters in E; destruct v; [discriminate E|destruct (forallb _ _); discriminate E]|discriminate E].
        + discriminate E.
        + destruct (IH l ltac:(lia) _ _ _ _ E) as [e [-> Q]]. exists (x :: e). split; [rewrite <- app_assoc; reflexivity|]. intros ex'. rewrite Q, <- app_assoc. reflexivity. }
    intros l. exact (K (length l) l (Nat.le_refl _)). }
  assert (H' : parse_from after (MainLemmas2.after before nothing_given) (others before ++ [s]) = Parsed a rest) by (destruct (named_other s N) as [E|E]; rewrite E in H; exact H).
  destruct (S _ _ _ _ _ H') as [e [-> Q]]. exists e. split; [apply Q|]. rewrite <- app_assoc. reflexivity.
Qed.

(** ** What main does *)

(** Without the meaning of a line nothing is done: neither disk nor cloud storage changes. *)
Theorem C63_nothing_done : forall L load beam argv c cc w,
  (forall items a, argv = line items -> Forall well_formed items -> ~ meaning items a) ->
  exists code, main L load beam argv c cc w = Some (Exits code, w) /\ (code = 0 \/ code = 2) /\
    (code = 0 <-> exists items h r, argv = line items ++ h :: r /\ Forall well_formed items /\ asks_help h).
Proof.
  intros L load beam argv c cc w N. unfold main. destruct (parse_known_args argv) as [a rest| |] eqn:P.
  - exfalso. apply C63_line in P. destruct P as [items [E [F [M _]]]]. exact (N items a E F M).
  - exists 0. split; [reflexivity|]. split; [auto|]. split; [intros _; apply C63_help; exact P|reflexivity].
  - exists 2. split; [reflexivity|]. split; [auto|]. split; [discriminate|]. intros H. apply C63_help in H. congruence.
Qed.

(** Beam takes the last --temp_location; the arguments that main adds are the last ones. *)
Definition takes_last (beam : list string -> option pipeline) : Prop :=
  forall flags temp workers p,
    beam (flags ++ [("--temp_location=" ++ temp)%string; ("--direct_num_workers=" ++ workers)%string]) = Some p -> pi_temp p = temp.
Definition names_dataflow (p : pipeline) : Prop := pi_runner p = Some "dataflow"%string \/ pi_runner p = Some "DataflowRunner"%string.
Lemma on_dataflow_spec p : on_dataflow p = true <-> names_dataflow p.
Proof.
  unfold on_dataflow, names_dataflow. destruct (pi_runner p) as [r|]; [|split; [discriminate|intros [X|X]; discriminate X]].
  rewrite orb_true_iff, !String.eqb_eq. split; (intros [X|X]; [left|right]); congruence.
Qed.

(** A line that is understood, if the runner is not Dataflow: the trials of the given data
    design and experimental design are run on the local disk with the seed that was given, the
    table is written to the output file, results go to the intermediates directory, and so does
    the temporary file of Beam, whatever --temp_location was given; nothing on cloud storage
    changes. *)
Theorem C63_local : forall L load beam items a p dr c cc d o ts g tbs xs e d' o',
  Forall well_formed items -> meaning items a -> takes_last beam ->
  beam (others items ++ [("--temp_location=" ++ ar_intermediates a)%string; ("--direct_num_workers=" ++ str (str_of_int (ar_cores a)))%string]) = Some p ->
  ~ names_dataflow p ->
  dr = {| dr_data_design := ar_data a; dr_fetch := load (ar_design a); dr_output := ar_output a;
          dr_intermediates := ar_intermediates a; dr_seed := ar_seed a; dr_analysis := ar_analysis a |} ->
  good_run L dr d ts g tbs -> Forall (place_for L dr ts d) xs -> In (to_path (ar_output a)) xs -> reads_back L (ar_seed a) g ts ->
  (In BeamFlag items -> combines c /\ reads_tables L (concat tbs) /\ In (temp_result_path (ar_intermediates a)) xs) ->
  main L load beam (line items) c cc (d, o) = Some (e, (d', o')) ->
  o' = o /\ exists tb, e = Runs (Ok tb) /\ Permutation tb (concat tbs) /\ (~ In BeamFlag items -> tb = concat tbs) /\
    stat d' (to_path (ar_output a)) = Some (File (lab_print L tb)) /\ touches L ts xs d d' /\ results_left L ts tbs d d'.
Proof.
  intros L load beam items a p dr c cc d o ts g tbs xs e d' o' F M TL Eb ND Ed G Pl Ox RB CO H.
  assert (P : parse_known_args (line items) = Parsed a (others items)) by (apply C63_line; exists items; auto).
  unfold main in H. rewrite P in H. unfold pipeline_args in H. rewrite Eb in H.
  destruct (on_dataflow p) eqn:D; [contradiction ND; apply on_dataflow_spec; exact D|].
  cbn [fst snd] in H. destruct (execute L (driver_of L load a) (call_of a p) c d) as [[r d1]|] eqn:E; [|discriminate H].
  injection H as <- <- <-. split; [reflexivity|]. assert (Ed' : driver_of L load a = dr) by (rewrite Ed; reflexivity). rewrite Ed' in E.
  destruct M as [_ [_ [_ [_ [_ [_ [_ M8]]]]]]].
  destruct (C53_any_way L dr (call_of a p) c d ts g tbs xs r d1 G Pl) as [tb [-> [H1 [H2 [[H3 H4] H5]]]]].
  - unfold output_path. rewrite Ed. exact Ox.
  - intros B. cbn [call_of ca_beam ca_temp] in *. destruct (CO (proj1 M8 B)) as [C1 [C2 C3]]. split; [exact C1|]. split; [exact C2|].
    rewrite (TL _ _ _ _ Eb). exact C3.
  - intros _ _. rewrite Ed. exact RB.
  - exact E.
  - exists tb. split; [reflexivity|]. split; [exact H1|]. split; [|split; [unfold output_path in H3; rewrite Ed in H3; exact H3|split; [exact H4|exact H5]]].
    intros NB. apply H2. cbn [call_of ca_beam]. destruct (ar_beam a); [contradiction NB; apply M8; reflexivity|reflexivity].
Qed.

(** The same with Dataflow, on cloud storage; nothing on the local disk changes. *)
Theorem C63_cloud : forall L load beam items a p dr local data c cc d o ts g tbs xs out e d' o',
  Forall well_formed items -> meaning items a -> takes_last beam ->
  beam (others items ++ [("--temp_location=" ++ ar_intermediates a)%string; ("--direct_num_workers=" ++ str (str_of_int (ar_cores a)))%string]) = Some p ->
  names_dataflow p ->
  dr = {| dr_data_design := ar_data a; dr_fetch := load (ar_design a); dr_output := ar_output a;
          dr_intermediates := ar_intermediates a; dr_seed := ar_seed a; dr_analysis := ar_analysis a |} ->
  cloud_good_run L dr local data o ts g tbs -> cloud_places L local data ts o xs ->
  cloud_path (ar_output a) = Ok out -> In out xs ->
  (In BeamFlag items -> (forall i, In i (cc_attempts cc) -> (i < length ts)%nat) /\ (forall l, Permutation (inputs_of (cc_combine cc l)) l) /\
     reads_tables L (concat tbs) /\ exists x, cloud_temp (ar_intermediates a) = Ok x /\ In x xs) ->
  main L load beam (line items) c cc (d, o) = Some (e, (d', o')) ->
  d' = d /\ exists tb, e = Runs (Ok tb) /\ Permutation tb (concat tbs) /\ (~ In BeamFlag items -> tb = concat tbs) /\
    obj_find o' out = Some (lab_print L tb) /\ cloud_results L (to_path local) ts tbs o' /\
    cloud_touches L (ar_seed a) g (to_path local) ts xs o o'.
Proof.
  intros L load beam items a p dr local data c cc d o ts g tbs xs out e d' o' F M TL Eb ND Ed G Pl Eo Ox CO H.
  assert (P : parse_known_args (line items) = Parsed a (others items)) by (apply C63_line; exists items; auto).
  unfold main in H. rewrite P in H. unfold pipeline_args in H. rewrite Eb in H.
  rewrite (proj2 (on_dataflow_spec p) ND) in H.
  cbn [fst snd] in H. destruct (cloud_execute L (driver_of L load a) (call_of a p) cc o) as [[r o1]|] eqn:E; [|discriminate H].
  injection H as <- <- <-. split; [reflexivity|]. assert (Ed' : driver_of L load a = dr) by (rewrite Ed; reflexivity). rewrite Ed' in E.
  destruct M as [_ [_ [_ [_ [_ [_ [_ M8]]]]]]].
  assert (Eo' : cloud_path (dr_output L dr) = Ok out) by (rewrite Ed; exact Eo).
  destruct (C57_any_way L dr local data o ts g tbs xs out (call_of a p) cc r o1 G Pl Eo' Ox) as [tb [-> [H1 [H2 [H3 [H4 [H5 _]]]]]]].
  - intros B. cbn [call_of ca_beam ca_temp] in *. destruct (CO (proj1 M8 B)) as [C1 [C2 [C3 C4]]]. split; [exact C1|]. split; [exact C2|]. split; [exact C3|].
    rewrite (TL _ _ _ _ Eb). exact C4.
  - exact E.
  - exists tb. split; [reflexivity|]. split; [exact H1|]. split; [|split; [exact H3|split; [exact H4|rewrite Ed in H5; exact H5]]].
    intros NB. apply H2. cbn [call_of ca_beam]. destruct (ar_beam a); [contradiction NB; apply M8; reflexivity|reflexivity].
Qed.

(** Without Dataflow, every start of a schedule can be continued until main returns. *)
Theorem C63_ends : forall L load beam argv c cc w,
  (forall flags p, beam flags = Some p -> ~ names_dataflow p) ->
  exists rest e w', main L load beam argv (continued c rest) cc w = Some (e, w').
Proof.
  intros L load beam argv c cc [d o] ND. unfold main. destruct (parse_known_args argv) as [a ex| |]; [|exists []; eauto|exists []; eauto].
  destruct (beam (pipeline_args a ex)) as [p|] eqn:E; [|exists []; eauto].
  destruct (on_dataflow p) eqn:D; [contradiction (ND _ _ E); apply on_dataflow_spec; exact D|].
  destruct (C53_ends L (driver_of L load a) (call_of a p) c d) as [rest [r [d' X]]]. exists rest, (Runs r), (d', o).
  cbn [fst snd]. rewrite X. reflexivity.
Qed.

(** If Beam does not take the arguments, nothing is done either. *)
Theorem C63_beam_refuses : forall L load beam items a c cc w,
  Forall well_formed items -> meaning items a ->
  beam (others items ++ [("--temp_location=" ++ ar_intermediates a)%string; ("--direct_num_workers=" ++ str (str_of_int (ar_cores a)))%string]) = None ->
  main L load beam (line items) c cc w = Some (Exits 2, w).
Proof.
  intros L load beam items a c cc w F M Eb.
  assert (P : parse_known_args (line items) = Parsed a (others items)) by (apply C63_line; exists items; auto).
  unfold main. rewrite P. unfold pipeline_args. rewrite Eb. reflexivity.
Qed.

(** ** Examples *)

(** The lines of the README, with values. *)
Definition readme_items : list item :=
  [Rest "driver/experiment_driver.py"; Value DataDesignDir "/x/data" true; Value ExperimentalDesignFile "d.py" true;
   Value OutputFile "/x/out.csv" true; Value IntermediatesDir "/x/exp" true; Value Cores "0" true; BeamFlag;
   Rest "--runner=direct"; Rest "--direct_running_mode=multi_processing"].
Definition readme_arguments : arguments :=
  {| ar_data := "/x/data"; ar_design := "d.py"; ar_output := "/x/out.csv"; ar_intermediates := "/x/exp";
     ar_seed := 1; ar_cores := 0; ar_analysis := ""; ar_beam := true |}.
Lemma own_parses s : classify s = Word \/ classify s = Unknown -> ~ own s.
Proof. intros C O. apply classify_own in O. unfold named in O. destruct C as [C|C]; rewrite C in O; discriminate O. Qed.
Lemma readme_well_formed : Forall well_formed readme_items.
Proof.
  repeat (constructor; [|]); try constructor; try discriminate; cbn [well_formed];
    try (apply own_parses; vm_compute; auto); try (intros [X|X]; discriminate X).
  intros _. exists 0. apply py_int_spec. vm_compute. reflexivity.
Qed.
Example C63_line_example :
  line readme_items = ["driver/experiment_driver.py"; "--data_design_dir=/x/data"; "--experimental_design=d.py"; "--output_file=/x/out.csv";
    "--intermediates_dir=/x/exp"; "--cores=0"; "--use_apache_beam"; "--runner=direct"; "--direct_running_mode=multi_processing"]%string /\
  parse_known_args (line readme_items) =
    Parsed readme_arguments ["driver/experiment_driver.py"; "--runner=direct"; "--direct_running_mode=multi_processing"]%string.
Proof. split; vm_compute; reflexivity. Qed.
Lemma readme_meaning : meaning readme_items readme_arguments.
Proof.
  pose proof (proj2 C63_line_example) as P. unfold parse_known_args in P. rewrite <- (app_nil_r (line readme_items)), (parse_line _ readme_well_formed) in P.
  cbn [parse_from] in P. apply (completed_meaning _ _ _ _ readme_well_formed) in P. exact (proj1 P).
Qed.
(** Options twice: the last one counts. Negative numbers and words with a space can stand alone. *)
Example C63_last_example :
  parse_known_args ["p"; "--seed"; "-3"; "--data_design_dir"; "-a b"; "--experimental_design"; "-"; "--output_file"; ""; "--cores=7"; "--intermediates_dir=--x";
    "--seed= 1_0 "; "--analysis_type"; "single_pub"]%string =
  Parsed {| ar_data := "-a b"; ar_design := "-"; ar_output := ""; ar_intermediates := "--x"; ar_seed := 10; ar_cores := 7;
            ar_analysis := "single_pub"; ar_beam := false |} ["p"%string].
Proof. vm_compute. reflexivity. Qed.
Example C63_help_example :
  parse_known_args ["p"; "--seed=3"; "-hh"; "--cores=x"]%string = Help /\ parse_known_args ["p"; "--seed=x"; "--help"]%string = Refused.
Proof. split; vm_compute; reflexivity. Qed.
Example C63_order_example : parse_known_args (line (rev readme_items)) = Parsed readme_arguments (others (rev readme_items)).
Proof.
  apply (C63_order readme_items (rev readme_items) readme_arguments _ (Permutation_rev readme_items)) with (3 := proj2 C63_line_example); [|exact readme_well_formed].
  vm_compute. repeat (constructor; [intros X; repeat (destruct X as [X|X]; [discriminate X|]); exact X|]). constructor.
Qed.

(** Beam, as far as it matters here: the last --temp_location=..., and --runner=... *)
Fixpoint last_with (prefix : text) (flags : list string) : option string :=
  match flags with
  | [] => None
  | f :: r => match last_with prefix r with
              | Some v => Some v
              | None => match strip_prefix prefix (chars f) with Some v => Some (str v) | None => None end
              end
  end.
Definition plain_beam (flags : list string) : option pipeline :=
  Some {| pi_runner := last_with (chars "--runner=") flags;
          pi_temp := match last_with (chars "--temp_location=") flags with Some t => t | None => "" end |}.
Lemma last_with_app prefix a b : last_with prefix (a ++ b) = match last_with prefix b with Some v => Some v | None => last_with prefix a end.
Proof.
  induction a as [|x a IH]; cbn [app last_with]; [destruct (last_with prefix b); reflexivity|]. rewrite IH. destruct (last_with prefix b); reflexivity.
Qed.
Lemma plain_takes_last : takes_last plain_beam.
Proof.
  intros flags temp workers p H.
  assert (E : last_with (chars "--temp_location=") [("--temp_location=" ++ temp)%string; ("--direct_num_workers=" ++ workers)%string] = Some temp).
  { cbn. f_equal. apply str_chars. }
  unfold plain_beam in H. rewrite (last_with_app (chars "--temp_location=")), E in H. injection H as <-. reflexivity.
Qed.
Definition toy_module (name : string) : Z -> result (list trial_descriptor * generators strict) :=
  if String.eqb name "d.py" then fun _ => Ok ([toy_descriptor 0 0; toy_descriptor 1 1; toy_descriptor 0 0], strict_start)
  else fun _ => Err FileNotFoundError.
Example C63_local_example : forall c cc o e d' o', combines c ->
  main strict toy_module plain_beam (line readme_items) c cc (toy_disk, o) = Some (e, (d', o')) ->
  o' = o /\ exists tb, e = Runs (Ok tb) /\ Permutation tb [toy_row 0 0; toy_row 1 0] /\
    stat d' (to_path "/x/out.csv") = Some (File (toy_print tb)).
Proof.
  intros c cc o e d' o' Co H.
  destruct (C63_local strict toy_module plain_beam readme_items readme_arguments
    {| pi_runner := Some "direct"%string; pi_temp := "/x/exp" |} toy_driver c cc toy_disk o toy_run strict_start toy_tables toy_places e d' o'
    readme_well_formed readme_meaning plain_takes_last) as [E [tb [H1 [H2 [_ [H3 _]]]]]].
  - vm_compute. reflexivity.
  - intros [X|X]; discriminate X.
  - reflexivity.
  - exact toy_good_run.
  - exact toy_place.
  - left. reflexivity.
  - exact (proj1 toy_good_reader).
  - intros _. split; [exact Co|]. split; [exact toy_reads_tables|]. right. left. reflexivity.
  - exact H.
  - split; [exact E|]. exists tb. auto.
Qed.
(** On Dataflow. The temporary location that the user gives is not the one that is used. *)
Definition dataflow_items : list item :=
  [Rest "experiment_driver.py"; Value DataDesignDir "gs://x/data" true; Value ExperimentalDesignFile "d.py" false;
   Value OutputFile "gs://x/out.csv" true; Value IntermediatesDir "gs://x/exp" false; BeamFlag; Rest "--temp_location=gs://x/elsewhere";
   Rest "--runner=DataflowRunner"; Rest "--region"; Rest "r"].
Definition dataflow_arguments : arguments :=
  {| ar_data := "gs://x/data"; ar_design := "d.py"; ar_output := "gs://x/out.csv"; ar_intermediates := "gs://x/exp";
     ar_seed := 1; ar_cores := 1; ar_analysis := ""; ar_beam := true |}.
Lemma dataflow_well_formed : Forall well_formed dataflow_items.
Proof.
  repeat (constructor; [|]); try constructor; try discriminate; cbn [well_formed];
    try (apply own_parses; vm_compute; auto); try (intros [X|X]; discriminate X);
    intros _; apply classify_word; vm_compute; reflexivity.
Qed.
Lemma dataflow_meaning : meaning dataflow_items dataflow_arguments.
Proof.
  assert (P : parse_known_args (line dataflow_items) = Parsed dataflow_arguments (others dataflow_items)) by (vm_compute; reflexivity).
  unfold parse_known_args in P. rewrite <- (app_nil_r (line dataflow_items)), (parse_line _ dataflow_well_formed) in P.
  cbn [parse_from] in P. apply (completed_meaning _ _ _ _ dataflow_well_formed) in P. exact (proj1 P).
Qed.
Example C63_cloud_example : forall c cc d e d' o', Forall (fun i => (i < 2)%nat) (cc_attempts cc) -> (forall l, Permutation (inputs_of (cc_combine cc l)) l) ->
  main strict toy_module plain_beam (line dataflow_items) c cc (d, bucket) = Some (e, (d', o')) ->
  d' = d /\ exists tb, e = Runs (Ok tb) /\ Permutation tb [toy_row 0 0; toy_row 1 0] /\ obj_find o' (to_path "/x/out.csv") = Some (toy_print tb).
Proof.
  intros c cc d e d' o' A Co H.
  destruct (C63_cloud strict toy_module plain_beam dataflow_items dataflow_arguments
    {| pi_runner := Some "DataflowRunner"%string; pi_temp := "gs://x/exp" |} bucket_driver "/x/exp" "/x/data" c cc d bucket bucket_run strict_start toy_tables
    bucket_places (to_path "/x/out.csv") e d' o' dataflow_well_formed dataflow_meaning plain_takes_last) as [E [tb [H1 [H2 [_ [H3 _]]]]]].
  - vm_compute. reflexivity.
  - right. reflexivity.
  - reflexivity.
  - exact bucket_good.
  - exact bucket_place.
  - reflexivity.
  - left. reflexivity.
  - intros _. split; [apply Forall_forall; exact A|]. split; [exact Co|]. split; [exact toy_reads_tables|]. eexists. split; [reflexivity|right; left; reflexivity].
  - exact H.
  - split; [exact E|]. exists tb. auto.
Qed.
(** These runs end. *)
Example C63_cloud_ends_example : forall c d, exists tb o', Permutation tb [toy_row 0 0; toy_row 1 0] /\
  main strict toy_module plain_beam (line dataflow_items) c bucket_course (d, bucket) = Some (Runs (Ok tb), (d, o')).
Proof.
  intros c d. destruct C57_ends_example as [tb [o' [E P]]]. exists tb, o'. split; [exact P|].
  assert (Q : parse_known_args (line dataflow_items) = Parsed dataflow_arguments (others dataflow_items)) by (vm_compute; reflexivity).
  unfold main. rewrite Q.
  assert (B : plain_beam (pipeline_args dataflow_arguments (others dataflow_items)) = Some {| pi_runner := Some "DataflowRunner"%string; pi_temp := "gs://x/exp" |})
    by (vm_compute; reflexivity).
  rewrite B. cbn [on_dataflow pi_runner]. change (String.eqb "DataflowRunner" "dataflow" || String.eqb "DataflowRunner" "DataflowRunner")%bool with true.
  cbv iota. cbn [fst snd].
  change (driver_of strict toy_module dataflow_arguments) with bucket_driver.
  change (call_of dataflow_arguments {| pi_runner := Some "DataflowRunner"%string; pi_temp := "gs://x/exp" |}) with (main_call 1 true "gs://x/exp").
  rewrite E. reflexivity.
Qed.
Example C63_local_ends_example : forall cc o, exists rest e w',
  main strict toy_module (fun _ => Some {| pi_runner := Some "direct"%string; pi_temp := "/x/exp" |}) (line readme_items) (continued toy_course rest) cc (toy_disk, o) = Some (e, w').
Proof. intros cc o. apply C63_ends. intros flags p H. injection H as <-. intros [X|X]; discriminate X. Qed.
Example C63_nothing_done_example : forall L load beam c cc w,
  main L load beam ["p"; "--data_design_dir=/x/data"]%string c cc w = Some (Exits 2, w).
Proof. intros. reflexivity. Qed.

(** ** What is not so *)

(** A value that looks like an option cannot be an argument of its own. *)
Theorem C63_dash_refuted : exists before o v r a rest, Forall well_formed before /\
  parse_known_args (line before ++ [(spelling o ++ "=" ++ v)%string] ++ r) = Parsed a rest /\
  parse_known_args (line before ++ [spelling o; v] ++ r) = Refused.
Proof.
  exists (firstn 5 readme_items), AnalysisType, "-x"%string, []. do 2 eexists. split; [|split; vm_compute; reflexivity].
  apply Forall_forall. intros i Hi. pose proof readme_well_formed as W. rewrite Forall_forall in W. apply W.
  rewrite <- (firstn_skipn 5 readme_items). apply in_or_app. left. exact Hi.
Qed.

(** A misspelt option is not refused: here the run is made on one core. *)
Theorem C63_misspelt_refuted : exists before s a rest, Forall well_formed before /\ ~ own s /\
  s = "--core=4"%string /\ parse_known_args (line before ++ [s]) = Parsed a rest /\ ar_cores a = 1.
Proof.
  exists (firstn 5 readme_items), "--core=4"%string. do 2 eexists. split; [|split; [|split; [reflexivity|split; [vm_compute; reflexivity|reflexivity]]]].
  - apply Forall_forall. intros i Hi. pose proof readme_well_formed as W. rewrite Forall_forall in W. apply W.
    rewrite <- (firstn_skipn 5 readme_items). apply in_or_app. left. exact Hi.
  - apply own_parses; vm_compute; auto.
Qed.

Print Assumptions C63_line.
Print Assumptions C63_help.
Print Assumptions C63_one_meaning.
Print Assumptions C63_joined.
Print Assumptions C63_order.
Print Assumptions C63_others.
Print Assumptions C63_nothing_done.
Print Assumptions C63_local.
Print Assumptions C63_cloud.
Print Assumptions C63_ends.
Print Assumptions C63_beam_refuses.
Print Assumptions C63_dash_refuted.
Print Assumptions C63_misspelt_refuted.
