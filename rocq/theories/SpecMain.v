(** Vocabulary for the command line of the experiment driver. *)
From Coq Require Import String Ascii.
From Verif Require Import Prelude ModelData ModelFiles SpecFiles ModelDriver ModelMain.
Open Scope Z_scope.
Local Open Scope string_scope.

(** The names of the options. *)
Definition option_names : list string :=
  ["-h"; "--help"; "--use_apache_beam"; "--data_design_dir"; "--experimental_design"; "--output_file";
   "--intermediates_dir"; "--seed"; "--cores"; "--analysis_type"].
(** Arguments that are for one of these options: its name, alone or with "=" and a value; and
    what begins with -h. *)
Definition own (s : string) : Prop :=
  (exists n, In n option_names /\ (s = n \/ exists v, s = n ++ "=" ++ v)) \/ exists r, s = "-h" ++ r.
(** Negative numbers in decimals, possibly with a line end. *)
Definition digits_only (t : text) : Prop := Forall (fun c => exists v, digit_is c v) t.
Definition negative (s : string) : Prop :=
  exists body tail, chars s = (["-"%char] ++ body ++ tail)%list /\ (tail = [] \/ tail = [newline]) /\
    ((body <> [] /\ digits_only body) \/
     exists a b, body = (a ++ ["."%char] ++ b)%list /\ digits_only a /\ b <> [] /\ digits_only b).
(** Arguments that can be the value of the option before them: those that do not begin with a
    dash, the dash, negative numbers, and what has a space in it. *)
Definition word (s : string) : Prop :=
  ~ own s /\ ((forall r, s <> "-" ++ r) \/ s = "-" \/ negative s \/ In " "%char (chars s)).

(** A command line as a sequence of options and other arguments: an option with its value, as
    one argument or as two; the option --use_apache_beam; anything else. *)
Inductive item : Type :=
| Value (o : option_name) (v : string) (joined : bool)
| BeamFlag
| Rest (s : string).
Definition write (i : item) : list string :=
  match i with
  | Value o v true => [spelling o ++ "=" ++ v]
  | Value o v false => [spelling o; v]
  | BeamFlag => ["--use_apache_beam"]
  | Rest s => [s]
  end.
Definition line (items : list item) : list string := flat_map write items.
Definition well_formed (i : item) : Prop :=
  match i with
  | Value o v joined => (joined = false -> word v) /\
      (o = Seed \/ o = Cores -> exists z, int_literal (chars v) z)
  | BeamFlag => True
  | Rest s => ~ own s
  end.
Definition others (items : list item) : list string :=
  flat_map (fun i => match i with Rest s => [s] | _ => [] end) items.

(** The value of an option is the last one given. *)
Definition is_given (o : option_name) (items : list item) : Prop := exists v j, In (Value o v j) items.
Definition last_value (o : option_name) (items : list item) (v : string) : Prop :=
  exists before j after, items = (before ++ Value o v j :: after)%list /\ ~ is_given o after.
Definition number (o : option_name) (items : list item) (z : Z) : Prop :=
  (~ is_given o items /\ z = 1) \/ exists v, last_value o items v /\ int_literal (chars v) z.
Definition meaning (items : list item) (a : arguments) : Prop :=
  last_value DataDesignDir items (ar_data a) /\ last_value ExperimentalDesignFile items (ar_design a) /\
  last_value OutputFile items (ar_output a) /\ last_value IntermediatesDir items (ar_intermediates a) /\
  number Seed items (ar_seed a) /\ number Cores items (ar_cores a) /\
  ((~ is_given AnalysisType items /\ ar_analysis a = "") \/ last_value AnalysisType items (ar_analysis a)) /\
  (ar_beam a = true <-> In BeamFlag items).

(** Arguments that ask for help. *)
Definition asks_help (s : string) : Prop :=
  s = "-h" \/ s = "--help" \/
  exists n, (1 <= n)%nat /\ (chars s = (chars "-h" ++ repeat "h"%char n)%list \/ chars s = (chars "-h=" ++ repeat "h"%char n)%list).
