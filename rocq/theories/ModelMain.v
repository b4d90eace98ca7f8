(** Model of the command line of src/driver/experiment_driver.py (lines 211-305), with the part
    of Python's argparse that it uses (Python 3.8 to 3.11). *)
From Coq Require Import String Ascii.
From Verif Require Import Prelude ModelData ModelAggregator ModelFiles ModelDriver ModelExecute ModelCloud ModelCloudRun.
Open Scope Z_scope.

(** Python's [s.split(c, 1)], if [c] is in [s]. *)
Fixpoint cut (c : ascii) (s : text) : option (text * text) :=
  match s with
  | [] => None
  | x :: r => if Ascii.eqb x c then Some ([], r)
              else match cut c r with Some (a, b) => Some (x :: a, b) | None => None end
  end.
Definition has_char (c : ascii) (s : text) : bool := existsb (Ascii.eqb c) s.
Definition dash : ascii := "-"%char.

(** experiment_driver.py 211-264: the options that take one argument, and their names. The
    other ones are --use_apache_beam and, added by argparse, -h and --help. *)
Inductive option_name : Type :=
| DataDesignDir | ExperimentalDesignFile | OutputFile | IntermediatesDir | Seed | Cores | AnalysisType.
Definition spelling (o : option_name) : string :=
  match o with
  | DataDesignDir => "--data_design_dir"
  | ExperimentalDesignFile => "--experimental_design"
  | OutputFile => "--output_file"
  | IntermediatesDir => "--intermediates_dir"
  | Seed => "--seed"
  | Cores => "--cores"
  | AnalysisType => "--analysis_type"
  end.
Definition all_options : list option_name :=
  [DataDesignDir; ExperimentalDesignFile; OutputFile; IntermediatesDir; Seed; Cores; AnalysisType].
Inductive action : Type := Store (o : option_name) | UseBeam | ShowHelp.
Definition actions : list (string * action) :=
  [("-h"%string, ShowHelp); ("--help"%string, ShowHelp)] ++
  map (fun o => (spelling o, Store o)) all_options ++ [("--use_apache_beam"%string, UseBeam)].
Fixpoint lookup (l : list (string * action)) (s : string) : option action :=
  match l with
  | [] => None
  | (n, a) :: r => if String.eqb n s then Some a else lookup r s
  end.

(** argparse, _negative_number_matcher: ^-\d+$|^-\d*\.\d+$, where $ also matches before a line
    end that is the last character. *)
Definition is_digit (c : ascii) : bool := match digit_value c with Some _ => true | None => false end.
Definition all_digits (s : text) : bool := forallb is_digit s.
Definition unline (s : text) : text :=
  match rev s with x :: r => if Ascii.eqb x newline then rev r else s | [] => s end.
Definition some_digits (s : text) : bool := match s with [] => false | _ => all_digits s end.
Definition negative_number (s : text) : bool :=
  match s with
  | x :: r => Ascii.eqb x dash &&
      (let r := unline r in
       some_digits r ||
       match cut "." r with Some (a, b) => all_digits a && some_digits b | None => false end)
  | [] => false
  end.

(** argparse, _parse_optional and _get_option_tuples, for a parser with allow_abbrev=False and
    these options: what an argument looks like. [Named a explicit short]: an option, with what
    comes after "=" or after the letter of a short option. *)
Inductive looks : Type :=
| Word
| Named (a : action) (explicit : option text) (short : bool)
| Unknown.
Definition is_short (s : text) : bool := match s with _ :: c :: _ => negb (Ascii.eqb c dash) | _ => false end.
Definition classify (arg : string) : looks :=
  let s := chars arg in
  match s with
  | [] => Word
  | x :: rest =>
      if negb (Ascii.eqb x dash) then Word
      else match lookup actions arg with
      | Some a => Named a None (is_short s)
      | None =>
          match rest with
          | [] => Word
          | y :: more =>
              match (match cut "=" s with
                     | Some (n, v) => match lookup actions (str n) with Some a => Some (a, v) | None => None end
                     | None => None
                     end) with
              | Some (a, v) => Named a (Some v) (is_short s)
              | None =>
                  if Ascii.eqb y "h" then Named ShowHelp (Some more) true
                  else if negative_number s then Word
                  else if has_char " " s then Word
                  else Unknown
              end
          end
      end
  end.

(** experiment_driver.py 213-262: the values, with the defaults; None: not given. *)
Record given : Type := {
  gi_data : option string; gi_design : option string; gi_output : option string; gi_intermediates : option string;
  gi_seed : Z; gi_cores : Z; gi_analysis : string; gi_beam : bool }.
Definition nothing_given : given :=
  {| gi_data := None; gi_design := None; gi_output := None; gi_intermediates := None;
     gi_seed := 1; gi_cores := 1; gi_analysis := ""; gi_beam := false |}.

(** argparse, take_action and _get_value: None if the value is not of the type. *)
Definition store (o : option_name) (v : string) (g : given) : option given :=
  let '(Build_given d e f i s c a b) := g in
  match o with
  | DataDesignDir => Some (Build_given (Some v) e f i s c a b)
  | ExperimentalDesignFile => Some (Build_given d (Some v) f i s c a b)
  | OutputFile => Some (Build_given d e (Some v) i s c a b)
  | IntermediatesDir => Some (Build_given d e f (Some v) s c a b)
  | Seed => match py_int (chars v) with Ok z => Some (Build_given d e f i z c a b) | Err _ => None end
  | Cores => match py_int (chars v) with Ok z => Some (Build_given d e f i s z a b) | Err _ => None end
  | AnalysisType => Some (Build_given d e f i s c v b)
  end.
Definition use_beam (g : given) : given :=
  let '(Build_given d e f i s c a _) := g in Build_given d e f i s c a true.

(** The namespace that parse_known_args returns. *)
Record arguments : Type := {
  ar_data : string; ar_design : string; ar_output : string; ar_intermediates : string;
  ar_seed : Z; ar_cores : Z; ar_analysis : string; ar_beam : bool }.
(** Help: exit with 0 after printing help; Refused: exit with 2 after a message. *)
Inductive parsed : Type :=
| Parsed (a : arguments) (extras : list string)
| Help
| Refused.

(** argparse, consume_optional with an explicit argument for -h: "-hh" is "-h -h". Older
    versions end with an IndexError for "-h=", newer ones with exit 2; here it is Refused. *)
Definition help_letters (v : text) : parsed :=
  match v with [] => Refused | _ => if forallb (Ascii.eqb "h") v then Help else Refused end.

(** argparse, the end of _parse_known_args: required options. *)
Definition completed (g : given) (extras : list string) : parsed :=
  match gi_data g, gi_design g, gi_output g, gi_intermediates g with
  | Some d, Some e, Some f, Some i =>
      Parsed {| ar_data := d; ar_design := e; ar_output := f; ar_intermediates := i; ar_seed := gi_seed g;
                ar_cores := gi_cores g; ar_analysis := gi_analysis g; ar_beam := gi_beam g |} extras
  | _, _, _, _ => Refused
  end.

(** argparse, _parse_known_args: from left to right; what is not consumed goes to [extras]. The
    first argument is the name of the program, which is not consumed. Simplification: for
    lines in which "--" is neither an argument nor a value. *)
Fixpoint parse_from (argv : list string) (g : given) (extras : list string) : parsed :=
  match argv with
  | [] => completed g extras
  | s :: r =>
      match classify s with
      | Word | Unknown => parse_from r g (extras ++ [s])
      | Named (Store o) (Some v) _ =>
          match store o (str v) g with Some g' => parse_from r g' extras | None => Refused end
      | Named (Store o) None _ =>
          match r with
          | v :: r' =>
              match classify v with
              | Word => match store o v g with Some g' => parse_from r' g' extras | None => Refused end
              | _ => Refused
              end
          | [] => Refused
          end
      | Named UseBeam None _ => parse_from r (use_beam g) extras
      | Named UseBeam (Some _) _ => Refused
      | Named ShowHelp None _ => Help
      | Named ShowHelp (Some v) short => if short then help_letters v else Refused
      end
  end.
Definition parse_known_args (argv : list string) : parsed := parse_from argv nothing_given [].

(** apache_beam: PipelineOptions(flags) and get_all_options. None: exit with a message. The
    other options are for the runner of Beam. *)
Record pipeline : Type := { pi_runner : option string; pi_temp : string }.

(** experiment_driver.py 281-286 *)
Definition pipeline_args (a : arguments) (extras : list string) : list string :=
  extras ++ [String.append "--temp_location=" (ar_intermediates a);
             String.append "--direct_num_workers=" (str (str_of_int (ar_cores a)))].

(** experiment_driver.py 291-296 *)
Definition on_dataflow (p : pipeline) : bool :=
  match pi_runner p with
  | Some r => String.eqb r "dataflow" || String.eqb r "DataflowRunner"
  | None => false
  end.

Section Main.
Variable L : lab.
(** importlib: what the file with the experimental design answers for a seed. *)
Variable load_module : string -> Z -> result (list trial_descriptor * generators L).
Variable beam : list string -> option pipeline.

(** experiment_driver.py 271-279 *)
Definition driver_of (a : arguments) : driver L :=
  {| dr_data_design := ar_data a; dr_fetch := load_module (ar_design a); dr_output := ar_output a;
     dr_intermediates := ar_intermediates a; dr_seed := ar_seed a; dr_analysis := ar_analysis a |}.
(** The arguments of execute that say how the trials are run. *)
Definition call_of (a : arguments) (p : pipeline) : call :=
  {| ca_cores := ar_cores a; ca_beam := ar_beam a; ca_temp := pi_temp p |}.

(** The local disk and the objects on cloud storage. *)
Definition world : Type := (disk * objects)%type.
Inductive ending : Type :=
| Exits (code : Z)
| Runs (r : result table).

(** experiment_driver.py 267-305: main. None: the schedule has not finished the workers. *)
Definition main (argv : list string) (c : course) (cc : cloud_course) (w : world) : option (ending * world) :=
  match parse_known_args argv with
  | Help => Some (Exits 0, w)
  | Refused => Some (Exits 2, w)
  | Parsed a extras =>
      match beam (pipeline_args a extras) with
      | None => Some (Exits 2, w)
      | Some p =>
          if on_dataflow p then
            match cloud_execute L (driver_of a) (call_of a p) cc (snd w) with
            | None => None
            | Some (r, o) => Some (Runs r, (fst w, o))
            end
          else
            match execute L (driver_of a) (call_of a p) c (fst w) with
            | None => None
            | Some (r, d) => Some (Runs r, (d, snd w))
            end
      end
  end.
End Main.
