(** Model of how the two programs are started from a shell: the flags of absl (absl-py 0.12.0,
    the version in requirements.txt) with which src/data_generators/synthetic_data_design_generator.py
    is called, its main, and src/driver/experiment_driver.py 309-310. *)
From Coq Require Import String Ascii.
From Verif Require Import Prelude ModelData ModelFiles ModelGenerators ModelDriver ModelExecute ModelDesigns
  ModelCloud ModelCloudRun ModelMain.
Open Scope Z_scope.

(** ** Values of flags *)

(** Python's [int(s, b)] for [s] with the prefix of the base [b], which is 8 or 16; [body] is
    what comes after the prefix. *)
Definition digit_in_base (b : Z) (c : ascii) : option Z :=
  let n := Z.of_nat (nat_of_ascii c) in
  let v := if (48 <=? n) && (n <=? 57) then n - 48
           else if (97 <=? n) && (n <=? 102) then n - 87
           else if (65 <=? n) && (n <=? 70) then n - 55
           else 99 in
  if v <? b then Some v else None.
Fixpoint base_digits (b : Z) (s : text) (acc : Z) (after_digit : bool) : result Z :=
  match s with
  | [] => if after_digit then Ok acc else Err ValueError
  | c :: r => match digit_in_base b c with
              | Some d => base_digits b r (b * acc + d) true
              | None => if Ascii.eqb c "_" && after_digit then base_digits b r acc false
                        else Err ValueError
              end
  end.
Definition rstrip (s : text) : text := rev (lstrip (rev s)).
Definition base_int (b : Z) (body : text) : result Z :=
  match rstrip body with
  | c :: r => if Ascii.eqb c "_" then base_digits b r 0 false else base_digits b (c :: r) 0 false
  | [] => Err ValueError
  end.

(** absl, IntegerParser.convert *)
Definition absl_int (s : text) : result Z :=
  match s with
  | z :: c :: _ :: _ =>
      if Ascii.eqb z "0" && Ascii.eqb c "o" then base_int 8 (skipn 2 s)
      else if Ascii.eqb z "0" && Ascii.eqb c "x" then base_int 16 (skipn 2 s)
      else py_int s
  | _ => py_int s
  end.

(** Python's [s.lower()], for ASCII. *)
Definition lower_char (c : ascii) : ascii :=
  let n := nat_of_ascii c in
  if ((65 <=? n) && (n <=? 90))%nat then ascii_of_nat (n + 32) else c.
Definition lower (s : text) : text := map lower_char s.

(** absl, BooleanParser.parse *)
Definition absl_bool (s : text) : option bool :=
  let l := str (lower s) in
  if String.eqb l "true" || String.eqb l "t" || String.eqb l "1" then Some true
  else if String.eqb l "false" || String.eqb l "f" || String.eqb l "0" then Some false
  else None.

Inductive flag_kind : Type := TextFlag | IntegerFlag | BooleanFlag.
Inductive flag_value : Type := FText (s : string) | FInteger (z : Z) | FBoolean (b : bool).
(** absl, Flag.parse; None: the value is illegal. *)
Definition parse_flag (k : flag_kind) (v : text) : option flag_value :=
  match k with
  | TextFlag => Some (FText (str v))
  | IntegerFlag => match absl_int v with Ok z => Some (FInteger z) | Err _ => None end
  | BooleanFlag => match absl_bool v with Some b => Some (FBoolean b) | None => None end
  end.

(** ** The command line *)

(** Accepted: what the flags were set to, one after the other, and the arguments that are left.
    FlagsRejected: exit with 1 after a message (or, for "--noname=value", after a traceback).
    LibraryFlag: a flag that absl defines for itself is used (--help, --flagfile, --undefok,
    --verbosity and so on); what happens then is not modelled. *)
Inductive flags_answer : Type :=
| Accepted (got : list (string * flag_value)) (rest : list string)
| FlagsRejected
| LibraryFlag.

(** absl, _parse_args: an argument that begins with a dash, without its dashes and cut at the
    first "=". *)
Definition undashed (body : text) : text :=
  match body with c :: r => if Ascii.eqb c dash then r else body | [] => [] end.
Definition name_and_value (body : text) : text * option text :=
  match cut "=" body with Some (n, v) => (n, Some v) | None => (body, None) end.
(** What comes after "no". *)
Definition without_no (n : text) : option text :=
  match n with
  | a :: b :: _ :: _ => if Ascii.eqb a "n" && Ascii.eqb b "o" then Some (skipn 2 n) else None
  | _ => None
  end.
Definition is_boolean (k : flag_kind) : bool := match k with BooleanFlag => true | _ => false end.

Section Flags.
(** The flags that the program defines, and the names of the ones that absl defines. *)
Variable defined : string -> option flag_kind.
Variable library : string -> bool.

Definition finish (unknown : bool) (got : list (string * flag_value)) (rest : list string) : flags_answer :=
  if unknown then FlagsRejected else Accepted got rest.

(** absl, FlagValues._parse_args (without GNU getopt: the first argument that is not a flag
    ends the flags) and __call__: unknown flags are reported when everything is read. *)
Fixpoint read_flags (args : list string) (got : list (string * flag_value)) (unknown : bool) : flags_answer :=
  match args with
  | [] => finish unknown got []
  | a :: r =>
      match chars a with
      | [] => finish unknown got (a :: r)
      | c :: body =>
          if negb (Ascii.eqb c dash) then finish unknown got (a :: r)
          else if String.eqb a "--" then finish unknown got r
          else
            let '(name, value) := name_and_value (undashed body) in
            match name with
            | [] => finish unknown got (a :: r)
            | _ =>
                let n := str name in
                let set m v r := match parse_flag (match defined m with Some k => k | None => TextFlag end) v with
                                 | Some f => read_flags r (got ++ [(m, f)]) unknown
                                 | None => FlagsRejected
                                 end in
                match defined n with
                | Some k =>
                    match value with
                    | Some v => set n v r
                    | None => if is_boolean k then set n (chars "true") r
                              else match r with
                                   | v :: r' => set n (chars v) r'
                                   | [] => FlagsRejected
                                   end
                    end
                | None =>
                    if library n then LibraryFlag
                    else match without_no name with
                    | None => read_flags r got true
                    | Some m =>
                        match defined (str m) with
                        | Some BooleanFlag =>
                            match value with
                            | Some _ => FlagsRejected
                            | None => set (str m) (chars "false") r
                            end
                        | _ => if library (str m) then LibraryFlag else read_flags r got true
                        end
                    end
                end
            end
      end
  end.

(** absl, read_flags_from_files. Simplification: lines with --flagfile anywhere are not
    modelled. *)
Fixpoint starts_with (p s : text) : bool :=
  match p, s with
  | [], _ => true
  | a :: p', b :: s' => Ascii.eqb a b && starts_with p' s'
  | _, _ => false
  end.
Definition names_flag_file (a : string) : bool :=
  String.eqb a "--flagfile" || String.eqb a "-flagfile" ||
  starts_with (chars "--flagfile=") (chars a) || starts_with (chars "-flagfile=") (chars a).

(** absl, app.run: the arguments without the name of the program. *)
Definition absl_flags (args : list string) : flags_answer :=
  if existsb names_flag_file args then LibraryFlag else read_flags args [] false.
End Flags.

(** ** The generator of data designs *)

(** synthetic_data_design_generator.py 78-81 *)
Definition generator_flags (n : string) : option flag_kind :=
  if String.eqb n "output_dir" || String.eqb n "data_design_config" then Some TextFlag
  else if String.eqb n "random_seed" then Some IntegerFlag
  else if String.eqb n "verbose" then Some BooleanFlag
  else None.

(** FLAGS.name: the last value, or the default. *)
Fixpoint flag_last (got : list (string * flag_value)) (n : string) : option flag_value :=
  match got with
  | [] => None
  | (m, v) :: r => match flag_last r n with
                   | Some w => Some w
                   | None => if String.eqb m n then Some v else None
                   end
  end.
Definition text_flag (got : list (string * flag_value)) (n : string) : option string :=
  match flag_last got n with Some (FText s) => Some s | _ => None end.
Definition seed_flag (got : list (string * flag_value)) : Z :=
  match flag_last got "random_seed" with Some (FInteger z) => z | _ => 1 end.
Definition verbose_flag (got : list (string * flag_value)) : bool :=
  match flag_last got "verbose" with Some (FBoolean b) => b | _ => true end.

Inductive program_ending : Type :=
| Returns
| Raises (e : pyerr)
| ExitsWith (code : Z)
| UsesLibraryFlag.

Section GeneratorMain.
Context {St : Type} (rng : numpy_rng St) (x : synthetic_externals seq_options) (F : float_format).
(** np.random.default_rng *)
Variable default_rng : Z -> St.
(** synthetic_data_design_generator.py 126-133: importing the file and calling its
    generate_data_design_config, after np.random.seed(seed). None: no file is given. *)
Variable load_config : option string -> Z -> result config.
Variable library : string -> bool.

(** synthetic_data_design_generator.py 122-124 and 136-137: as [fill], with what is printed. *)
Fixpoint fill_printing (verbose : bool) (fs : ModelFiles.store) (d : design) (c : config) (st : St) (out : list string)
  : result design * ModelFiles.store * list string :=
  match c with
  | [] => (Ok d, fs, out)
  | Err e :: _ => (Err e, fs, out)
  | Ok p :: r =>
      let out' := if verbose then out ++ [str (show_set F p)] else out in
      match generate_set rng x F p st with
      | Err e => (Err e, fs, out')
      | Ok (ds, st') =>
          match add F fs d ds with
          | (Err e, fs') => (Err e, fs', out')
          | (Ok d', fs') => fill_printing verbose fs' d' r st' out'
          end
      end
  end.

(** synthetic_data_design_generator.py 91-124: the constructor and __call__. numpy raises
    ValueError for seeds below 0 and, in np.random.seed, from 2^32 on; pathlib raises TypeError
    for a directory that is None. *)
Definition call_generator (output_dir : option string) (config_file : option string) (seed : Z) (verbose : bool) (fs : ModelFiles.store)
  : result design * ModelFiles.store * list string :=
  if (seed <? 0) || (4294967295 <? seed) then (Err ValueError, fs, [])
  else match output_dir with
  | None => (Err TypeError, fs, [])
  | Some dir =>
      match mk_design fs dir with
      | (Err e, fs') => (Err e, fs', [])
      | (Ok d, fs') =>
          match load_config config_file seed with
          | Err e => (Err e, fs', [])
          | Ok c => fill_printing verbose fs' d c (default_rng seed) []
          end
      end
  end.

(** synthetic_data_design_generator.py 173-181: main, called by app.run; the arguments that are
    left are not used. *)
Definition generator_main (args : list string) (fs : ModelFiles.store) : program_ending * ModelFiles.store * list string :=
  match absl_flags generator_flags library args with
  | FlagsRejected => (ExitsWith 1, fs, [])
  | LibraryFlag => (UsesLibraryFlag, fs, [])
  | Accepted got _ =>
      match call_generator (text_flag got "output_dir") (text_flag got "data_design_config") (seed_flag got) (verbose_flag got) fs with
      | (Ok _, fs', out) => (Returns, fs', out)
      | (Err e, fs', out) => (Raises e, fs', out)
      end
  end.
End GeneratorMain.

(** ** The driver *)

Section DriverProgram.
Variable L : lab.
Variable load_module : string -> Z -> result (list trial_descriptor * generators L).
Variable beam : list string -> option pipeline.
Variable library : string -> bool.

(** experiment_driver.py 309-310: app.run(main); the program defines no flags. Inl: absl ends
    the program. *)
Definition driver_program (name : string) (args : list string) (c : course) (cc : cloud_course) (w : world)
  : option ((program_ending + ending) * world) :=
  match absl_flags (fun _ => None) library args with
  | FlagsRejected => Some (inl (ExitsWith 1), w)
  | LibraryFlag => Some (inl UsesLibraryFlag, w)
  | Accepted _ rest =>
      match main L load_module beam (name :: rest) c cc w with
      | None => None
      | Some (e, w') => Some (inr e, w')
      end
  end.
End DriverProgram.
