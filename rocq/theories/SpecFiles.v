(** Specification vocabulary for the file formats: what an integer literal is, what the lines
    of a file are, what a line of an impression log says, what a directory contains. Nothing
    here uses the parsing or writing functions of the model. *)
From Coq Require Import String Ascii Permutation Sorted.
From Verif Require Import Prelude ModelReachPoint ModelData ModelFiles SpecData.
Open Scope Z_scope.

(** The ten digits and their values. *)
Inductive digit_is : ascii -> Z -> Prop :=
| d0 : digit_is "0" 0 | d1 : digit_is "1" 1 | d2 : digit_is "2" 2 | d3 : digit_is "3" 3
| d4 : digit_is "4" 4 | d5 : digit_is "5" 5 | d6 : digit_is "6" 6 | d7 : digit_is "7" 7
| d8 : digit_is "8" 8 | d9 : digit_is "9" 9.

(** Digits, possibly with single underscores between them, and the number they denote. *)
Inductive numeral : text -> Z -> Prop :=
| numeral_one : forall c v, digit_is c v -> numeral [c] v
| numeral_more : forall s n c v, numeral s n -> digit_is c v -> numeral (s ++ [c]) (10 * n + v)
| numeral_underscore : forall s n c v, numeral s n -> digit_is c v ->
    numeral (s ++ ["_"%char; c]) (10 * n + v).

(** Space, tab, line feed, vertical tab, form feed, carriage return, and the four separators
    that Python also counts as white space. *)
Definition white (c : ascii) : Prop :=
  In c [" "; "009"; "010"; "011"; "012"; "013"; "028"; "029"; "030"; "031"]%char.

Definition int_literal (s : text) (z : Z) : Prop :=
  exists before sign body after n,
    s = before ++ sign ++ body ++ after /\ Forall white before /\ Forall white after /\
    numeral body n /\
    ((sign = [] /\ z = n) \/ (sign = ["+"%char] /\ z = n) \/ (sign = ["-"%char] /\ z = - n)).

(** The lines of a file, each with its line end; the last one may lack it. *)
Inductive lines_of : text -> list text -> Prop :=
| lines_none : lines_of [] []
| lines_last : forall l, l <> [] -> ~ In newline l -> lines_of l [l]
| lines_more : forall l rest ls, ~ In newline l -> lines_of rest ls ->
    lines_of (l ++ newline :: rest) ((l ++ [newline]) :: ls).

(** A line of a log file: an integer literal and a float literal around a single comma. *)
Definition line_says (F : float_format) (line : text) (r : row) : Prop :=
  exists a b, line = a ++ comma :: b /\ ~ In comma a /\ ~ In comma b /\
    int_literal a (fst r) /\ read_float F b = Ok (snd r).
Definition malformed (F : float_format) (line : text) : Prop := forall r, ~ line_says F line r.

(** Strings that are not float literals raise ValueError, as Python's [float] does. *)
Definition float_errors (F : float_format) : Prop :=
  forall s e, read_float F s = Err e -> e = ValueError.

(** The float is printed without commas and line ends, and read back (with the line end). *)
Definition prints_back (F : float_format) (x : Q) : Prop :=
  ~ In comma (show_float F x) /\ ~ In newline (show_float F x) /\
  read_float F (show_float F x ++ [newline]) = Ok x.

(** A name of a file in a directory. *)
Definition file_name (s : string) : Prop :=
  s <> ""%string /\ s <> "."%string /\ s <> ".."%string /\ ~ In slash (list_ascii_of_string s).

(** A file or directory [name] in the directory [dir]. *)
Definition entry (dir : path) (name : string) : path := (fst dir, snd dir ++ [name]).

(** Every file and directory is in a directory, and has one entry. *)
Definition disk_ok (k : disk) : Prop :=
  NoDup (map fst k) /\
  (forall p n, In (p, n) k -> snd p <> []) /\
  (forall p, stat k p <> None -> stat k (parent p) = Some Dir).

(** [p] is [dir] or inside it. *)
Definition within (dir p : path) : Prop := exists rest, p = (fst dir, snd dir ++ rest).

(** [p] is a directory on the way to [dir], or [dir] itself, but not a root. *)
Definition on_the_way (dir p : path) : Prop :=
  snd p <> [] /\ within p dir.

(** The files of a directory with their contents, in increasing order of names. *)
Definition listing (k : disk) (dir : path) (l : list (string * text)) : Prop :=
  StronglySorted (fun x y => String.ltb (fst x) (fst y) = true) l /\
  (forall name c, In (name, c) l <-> stat k (entry dir name) = Some (File c)).

(** No file is where a directory is needed. *)
Definition no_file_on_the_way (k : disk) (dir : path) : Prop :=
  forall p c, on_the_way dir p -> stat k p <> Some (File c).

(** The name under which write_data_set stores a data set. *)
Definition stored_as (dataset_dir : option string) (d : data_set) (n : string) : Prop :=
  match dataset_dir with
  | Some s => (s <> ""%string /\ n = s) \/ (s = ""%string /\ n = ds_name d)
  | None => n = ds_name d
  end.

(** A data set whose publishers can be the files of one directory, with prices that the
    float format prints back. *)
Definition storable (F : float_format) (d : data_set) : Prop :=
  (exists logs, is_data_set_of logs d /\ Forall (Forall (fun r => prints_back F (snd r))) logs) /\
  Forall (fun p => file_name (pd_name p)) (ds_data d) /\ NoDup (map pd_name (ds_data d)).

(** [d'] is what reading back [d] from the directory [dir] should give: the same logs in the
    order of the publishers' names. *)
Definition same_publishers (dir : path) (d d' : data_set) : Prop :=
  exists pubs, Permutation pubs (ds_data d) /\
    StronglySorted (fun x y => String.ltb (pd_name x) (pd_name y) = true) pubs /\
    Forall2 (fun p p' => pd_data p' = pd_data p /\ pd_name p' = path_str (entry dir (pd_name p)))
            pubs (ds_data d').

(** Histories of one interpreter: anyone may change the disk, and data sets are read. *)
Inductive event : Type :=
| Change (os : list op)
| Read (dirpath : string).
Definition step (F : float_format) (st : store) (e : event) : store :=
  match e with
  | Change os => {| st_disk := snd (run_ops (st_disk st) os); st_cache := st_cache st |}
  | Read x => {| st_disk := st_disk st;
                 st_cache := snd (cached_read F (st_disk st) (st_cache st) x) |}
  end.
Definition after (F : float_format) (k : disk) (es : list event) : store :=
  fold_left (step F) es {| st_disk := k; st_cache := [] |}.

(** The design [d] lists the subdirectories of its directory. *)
Definition design_ok (st : store) (d : design) : Prop :=
  disk_ok (st_disk st) /\ stat (st_disk st) (to_path (de_dirpath d)) = Some Dir /\
  NoDup (de_names d) /\
  (forall n, In n (de_names d) <->
             stat (st_disk st) (entry (to_path (de_dirpath d)) n) = Some Dir).

(** A sequence of calls of add; calls that raise leave the design as it is. *)
Fixpoint add_all (F : float_format) (st : store) (d : design) (xs : list data_set) : store * design :=
  match xs with
  | [] => (st, d)
  | x :: r => match add F st d x with
              | (Ok d', st') => add_all F st' d' r
              | (Err _, st') => add_all F st' d r
              end
  end.
