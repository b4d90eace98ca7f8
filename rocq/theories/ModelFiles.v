(** Model of the file formats of src/data_generators/publisher_data.py, data_set.py and
    data_design.py on top of filesystem_wrappers/filesystem_pathlib_wrapper.py.

    Text is a list of ASCII characters; files are read with "\n" line ends. Reading and
    printing floats ([float(s)], ["{}".format(x)]) are parameters; only finite floats exist in
    the model. Paths follow pathlib: a flag for absolute paths and a list of components.
    Where the code passes str(path) to a function that parses it again, the model passes the
    path (".." and symbolic links are not resolved). The current directory and the root
    directory are two unrelated trees. *)
From Coq Require Import String Ascii.
From Verif Require Import Prelude ModelReachPoint ModelData.
Open Scope Z_scope.

Definition text : Type := list ascii.
Definition comma : ascii := ","%char.
Definition newline : ascii := "010"%char.
Definition slash : ascii := "/"%char.

(** ["{}".format(z)] for an int: decimal digits with a minus sign if negative. *)
Definition digit (n : Z) : ascii := ascii_of_nat (48 + Z.to_nat n).
Fixpoint digits (fuel : nat) (n : Z) (acc : text) : text :=
  match fuel with
  | O => acc
  | S f => if n <? 10 then digit n :: acc else digits f (n / 10) (digit (n mod 10) :: acc)
  end.
Definition str_of_int (z : Z) : text :=
  let n := Z.abs z in
  (if z <? 0 then ["-"%char] else []) ++ digits (S (Z.to_nat (Z.log2 n))) n [].

(** Python's [int(s)]: white space around is ignored, a sign is allowed, and single
    underscores between digits. Only ASCII digits are modelled. *)
Definition is_space (c : ascii) : bool :=
  let n := nat_of_ascii c in
  ((9 <=? n) && (n <=? 13) || (28 <=? n) && (n <=? 32))%nat.
Fixpoint lstrip (s : text) : text :=
  match s with c :: r => if is_space c then lstrip r else s | [] => [] end.
Definition strip (s : text) : text := rev (lstrip (rev (lstrip s))).
Definition digit_value (c : ascii) : option Z :=
  let n := Z.of_nat (nat_of_ascii c) in
  if (48 <=? n) && (n <=? 57) then Some (n - 48) else None.
Fixpoint int_digits (s : text) (acc : Z) (after_digit : bool) : result Z :=
  match s with
  | [] => if after_digit then Ok acc else Err ValueError
  | c :: r => match digit_value c with
              | Some d => int_digits r (10 * acc + d) true
              | None => if Ascii.eqb c "_" && after_digit then int_digits r acc false
                        else Err ValueError
              end
  end.
Definition py_int (s : text) : result Z :=
  match strip s with
  | [] => Err ValueError
  | c :: r => if Ascii.eqb c "-" then z <- int_digits r 0 false ;; Ok (- z)
              else if Ascii.eqb c "+" then int_digits r 0 false
              else int_digits (c :: r) 0 false
  end.

(** Python's [s.split(c)] *)
Fixpoint split_on (c : ascii) (s : text) : list text :=
  match s with
  | [] => [[]]
  | x :: r => match split_on c r with
              | [] => [[x]]
              | p :: ps => if Ascii.eqb x c then [] :: p :: ps else (x :: p) :: ps
              end
  end.

(** Iterating over a text file: lines with their line ends. *)
Fixpoint lines (s : text) : list text :=
  match s with
  | [] => []
  | x :: r => if Ascii.eqb x newline then [x] :: lines r
              else match lines r with
                   | [] => [[x]]
                   | l :: ls => (x :: l) :: ls
                   end
  end.

(** How floats are printed and read. *)
Record float_format : Type := { show_float : Q -> text; read_float : text -> result Q }.

(** publisher_data.py 157-164: write_publisher_data *)
Definition write_row (F : float_format) (r : row) : text :=
  str_of_int (fst r) ++ [comma] ++ show_float F (snd r) ++ [newline].
Definition write_publisher_data (F : float_format) (p : publisher_data) : text :=
  flat_map (write_row F) (pd_data p).

(** publisher_data.py 187-190: one line. *)
Definition read_row (F : float_format) (line : text) : result row :=
  match split_on comma line with
  | [a; b] => i <- py_int a ;; s <- read_float F b ;; Ok (i, s)
  | _ => Err ValueError
  end.

(** publisher_data.py 183-192: the loop. A bad line stops it with its number and text, which
    is what the message of the RuntimeError says. Other exceptions than ValueError and
    RuntimeError pass. *)
Inductive log_or_error : Type :=
| Log (rows : list row)
| BadLine (number : Z) (line : text)
| OtherException (e : pyerr).
Definition caught (e : pyerr) : bool :=
  match e with ValueError | RuntimeError => true | _ => false end.
Fixpoint read_rows (F : float_format) (number : Z) (ls : list text) (log : list row) : log_or_error :=
  match ls with
  | [] => Log log
  | l :: r => match read_row F l with
              | Ok x => read_rows F (number + 1) r (log ++ [x])
              | Err e => if caught e then BadLine (number + 1) l else OtherException e
              end
  end.
Definition read_log (F : float_format) (content : text) : log_or_error :=
  read_rows F 0 (lines content) [].

(** publisher_data.py 166-193: read_publisher_data *)
Definition read_publisher_data (F : float_format) (random_name : string) (content : text)
  : result publisher_data :=
  match read_log F content with
  | Log rows => mk_publisher random_name rows None
  | BadLine _ _ => Err RuntimeError
  | OtherException e => Err e
  end.

(** publisher_data.py 107-110: the name setter. *)
Definition set_name (p : publisher_data) (name : string) : publisher_data :=
  {| pd_data := pd_data p; pd_spends := pd_spends p; pd_max_spend := pd_max_spend p;
     pd_max_reach := pd_max_reach p; pd_name := name |}.

(** ** Paths and files *)

Definition path : Type := (bool * list string)%type.

(** pathlib.Path(s): components "" and "." are dropped. *)
Definition to_path (s : string) : path :=
  let t := list_ascii_of_string s in
  (match t with c :: _ => Ascii.eqb c slash | [] => false end,
   filter (fun x => negb (String.eqb x "" || String.eqb x "."))
          (map string_of_list_ascii (split_on slash t))).

(** str(path) *)
Definition path_str (p : path) : string :=
  let body := String.concat "/" (snd p) in
  if fst p then String.append "/" body
  else match snd p with [] => "."%string | _ => body end.

(** path.name *)
Definition path_name (p : path) : string := last (snd p) ""%string.

(** filesystem_pathlib_wrapper.py 122-124: joinpath of two paths. *)
Definition path_join (a b : path) : path :=
  if fst b then b else (fst a, snd a ++ snd b).

Fixpoint parts_eqb (a b : list string) : bool :=
  match a, b with
  | [], [] => true
  | x :: a', y :: b' => String.eqb x y && parts_eqb a' b'
  | _, _ => false
  end.
Definition path_eqb (a b : path) : bool := Bool.eqb (fst a) (fst b) && parts_eqb (snd a) (snd b).

Inductive node : Type := Dir | File (content : text).
(** The contents of the disk, apart from the two root directories. *)
Definition disk : Type := list (path * node).

Fixpoint disk_find (d : disk) (p : path) : option node :=
  match d with
  | [] => None
  | (q, n) :: r => if path_eqb p q then Some n else disk_find r p
  end.
Definition stat (d : disk) (p : path) : option node :=
  match snd p with [] => Some Dir | _ => disk_find d p end.
Fixpoint disk_put (d : disk) (p : path) (n : node) : disk :=
  match d with
  | [] => [(p, n)]
  | (q, m) :: r => if path_eqb p q then (q, n) :: r else (q, m) :: disk_put r p n
  end.

Definition parent (p : path) : path := (fst p, removelast (snd p)).

(** Elementary effects on the disk: creating a directory, opening a file for writing (which
    empties it) and writing one more character to it. *)
Inductive op : Type :=
| MkDir (p : path)
| Truncate (p : path)
| Append (p : path) (c : ascii).

(** The operating system: the parent must be a directory, directories cannot be opened. *)
Definition run_op (d : disk) (o : op) : result disk :=
  match o with
  | MkDir p =>
      match stat d (parent p) with
      | Some Dir => match stat d p with
                    | None => Ok (disk_put d p Dir)
                    | Some Dir => Ok d
                    | Some (File _) => Err OtherError
                    end
      | Some (File _) => Err OtherError
      | None => Err FileNotFoundError
      end
  | Truncate p =>
      match stat d (parent p) with
      | Some Dir => match stat d p with
                    | Some Dir => Err OtherError
                    | _ => Ok (disk_put d p (File []))
                    end
      | Some (File _) => Err OtherError
      | None => Err FileNotFoundError
      end
  | Append p c =>
      match stat d p with
      | Some (File t) => Ok (disk_put d p (File (t ++ [c])))
      | _ => Err OtherError
      end
  end.

(** Running a sequence of effects: the outcome, and the disk that is left in any case. *)
Fixpoint run_ops (d : disk) (os : list op) : result unit * disk :=
  match os with
  | [] => (Ok tt, d)
  | o :: r => match run_op d o with
              | Ok d' => run_ops d' r
              | Err e => (Err e, d)
              end
  end.

(** path.mkdir(parents=True, exist_ok=True): all ancestors, from the top. *)
Definition mkdir_ops (p : path) : list op :=
  map (fun n => MkDir (fst p, firstn n (snd p))) (seq 1 (length (snd p))).

(** [with open(path, "w") as file: file.write(content)] *)
Definition write_file_ops (p : path) (content : text) : list op :=
  Truncate p :: map (Append p) content.

(** data_set.py 240-247: write_data_set *)
Definition data_set_dir (parent_dir : string) (dataset_dir : option string) (d : data_set) : path :=
  let dir := match dataset_dir with
             | Some s => if truthy s then s else ds_name d
             | None => ds_name d
             end in
  path_join (to_path parent_dir) (to_path dir).
Definition write_ops (F : float_format) (dir : path) (d : data_set) : list op :=
  mkdir_ops dir ++
  flat_map (fun pdf => write_file_ops (path_join dir (to_path (pd_name pdf)))
                                      (write_publisher_data F pdf)) (ds_data d).
Definition write_data_set (F : float_format) (k : disk) (parent_dir : string)
    (dataset_dir : option string) (d : data_set) : result unit * disk :=
  run_ops k (write_ops F (data_set_dir parent_dir dataset_dir d) d).

(** [sorted] on path strings. *)
Fixpoint insert_path (x : path) (l : list path) : list path :=
  match l with
  | [] => [x]
  | y :: r => if String.leb (path_str x) (path_str y) then x :: y :: r else y :: insert_path x r
  end.
Definition sort_paths (l : list path) : list path := fold_right insert_path [] l.

(** path.glob("*"): the entries of a directory; nothing if there is no such directory. *)
Definition glob (k : disk) (dir : path) : list path :=
  match stat k dir with
  | Some Dir => filter (fun p => match snd p with [] => false | _ => path_eqb (parent p) dir end)
                       (map fst k)
  | _ => []
  end.

(** data_set.py 268-279: the loop over the files. *)
Definition read_file (F : float_format) (p : path) (content : text) : result publisher_data :=
  match read_publisher_data F "" content with
  | Ok pdf => Ok (set_name pdf (path_str p))
  | Err e => Err (if caught e then RuntimeError else e)
  end.
Fixpoint read_files (F : float_format) (k : disk) (ps : list path) : result (list publisher_data) :=
  match ps with
  | [] => Ok []
  | p :: r => match stat k p with
              | Some (File content) =>
                  pdf <- read_file F p content ;;
                  rest <- read_files F k r ;;
                  Ok (pdf :: rest)
              | _ => read_files F k r
              end
  end.

(** data_set.py 249-280: the body of read_data_set. *)
Definition read_data_set (F : float_format) (k : disk) (dirpath : string) : result data_set :=
  let dir := to_path dirpath in
  pubs <- read_files F k (sort_paths (glob k dir)) ;;
  mk_data_set pubs (Some (path_name dir)) None.

(** data_set.py 250: lru_cache(maxsize=128), keyed by the directory name (the class and the
    file system object are fixed here). Most recently used first; exceptions are not kept. *)
Definition cache : Type := list (string * data_set).
Fixpoint cache_find (c : cache) (key : string) : option data_set :=
  match c with
  | [] => None
  | (k, d) :: r => if String.eqb key k then Some d else cache_find r key
  end.
Fixpoint cache_drop (c : cache) (key : string) : cache :=
  match c with
  | [] => []
  | (k, d) :: r => if String.eqb key k then r else (k, d) :: cache_drop r key
  end.
Definition cached_read (F : float_format) (k : disk) (c : cache) (dirpath : string)
  : result data_set * cache :=
  match cache_find c dirpath with
  | Some d => (Ok d, (dirpath, d) :: cache_drop c dirpath)
  | None => match read_data_set F k dirpath with
            | Ok d => (Ok d, firstn 128 ((dirpath, d) :: c))
            | Err e => (Err e, c)
            end
  end.

(** ** DataDesign *)

(** The interpreter's disk and read cache. *)
Record store : Type := { st_disk : disk; st_cache : cache }.

(** data_design.py 42-61: the attributes (the set of names as a list without repetition). *)
Record design : Type := { de_dirpath : string; de_names : list string }.

Definition name_add (l : list string) (x : string) : list string :=
  if existsb (String.eqb x) l then l else l ++ [x].

(** data_design.py 42-61: constructor *)
Definition mk_design (st : store) (dirpath : string) : result design * store :=
  let dir := to_path dirpath in
  let '(r, k) := run_ops (st_disk st) (mkdir_ops dir) in
  let st' := {| st_disk := k; st_cache := st_cache st |} in
  match r with
  | Err e => (Err e, st')
  | Ok _ =>
      let found := filter (fun p => match stat k p with Some Dir => true | _ => false end)
                          (sort_paths (glob k dir)) in
      (Ok {| de_dirpath := dirpath; de_names := fold_left name_add (map path_name found) [] |}, st')
  end.

(** data_design.py 63-71: count and names *)
Definition de_count (d : design) : Z := Z.of_nat (length (de_names d)).
Fixpoint insert_string (x : string) (l : list string) : list string :=
  match l with
  | [] => [x]
  | y :: r => if String.leb x y then x :: y :: r else y :: insert_string x r
  end.
Definition sorted_names (d : design) : list string := fold_right insert_string [] (de_names d).

(** os.path.join(a, b) *)
Definition os_join (a b : string) : string :=
  match b with
  | String c _ =>
      if Ascii.eqb c slash then b
      else match a with
           | EmptyString => b
           | _ => if Ascii.eqb (last (list_ascii_of_string a) slash) slash then String.append a b
                  else String.append a (String.append "/" b)
           end
  | EmptyString =>
      match a with
      | EmptyString => b
      | _ => if Ascii.eqb (last (list_ascii_of_string a) slash) slash then a
             else String.append a "/"
      end
  end.

(** data_design.py 73-75: by_name *)
Definition by_name (F : float_format) (st : store) (d : design) (name : string)
  : result data_set * store :=
  let '(r, c) := cached_read F (st_disk st) (st_cache st) (os_join (de_dirpath d) name) in
  (r, {| st_disk := st_disk st; st_cache := c |}).

(** data_design.py 77-88: add *)
Definition add (F : float_format) (st : store) (d : design) (x : data_set)
  : result design * store :=
  let target := path_join (to_path (de_dirpath d)) (to_path (ds_name x)) in
  match stat (st_disk st) target with
  | Some _ => (Err ValueError, st)
  | None =>
      let '(r, k) := write_data_set F (st_disk st) (de_dirpath d) None x in
      let st' := {| st_disk := k; st_cache := st_cache st |} in
      match r with
      | Err e => (Err e, st')
      | Ok _ => (Ok {| de_dirpath := de_dirpath d; de_names := name_add (de_names d) (ds_name x) |}, st')
      end
  end.
