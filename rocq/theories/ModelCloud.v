(** Model of src/filesystem_wrappers/filesystem_cloudpath_wrapper.py, and of data_set.py,
    data_design.py and experimental_trial.py when they are given this file system instead of a
    local one.

    cloudpathlib 0.6.0 and Google Cloud Storage are modelled as follows. A bucket holds objects
    under names; a directory is there as long as an object is below it. A file that is opened
    for writing is a local copy, which is uploaded in one step when it is closed. Buckets are
    taken to be there. Simplifications: only gs:// addresses; addresses with empty components,
    "." or ".." are taken in normal form; errors of the network and of the local copies
    (OverwriteNewerCloudError, OverwriteNewerLocalError) are left out. *)
From Coq Require Import String Ascii.
From Verif Require Import Prelude ModelReachPoint ModelData ModelAggregator ModelFiles ModelDriver.
Open Scope Z_scope.

(** ** Addresses *)

(** The address gs://a/b/c is the path /a/b/c; the first component is the bucket. *)
Definition url (p : path) : string := String.append "gs:/" (path_str p).

(** [s.split("://")] at the first place: what is before and what is after. *)
Fixpoint cut_scheme (before t : text) : option (text * text) :=
  match t with
  | [] => None
  | c :: r =>
      match t with
      | ":"%char :: "/"%char :: "/"%char :: after => Some (rev before, after)
      | _ => cut_scheme (c :: before) r
      end
  end.

(** cloudpathlib.CloudPath(s) *)
Definition cloud_path (s : string) : result path :=
  match cut_scheme [] (list_ascii_of_string s) with
  | Some (scheme, rest) =>
      if String.eqb (string_of_list_ascii scheme) "gs"
      then Ok (true, snd (to_path (string_of_list_ascii rest)))
      else Err OtherError
  | None => Err OtherError
  end.

(** filesystem_cloudpath_wrapper.py 147-157: joinpath. Without "://" in the first argument
    there is no [root[1]]; what follows a second "://" is dropped. *)
Definition cloud_joinpath (args : list string) : result string :=
  match args with
  | [] => Ok ""%string
  | a :: rest =>
      match cut_scheme [] (list_ascii_of_string a) with
      | None => Err IndexError
      | Some (scheme, after) =>
          let folder := match cut_scheme [] after with Some (b, _) => b | None => after end in
          if String.eqb (string_of_list_ascii scheme) "gs"
          then Ok (url (fold_left path_join (map to_path rest)
                          (true, snd (to_path (string_of_list_ascii folder)))))
          else Err OtherError
      end
  end.

(** filesystem_cloudpath_wrapper.py 52-58: name and parent *)
Definition cloud_name (s : string) : result string := p <- cloud_path s ;; Ok (path_name p).
Definition cloud_parent (s : string) : result string := p <- cloud_path s ;; Ok (url (parent p)).

(** ** Objects *)

Definition objects : Type := list (path * text).

Fixpoint obj_find (o : objects) (p : path) : option text :=
  match o with
  | [] => None
  | (q, c) :: r => if path_eqb p q then Some c else obj_find r p
  end.
Fixpoint obj_put (o : objects) (p : path) (c : text) : objects :=
  match o with
  | [] => [(p, c)]
  | (q, m) :: r => if path_eqb p q then (q, c) :: r else (q, m) :: obj_put r p c
  end.
Fixpoint obj_remove (o : objects) (p : path) : objects :=
  match o with
  | [] => []
  | (q, c) :: r => if path_eqb p q then obj_remove r p else (q, c) :: obj_remove r p
  end.

(** What is left of [q] after [dir]. *)
Fixpoint after_parts (dir q : list string) : option (list string) :=
  match dir, q with
  | [], _ => Some q
  | x :: dir', y :: q' => if String.eqb x y then after_parts dir' q' else None
  | _, _ => None
  end.
Definition after_dir (dir q : path) : option (list string) :=
  if Bool.eqb (fst dir) (fst q) then after_parts (snd dir) (snd q) else None.
Definition is_below (dir q : path) : bool :=
  match after_dir dir q with Some (_ :: _) => true | _ => false end.

(** filesystem_cloudpath_wrapper.py 126-144: exists, is_dir and is_file; GSClient looks for
    an object of this name first, then for objects below. *)
Definition cloud_stat (o : objects) (p : path) : option node :=
  match snd p with
  | [] | [_] => Some Dir
  | _ => match obj_find o p with
         | Some c => Some (File c)
         | None => if existsb (fun x => is_below p (fst x)) o then Some Dir else None
         end
  end.

(** filesystem_cloudpath_wrapper.py 60-66: glob with the pattern "*". GSClient lists all
    objects below and gives each directory once and each file. *)
Fixpoint list_dir (dir : path) (given : list string) (o : objects) : list path :=
  match o with
  | [] => []
  | (q, _) :: r =>
      match after_dir dir q with
      | Some [x] => (fst dir, snd dir ++ [x]) :: list_dir dir given r
      | Some (x :: _) =>
          if existsb (String.eqb x) given then list_dir dir given r
          else (fst dir, snd dir ++ [x]) :: list_dir dir (x :: given) r
      | _ => list_dir dir given r
      end
  end.
Definition cloud_glob (o : objects) (dir : path) : list path := list_dir dir [] o.

(** filesystem_cloudpath_wrapper.py 68-99: open for writing, write and close; write_text. *)
Definition cloud_write (o : objects) (p : path) (c : text) : result objects :=
  match cloud_stat o p with
  | Some Dir => Err OtherError
  | _ => Ok (obj_put o p c)
  end.

(** ** Data sets *)

(** data_set.py 240-247 on cloud storage; mkdir does nothing
    (filesystem_cloudpath_wrapper.py 101-113). [cloud_writes] are the uploads. *)
Definition cloud_writes (F : float_format) (dir : path) (d : data_set) : list (path * text) :=
  map (fun pdf => (path_join dir (to_path (pd_name pdf)), write_publisher_data F pdf)) (ds_data d).
Fixpoint run_writes (o : objects) (ws : list (path * text)) : result unit * objects :=
  match ws with
  | [] => (Ok tt, o)
  | (p, c) :: r => match cloud_write o p c with
                   | Ok o' => run_writes o' r
                   | Err e => (Err e, o)
                   end
  end.
Definition cloud_write_data_set (F : float_format) (o : objects) (parent_dir : string)
    (dataset_dir : option string) (d : data_set) : result unit * objects :=
  let name := match dataset_dir with
              | Some s => if truthy s then s else ds_name d
              | None => ds_name d
              end in
  match (s <- cloud_joinpath [parent_dir; name] ;; cloud_path s) with
  | Err e => (Err e, o)
  | Ok dir => run_writes o (cloud_writes F dir d)
  end.

(** data_set.py 268-279: the loop over the files. *)
Definition cloud_read_file (F : float_format) (p : path) (content : text) : result publisher_data :=
  match read_publisher_data F "" content with
  | Ok pdf => Ok (set_name pdf (url p))
  | Err e => Err (if caught e then RuntimeError else e)
  end.
Fixpoint cloud_read_files (F : float_format) (o : objects) (ps : list path) : result (list publisher_data) :=
  match ps with
  | [] => Ok []
  | p :: r => match cloud_stat o p with
              | Some (File content) =>
                  pdf <- cloud_read_file F p content ;;
                  rest <- cloud_read_files F o r ;;
                  Ok (pdf :: rest)
              | _ => cloud_read_files F o r
              end
  end.

(** data_set.py 249-280: read_data_set. Addresses are sorted like paths: "gs:/" is in front
    of all of them. *)
Definition cloud_read_data_set (F : float_format) (o : objects) (dirpath : string) : result data_set :=
  dir <- cloud_path dirpath ;;
  pubs <- cloud_read_files F o (sort_paths (cloud_glob o dir)) ;;
  mk_data_set pubs (Some (path_name dir)) None.

(** data_set.py 250: the cache *)
Definition cloud_cached_read (F : float_format) (o : objects) (c : cache) (dirpath : string)
  : result data_set * cache :=
  match cache_find c dirpath with
  | Some d => (Ok d, (dirpath, d) :: cache_drop c dirpath)
  | None => match cloud_read_data_set F o dirpath with
            | Ok d => (Ok d, firstn 128 ((dirpath, d) :: c))
            | Err e => (Err e, c)
            end
  end.

(** ** DataDesign *)

Record cloud_store : Type := { cs_objects : objects; cs_cache : cache }.

(** data_design.py 42-61: constructor *)
Definition cloud_mk_design (o : objects) (dirpath : string) : result design :=
  dir <- cloud_path dirpath ;;
  let found := filter (fun p => match cloud_stat o p with Some Dir => true | _ => false end)
                      (sort_paths (cloud_glob o dir)) in
  Ok {| de_dirpath := dirpath; de_names := fold_left name_add (map path_name found) [] |}.

(** data_design.py 69-71: by_name *)
Definition cloud_by_name (F : float_format) (st : cloud_store) (d : design) (name : string)
  : result data_set * cloud_store :=
  let '(r, c) := cloud_cached_read F (cs_objects st) (cs_cache st) (os_join (de_dirpath d) name) in
  (r, {| cs_objects := cs_objects st; cs_cache := c |}).

(** data_design.py 73-83: add *)
Definition cloud_add (F : float_format) (st : cloud_store) (d : design) (x : data_set)
  : result design * cloud_store :=
  match (s <- cloud_joinpath [de_dirpath d; ds_name x] ;; cloud_path s) with
  | Err e => (Err e, st)
  | Ok target =>
      match cloud_stat (cs_objects st) target with
      | Some _ => (Err ValueError, st)
      | None =>
          let '(r, o) := cloud_write_data_set F (cs_objects st) (de_dirpath d) None x in
          let st' := {| cs_objects := o; cs_cache := cs_cache st |} in
          match r with
          | Err e => (Err e, st')
          | Ok _ => (Ok {| de_dirpath := de_dirpath d; de_names := name_add (de_names d) (ds_name x) |}, st')
          end
      end
  end.

(** ** Programs on cloud storage *)

Inductive cloud_effect : Type :=
| Upload (p : path) (content : text)
| Delete (p : path).
Definition cloud_run (o : objects) (e : cloud_effect) : objects :=
  match e with
  | Upload p c => obj_put o p c
  | Delete p => obj_remove o p
  end.

(** Every request is a step. *)
Inductive cprog (A : Type) : Type :=
| CRet (a : A)
| CLook (p : path) (k : option node -> cprog A)
| CAct (e : cloud_effect) (k : cprog A).
Arguments CRet {A} a. Arguments CLook {A} p k. Arguments CAct {A} e k.

Definition cloud_advance {A} (o : objects) (p : cprog A) : objects * cprog A :=
  match p with
  | CRet a => (o, CRet a)
  | CLook q k => (o, k (cloud_stat o q))
  | CAct e k => (cloud_run o e, k)
  end.
Fixpoint cloud_finish {A} (p : cprog A) (o : objects) : A * objects :=
  match p with
  | CRet a => (a, o)
  | CLook q k => cloud_finish (k (cloud_stat o q)) o
  | CAct e k => cloud_finish k (cloud_run o e)
  end.
Fixpoint cloud_interleave {A} (schedule : list nat) (o : objects) (ps : list (cprog A))
  : objects * list (cprog A) :=
  match schedule with
  | [] => (o, ps)
  | i :: r => match nth_error ps i with
              | None => cloud_interleave r o ps
              | Some p => let '(o', p') := cloud_advance o p in cloud_interleave r o' (set_nth i p' ps)
              end
  end.

(** filesystem_cloudpath_wrapper.py 86-99: write_text. Opening looks whether there is a
    directory; closing uploads. *)
Definition write_object {A} (p : path) (c : text) (k : result unit -> cprog A) : cprog A :=
  CLook p (fun n => match n with
                    | Some Dir => k (Err OtherError)
                    | _ => CAct (Upload p c) (k (Ok tt))
                    end).

(** filesystem_cloudpath_wrapper.py 115-124: unlink. CloudPath.unlink looks whether there is
    a directory; deleting an object that is not there does nothing. *)
Definition unlink_object {A} (p : path) (missing_ok : bool) (k : result unit -> cprog A) : cprog A :=
  CLook p (fun n => match n with
                    | Some _ => CLook p (fun n' => match n' with
                                                   | Some Dir => k (Err OtherError)
                                                   | _ => CAct (Delete p) (k (Ok tt))
                                                   end)
                    | None => k (if missing_ok then Ok tt else Err FileNotFoundError)
                    end).

(** filesystem_cloudpath_wrapper.py 68-84: open for reading, and what pandas makes of it. *)
Definition parse_node (L : lab) (n : option node) : result table :=
  match n with
  | Some (File c) => lab_parse L c
  | Some Dir => Err OtherError
  | None => Err FileNotFoundError
  end.

Section Evaluate.
Variable L : lab.
Notation F := (lab_float L).
Notation answer := (result table * generators L)%type.

(** experimental_trial.py 165-166: the address of the pending marker. *)
Definition cloud_pending (t : trial) : result path :=
  dir <- cloud_parent (tr_experiment_dir t) ;;
  cloud_path (String.append dir (String.append "/pending/" (lab_md5 L (results_path F t)))).

(** experimental_trial.py 162-247 *)
Definition cloud_recompute (t : trial) (seed : Z) (now : text) (g : generators L) (out : path)
  : cprog answer :=
  match cloud_pending t with
  | Err e => CRet (Err e, g)
  | Ok pending =>
      write_object pending (pending_text L t now) (fun r =>
      match r with
      | Err e => CRet (Err e, g)
      | Ok _ =>
          match compute_row L t seed g with
          | (Err e, g') => CRet (Err e, g')
          | (Ok row, g') =>
              write_object out (lab_print L [row]) (fun r =>
              match r with
              | Err e => CRet (Err e, g')
              | Ok _ => unlink_object pending true (fun r =>
                        match r with
                        | Err e => CRet (Err e, g')
                        | Ok _ => CRet (Ok [row], g')
                        end)
              end)
          end
      end)
  end.

(** experimental_trial.py 116-247: evaluate *)
Definition cloud_evaluate (t : trial) (seed : Z) (now : text) (g : generators L) : cprog answer :=
  match cloud_path (results_path F t) with
  | Err e => CRet (Err e, g)
  | Ok out =>
      CLook out (fun n =>
      match n with
      | Some (File _) =>
          CLook out (fun n' =>
          match parse_node L n' with
          | Ok tb => CRet (Ok tb, g)
          | Err _ => unlink_object out false (fun r =>
                     match r with
                     | Err e => CRet (Err e, g)
                     | Ok _ => cloud_recompute t seed now g out
                     end)
          end)
      | _ => cloud_recompute t seed now g out
      end)
  end.

End Evaluate.
