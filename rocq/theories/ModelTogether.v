(** Several processes that work on the same files of a local disk at the same time.

    ModelDriver.v runs the programs of the driver on a disk that maps paths to contents, which
    is enough if no two processes write to the same file. Here the programs are the same, and
    the disk is one with open files: a name leads to a file, a process that has opened a file
    goes on writing to it where it has got to, whatever others do to the name or to the
    contents meanwhile. Simplifications as in ModelDriver.v: one character is written at a
    time, and a file is read in one step. There are no links, and no process removes
    directories. *)
From Coq Require Import Ascii.
From Verif Require Import Prelude ModelReachPoint ModelAggregator ModelFiles ModelDriver.
Open Scope nat_scope.

(** The names, each of a directory ([None]) or of a file with a number, and the contents of
    the files. A file whose name was removed is still there for those who have it open. *)
Record shared : Type := { sh_names : path -> option (option nat); sh_files : list text }.

(** A disk on which every file has one name. *)
Fixpoint numbered (d : disk) (k : nat) (p : path) : option (option nat) :=
  match d with
  | [] => None
  | (q, n) :: r => if path_eqb p q then Some (match n with Dir => None | File _ => Some k end)
                   else numbered r (S k) p
  end.
Definition share (d : disk) : shared :=
  {| sh_names := numbered d 0; sh_files := map (fun e => match snd e with Dir => [] | File c => c end) d |}.

(** What a process sees when it looks at a path. *)
Definition seen (s : shared) (p : path) : option node :=
  match snd p with
  | [] => Some Dir
  | _ => match sh_names s p with
         | None => None
         | Some None => Some Dir
         | Some (Some i) => Some (File (nth i (sh_files s) []))
         end
  end.

Definition rename (s : shared) (p : path) (x : option (option nat)) : shared :=
  {| sh_names := fun q => if path_eqb q p then x else sh_names s q; sh_files := sh_files s |}.
Definition refill (s : shared) (i : nat) (c : text) : shared :=
  {| sh_names := sh_names s; sh_files := set_nth i c (sh_files s) |}.

(** The file that a process has open: where it was opened, which file it is, and how much has
    been written. *)
Record handle : Type := { h_path : path; h_file : nat; h_offset : nat }.

(** Writing at an offset. If the file is shorter, as it is after another process has emptied
    it, the gap is filled with zero bytes. *)
Definition write_at (c : text) (offset : nat) (x : ascii) : text :=
  firstn offset c ++ repeat zero (offset - length c) ++ x :: skipn (S offset) c.

(** filesystem_pathlib_wrapper.py 61-116 (mkdir, write_text, unlink) on such a disk. open with
    mode "w" empties the file that is there, or makes a new one. *)
Definition shared_effect (s : shared) (h : option handle) (e : effect) : result (shared * option handle) :=
  match e with
  | Plain (MkDir p) =>
      match seen s (parent p) with
      | Some Dir => match seen s p with
                    | None => Ok (rename s p (Some None), h)
                    | Some Dir => Ok (s, h)
                    | Some (File _) => Err OtherError
                    end
      | Some (File _) => Err OtherError
      | None => Err FileNotFoundError
      end
  | Plain (Truncate p) =>
      match seen s (parent p) with
      | Some Dir =>
          match seen s p, sh_names s p with
          | Some Dir, _ => Err OtherError
          | _, Some (Some i) => Ok (refill s i [], Some {| h_path := p; h_file := i; h_offset := 0 |})
          | _, _ => let i := length (sh_files s) in
                    Ok (rename {| sh_names := sh_names s; sh_files := sh_files s ++ [[]] |} p (Some (Some i)),
                        Some {| h_path := p; h_file := i; h_offset := 0 |})
          end
      | Some (File _) => Err OtherError
      | None => Err FileNotFoundError
      end
  | Plain (Append p x) =>
      match h with
      | Some o => if path_eqb p (h_path o)
                  then Ok (refill s (h_file o) (write_at (nth (h_file o) (sh_files s) []) (h_offset o) x),
                           Some {| h_path := p; h_file := h_file o; h_offset := S (h_offset o) |})
                  else Err OtherError
      | None => Err OtherError
      end
  | Unlink p missing_ok =>
      match seen s p with
      | Some (File _) => Ok (rename s p None, h)
      | Some Dir => Err OtherError
      | None => if missing_ok then Ok (s, h) else Err FileNotFoundError
      end
  end.

(** A process: the file it has open, and what it still has to do. One step of it. *)
Definition process (A : Type) : Type := (option handle * prog A)%type.
Definition shared_step {A} (s : shared) (x : process A) : shared * process A :=
  match snd x with
  | Ret a => (s, x)
  | Look q k => (s, (fst x, k (seen s q)))
  | Act e k => match shared_effect s (fst x) e with
               | Ok (s', h') => (s', (h', k (Ok tt)))
               | Err y => (s, (fst x, k (Err y)))
               end
  end.

(** Several processes; the schedule says whose turn it is. *)
Fixpoint shared_run {A} (schedule : list nat) (s : shared) (xs : list (process A)) : shared * list (process A) :=
  match schedule with
  | [] => (s, xs)
  | i :: r => match nth_error xs i with
              | None => shared_run r s xs
              | Some x => let '(s', x') := shared_step s x in shared_run r s' (set_nth i x' xs)
              end
  end.

(** Somebody who evaluates a trial: the trial, the time, and the generators they have. Two
    runs of the driver on the same directories, or a runner that tries a trial twice, make
    several for the same trial. *)
Record runner (L : lab) : Type := { ru_trial : trial; ru_now : text; ru_generators : generators L }.
Arguments ru_trial {L}. Arguments ru_now {L}. Arguments ru_generators {L}.
Definition starts {L} (seed : Z) (rs : list (runner L)) : list (process (result table * generators L)) :=
  map (fun r => (None, evaluate L (ru_trial r) seed (ru_now r) (ru_generators r))) rs.
