(** Vocabulary for lines of a shell that start a program with flags of absl. *)
From Coq Require Import String Ascii.
From Verif Require Import Prelude ModelData ModelFiles SpecFiles ModelDriver ModelDesigns SpecDesigns ModelShell.
Open Scope Z_scope.
Local Open Scope string_scope.

(** ** Values *)

(** Digits of a base up to 16, and numerals with single underscores between digits. *)
Inductive letter_is : ascii -> Z -> Prop :=
| la : letter_is "a" 10 | lb : letter_is "b" 11 | lc : letter_is "c" 12
| ld : letter_is "d" 13 | le : letter_is "e" 14 | lf : letter_is "f" 15
| lA : letter_is "A" 10 | lB : letter_is "B" 11 | lC : letter_is "C" 12
| lD : letter_is "D" 13 | lE : letter_is "E" 14 | lF : letter_is "F" 15.
Definition base_digit (b : Z) (c : ascii) (v : Z) : Prop := (digit_is c v \/ letter_is c v) /\ v < b.
Inductive base_numeral (b : Z) : text -> Z -> Prop :=
| bn_one : forall c v, base_digit b c v -> base_numeral b [c] v
| bn_more : forall s n c v, base_numeral b s n -> base_digit b c v -> base_numeral b (s ++ [c])%list (b * n + v)
| bn_underscore : forall s n c v, base_numeral b s n -> base_digit b c v -> base_numeral b (s ++ ["_"%char; c])%list (b * n + v).

(** Integers: as in Python, or in base 8 after 0o or in base 16 after 0x, without a sign. *)
Definition flag_integer (s : text) (z : Z) : Prop :=
  int_literal s z \/
  exists p b u body after, s = (chars p ++ u ++ body ++ after)%list /\ (p = "0o" /\ b = 8 \/ p = "0x" /\ b = 16) /\
    (u = [] \/ u = ["_"%char]) /\ base_numeral b body z /\ Forall white after.

(** Words in small letters, capital letters or both. *)
Definition letter_like (x y : ascii) : Prop :=
  x = y \/ ((97 <= nat_of_ascii y <= 122)%nat /\ (nat_of_ascii x + 32 = nat_of_ascii y)%nat).
Definition reads_like (s : text) (w : string) : Prop := Forall2 letter_like s (chars w).
Definition flag_boolean (s : text) (b : bool) : Prop :=
  exists w, reads_like s w /\ In (w, b) [("true", true); ("t", true); ("1", true); ("false", false); ("f", false); ("0", false)].

Definition denotes (k : flag_kind) (s : string) (v : flag_value) : Prop :=
  match k, v with
  | TextFlag, FText t => t = s
  | IntegerFlag, FInteger z => flag_integer (chars s) z
  | BooleanFlag, FBoolean b => flag_boolean (chars s) b
  | _, _ => False
  end.

(** ** Lines *)

(** One dash is as good as two. A flag with its value, as one argument or as two; a flag for
    yes or no without a value. *)
Definition dashes (two : bool) : string := if two then "--" else "-".
Inductive flag_item : Type :=
| Joined (two : bool) (n v : string)
| Apart (two : bool) (n v : string)
| Switch (two : bool) (n : string) (on : bool).
Definition flag_text (i : flag_item) : list string :=
  match i with
  | Joined two n v => [dashes two ++ n ++ "=" ++ v]
  | Apart two n v => [dashes two ++ n; v]
  | Switch two n true => [dashes two ++ n]
  | Switch two n false => [dashes two ++ "no" ++ n]
  end.
Definition flag_line (items : list flag_item) : list string := flat_map flag_text items.

(** The arguments that end the flags. *)
Definition not_a_flag (w : string) : Prop :=
  (forall r, w <> "-" ++ r) \/ w = "-" \/ exists v, w = "-=" ++ v \/ w = "--=" ++ v.
Definition remains (tail rest : list string) : Prop :=
  (tail = [] /\ rest = []) \/ tail = "--" :: rest \/ exists w r, tail = w :: r /\ rest = w :: r /\ not_a_flag w.

(** Names that flags can have. *)
Definition flag_name (n : string) : Prop := n <> "" /\ ~ In "="%char (chars n) /\ (forall r, n <> "-" ++ r).

(** An argument that uses the flag [n]. *)
Definition uses (n : string) (a : string) : Prop :=
  exists two no, (no = "" \/ no = "no") /\ (a = dashes two ++ no ++ n \/ exists v, a = dashes two ++ no ++ n ++ "=" ++ v).

Section Lines.
Variable flag : string -> flag_kind -> Prop.
Variable library : string -> bool.

(** The item sets the flag [n] to [v]. *)
Definition sets (i : flag_item) (nv : string * flag_value) : Prop :=
  match i with
  | Joined _ n s => n = fst nv /\ exists k, flag n k /\ denotes k s (snd nv)
  | Apart _ n s => n = fst nv /\ exists k, flag n k /\ k <> BooleanFlag /\ denotes k s (snd nv)
  | Switch _ n true => n = fst nv /\ flag n BooleanFlag /\ snd nv = FBoolean true
  | Switch _ n false => n = fst nv /\ flag n BooleanFlag /\ snd nv = FBoolean false /\
      (forall k, ~ flag ("no" ++ n) k) /\ library ("no" ++ n) = false
  end.

(** An argument with a name that no flag has. *)
Definition unknown_flag (a : string) : Prop :=
  exists two n, flag_name n /\ (a = dashes two ++ n \/ exists v, a = dashes two ++ n ++ "=" ++ v) /\
    (forall k, ~ flag n k) /\ forall m, n = "no" ++ m -> ~ flag m BooleanFlag.
End Lines.

(** An argument that brings in flags that are in a file, or that absl defines for itself. *)
Definition flag_file (a : string) : Prop :=
  exists two, a = dashes two ++ "flagfile" \/ exists v, a = dashes two ++ "flagfile=" ++ v.
Definition for_absl (library : string -> bool) (a : string) : Prop :=
  flag_file a \/ exists n, library n = true /\ uses n a.

(** The value of a flag is the last one it was set to. *)
Definition last_set (got : list (string * flag_value)) (n : string) (v : flag_value) : Prop :=
  exists before after, got = (before ++ (n, v) :: after)%list /\ ~ In n (map fst after).
Definition set_to_or (got : list (string * flag_value)) (n : string) (v default : flag_value) : Prop :=
  last_set got n v \/ (~ In n (map fst got) /\ v = default).

(** What the flags of the generator of data designs say. *)
Record request : Type := { rq_dir : option string; rq_config : option string; rq_seed : Z; rq_verbose : bool }.
Definition says_text (got : list (string * flag_value)) (n : string) (o : option string) : Prop :=
  match o with Some s => last_set got n (FText s) | None => ~ In n (map fst got) end.
Definition requests (got : list (string * flag_value)) (q : request) : Prop :=
  says_text got "output_dir" (rq_dir q) /\ says_text got "data_design_config" (rq_config q) /\
  set_to_or got "random_seed" (FInteger (rq_seed q)) (FInteger 1) /\
  set_to_or got "verbose" (FBoolean (rq_verbose q)) (FBoolean true).

(** The four flags of the generator. *)
Inductive generator_flag : string -> flag_kind -> Prop :=
| gf_dir : generator_flag "output_dir" TextFlag
| gf_config : generator_flag "data_design_config" TextFlag
| gf_seed : generator_flag "random_seed" IntegerFlag
| gf_verbose : generator_flag "verbose" BooleanFlag.

(** The line [args] asks the generator for [q]. *)
Definition asks_for (library : string -> bool) (args : list string) (q : request) : Prop :=
  exists items tail rest got, args = (flag_line items ++ tail)%list /\ remains tail rest /\
    Forall2 (sets generator_flag library) items got /\ requests got q /\ (forall a, In a args -> ~ flag_file a).
