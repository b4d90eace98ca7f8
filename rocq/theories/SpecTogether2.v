(** Vocabulary for processes that each evaluate a list of trials at the same time. *)
From Coq Require Import String Ascii.
From Verif Require Import Prelude ModelReachPoint ModelAggregator ModelFiles SpecFiles ModelDriver SpecDriver ModelTogether SpecTogether
  ModelTogether2.

(** No session has a trial twice; each would compute the row [rows t] for its trials, whatever
    others of its trials it has computed before. *)
Definition in_step (L : lab) (seed : Z) (ts : list trial) (rows : trial -> list (string * cell)) (es : list (session L)) : Prop :=
  forall e, In e es -> NoDup (se_trials e) /\ unaffected L seed (se_generators e) (se_trials e) /\
    forall t, In t (se_trials e) -> In t ts /\ fst (compute_row L t seed (se_generators e)) = Ok (rows t).

Definition session_with {L} (es : list (session L)) (t : trial) (i : nat) : Prop :=
  exists e, nth_error es i = Some e /\ In t (se_trials e).
Definition two_sessions {L} (es : list (session L)) (t : trial) : Prop :=
  exists i j, session_with es t i /\ session_with es t j /\ i <> j.
Definition three_sessions {L} (es : list (session L)) (t : trial) : Prop :=
  exists i j k, session_with es t i /\ session_with es t j /\ session_with es t k /\ i <> j /\ i <> k /\ j <> k.

(** The table that a session should have for a trial. *)
Definition right_table (L : lab) (rows : trial -> list (string * cell)) (s : shared) (t : trial) (tb : table) : Prop :=
  readable L t s tb \/ (unreadable L t s /\ tb = [rows t]).
(** If others may be found with what they have written so far. *)
Definition possible_table (L : lab) (rows : trial -> list (string * cell)) (s : shared) (t : trial) (tb : table) : Prop :=
  right_table L rows s t tb \/
  (unreadable L t s /\ exists c, patchy c (lab_print L [rows t]) /\ lab_parse L c = Ok tb).

(** Groups of sessions one after the other, each stopped when its schedule is at its end, at
    whatever point its sessions are. *)
Definition group (L : lab) : Type := (list (session L) * list nat)%type.
Definition after_groups {L} (seed : Z) (s : shared) (l : list (group L)) : shared :=
  fold_left (fun s b => fst (shared_run (snd b) s (session_starts seed (fst b)))) l s.
