(** Vocabulary for processes that evaluate the same trials at the same time. *)
From Coq Require Import String Ascii.
From Verif Require Import Prelude ModelReachPoint ModelAggregator ModelFiles SpecFiles ModelDriver SpecDriver ModelTogether.
Open Scope Z_scope.

(** Every file has at most one name, and what has a name is in a directory. *)
Definition sound (s : shared) : Prop :=
  (exists homes, length homes = length (sh_files s) /\
     forall p i, sh_names s p = Some (Some i) -> nth_error homes i = Some p) /\
  (forall p, seen s p <> None -> seen s (parent p) = Some Dir).

(** As [usable], [only_adds_directories], [has_result] and [no_result] in SpecDriver.v. *)
Definition ready (L : lab) (ts : list trial) (s : shared) : Prop :=
  sound s /\
  forall t, In t ts ->
    (forall q c, directory_of L t q -> seen s q <> Some (File c)) /\
    seen s (out_of L t) <> Some Dir /\ seen s (pending_path L t) <> Some Dir.
Definition adds_only_directories (L : lab) (ts : list trial) (s s' : shared) : Prop :=
  forall q, seen s' q <> seen s q ->
    (exists t, In t ts /\ (q = out_of L t \/ q = pending_path L t)) \/
    (seen s q = None /\ seen s' q = Some Dir /\ exists t, In t ts /\ directory_of L t q).
Definition readable (L : lab) (t : trial) (s : shared) (tb : table) : Prop :=
  exists c, seen s (out_of L t) = Some (File c) /\ lab_parse L c = Ok tb.
Definition unreadable (L : lab) (t : trial) (s : shared) : Prop := forall tb, ~ readable L t s tb.

(** [c] is what [whole] may look like while several processes write it: it is not longer, and
    each character is that of [whole] or a zero byte. *)
Definition patchy (c whole : text) : Prop :=
  (length c <= length whole)%nat /\
  forall k x, nth_error c k = Some x -> nth_error whole k = Some x \/ x = zero.
(** The reader refuses such a file unless it is complete. *)
Definition refuses_patches (L : lab) (tb : table) : Prop :=
  forall c tb', patchy c (lab_print L tb) -> c <> lab_print L tb -> lab_parse L c <> Ok tb'.

(** All runners come to the same row for a trial. *)
Definition agreed (L : lab) (seed : Z) (ts : list trial) (rows : trial -> list (string * cell)) (rs : list (runner L)) : Prop :=
  forall r, In r rs -> In (ru_trial r) ts /\
    fst (compute_row L (ru_trial r) seed (ru_generators r)) = Ok (rows (ru_trial r)).

Definition answered {A} (xs : list (process A)) (i : nat) (a : A) : Prop :=
  exists h, nth_error xs i = Some (h, Ret a).
Definition all_ended {A} (xs : list (process A)) : Prop :=
  forall i x, nth_error xs i = Some x -> exists a, snd x = Ret a.

(** [i] is one of several runners of the trial [t]. *)
Definition runner_of {L} (rs : list (runner L)) (t : trial) (i : nat) : Prop :=
  exists r, nth_error rs i = Some r /\ ru_trial r = t.
Definition two_runners {L} (rs : list (runner L)) (t : trial) : Prop :=
  exists i j, runner_of rs t i /\ runner_of rs t j /\ i <> j.
Definition three_runners {L} (rs : list (runner L)) (t : trial) : Prop :=
  exists i j k, runner_of rs t i /\ runner_of rs t j /\ runner_of rs t k /\ i <> j /\ i <> k /\ j <> k.

(** Batches of runners one after the other, each stopped when its schedule is at its end, at
    whatever point its runners are. *)
Definition batch (L : lab) : Type := (list (runner L) * list nat)%type.
Definition after_batches {L} (seed : Z) (s : shared) (l : list (batch L)) : shared :=
  fold_left (fun s b => fst (shared_run (snd b) s (starts seed (fst b)))) l s.
