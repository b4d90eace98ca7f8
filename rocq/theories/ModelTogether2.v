(** Several processes that each evaluate a list of trials, on the disk of ModelTogether.v. *)
From Coq Require Import Ascii.
From Verif Require Import Prelude ModelReachPoint ModelAggregator ModelFiles ModelDriver ModelTogether.

(** experimental_design.py 203-206 (one core): a process that evaluates trials one after the
    other, with the times it sees and the generators it has at first. Several runs of the
    driver on the same directories are several of them. Simplification: what a run does after
    that, which is to write its own output file, is not part of it. *)
Record session (L : lab) : Type := {
  se_trials : list trial; se_nows : nat -> text; se_generators : generators L }.
Arguments se_trials {L}. Arguments se_nows {L}. Arguments se_generators {L}.
Definition session_starts {L} (seed : Z) (es : list (session L)) : list (process (result (list table) * generators L)) :=
  map (fun e => (None, evaluate_all L (se_trials e) seed (se_nows e) (se_generators e))) es.
