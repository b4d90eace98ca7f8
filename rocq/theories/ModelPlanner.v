(** Model of src/simulator/planner_simulator.py. *)
From Verif Require Import Prelude ModelReachPoint ModelData ModelPrivacy ModelHalo.
Open Scope Z_scope.

(** modeling_strategy.py 31-59 and the [by_spend] of what [fit] returns: the strategy given to
    the planner. The system parameters are part of the strategy and the simulator. *)
Record planner_strategy (X : externals) : Type := {
  ps_model : Type;
  ps_point : Type;
  ps_fit : halo -> budget -> M X ps_model;
  ps_by_spend : ps_model -> list Q -> Z -> result ps_point
}.
Arguments ps_model {X}. Arguments ps_point {X}. Arguments ps_fit {X}. Arguments ps_by_spend {X}.

(** planner_simulator.py 52-55: the attributes; [_model] is set by the first fit. *)
Record planner {X} (S : planner_strategy X) : Type := {
  pl_halo : halo; pl_model : option (ps_model S) }.
Arguments pl_halo {X S}. Arguments pl_model {X S}.

(** planner_simulator.py 36-55: constructor *)
Definition mk_planner {X} (S : planner_strategy X) (h : halo) : planner S :=
  {| pl_halo := h; pl_model := None |}.

(** planner_simulator.py 57-63: fit_model. If the strategy raises, the assignment does not
    happen. *)
Definition fit_model {X} {S : planner_strategy X} (pl : planner S) (b : budget) (w : world X)
  : result unit * planner S * world X :=
  match ps_fit S (pl_halo pl) b w with
  | (Ok m, w') => (Ok tt, {| pl_halo := pl_halo pl; pl_model := Some m |}, w')
  | (Err e, w') => (Err e, pl, w')
  end.

(** planner_simulator.py 65-79: true_reach_by_spend *)
Definition planner_true_reach {X} {S : planner_strategy X} (pl : planner S) (spends : list Q) (m : Z)
  : result (reach_point Z Z) := true_reach_by_spend (pl_halo pl) spends m.

(** planner_simulator.py 81-95: modeled_reach_by_spend. Before a fit the attribute does not
    exist (AttributeError). *)
Definition planner_modeled_reach {X} {S : planner_strategy X} (pl : planner S) (spends : list Q) (m : Z)
  : result (ps_point S) :=
  match pl_model pl with
  | None => Err OtherError
  | Some mo => ps_by_spend S mo spends m
  end.
