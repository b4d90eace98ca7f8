(** Vocabulary for sessions with a planner: any sequence of calls of its methods. *)
From Verif Require Import Prelude ModelReachPoint ModelPrivacy SpecPrivacy ModelHalo SpecHalo ModelPlanner.
Open Scope Z_scope.

Inductive planner_call : Type :=
| Fit (b : budget)
| AskTruth (spends : list Q) (m : Z)
| AskModel (spends : list Q) (m : Z).
Inductive planner_answer (P : Type) : Type :=
| Fitted (r : result unit)
| Truth (r : result (reach_point Z Z))
| Modeled (r : result P).
Arguments Fitted {P}. Arguments Truth {P}. Arguments Modeled {P}.

(** One call, and a sequence of calls: the answers, and the planner and the world afterwards. *)
Definition planner_step {X} {S : planner_strategy X} (pl : planner S) (w : world X) (c : planner_call)
  : planner_answer (ps_point S) * planner S * world X :=
  match c with
  | Fit b => let '(r, pl', w') := fit_model pl b w in (Fitted r, pl', w')
  | AskTruth s m => (Truth (planner_true_reach pl s m), pl, w)
  | AskModel s m => (Modeled (planner_modeled_reach pl s m), pl, w)
  end.
Fixpoint session {X} {S : planner_strategy X} (pl : planner S) (w : world X) (cs : list planner_call)
  : list (planner_answer (ps_point S)) * planner S * world X :=
  match cs with
  | [] => ([], pl, w)
  | c :: r => let '(a, pl', w') := planner_step pl w c in
              let '(l, pl'', w'') := session pl' w' r in (a :: l, pl'', w'')
  end.

Definition is_fit (c : planner_call) : Prop := match c with Fit _ => True | _ => False end.
Definition no_fit (cs : list planner_call) : Prop := forall c, In c cs -> ~ is_fit c.

(** The budgets given to the fits, added up. *)
Definition granted (sel : budget -> Q) (cs : list planner_call) : Q :=
  Qsum (map (fun c => match c with Fit b => sel b | _ => 0%Q end) cs).
Definition sensible_calls (cs : list planner_call) : Prop :=
  forall b, In (Fit b) cs -> sensible_budget b.
