(** C55, continued: names of curves that there are none of. *)
From Coq Require Import String.
From Verif Require Import Prelude ModelReachPoint ModelData ModelDriver ModelCurves ModelStack StackLemmas.
Open Scope Z_scope.

(** A name that is none of the three raises KeyError, whatever the arguments. *)
Theorem C55_unknown_curve : forall T name kw p,
  ~ In name ["goerg"; "gamma_poisson"; "kinflated_gamma_poisson"]%string -> fit_named T name kw p = Err KeyError.
Proof.
  intros T name kw p H. unfold fit_named.
  destruct (String.eqb_spec name "goerg") as [->|_]; [contradiction H; cbn; auto|].
  destruct (String.eqb_spec name "gamma_poisson") as [->|_]; [contradiction H; cbn; auto|].
  destruct (String.eqb_spec name "kinflated_gamma_poisson") as [->|_]; [contradiction H; cbn; auto|]. reflexivity.
Qed.
Print Assumptions C55_unknown_curve.

(** An argument that a curve does not have raises TypeError. *)
Theorem C55_unknown_argument : forall T name kw p k v, In (k, v) kw ->
  (name = "goerg"%string \/ (name = "gamma_poisson"%string /\ ~ In k ["max_reach"; "extrapolation_multiplier"]%string) \/
   (name = "kinflated_gamma_poisson"%string /\ ~ In k ["kmax"; "debug"; "extrapolation_multiplier"]%string)) ->
  fit_named T name kw p = Err TypeError.
Proof.
  intros T name kw p k v Hk.
  assert (A : forall names, ~ In k names -> accepts names kw = Err TypeError).
  { intros names N. unfold accepts. destruct (forallb _ kw) eqn:F; [|reflexivity]. contradiction N.
    rewrite forallb_forall in F. specialize (F _ Hk). cbn [fst] in F. unfold known in F.
    apply existsb_exists in F. destruct F as [x [Hx E]]. apply String.eqb_eq in E. subst x. exact Hx. }
  intros [->|[[-> N]|[-> N]]]; unfold fit_named; cbn [String.eqb Ascii.eqb Bool.eqb]; rewrite A; try reflexivity; try exact N.
  intros [].
Qed.
Print Assumptions C55_unknown_argument.

Example C55_unknown_example : forall T p, fit_named T "Goerg" [("kmax"%string, VNum (PInt 3))] p = Err KeyError /\
  fit_named T "gamma_poisson" [("kmax"%string, VNum (PInt 3))] p = Err TypeError.
Proof. split; reflexivity. Qed.
