(** Independent vocabulary for the generators: what is assumed of numpy's random generator
    and of Python's sets, and what the generated lists should contain. *)
From Coq Require Import String Qround Permutation.
From Verif Require Import Prelude ModelReachPoint ModelData SpecData ModelGenerators.
Open Scope Z_scope.

(** What numpy documents: Poisson draws are at least 0, zeta draws at least 1, and shuffling
    permutes the list. *)
Record numpy_behaves {St} (rng : numpy_rng St) : Prop := {
  nb_poisson : forall lambda st x st', rng_poisson rng lambda st = Ok (x, st') -> 0 <= x;
  nb_zipf : forall s st x st', rng_zipf rng s st = Ok (x, st') -> 1 <= x;
  nb_shuffle : forall l st, Permutation (fst (rng_shuffle rng l st)) l
}.

(** No draw raises. *)
Record numpy_total {St} (rng : numpy_rng St) : Prop := {
  nt_poisson : forall lambda st, exists x st', rng_poisson rng lambda st = Ok (x, st');
  nt_gamma : forall a b st, exists x st', rng_gamma rng a b st = Ok (x, st');
  nt_zipf : forall s st, exists x st', rng_zipf rng s st = Ok (x, st')
}.

(** Iterating over a Python set made from a list visits every distinct element once, in some
    order. *)
Definition visits_each_once (set_order : list Z -> list Z) : Prop :=
  forall l, NoDup (set_order l) /\ forall u, In u (set_order l) <-> In u l.

(** How often [u] is shown in a list of user ids. *)
Definition times_shown (u : Z) (ids : list Z) : Z :=
  Z.of_nat (List.length (filter (Z.eqb u) ids)).

(** [draws] are the values returned by successive calls of [draw] that start in state [st]
    and leave the state [st']. *)
Inductive successive {St A} (draw : St -> result (A * St)) : St -> list A -> St -> Prop :=
| successive_nil st : successive draw st [] st
| successive_cons st x st1 xs st2 :
    draw st = Ok (x, st1) -> successive draw st1 xs st2 -> successive draw st (x :: xs) st2.

(** The users of a publisher with the given log. *)
Definition is_user (log : list row) (u : Z) : Prop := exists q, In (u, q) log.

(** The planned size of the [k]-th publisher: start with the largest and multiply by the
    rate, rounding down each time. *)
Fixpoint planned_size (largest : Z) (rate : Q) (k : nat) : Z :=
  match k with
  | O => largest
  | S k' => Qfloor (inject_Z (planned_size largest rate k') * rate)
  end.

Fixpoint Qpow (x : Q) (k : nat) : Q :=
  match k with O => 1%Q | S k' => (x * Qpow x k')%Q end.

(** Publisher [p'] with log [log'] is publisher [p] with log [log] after its users were given
    the names in [labels]: its users are the labels, and nothing that does not mention user
    names has changed. *)
Record relabelled (log : list row) (p : publisher_data) (labels : list Z)
    (log' : list row) (p' : publisher_data) : Prop := {
  rl_publisher : is_publisher_of log' p';
  rl_users : forall v, is_user log' v <-> In v labels;
  rl_histogram_by_spend : forall s k n, 1 <= k ->
    card_is (fun u => k <= seen_at_spend u log s) n ->
    card_is (fun v => k <= seen_at_spend v log' s) n;
  rl_histogram_by_impressions : forall j k n, 0 <= j -> 1 <= k ->
    card_is (fun u => k <= seen_at_impressions u log j) n ->
    card_is (fun v => k <= seen_at_impressions v log' j) n;
  rl_spend_by_impressions : forall n, spend_by_impressions p' n = spend_by_impressions p n;
  rl_impressions_by_spend : forall s, impressions_by_spend p' s = bought_at_spend log s;
  rl_max_spend : (pd_max_spend p' == pd_max_spend p)%Q;
  rl_max_impressions : max_impressions p' = max_impressions p;
  rl_max_reach : pd_max_reach p' = pd_max_reach p;
  rl_name : pd_name p <> ""%string -> pd_name p' = pd_name p
}.
