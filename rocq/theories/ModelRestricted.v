(** Model of the random part of src/models/restricted_pairwise_union_reach_surface.py: where
    the starts and permutations of ModelSurface.v come from.

    numpy's process-wide generator has a state of an arbitrary type. Where the code would
    sample for ever, [fuel] runs out and the model answers OtherError, which the code never
    raises. *)
From Verif Require Import Prelude ModelReachPoint ModelCurves ModelSurface.
Open Scope Z_scope.

(** numpy.random.seed(z), numpy.random.rand(n) and numpy.random.permutation(n) *)
Record np_random (G : Type) : Type := {
  np_seed : Z -> G;
  np_rand : nat -> G -> list Q * G;
  np_permutation : nat -> G -> list nat * G }.
Arguments np_seed {G}. Arguments np_rand {G}. Arguments np_permutation {G}.

Section Drawn.
Context {G : Type} (R : np_random G).

(** restricted_pairwise_union_reach_surface.py 344-366: _truncated_uniform_initial_lbd *)
Fixpoint truncated_uniform (fuel : nat) (p : nat) (g : G) : result (list Q * G) :=
  let '(lbd, g1) := np_rand R p g in
  if check_feasibility lbd then Ok (lbd, g1)
  else match fuel with O => Err OtherError | S f => truncated_uniform f p g1 end.

(** [sorted(l)] and [max(l)] of numbers *)
Fixpoint insert_sorted (x : Q) (l : list Q) : list Q :=
  match l with
  | [] => [x]
  | y :: r => if Qleb x y then x :: y :: r else y :: insert_sorted x r
  end.
Definition py_sorted (l : list Q) : list Q := fold_right insert_sorted [] l.
Definition list_max (l : list Q) : Q := match l with [] => 0%Q | x :: r => fold_left Qmax r x end.

(** restricted_pairwise_union_reach_surface.py 397-398: the gaps between the sorted numbers,
    from 0 to 1 *)
Fixpoint gaps (previous : Q) (l : list Q) : list Q :=
  match l with
  | [] => [(1 - previous)%Q]
  | x :: r => (x - previous)%Q :: gaps x r
  end.

(** restricted_pairwise_union_reach_surface.py 368-400: _scaled_from_simplex_initial_lbd.
    [sqrt] is numpy's. numpy refuses a negative size, here for p = 0. *)
Definition scaled_from_simplex (sqrt : Q -> Q) (p : nat) (g : G) : result (list Q * G) :=
  match p with
  | O => Err ValueError
  | S n =>
      let '(u, g1) := np_rand R n g in
      let nu := gaps 0 (py_sorted u) in
      let s_max := (1 / Qmax (sqrt (list_max nu * Qsum nu)) tol)%Q in
      let '(v, g2) := np_rand R 1 g1 in
      x <- py_index v 0 ;;
      Ok (map (Qmult (x * s_max)) nu, g2)
  end.

(** restricted_pairwise_union_reach_surface.py 280-295: _round *)
Definition drawn_round (data : list (Q * (nat -> nat -> Q))) (p : nat) (lbd : list Q) (g : G)
  : result (list Q * G) :=
  let '(perm, g1) := np_permutation R p g in
  lbd' <- round data perm lbd ;;
  Ok (lbd', g1).

(** restricted_pairwise_union_reach_surface.py 307-342: _fit_one_init_lbd *)
Fixpoint drawn_descend (data : list (Q * (nat -> nat -> Q))) (p : nat) (min_improvement : Q)
    (rounds_left : nat) (lbd : list Q) (prev cur : Q) (g : G) : result (list Q * Q * bool * G) :=
  let stop := Ok (lbd, cur, Qleb (prev - min_improvement) cur, g) in
  match rounds_left with
  | O => stop
  | S k =>
      if Qltb cur (prev - min_improvement) then
        '(lbd', g1) <- drawn_round data p lbd g ;;
        drawn_descend data p min_improvement k lbd' cur (loss data lbd') g1
      else stop
  end.
Definition drawn_fit_one (data : list (Q * (nat -> nat -> Q))) (p : nat) (min_improvement : Q)
    (max_num_rounds : nat) (lbd : list Q) (g : G) : result (list Q * Q * bool * G) :=
  let prev := loss data lbd in
  drawn_descend data p min_improvement max_num_rounds lbd prev (prev - 1) g.

(** restricted_pairwise_union_reach_surface.py 438-450: the loop over the starts. *)
Fixpoint drawn_loop (sampler : G -> result (list Q * G)) (data : list (Q * (nat -> nat -> Q))) (p : nat)
    (left : nat) (s : multi_result (list Q)) (g : G) : result (multi_result (list Q) * G) :=
  go <- (if (mr_starts s <? default_min_num_init)%nat then Ok true
         else c <- close_enough default_distance (mr_heap s) ;; Ok (negb c)) ;;
  match go, left with
  | true, S k =>
      '(start, g1) <- sampler g ;;
      '(fit, l, conv, g2) <- drawn_fit_one data p default_min_improvement default_max_num_rounds start g1 ;;
      let better := match mr_fit s with Some (_, best) => Qltb l best | None => true end in
      drawn_loop sampler data p k
        {| mr_fit := if better then Some (fit, l) else mr_fit s;
           mr_last_converge := Some conv;
           mr_heap := heappushpop (mr_heap s) (- l);
           mr_starts := S (mr_starts s) |} g2
  | _, _ => Ok (s, g)
  end.

(** restricted_pairwise_union_reach_surface.py 402-450: _fit_multi_init_lbds. The generator is
    seeded with 0 first ([g] is the state found). *)
Definition drawn_multi (sampler : G -> result (list Q * G)) (data : list (Q * (nat -> nat -> Q))) (p : nat) (g : G)
  : result (list Q * G) :=
  let g := np_seed R 0 in
  '(s, g) <- drawn_loop sampler data p restricted_max_num_init
               {| mr_fit := None; mr_last_converge := None; mr_heap := repeat None default_num_near;
                  mr_starts := 0 |} g ;;
  match mr_last_converge s, mr_fit s with
  | None, _ => Err NameError
  | Some _, None => Err OtherError
  | Some _, Some (lbd, _) => _ <- close_enough default_distance (mr_heap s) ;; Ok (lbd, g)
  end.

(** restricted_pairwise_union_reach_surface.py 80-92: the constructor and _fit with the given
    sampler, from state [g] of the generator: the coefficients [_a], and the state afterwards. *)
Definition drawn_fit (sampler : nat -> G -> result (list Q * G)) (curves : list reach_curve)
    (points : list qpoint) (g : G) : result (list Q * G) :=
  p <- surface_ctor points ;;
  data <- setup_predictor_response p curves points ;;
  '(lbd, g') <- drawn_multi (sampler p) data p g ;;
  Ok (construct_a lbd, g').

End Drawn.
