(** Model of src/models/reach_surface.py, pairwise_union_reach_surface.py,
    restricted_pairwise_union_reach_surface.py and generalized_mixture_reach_surface.py.

    numpy vectors are lists of rationals; a numpy matrix that is only indexed is its entry
    function. Where numpy would produce nan or inf from a division by zero, the model stops
    with OtherError. The quadratic programming solver (cvxopt) and numpy's random generator
    are parameters. *)
From Verif Require Import Prelude ModelReachPoint ModelCurves.
Open Scope Z_scope.

(** A single publisher reach curve as the surfaces use it. *)
Record reach_curve : Type := {
  c_reach : Q -> result Q;                  (* by_impressions([x]).reach() *)
  c_max_reach : Q;                          (* max_reach *)
  c_impressions_for_spend : Q -> result Q   (* impressions_for_spend(s) *)
}.

(** Sum of [f i] for i in range(n), and l[i] for an index within range. *)
Definition sumn (n : nat) (f : nat -> Q) : Q := Qsum (map f (seq 0 n)).
Definition ent (l : list Q) (i : nat) : Q := nth i l 0%Q.

(** reach_surface.py 67-81 and pairwise_union_reach_surface.py 74-88: get_reach_vector *)
Definition get_reach_vector (curves : list reach_curve) (imps : list Q) : result (list Q) :=
  mapM (fun ci => c_reach (fst ci) (snd ci)) (combine curves imps).

(** reach_surface.py 53-60: by_spend, for a surface with the given by_impressions. *)
Definition surface_by_spend (curves : list reach_curve) (by_impressions : list Q -> result qpoint)
    (spend : list Q) : result qpoint :=
  imps <- mapM (fun cs => c_impressions_for_spend (fst cs) (snd cs)) (combine curves spend) ;;
  by_impressions imps.

(** pairwise_union_reach_surface.py 64-68 and generalized_mixture_reach_surface.py 78-88:
    the number of publishers; an empty list raises IndexError before the checks of the base
    class. *)
Definition surface_ctor (points : list qpoint) : result nat :=
  p0 <- py_index points 0 ;;
  _ <- surface_init points ;;
  Ok (length (rp_impressions p0)).

(** ** Pairwise union *)

(** One term of the sums on lines 96-107 and 232-243, without the coefficient. *)
Definition pair_term (curves : list reach_curve) (rv : list Q) (i j : Z) : result Q :=
  ri <- py_index rv i ;;
  rj <- py_index rv j ;;
  ci <- py_index curves i ;;
  cj <- py_index curves j ;;
  let d := (Qmax (c_max_reach ci) (c_max_reach cj) * 2)%Q in
  if Qeqb d 0 then Err OtherError else Ok ((ri * rj) / d)%Q.

(** [for i in range(p) for j in range(p)] *)
Definition index_pairs (p : nat) : list (Z * Z) :=
  list_prod (py_range 0 (Z.of_nat p)) (py_range 0 (Z.of_nat p)).

(** pairwise_union_reach_surface.py 90-110: by_impressions; max_frequency is ignored. The
    code divides a * r_i * r_j, the model multiplies a by the quotient (same value). *)
Definition pairwise_by_impressions (p : nat) (a : list Q) (curves : list reach_curve)
    (imps : list Q) (m : Z) : result qpoint :=
  rv <- get_reach_vector curves imps ;;
  terms <- mapM (fun ij => aij <- py_index a (fst ij * Z.of_nat p + snd ij) ;;
                           t <- pair_term curves rv (fst ij) (snd ij) ;;
                           Ok (aij * t)%Q) (index_pairs p) ;;
  mk_reach_point Qops imps [(Qsum rv - Qsum terms)%Q] None None.

(** np.eye(n) and np.kron of two matrices (a vector is a matrix of one row). *)
Definition eye (n : nat) : list (list Q) :=
  map (fun i => map (fun j => if Nat.eqb i j then 1%Q else 0%Q) (seq 0 n)) (seq 0 n).
Definition kron (A B : list (list Q)) : list (list Q) :=
  flat_map (fun arow => map (fun brow => flat_map (fun x => map (Qmult x) brow) arow) B) A.
Definition ones (n : nat) : list Q := repeat 1%Q n.
Definition zeros (n : nat) : list Q := repeat 0%Q n.

(** pairwise_union_reach_surface.py 112-133: _get_inequality_constraints, as rows (G, h). *)
Definition inequality_constraints (p : nat) : list (list Q * Q) :=
  combine (map (map Qopp) (eye (p * p)) ++ kron (eye p) [ones p] ++ kron [ones p] (eye p))
          (zeros (p * p) ++ ones (2 * p)).

(** A row of zeros except for the listed positions. *)
Definition sparse_row (n : nat) (entries : list (nat * Q)) : list Q :=
  map (fun u => match find (fun e => Nat.eqb (fst e) u) entries with
                | Some e => snd e | None => 0%Q end) (seq 0 n).

(** pairwise_union_reach_surface.py 135-166: _get_equality_constraints, as rows (A, b). The
    symmetry rows are written in the order of the loops. *)
Definition equality_constraints (p : nat) : list (list Q * Q) :=
  map (fun row => (row, 0%Q))
    (map (fun i => sparse_row (p * p) [((i * p + i)%nat, 1%Q)]) (seq 0 p) ++
     flat_map (fun i => map (fun j => sparse_row (p * p)
                               [((i * p + j)%nat, 1%Q); ((j * p + i)%nat, (-1)%Q)])
                            (seq (i + 1) (p - (i + 1)))) (seq 0 p)).

(** A quadratic program: minimise (1/2) x'Px + q'x subject to Gx <= h and Ax = b. *)
Record qp : Type := {
  qp_P : nat -> nat -> Q; qp_q : nat -> Q;
  qp_ineq : list (list Q * Q); qp_eq : list (list Q * Q) }.

(** pairwise_union_reach_surface.py 221-252: _get_z_and_alpha, for one training point. *)
Definition z_and_alpha (p : nat) (curves : list reach_curve) (pt : qpoint)
  : result (list Q * Q) :=
  rv <- get_reach_vector curves (rp_impressions pt) ;;
  z <- mapM (fun ij => t <- pair_term curves rv (fst ij) (snd ij) ;; Ok (- t)%Q) (index_pairs p) ;;
  Ok (z, Qsum rv).

(** pairwise_union_reach_surface.py 197-216: the quadratic program that is solved. *)
Definition pairwise_qp (p : nat) (zs : list (list Q)) (residuals : list Q) : qp :=
  {| qp_P := fun u v => Qsum (map (fun z => (ent z u * ent z v)%Q) zs);
     qp_q := fun u => (- Qsum (map (fun zr => (snd zr * ent (fst zr) u)%Q) (combine zs residuals)))%Q;
     qp_ineq := inequality_constraints p;
     qp_eq := equality_constraints p |}.

(** pairwise_union_reach_surface.py 70-72, 168-219: _fit, returning the coefficients. *)
Definition pairwise_fit (solver : qp -> result (list Q)) (curves : list reach_curve)
    (points : list qpoint) : result (list Q) :=
  p <- surface_ctor points ;;
  za <- mapM (z_and_alpha p curves) points ;;
  ys <- mapM (fun pt => reach pt 1) points ;;
  solver (pairwise_qp p (map fst za) (map (fun ya => (fst ya - snd (snd ya))%Q) (combine ys za))).

(** ** Restricted pairwise union *)

(** restricted_pairwise_union_reach_surface.py 182-203: _construct_D_from_r_and_m *)
Definition construct_D (r m : list Q) (i j : nat) : Q :=
  (ent r i * ent r j / 2 / Qmax (ent m i) (ent m j))%Q.

(** restricted_pairwise_union_reach_surface.py 154-180: _setup_predictor_response: the list
    of (y, D), one for each training point with at least two non-zero impressions. *)
Definition setup_predictor_response (p : nat) (curves : list reach_curve) (points : list qpoint)
  : result (list (Q * (nat -> nat -> Q))) :=
  let m := map c_max_reach curves in
  mapM (fun pt => r <- get_reach_vector curves (rp_impressions pt) ;;
                  y <- reach pt 1 ;;
                  Ok (Qmax (1#10000) (Qsum r - y), construct_D r m))
    (filter (fun pt => (Z.of_nat (length (filter (fun x => Qeqb x 0) (rp_impressions pt)))
                        <? Z.of_nat p - 1)) points).

(** restricted_pairwise_union_reach_surface.py 236-245: _compute_u *)
Definition compute_u (lbd : list Q) (i : nat) (D : nat -> nat -> Q) : Q :=
  let n := length lbd in
  let l := ent lbd in
  let res := sumn n (fun a => sumn n (fun b => l a * l b * D a b)%Q) in
  let res := (res - 2 * l i * sumn n (fun j => l j * D j i))%Q in
  let res := (res - sumn n (fun j => l j * l j * D j j))%Q in
  ((res + 2 * (l i * l i) * D i i) / 2)%Q.

(** restricted_pairwise_union_reach_surface.py 247-253: _compute_v *)
Definition compute_v (lbd : list Q) (i : nat) (D : nat -> nat -> Q) : Q :=
  (sumn (length lbd) (fun j => ent lbd j * D j i) - ent lbd i * D i i)%Q.

Definition tol : Q := 1 # 1000000.

(** restricted_pairwise_union_reach_surface.py 205-214: _check_lbd_feasiblity *)
Definition check_feasibility (lbd : list Q) : bool :=
  forallb (fun l => negb (Qltb l 0 || Qltb (1 + tol) (l * (Qsum lbd - l)))) lbd.

(** restricted_pairwise_union_reach_surface.py 255-278: _get_feasible_bound *)
Definition feasible_bound (lbd : list Q) (i : nat) : Q :=
  let total := Qsum lbd in
  fold_left (fun res j => if Nat.eqb j i then res
                          else Qmin res (1 / Qmax (ent lbd j) tol - total + ent lbd i + ent lbd j)%Q)
    (seq 0 (length lbd)) (1 / Qmax (total - ent lbd i) tol)%Q.

(** restricted_pairwise_union_reach_surface.py 218-234: _step. When every v is zero, numpy
    computes 0/0 = nan and the step returns nan; here OtherError. *)
Definition step (data : list (Q * (nat -> nat -> Q))) (lbd : list Q) (i : nat) : result Q :=
  let uv := map (fun yD => (compute_u lbd i (snd yD), compute_v lbd i (snd yD))) data in
  let num := Qsum (map (fun yuv => (fst yuv - fst (snd yuv)) * snd (snd yuv))%Q
                       (combine (map fst data) uv)) in
  let den := Qsum (map (fun w => snd w * snd w)%Q uv) in
  if Qeqb den 0 then Err OtherError
  else let hat := (num / den)%Q in
       if Qltb hat 0 then Ok 0%Q else Ok (Qmin hat (feasible_bound lbd i)).

(** restricted_pairwise_union_reach_surface.py 280-295: _round; [perm] is the random
    permutation of range(p). *)
Fixpoint round (data : list (Q * (nat -> nat -> Q))) (perm : list nat) (lbd : list Q)
  : result (list Q) :=
  match perm with
  | [] => Ok lbd
  | i :: r => x <- step data lbd i ;; round data r (set_nth i x lbd)
  end.

(** restricted_pairwise_union_reach_surface.py 297-305: _loss *)
Definition fitted (lbd : list Q) (D : nat -> nat -> Q) : Q :=
  let n := length lbd in
  let l := ent lbd in
  ((sumn n (fun a => sumn n (fun b => l a * l b * D a b)) - sumn n (fun j => l j * l j * D j j)) / 2)%Q.
Definition loss (data : list (Q * (nat -> nat -> Q))) (lbd : list Q) : Q :=
  Qsum (map (fun yD => (fst yD - fitted lbd (snd yD)) * (fst yD - fitted lbd (snd yD)))%Q data).

(** restricted_pairwise_union_reach_surface.py 307-342: _fit_one_init_lbd. [perms n] is the
    permutation drawn in round n, [rounds_left] is max_num_rounds - num_rounds. *)
Fixpoint descend (data : list (Q * (nat -> nat -> Q))) (perms : nat -> list nat)
    (min_improvement : Q) (rounds_left num_rounds : nat) (lbd : list Q) (prev cur : Q)
  : result (list Q * Q * bool) :=
  let stop := Ok (lbd, cur, Qleb (prev - min_improvement) cur) in
  match rounds_left with
  | O => stop
  | S k =>
      if Qltb cur (prev - min_improvement) then
        lbd' <- round data (perms num_rounds) lbd ;;
        descend data perms min_improvement k (S num_rounds) lbd' cur (loss data lbd')
      else stop
  end.
Definition fit_one_init_lbd (data : list (Q * (nat -> nat -> Q))) (perms : nat -> list nat)
    (min_improvement : Q) (max_num_rounds : nat) (lbd : list Q) : result (list Q * Q * bool) :=
  let prev := loss data lbd in
  descend data perms min_improvement max_num_rounds 0 lbd prev (prev - 1).

(** restricted_pairwise_union_reach_surface.py 452-464: _construct_a_from_lambda *)
Definition construct_a (lbd : list Q) : list Q :=
  flat_map (fun i => map (fun j => if Nat.eqb i j then 0%Q
                                   else (ent lbd i * ent lbd j / 2)%Q) (seq 0 (length lbd)))
           (seq 0 (length lbd)).

(** ** Several starts *)

(** A number or minus infinity (None). *)
Definition ninf_le (x y : option Q) : bool :=
  match x, y with
  | None, _ => true
  | Some _, None => false
  | Some a, Some b => Qleb a b
  end.
Fixpoint heap_insert (x : option Q) (h : list (option Q)) : list (option Q) :=
  match h with
  | [] => [x]
  | y :: r => if ninf_le x y then x :: y :: r else y :: heap_insert x r
  end.
(** heapq.heappushpop: push, then drop the smallest. The heap is kept as an ascending list;
    the code only reads its minimum, maximum and sorted contents. *)
Definition heappushpop (h : list (option Q)) (x : Q) : list (option Q) := tl (heap_insert (Some x) h).

(** restricted_pairwise_union_reach_surface.py 434-436 and
    generalized_mixture_reach_surface.py 238-240: _close_enough. The heap holds negated
    losses; comparisons with infinite losses are False. An empty heap raises ValueError. *)
Definition close_enough (distance : Q) (h : list (option Q)) : result bool :=
  match h with
  | [] => Err ValueError
  | smallest :: _ =>
      match smallest, last h None with
      | Some a, Some b => Ok (Qltb (- a) ((1 + distance) * (- b)))
      | _, _ => Ok false
      end
  end.

(** The attributes set by the loop. *)
Record multi_result (A : Type) : Type := {
  mr_fit : option (A * Q);          (* fitted parameters and _fitted_loss; None: not set *)
  mr_last_converge : option bool;   (* local_converge; None: not assigned *)
  mr_heap : list (option Q);
  mr_starts : nat                   (* num_init *)
}.
Arguments mr_fit {A}. Arguments mr_last_converge {A}. Arguments mr_heap {A}. Arguments mr_starts {A}.

(** restricted_pairwise_union_reach_surface.py 438-450 and
    generalized_mixture_reach_surface.py 242-254: the loop. [run n] is what fitting from the
    n-th sampled start gives; [left] is max_num_init - num_init. *)
Fixpoint multi_loop {A} (run : nat -> result (A * Q * bool)) (distance : Q) (min_num_init left : nat)
    (s : multi_result A) : result (multi_result A) :=
  go <- (if (mr_starts s <? min_num_init)%nat then Ok true
         else c <- close_enough distance (mr_heap s) ;; Ok (negb c)) ;;
  match go, left with
  | true, S k =>
      '(fit, l, conv) <- run (mr_starts s) ;;
      let better := match mr_fit s with Some (_, best) => Qltb l best | None => true end in
      multi_loop run distance min_num_init k
        {| mr_fit := if better then Some (fit, l) else mr_fit s;
           mr_last_converge := Some conv;
           mr_heap := heappushpop (mr_heap s) (- l);
           mr_starts := S (mr_starts s) |}
  | _, _ => Ok s
  end.

(** The outcome: fit, loss, success flags, k smallest losses (None: infinite), starts. *)
Record multi_fit (A : Type) : Type := {
  mf_fit : option (A * Q); mf_success : bool * bool; mf_k_smallest : list (option Q); mf_starts : nat }.
Arguments mf_fit {A}. Arguments mf_success {A}. Arguments mf_k_smallest {A}. Arguments mf_starts {A}.

(** restricted_pairwise_union_reach_surface.py 402-450 and
    generalized_mixture_reach_surface.py 222-254. With no start at all, [local_converge] is
    unbound and Python raises a NameError. *)
Definition fit_multi_init {A} (run : nat -> result (A * Q * bool)) (distance : Q)
    (num_near min_num_init max_num_init : nat) : result (multi_fit A) :=
  s <- multi_loop run distance min_num_init max_num_init
         {| mr_fit := None; mr_last_converge := None; mr_heap := repeat None num_near; mr_starts := 0 |} ;;
  match mr_last_converge s with
  | None => Err NameError
  | Some conv =>
      c <- close_enough distance (mr_heap s) ;;
      Ok {| mf_fit := mr_fit s; mf_success := (conv, c);
            mf_k_smallest := rev (map (option_map Qopp) (mr_heap s)); mf_starts := mr_starts s |}
  end.

(** Default criteria: restricted_pairwise_union_reach_surface.py 34-39 and
    generalized_mixture_reach_surface.py 29-34. *)
Definition default_distance : Q := 1 # 100.
Definition default_num_near : nat := 10.
Definition default_min_num_init : nat := 30.
Definition restricted_max_num_init : nat := 1000.
Definition mixture_max_num_init : nat := 10.
Definition default_min_improvement : Q := 1 # 1000.
Definition default_max_num_rounds : nat := 1000.

(** ** Generalized mixture *)

(** generalized_mixture_reach_surface.py 84: the universe size N *)
Definition mixture_N (curves : list reach_curve) : result Q :=
  match curves with
  | [] => Err ValueError
  | c :: r => Ok (fold_left (fun m c' => Qmax m (c_max_reach c')) r (c_max_reach c) * 2)%Q
  end.

(** generalized_mixture_reach_surface.py 286-293: the weight of component [j]:
    the product over i of 1 - a[j + i * c] * r[i] / N. N = 0 gives nan in numpy. *)
Fixpoint mixture_weight (N : Q) (a rv : list Q) (c j : Z) (is : list Z) (w : Q) : result Q :=
  match is with
  | [] => Ok w
  | i :: rest =>
      aij <- py_index a (j + i * c) ;;
      r <- py_index rv i ;;
      if Qeqb N 0 then Err OtherError
      else mixture_weight N a rv c j rest (w * (1 - (aij * r) / N))%Q
  end.

(** generalized_mixture_reach_surface.py 279-295: by_impressions; max_frequency is ignored. *)
Definition mixture_by_impressions (p c : nat) (N : Q) (a : list Q) (curves : list reach_curve)
    (imps : list Q) (m : Z) : result qpoint :=
  rv <- get_reach_vector curves imps ;;
  ws <- mapM (fun j => w <- mixture_weight N a rv (Z.of_nat c) j (py_range 0 (Z.of_nat p)) 1 ;;
                       Ok (1 - w)%Q) (py_range 0 (Z.of_nat c)) ;;
  mk_reach_point Qops imps [(Qsum ws * N)%Q] None None.

(** generalized_mixture_reach_surface.py 111-120, 184-198: the vector z built from the
    current coefficients [a] for one training point: z[i * c + j] = r_i * theta_j / N with
    theta_j = (1 - prod_i (1 - x_ij)) / sum_i x_ij, x_ij = a[j + i * c] * r_i / N. A zero
    denominator gives nan in numpy. *)
Definition mixture_x (N : Q) (a r : list Q) (c i j : nat) : Q :=
  (ent a (j + i * c) * ent r i / N)%Q.
Definition mixture_theta (N : Q) (a r : list Q) (p c j : nat) : result Q :=
  let s := sumn p (fun i => mixture_x N a r c i j) in
  if Qeqb s 0 then Err OtherError
  else Ok ((1 - fold_left Qmult (map (fun i => 1 - mixture_x N a r c i j)%Q (seq 0 p)) 1) / s)%Q.
Definition mixture_z (N : Q) (p c : nat) (theta r : list Q) : list Q :=
  flat_map (fun i => map (fun j => ent r i * ent theta j / N)%Q (seq 0 c)) (seq 0 p).

(** generalized_mixture_reach_surface.py 122-168: the quadratic program. *)
Definition mixture_qp (p c : nat) (N : Q) (zs : list (list Q)) (ys : list Q) : qp :=
  {| qp_P := fun u v => Qsum (map (fun z => (ent z u * ent z v)%Q) zs);
     qp_q := fun u => (- Qsum (map (fun zy => (snd zy / N * ent (fst zy) u)%Q) (combine zs ys)))%Q;
     qp_ineq := combine (map (map Qopp) (eye (p * c))) (zeros (p * c));
     qp_eq := combine (kron (eye p) [ones c]) (ones p) |}.

(** generalized_mixture_reach_surface.py 213-217: _loss (note a'Pa, not half of it). *)
Definition mixture_loss (Q0 : qp) (n : nat) (a : list Q) : Q :=
  (sumn n (fun u => sumn n (fun v => ent a u * qp_P Q0 u v * ent a v)) +
   sumn n (fun u => qp_q Q0 u * ent a u))%Q.

(** generalized_mixture_reach_surface.py 256-281: _fit_one_init_a *)
Definition mixture_update (solver : qp -> result (list Q)) (p c : nat) (N : Q)
    (rs : list (list Q)) (ys a : list Q) : result (list Q * Q) :=
  thetas <- mapM (fun r => mapM (mixture_theta N a r p c) (seq 0 c)) rs ;;
  let prob := mixture_qp p c N (map (fun tr => mixture_z N p c (fst tr) (snd tr)) (combine thetas rs)) ys in
  a' <- solver prob ;;
  Ok (a', mixture_loss prob (p * c) a').
Fixpoint mixture_rounds (solver : qp -> result (list Q)) (p c : nat) (N : Q)
    (rs : list (list Q)) (ys : list Q) (min_improvement : Q) (rounds_left : nat)
    (a : list Q) (prev cur : Q) : result (list Q * Q * bool) :=
  let stop := Ok (a, cur, Qleb (prev - min_improvement) cur) in
  match rounds_left with
  | O => stop
  | S k =>
      if Qltb cur (prev - min_improvement) then
        '(a', l) <- mixture_update solver p c N rs ys a ;;
        mixture_rounds solver p c N rs ys min_improvement k a' cur l
      else stop
  end.
Definition fit_one_init_a (solver : qp -> result (list Q)) (p c : nat) (N : Q)
    (rs : list (list Q)) (ys : list Q) (min_improvement : Q) (max_num_rounds : nat)
    (initial_a : list Q) : result (list Q * Q * bool) :=
  mixture_rounds solver p c N rs ys min_improvement max_num_rounds initial_a
    10000000000 (10000000000 - 1).

(** restricted_pairwise_union_reach_surface.py 80-92 with the default criteria: _fit,
    returning the coefficients [_a]. [starts n] is the n-th sampled start and [perms n r] the
    permutation drawn in round r of start n. *)
Definition restricted_fit (starts : nat -> list Q) (perms : nat -> nat -> list nat)
    (curves : list reach_curve) (points : list qpoint) : result (list Q) :=
  p <- surface_ctor points ;;
  data <- setup_predictor_response p curves points ;;
  mf <- fit_multi_init (fun n => fit_one_init_lbd data (perms n) default_min_improvement
                                   default_max_num_rounds (starts n))
          default_distance default_num_near default_min_num_init restricted_max_num_init ;;
  match mf_fit mf with
  | None => Err OtherError
  | Some (lbd, _) => Ok (construct_a lbd)
  end.

(** generalized_mixture_reach_surface.py 79-88, 279-281 with the default criteria: the
    universe size and the coefficients [a]. The start drawn in the constructor is unused. *)
Definition mixture_fit (solver : qp -> result (list Q)) (starts : nat -> list Q) (c : nat)
    (curves : list reach_curve) (points : list qpoint) : result (Q * list Q) :=
  p0 <- py_index points 0 ;;
  N <- mixture_N curves ;;
  _ <- surface_init points ;;
  let p := length (rp_impressions p0) in
  rs <- mapM (fun pt => get_reach_vector curves (rp_impressions pt)) points ;;
  ys <- mapM (fun pt => reach pt 1) points ;;
  mf <- fit_multi_init (fun n => fit_one_init_a solver p c N rs ys default_min_improvement
                                   default_max_num_rounds (starts n))
          default_distance default_num_near default_min_num_init mixture_max_num_init ;;
  match mf_fit mf with
  | None => Err OtherError
  | Some (a, _) => Ok (N, a)
  end.
