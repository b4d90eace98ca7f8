(** Model of the test point generators in src/driver. *)
From Coq Require Import String.
From Verif Require Import Prelude ModelReachPoint ModelData.
Open Scope Z_scope.

(** The random sources. [St] is the state of the numpy Generator given to the test point
    generator, [Gl] that of the process-wide numpy.random that pyDOE draws from. Draws are
    external: [draw_random n] is [rng.random(size=n)], [draw_permutation n] is
    [rng.permutation(n)] and [draw_lhs n samples] is
    [pyDOE.lhs(n=n, samples=samples, criterion="maximin")], a list of rows. *)
Record point_rng (St Gl : Type) : Type := {
  draw_random : Z -> St -> list Q * St;
  draw_permutation : Z -> St -> list Z * St;
  draw_lhs : Z -> Z -> Gl -> list (list Q) * Gl
}.
Arguments draw_random {St Gl}. Arguments draw_permutation {St Gl}. Arguments draw_lhs {St Gl}.

(** test_point_generator.py 29, 35; latin_hypercube_random_test_point_generator.py 34 *)
Definition minimum_number_of_test_points : Z := 100.
Definition minimum_number_of_test_points_per_publisher : Z := 100.
Definition maximum_number_of_test_points : Z := 2000.

(** test_point_generator.py 48-51: the number of publishers and the list of their spends. *)
Definition tp_npublishers (d : data_set) : Z := Z.of_nat (publisher_count d).
Definition tp_max_spends (d : data_set) : result (list Q) :=
  mapM (fun i => p <- py_index (ds_data d) i ;; Ok (pd_max_spend p))
       (py_range 0 (tp_npublishers d)).

(** grid_test_point_generator.py 58-61: one dimension of the grid. *)
Definition grid_axis (max_spend : Q) (grid_size : Z) : list Q :=
  map (fun k => (max_spend * inject_Z k / inject_Z (grid_size + 1))%Q)
      (py_range 1 (grid_size + 1)).

(** itertools.product, the last list varies fastest. *)
Fixpoint product {A} (ls : list (list A)) : list (list A) :=
  match ls with
  | [] => [[]]
  | l :: r => flat_map (fun x => map (cons x) (product r)) l
  end.

(** grid_test_point_generator.py 47-65: test_points *)
Definition grid_points (d : data_set) (grid_size : Z) : result (list (list Q)) :=
  max_spends <- tp_max_spends d ;;
  axes <- mapM (fun i => m <- py_index max_spends i ;; Ok (grid_axis m grid_size))
               (py_range 0 (tp_npublishers d)) ;;
  Ok (product axes).

(** The product of two numpy arrays of the same length; otherwise numpy raises a
    ValueError. Simplification: numpy's stretching of arrays of length 1 is not modelled,
    both arrays have one entry for each publisher. *)
Definition np_mult (a b : list Q) : result (list Q) :=
  if Nat.eqb (length a) (length b)
  then Ok (map (fun p => (fst p * snd p)%Q) (combine a b))
  else Err ValueError.

Section Random.
Context {St Gl : Type} (R : point_rng St Gl).

(** uniformly_random_test_point_generator.py 60, the same as
    latin_hypercube_random_test_point_generator.py 64 *)
Definition tp_npoints (npoints npublishers minimum_points_per_publisher : Z) : Z :=
  Z.max npoints (npublishers * minimum_points_per_publisher).

(** uniformly_random_test_point_generator.py 71: the loop. *)
Fixpoint uniform_loop (max_spends : list Q) (npublishers : Z) (n : nat) (st : St)
  : result (list (list Q) * St) :=
  match n with
  | O => Ok ([], st)
  | S n' =>
      let '(u, st1) := draw_random R npublishers st in
      p <- np_mult max_spends u ;;
      '(ps, st2) <- uniform_loop max_spends npublishers n' st1 ;;
      Ok (p :: ps, st2)
  end.

(** uniformly_random_test_point_generator.py 62-72. The local variable num_points is
    computed and not used by the code, so it does not appear. *)
Definition uniform_points (d : data_set) (npoints npublishers mppp : Z) (st : St)
  : result (list (list Q) * St) :=
  max_spends <- tp_max_spends d ;;
  uniform_loop max_spends (tp_npublishers d) (Z.to_nat (tp_npoints npoints npublishers mppp)) st.

(** latin_hypercube_random_test_point_generator.py 66-86 *)
Definition lhs_points (d : data_set) (npoints npublishers mppp : Z) (gl : Gl) (st : St)
  : result (list (list Q) * (Gl * St)) :=
  max_spends <- tp_max_spends d ;;
  let num_points := Z.min (Z.max (tp_npoints npoints npublishers mppp)
                                 minimum_number_of_test_points)
                          maximum_number_of_test_points in
  let '(design, gl1) := draw_lhs R (tp_npublishers d) num_points gl in
  let '(rows, st1) := draw_permutation R num_points st in
  design1 <- mapM (fun i => py_index design i) rows ;;
  let '(columns, st2) := draw_permutation R (tp_npublishers d) st1 in
  design2 <- mapM (fun r => mapM (fun j => py_index r j) columns) design1 ;;
  points <- mapM (np_mult max_spends) design2 ;;
  Ok (points, (gl1, st2)).

(** Keyword arguments, a dictionary from names to integers. *)
Fixpoint kw_get (kw : list (string * Z)) (key : string) : option Z :=
  match kw with
  | [] => None
  | (k, v) :: r => if String.eqb key k then Some v else kw_get r key
  end.
Fixpoint kw_set (kw : list (string * Z)) (key : string) (v : Z) : list (string * Z) :=
  match kw with
  | [] => [(key, v)]
  | (k, w) :: r => if String.eqb key k then (k, v) :: r else (k, w) :: kw_set r key v
  end.
Definition kw_default (kw : list (string * Z)) (key : string) (default : Z) : Z :=
  match kw_get kw key with Some v => v | None => default end.
(** Calling a constructor with other names than its parameters raises TypeError. *)
Definition kw_known (kw : list (string * Z)) (names : list string) : bool :=
  forallb (fun p => existsb (String.eqb (fst p)) names) kw.

(** experiment_parameters.py 66-78: generate_test_points, with the constructors
    grid_test_point_generator.py 32, uniformly_random_test_point_generator.py 38-45 and
    latin_hypercube_random_test_point_generator.py 41-48. Simplification: the values of the
    keyword arguments are integers. *)
Definition generate_test_points (strategy : string) (kw : list (string * Z)) (d : data_set)
    (gl : Gl) (st : St) : result (list (list Q) * (Gl * St)) :=
  let random_names := ["npoints"; "npublishers"; "minimum_points_per_publisher"]%string in
  let npoints := kw_default kw "npoints" minimum_number_of_test_points in
  let npublishers := kw_default kw "npublishers" 1 in
  let mppp := kw_default kw "minimum_points_per_publisher"
                         minimum_number_of_test_points_per_publisher in
  if String.eqb strategy "latin_hypercube" then
    if kw_known kw random_names then lhs_points d npoints npublishers mppp gl st
    else Err TypeError
  else if String.eqb strategy "uniformly_random" then
    if kw_known kw random_names then
      '(points, st') <- uniform_points d npoints npublishers mppp st ;;
      Ok (points, (gl, st'))
    else Err TypeError
  else if String.eqb strategy "grid" then
    match kw_known kw ["grid_size"]%string, kw_get kw "grid_size" with
    | true, Some g => points <- grid_points d g ;; Ok (points, (gl, st))
    | _, _ => Err TypeError
    end
  else Err ValueError.

End Random.

(** experiment_parameters.py 97-99: the keyword arguments after update_from_dataset. *)
Definition update_kwargs (kw : list (string * Z)) (d : data_set) : list (string * Z) :=
  match kw_get kw "npublishers" with
  | Some _ => kw_set kw "npublishers" (Z.of_nat (publisher_count d))
  | None => kw
  end.
