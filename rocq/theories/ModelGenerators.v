(** Model of the impression and pricing generators, of the overlap data sets and of the
    synthetic data set generator in src/data_generators. *)
From Coq Require Import String Qround.
From Verif Require Import Prelude ModelReachPoint ModelData.
Open Scope Z_scope.

(** numpy.random.Generator, an external class: every draw reads and advances a hidden state
    and may raise (for example for a negative Poisson mean). [rng_integers bound] is the
    draw of one integer below [bound]. *)
Record numpy_rng (St : Type) : Type := {
  rng_poisson : Q -> St -> result (Z * St);
  rng_gamma : Q -> Q -> St -> result (Q * St);
  rng_zipf : Q -> St -> result (Z * St);
  rng_shuffle : list Z -> St -> list Z * St;
  rng_integers : Z -> St -> Z * St
}.
Arguments rng_poisson {St}. Arguments rng_gamma {St}. Arguments rng_zipf {St}.
Arguments rng_shuffle {St}. Arguments rng_integers {St}.

(** Python's [[x] * k]: empty when [k] is not positive. *)
Definition py_repeat (x : Z) (k : Z) : list Z := repeat x (Z.to_nat k).

Section Generators.
Context {St : Type} (rng : numpy_rng St).

(** The loop common to the three [__call__] methods below: for each user in [range(n)] draw
    a number of copies of the user and extend the list. *)
Fixpoint extend_loop (draw : St -> result (Z * St)) (users : list Z) (impressions : list Z)
    (st : St) : result (list Z * St) :=
  match users with
  | [] => Ok (impressions, st)
  | i :: r =>
      '(k, st') <- draw st ;;
      extend_loop draw r (impressions ++ py_repeat i k) st'
  end.

(** homogeneous_impression_generator.py 64: one draw. *)
Definition homogeneous_draw (lambda : Q) (st : St) : result (Z * St) :=
  '(x, st') <- rng_poisson rng lambda st ;; Ok (1 + x, st').

(** homogeneous_impression_generator.py 54-67 *)
Definition homogeneous_call (n : Z) (lambda : Q) (st : St) : result (list Z * St) :=
  '(impressions, st1) <- extend_loop (homogeneous_draw lambda) (py_range 0 n) [] st ;;
  Ok (rng_shuffle rng impressions st1).

(** heterogeneous_impression_generator.py 71-75: two draws. *)
Definition heterogeneous_draw (shape scale : Q) (st : St) : result (Z * St) :=
  '(lambda, st1) <- rng_gamma rng shape scale st ;;
  '(x, st2) <- rng_poisson rng lambda st1 ;; Ok (1 + x, st2).

(** heterogeneous_impression_generator.py 61-78 *)
Definition heterogeneous_call (n : Z) (shape scale : Q) (st : St) : result (list Z * St) :=
  '(impressions, st1) <- extend_loop (heterogeneous_draw shape scale) (py_range 0 n) [] st ;;
  Ok (rng_shuffle rng impressions st1).

(** heavy_tailed_impression_generator.py 50-62; the assertion of the constructor (line 42)
    is checked first. *)
Definition heavy_tailed_call (n : Z) (zeta_s : Q) (st : St) : result (list Z * St) :=
  if Qltb 1 zeta_s then
    '(impressions, st1) <- extend_loop (rng_zipf rng zeta_s) (py_range 0 n) [] st ;;
    Ok (rng_shuffle rng impressions st1)
  else Err AssertionError.

(** The impression generator classes with the parameters a GeneratorParameters carries. *)
Inductive impression_params : Type :=
| Homogeneous (poisson_lambda : Q)
| Heterogeneous (gamma_shape gamma_scale : Q)
| HeavyTailed (zeta_s : Q).

(** synthetic_data_design_generator.py 148-156: construct the generator for [n] users with
    the shared random generator and call it. *)
Definition impression_call (p : impression_params) (n : Z) (st : St)
  : result (list Z * St) :=
  match p with
  | Homogeneous lambda => homogeneous_call n lambda st
  | Heterogeneous shape scale => heterogeneous_call n shape scale st
  | HeavyTailed s => heavy_tailed_call n s st
  end.

(** fixed_price_generator.py 38-51; [i] counts from the position given. *)
Fixpoint price_from (cpi : Q) (i : Z) (impressions : list Z) : list row :=
  match impressions with
  | [] => []
  | u :: r => (u, (inject_Z (i + 1) * cpi)%Q) :: price_from cpi (i + 1) r
  end.
Definition fixed_price_call (cpi : Q) (impressions : list Z) : list row :=
  price_from cpi 0 impressions.

(** publisher_data.py 195-214, for a FixedPriceGenerator. *)
Definition generate_publisher_data (random_name : string) (gen : St -> result (list Z * St))
    (cpi : Q) (name : option string) (st : St) : result (publisher_data * St) :=
  '(impressions, st1) <- gen st ;;
  p <- mk_publisher random_name (fixed_price_call cpi impressions) name ;;
  Ok (p, st1).

(** A Python argument of type Iterable: a list can be traversed again and again, a generator
    only once. The second component is what the second traversal yields. *)
Definition iterable (A : Type) : Type := (list A * list A)%type.
Definition as_list {A} (l : list A) : iterable A := (l, l).
Definition as_generator {A} (l : list A) : iterable A := (l, []).

(** Python's [id_map[oid]] for a dict built by [dict(zip(keys, values))]: the last pair with
    the key wins, KeyError if there is none. *)
Fixpoint zip_dict_get (d : list (Z * Z)) (k : Z) : result Z :=
  match d with
  | [] => Err KeyError
  | (k', v) :: r =>
      match zip_dict_get r k with
      | Ok w => Ok w
      | Err e => if k =? k' then Ok v else Err e
      end
  end.

(** overlap_data_set.py 99-107: one publisher. [set_order] is the order in which Python
    iterates over the set built from a list (lines 102-103); it is not specified by the language,
    so it is a parameter. *)
Definition label_one (set_order : list Z -> list Z) (random_name : string)
    (set_ids : list Z) (p : publisher_data) : result publisher_data :=
  if Z.of_nat (List.length set_ids) =? pd_max_reach p then
    let original_ids := set_order (map fst (pd_data p)) in
    let id_map := combine original_ids set_ids in
    log <- mapM (fun r => u <- zip_dict_get id_map (fst r) ;; Ok (u, snd r)) (pd_data p) ;;
    mk_publisher random_name log (Some (pd_name p))
  else Err AssertionError.

(** overlap_data_set.py 95-108: the loop over [zip(labels, publishers)]. *)
Definition label_ids (set_order : list Z -> list Z) (random_name : string)
    (labels : list (list Z)) (pubs : list publisher_data) : result (list publisher_data) :=
  mapM (fun lp => label_one set_order random_name (fst lp) (snd lp)) (combine labels pubs).

(** overlap_data_set.py 67-74: the first traversal of the argument computes the sizes, the
    second one relabels. [overlap_generator] maps the sizes to the label sets. *)
Definition overlap_data_set (set_order : list Z -> list Z) (random_name : string)
    (overlap_generator : list Z -> result (list (list Z)))
    (pubs : iterable publisher_data) (name : option string) : result data_set :=
  let set_sizes := map pd_max_reach (fst pubs) in
  labels <- overlap_generator set_sizes ;;
  new_pubs <- label_ids set_order random_name labels (snd pubs) ;;
  mk_data_set new_pubs name None.

(** independent_overlap_data_set.py 37-67. [set_gen] is IndependentSetGenerator, which is
    given the sizes, the universe size and the seed of its RandomState; [name = None] is an
    omitted argument. *)
Definition independent_overlap_data_set (set_order : list Z -> list Z) (random_name : string)
    (set_gen : list Z -> Z -> Z -> result (list (list Z)))
    (pubs : iterable publisher_data) (universe_size : Z) (name : option string) (st : St)
  : result (data_set * St) :=
  let '(seed, st1) := rng_integers rng 100000 st in
  d <- overlap_data_set set_order random_name
         (fun sizes => set_gen sizes universe_size seed) pubs
         (match name with Some n => Some n | None => Some "independent"%string end) ;;
  Ok (d, st1).

(** sequentially_correlated_overlap_data_set.py 52-98. [set_gen] is
    SequentiallyCorrelatedSetGenerator; [options] stands for order, correlated_sets and
    shared_prop. Without a generator the seed is 1. *)
Definition sequential_overlap_data_set {Opt : Type} (set_order : list Z -> list Z)
    (random_name : string) (set_gen : list Z -> Opt -> Z -> result (list (list Z)))
    (pubs : iterable publisher_data) (options : Opt) (with_generator : bool)
    (name : option string) (st : St) : result (data_set * St) :=
  let '(seed, st1) := if with_generator then rng_integers rng 1000000000 st else (1, st) in
  d <- overlap_data_set set_order random_name
         (fun sizes => set_gen sizes options seed) pubs
         (match name with Some n => Some n
          | None => Some "sequentially_correlated"%string end) ;;
  Ok (d, st1).

(** The overlap classes with the parameters a GeneratorParameters carries. The flag of
    [Sequential] says whether the key "random_generator" is among the parameters. *)
Inductive overlap_params (Opt : Type) : Type :=
| FullOverlap
| Independent (universe_size : Z)
| Sequential (options : Opt) (has_generator_key : bool).
Arguments FullOverlap {Opt}. Arguments Independent {Opt}. Arguments Sequential {Opt}.

(** data_set_parameters.py 65-92, without the name and the id, which only enter [str(params)]. *)
Record data_set_params (Opt : Type) : Type := {
  dp_num_publishers : Z;
  dp_largest : Z;
  dp_ratio : Q;
  dp_cpi : Q;
  dp_impressions : impression_params;
  dp_overlap : overlap_params Opt
}.
Arguments dp_num_publishers {Opt}. Arguments dp_largest {Opt}. Arguments dp_ratio {Opt}.
Arguments dp_cpi {Opt}. Arguments dp_impressions {Opt}. Arguments dp_overlap {Opt}.

(** synthetic_data_design_generator.py 140-145. [pow x k] is Python's [x ** (1 / float(k))]. *)
Definition decay_rate {Opt} (pow : Q -> Z -> Q) (params : data_set_params Opt) : Q :=
  if dp_num_publishers params =? 1 then 1%Q
  else pow (dp_ratio params) (dp_num_publishers params - 1).

(** synthetic_data_design_generator.py 146-162: the loop over the publishers; [str_of] is
    Python's [str] on integers and [random_name] is not used because the names are not
    empty. *)
Fixpoint generate_publishers {Opt} (str_of : Z -> string) (random_name : string)
    (params : data_set_params Opt) (rate : Q) (publishers : list Z) (size : Z) (st : St)
  : result (list publisher_data * St) :=
  match publishers with
  | [] => Ok ([], st)
  | k :: r =>
      '(p, st1) <- generate_publisher_data random_name
                     (impression_call (dp_impressions params) size) (dp_cpi params)
                     (Some (str_of (k + 1))) st ;;
      '(ps, st2) <- generate_publishers str_of random_name params rate r
                      (Qfloor (inject_Z size * rate)) st1 ;;
      Ok (p :: ps, st2)
  end.

(** The external classes and functions that _generate_data_set uses. *)
Record synthetic_externals (Opt : Type) : Type := {
  sx_pow : Q -> Z -> Q;
  sx_str : Z -> string;
  sx_random_name : string;
  sx_set_order : list Z -> list Z;
  sx_independent : list Z -> Z -> Z -> result (list (list Z));
  sx_sequential : list Z -> Opt -> Z -> result (list (list Z))
}.
Arguments sx_pow {Opt}. Arguments sx_str {Opt}. Arguments sx_random_name {Opt}.
Arguments sx_set_order {Opt}. Arguments sx_independent {Opt}. Arguments sx_sequential {Opt}.

(** synthetic_data_design_generator.py 135-170; [name] is [str(params)]. *)
Definition generate_data_set {Opt} (x : synthetic_externals Opt)
    (params : data_set_params Opt) (name : string) (st : St) : result (data_set * St) :=
  '(publishers, st1) <-
     generate_publishers (sx_str x) (sx_random_name x) params (decay_rate (sx_pow x) params)
       (py_range 0 (dp_num_publishers params)) (dp_largest params) st ;;
  match dp_overlap params with
  | FullOverlap => d <- mk_data_set publishers (Some name) None ;; Ok (d, st1)
  | Independent u =>
      independent_overlap_data_set (sx_set_order x) (sx_random_name x) (sx_independent x)
        (as_list publishers) u (Some name) st1
  | Sequential o b =>
      sequential_overlap_data_set (sx_set_order x) (sx_random_name x) (sx_sequential x)
        (as_list publishers) o b (Some name) st1
  end.

End Generators.

Arguments FullOverlap {Opt}. Arguments Independent {Opt}. Arguments Sequential {Opt}.
Arguments dp_num_publishers {Opt}. Arguments dp_largest {Opt}. Arguments dp_ratio {Opt}.
Arguments dp_cpi {Opt}. Arguments dp_impressions {Opt}. Arguments dp_overlap {Opt}.
Arguments sx_pow {Opt}. Arguments sx_str {Opt}. Arguments sx_random_name {Opt}.
Arguments sx_set_order {Opt}. Arguments sx_independent {Opt}. Arguments sx_sequential {Opt}.
