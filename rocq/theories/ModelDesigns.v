(** Model of src/data_generators/data_set_parameters.py, of the loop over the data sets in
    synthetic_data_design_generator.py, and of the data designs that come with it:
    simple_data_design_example.py, analysis_example_data_design.py,
    single_publisher_design.py, lhs_data_design_example.py and m3_data_design.py.

    Literal floats such as 0.1 are the rationals they denote. *)
From Coq Require Import String Ascii Qround.
From Verif Require Import Prelude ModelReachPoint ModelData ModelFiles ModelGenerators ModelDriver.
Open Scope Z_scope.

(** ** Parameters *)

(** The classes that a GeneratorParameters can hold. *)
Inductive generator_class : Type :=
| CFixedPrice | CHomogeneous | CHeterogeneous | CHeavyTailed
| CDataSet | CIndependent | CSequential.

(** data_set_parameters.py 29-41 *)
Record generator_parameters : Type := {
  gn_name : string; gn_class : generator_class; gn_params : kwargs }.

(** data_set_parameters.py 43-48: __str__; the items of the dictionary are printed as in
    experiment_parameters.py. Members of the str enumerations of
    sequentially_correlated_overlap_data_set.py are printed as their values. *)
Definition show_generator (F : float_format) (g : generator_parameters) : text :=
  chars (gn_name g) ++ show_kwargs F (gn_params g).

(** data_set_parameters.py 65-92; [None] for an omitted argument is not needed because the
    defaults below are filled in. *)
Record set_parameters : Type := {
  fp_name : string;
  fp_num_publishers : Z;
  fp_largest : Z;
  fp_ratio : number;
  fp_pricing : generator_parameters;
  fp_impressions : generator_parameters;
  fp_overlap : generator_parameters;
  fp_id : string }.

(** data_set_parameters.py 51-62 *)
Definition default_num_publishers : Z := 1.
Definition default_largest : Z := 10000.
Definition default_ratio : number := PFloat (9 # 10).
Definition default_pricing : generator_parameters :=
  {| gn_name := "Fixed"; gn_class := CFixedPrice;
     gn_params := [("cost_per_impression", VNum (PFloat (1 # 10)))]%string |}.
Definition default_impressions : generator_parameters :=
  {| gn_name := "Homogeneous"; gn_class := CHomogeneous;
     gn_params := [("poisson_lambda", VNum (PFloat 3))]%string |}.
Definition default_overlap : generator_parameters :=
  {| gn_name := "FullOverlap"; gn_class := CDataSet; gn_params := [] |}.

(** data_set_parameters.py 94-106: __str__ *)
Definition show_set (F : float_format) (p : set_parameters) : text :=
  if truthy (fp_name p) then chars (fp_name p)
  else
    chars "P=" ++ str_of_int (fp_num_publishers p) ++
    chars ",N=" ++ str_of_int (fp_largest p) ++
    chars ",pub_ratio=" ++ show_number F (fp_ratio p) ++
    chars ",pricing=" ++ show_generator F (fp_pricing p) ++
    chars ",impressions=" ++ show_generator F (fp_impressions p) ++
    chars ",overlaps=" ++ show_generator F (fp_overlap p) ++
    (if truthy (fp_id p) then chars ",id=" ++ chars (fp_id p) else []).

(** ** Constructing the generators from their keyword arguments *)

Fixpoint kw_get (kw : kwargs) (key : string) : option value :=
  match kw with
  | [] => None
  | (k, v) :: r => if String.eqb key k then Some v else kw_get r key
  end.
Definition only_keys (names : list string) (kw : kwargs) : bool :=
  forallb (fun kv => known names (fst kv)) kw.

(** A missing argument without a default is a TypeError. Simplification: values of an
    unsuitable type, which the classes only notice when they use them, are an OtherError. *)
Definition need (o : option value) : result value :=
  match o with Some v => Ok v | None => Err TypeError end.
Definition as_float (v : value) : result Q :=
  match v with VNum n => Ok (number_Q n) | _ => Err OtherError end.
Definition as_int (v : value) : result Z :=
  match v with VNum (PInt z) => Ok z | _ => Err OtherError end.
Definition as_str (v : value) : result string :=
  match v with VStr s => Ok s | _ => Err OtherError end.
Definition float_or (o : option value) (default : Q) : result Q :=
  match o with Some v => as_float v | None => Ok default end.

(** fixed_price_generator.py 31, homogeneous_impression_generator.py 33-35,
    heterogeneous_impression_generator.py 28-34 and heavy_tailed_impression_generator.py
    28-30, called as in synthetic_data_design_generator.py 149-158 with "n" and
    "random_generator" in front. Simplification: parameters that override these two are
    rejected. *)
Definition make_pricing (g : generator_parameters) : result Q :=
  match gn_class g with
  | CFixedPrice =>
      if only_keys ["cost_per_impression"%string] (gn_params g)
      then v <- need (kw_get (gn_params g) "cost_per_impression") ;; as_float v
      else Err TypeError
  | _ => Err TypeError
  end.
Definition make_impressions (g : generator_parameters) : result impression_params :=
  match gn_class g with
  | CHomogeneous =>
      if only_keys ["poisson_lambda"%string] (gn_params g)
      then v <- need (kw_get (gn_params g) "poisson_lambda") ;;
           lambda <- as_float v ;; Ok (Homogeneous lambda)
      else Err TypeError
  | CHeterogeneous =>
      if only_keys ["gamma_shape"; "gamma_scale"]%string (gn_params g)
      then shape <- float_or (kw_get (gn_params g) "gamma_shape") 1 ;;
           scale <- float_or (kw_get (gn_params g) "gamma_scale") 1 ;;
           Ok (Heterogeneous shape scale)
      else Err TypeError
  | CHeavyTailed =>
      if only_keys ["zeta_s"%string] (gn_params g)
      then s <- float_or (kw_get (gn_params g) "zeta_s") 2 ;; Ok (HeavyTailed s)
      else Err TypeError
  | _ => Err TypeError
  end.

(** The arguments of the sequentially correlated data set. *)
Record seq_options : Type := { so_order : string; so_correlated : string; so_shared : Q }.

(** data_set.py 49-54 (without universe_size), independent_overlap_data_set.py 36-42 and
    sequentially_correlated_overlap_data_set.py 52-60, called as in
    synthetic_data_design_generator.py 164-170: whatever "random_generator" holds is replaced
    by the generator. *)
Definition make_overlap (g : generator_parameters) : result (overlap_params seq_options) :=
  let kw := gn_params g in
  match gn_class g with
  | CDataSet => match kw with [] => Ok FullOverlap | _ => Err TypeError end
  | CIndependent =>
      if only_keys ["universe_size"; "random_generator"]%string kw
      then v <- need (kw_get kw "universe_size") ;;
           _ <- need (kw_get kw "random_generator") ;;
           u <- as_int v ;; Ok (Independent u)
      else Err TypeError
  | CSequential =>
      if only_keys ["order"; "correlated_sets"; "shared_prop"; "random_generator"]%string kw
      then o <- need (kw_get kw "order") ;;
           c <- need (kw_get kw "correlated_sets") ;;
           s <- need (kw_get kw "shared_prop") ;;
           o' <- as_str o ;; c' <- as_str c ;; s' <- as_float s ;;
           Ok (Sequential {| so_order := o'; so_correlated := c'; so_shared := s' |}
                 (match kw_get kw "random_generator" with Some _ => true | None => false end))
      else Err TypeError
  | _ => Err TypeError
  end.

(** ** The generator of data designs *)

Section Generate.
Context {St : Type} (rng : numpy_rng St) (x : synthetic_externals seq_options) (F : float_format).

(** synthetic_data_design_generator.py 135-170. The impression generator and the pricing
    generator are made inside the loop over the publishers, first of all for the first one
    (so not at all if there is none); the overlap class is called after the loop. *)
Definition generate_set (p : set_parameters) (st : St) : result (data_set * St) :=
  let any := 1 <=? fp_num_publishers p in
  imp <- (if any then make_impressions (fp_impressions p) else Ok (Homogeneous 0)) ;;
  cpi <- (if any then make_pricing (fp_pricing p) else Ok 0%Q) ;;
  let params o := {| dp_num_publishers := fp_num_publishers p; dp_largest := fp_largest p;
                     dp_ratio := number_Q (fp_ratio p); dp_cpi := cpi; dp_impressions := imp;
                     dp_overlap := o |} in
  match make_overlap (fp_overlap p) with
  | Ok o => generate_data_set rng x (params o) (str (show_set F p)) st
  | Err e =>
      _ <- generate_publishers rng (sx_str x) (sx_random_name x) (params FullOverlap)
             (decay_rate (sx_pow x) (params FullOverlap))
             (py_range 0 (fp_num_publishers p)) (fp_largest p) st ;;
      Err e
  end.

(** What iterating over the value of generate_data_design_config yields: data set parameters,
    and possibly an exception at some point (a generator function runs while the data sets
    are made). The shipped functions do not draw from the generator they are given. *)
Definition config : Type := list (result set_parameters).

(** synthetic_data_design_generator.py 122-124: the loop. *)
Fixpoint fill (fs : store) (d : design) (c : config) (st : St) : result design * store :=
  match c with
  | [] => (Ok d, fs)
  | Err e :: _ => (Err e, fs)
  | Ok p :: r =>
      match generate_set p st with
      | Err e => (Err e, fs)
      | Ok (ds, st') =>
          match add F fs d ds with
          | (Err e, fs') => (Err e, fs')
          | (Ok d', fs') => fill fs' d' r st'
          end
      end
  end.

(** synthetic_data_design_generator.py 120-124: __call__ *)
Definition generate_design (fs : store) (output_dir : string) (c : config) (st : St)
  : result design * store :=
  match mk_design fs output_dir with
  | (Err e, fs') => (Err e, fs')
  | (Ok d, fs') => fill fs' d c st
  end.

End Generate.

(** ** Designs *)

(** The dictionary LEVELS, in the order of its keys. *)
Record levels : Type := {
  lv_num_publishers : list Z;
  lv_largest : list Z;
  lv_ratio : list number;
  lv_pricing : list generator_parameters;
  lv_impressions : list generator_parameters;
  lv_overlap : list generator_parameters }.

(** itertools.product of the six lists, as in analysis_example_data_design.py 98-105. *)
Definition cartesian_config (L : levels) : config :=
  flat_map (fun n =>
  flat_map (fun largest =>
  flat_map (fun ratio =>
  flat_map (fun pricing =>
  flat_map (fun impressions =>
  map (fun overlap =>
    Ok {| fp_name := ""; fp_num_publishers := n; fp_largest := largest; fp_ratio := ratio;
          fp_pricing := pricing; fp_impressions := impressions; fp_overlap := overlap;
          fp_id := "" |})
  (lv_overlap L)) (lv_impressions L)) (lv_pricing L)) (lv_ratio L)) (lv_largest L))
  (lv_num_publishers L).

(** Python's [int(x)] for a float: towards zero. *)
Definition py_trunc (q : Q) : Z := if Qle_bool 0 q then Qfloor q else Qceiling q.

(** [LEVELS[key][int(level * len(LEVELS[key]))]] *)
Definition pick {A} (l : list A) (level : Q) : result A :=
  py_index l (py_trunc (level * inject_Z (Z.of_nat (length l)))).

(** lhs_data_design_example.py 112-114: zip stops with the shorter list, so the keys for
    which the sample has no entry keep the default. *)
Definition pick_or {A} (l : list A) (sample : list Q) (k : nat) (default : A) : result A :=
  match nth_error sample k with Some level => pick l level | None => Ok default end.

(** lhs_data_design_example.py 111-114: one sample. *)
Definition lhs_set (L : levels) (i : Z) (sample : list Q) : result set_parameters :=
  n <- pick_or (lv_num_publishers L) sample 0 default_num_publishers ;;
  largest <- pick_or (lv_largest L) sample 1 default_largest ;;
  ratio <- pick_or (lv_ratio L) sample 2 default_ratio ;;
  pricing <- pick_or (lv_pricing L) sample 3 default_pricing ;;
  impressions <- pick_or (lv_impressions L) sample 4 default_impressions ;;
  overlap <- pick_or (lv_overlap L) sample 5 default_overlap ;;
  Ok {| fp_name := ""; fp_num_publishers := n; fp_largest := largest; fp_ratio := ratio;
        fp_pricing := pricing; fp_impressions := impressions; fp_overlap := overlap;
        fp_id := str (str_of_int i) |}.

(** [enumerate] *)
Fixpoint enumerate_from {A} (i : Z) (l : list A) : list (Z * A) :=
  match l with [] => [] | a :: r => (i, a) :: enumerate_from (i + 1) r end.

(** lhs_data_design_example.py 99-114: [samples] is what pyDOE's lhs returned. *)
Definition lhs_config (L : levels) (samples : list (list Q)) : config :=
  map (fun ix => lhs_set L (fst ix) (snd ix)) (enumerate_from 0 samples).

(** m3_data_design.py 180-190: the universe of an independent overlap is given relative to
    the largest publisher. [raw.params[key]] is a KeyError if there is no such key. *)
Definition key_get (kw : kwargs) (key : string) : result value :=
  match kw_get kw key with Some v => Ok v | None => Err KeyError end.
Definition m3_universe (p : set_parameters) : result set_parameters :=
  let raw := fp_overlap p in
  if String.eqb (gn_name raw) "Independent" then
    v <- key_get (gn_params raw) "largest_pub_to_universe_ratio" ;;
    ratio <- as_float v ;;
    universe <- (if Qeq_bool ratio 0 then Err ZeroDivisionError
                 else Ok (py_trunc (inject_Z (fp_largest p) / ratio))) ;;
    g <- key_get (gn_params raw) "random_generator" ;;
    Ok {| fp_name := fp_name p; fp_num_publishers := fp_num_publishers p;
          fp_largest := fp_largest p; fp_ratio := fp_ratio p; fp_pricing := fp_pricing p;
          fp_impressions := fp_impressions p;
          fp_overlap := {| gn_name := gn_name raw; gn_class := gn_class raw;
                           gn_params := [("universe_size", VNum (PInt universe));
                                         ("random_generator", g)]%string |};
          fp_id := fp_id p |}
  else Ok p.

(** m3_data_design.py 168-191; line 180 is a KeyError if the sample is too short. *)
Definition m3_set (L : levels) (i : Z) (sample : list Q) : result set_parameters :=
  p <- lhs_set L i sample ;;
  match nth_error sample 5 with
  | Some _ => m3_universe p
  | None => Err KeyError
  end.
Definition m3_config (L : levels) (samples : list (list Q)) : config :=
  map (fun ix => m3_set L (fst ix) (snd ix)) (enumerate_from 0 samples).

(** ** The shipped designs *)

Definition gen (name : string) (c : generator_class) (kw : kwargs) : generator_parameters :=
  {| gn_name := name; gn_class := c; gn_params := kw |}.
Definition fl (q : Q) : value := VNum (PFloat q).
Definition int (z : Z) : value := VNum (PInt z).
Definition homogeneous (lambda : Q) : generator_parameters :=
  gen "Homogeneous" CHomogeneous [("poisson_lambda", fl lambda)]%string.
Definition heterogeneous (shape : Q) (scale : value) : generator_parameters :=
  gen "Heterogeneous" CHeterogeneous [("gamma_shape", fl shape); ("gamma_scale", scale)]%string.
Definition heavy_tailed (s : Q) : generator_parameters :=
  gen "HeavyTailed" CHeavyTailed [("zeta_s", fl s)]%string.
Definition fixed_price : generator_parameters :=
  gen "FixedPrice" CFixedPrice [("cost_per_impression", fl (1 # 10))]%string.
Definition full_overlap : generator_parameters := gen "FullOverlap" CDataSet [].
Definition independent (universe seed : Z) : generator_parameters :=
  gen "Independent" CIndependent
    [("universe_size", int universe); ("random_generator", int seed)]%string.
Definition sequential (name order sets : string) (shared : Q) (seed : Z) : generator_parameters :=
  gen name CSequential
    [("order", VStr order); ("correlated_sets", VStr sets); ("shared_prop", fl shared);
     ("random_generator", int seed)]%string.
Definition independent_ratio (ratio : Q) (seed : Z) : generator_parameters :=
  gen "Independent" CIndependent
    [("largest_pub_to_universe_ratio", fl ratio); ("random_generator", int seed)]%string.

(** simple_data_design_example.py 26-50: the other parameters have their defaults. *)
Definition simple_levels : levels :=
  {| lv_num_publishers := [1; 2; 5];
     lv_largest := [100; 500; 1000];
     lv_ratio := [PFloat (9 # 10); PFloat (5 # 10); PFloat (1 # 10)];
     lv_pricing := [default_pricing];
     lv_impressions := [default_impressions];
     lv_overlap := [default_overlap] |}.
Definition simple_config : config := cartesian_config simple_levels.

(** analysis_example_data_design.py 49-95 *)
Definition analysis_levels : levels :=
  {| lv_num_publishers := [1; 2; 3];
     lv_largest := [4000; 8000];
     lv_ratio := [PInt 1; PFloat (5 # 10)];
     lv_pricing := [fixed_price];
     lv_impressions := [homogeneous 3; heterogeneous 3 (fl 1)];
     lv_overlap := [full_overlap; independent 20000 1;
                    sequential "Seqential" "original" "all" (25 # 100) 5] |}.
Definition analysis_config : config := cartesian_config analysis_levels.

(** single_publisher_design.py 34-163: the other parameters have their defaults. *)
Definition single_publisher_levels : levels :=
  {| lv_num_publishers := [default_num_publishers];
     lv_largest := map (fun i => 10000 * i) [1; 2; 3; 4; 5];
     lv_ratio := [default_ratio];
     lv_pricing := [default_pricing];
     lv_impressions :=
       [homogeneous (5 # 10); heterogeneous 1 (fl (5 # 10)); heterogeneous (4545 # 100000) (int 11);
        heavy_tailed (28106 # 10000);
        homogeneous 2; heterogeneous 1 (fl 2); heterogeneous (4 # 10) (fl 5);
        heavy_tailed (22662 # 10000);
        homogeneous 4; heterogeneous 1 (fl 4); heterogeneous (44444 # 100000) (fl 9);
        heavy_tailed (21416 # 10000);
        homogeneous 9; heterogeneous 1 (fl 9); heterogeneous (42408 # 100000) (fl (212222 # 10000));
        heavy_tailed (206539 # 100000)];
     lv_overlap := [default_overlap] |}.
Definition single_publisher_config : config := cartesian_config single_publisher_levels.

(** lhs_data_design_example.py 47-96 *)
Definition lhs_example_levels : levels :=
  {| lv_num_publishers := [1; 2; 5];
     lv_largest := [100; 200; 300; 400; 500];
     lv_ratio := [PFloat (9 # 10); PFloat (5 # 10); PFloat (1 # 10)];
     lv_pricing := [fixed_price];
     lv_impressions := [homogeneous 3; heterogeneous 4 (fl (5 # 10)); heavy_tailed (21 # 10)];
     lv_overlap := [full_overlap; independent 50000 1;
                    sequential "Sequential" "original" "all" 1 1] |}.
Definition lhs_example_samples : nat := 10.

(** m3_data_design.py 49-165 *)
Definition m3_levels : levels :=
  {| lv_num_publishers := [1; 2; 5; 10; 20; 100];
     lv_largest := [10000; 100000; 1000000; 10000000];
     lv_ratio := [PInt 1; PFloat (5 # 10); PFloat (3 # 10); PFloat (1 # 10); PFloat (1 # 100)];
     lv_pricing := [fixed_price];
     lv_impressions :=
       [homogeneous 2; homogeneous 5; heterogeneous 4 (fl (5 # 10)); heterogeneous 1 (fl 2);
        heterogeneous 4 (fl 1); heterogeneous 1 (fl 4); heavy_tailed (25 # 10); heavy_tailed 5];
     lv_overlap :=
       [full_overlap; independent_ratio (9 # 10) 1; independent_ratio (75 # 100) 2;
        independent_ratio (5 # 10) 3; independent_ratio (25 # 100) 4;
        sequential "Sequential" "random" "all" (25 # 100) 5;
        sequential "Sequential" "original" "all" (75 # 100) 6;
        sequential "Sequential" "original" "one" (25 # 100) 7;
        sequential "Sequential" "random" "one" (75 # 100) 8] |}.
Definition m3_samples : nat := 100.
