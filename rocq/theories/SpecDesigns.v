(** Specification vocabulary for data designs: which settings of two data sets are the same,
    which settings can be carried out, what is assumed of numpy, of the power function and of
    the set generators, what a Latin sample is and what a level chosen by it is. *)
From Coq Require Import String Ascii Qround Permutation.
From Verif Require Import Prelude ModelReachPoint ModelData ModelFiles SpecFiles ModelGenerators
  SpecGenerators ModelDriver SpecDriver ModelDesigns.
Open Scope Z_scope.

(** ** Settings *)

(** The printed name of a generator and its parameters; the class itself is not printed. *)
Definition same_generator (a b : generator_parameters) : Prop :=
  gn_name a = gn_name b /\ same_kwargs (gn_params a) (gn_params b).
Definition same_set (a b : set_parameters) : Prop :=
  fp_num_publishers a = fp_num_publishers b /\ fp_largest a = fp_largest b /\
  same_number (fp_ratio a) (fp_ratio b) /\ same_generator (fp_pricing a) (fp_pricing b) /\
  same_generator (fp_impressions a) (fp_impressions b) /\
  same_generator (fp_overlap a) (fp_overlap b) /\ fp_id a = fp_id b.

(** Settings without a name of their own, in which the strings contain no '(', ')', ',', '='
    and '/', and do not look like numbers or truth values. *)
Definition plain_generator (F : float_format) (g : generator_parameters) : Prop :=
  plain (gn_name g) /\ plain_kwargs F (gn_params g).
Definition plain_set (F : float_format) (p : set_parameters) : Prop :=
  fp_name p = ""%string /\ plain (fp_id p) /\ plain_generator F (fp_pricing p) /\
  plain_generator F (fp_impressions p) /\ plain_generator F (fp_overlap p).

(** ** Settings that can be carried out *)

(** The keyword arguments are among [names], each given once. *)
Definition arguments (names : list string) (kw : kwargs) : Prop :=
  NoDup (map fst kw) /\ forall k, In k (map fst kw) -> In k names.
(** Argument [key] is given, as a number. *)
Definition given (kw : kwargs) (key : string) (q : Q) : Prop :=
  exists n, In (key, VNum n) kw /\ number_Q n = q.
(** Argument [key] is left out, or a number with property [P]. *)
Definition if_given (kw : kwargs) (key : string) (P : Q -> Prop) : Prop :=
  forall v, In (key, v) kw -> exists n, v = VNum n /\ P (number_Q n).

Definition usable_pricing (g : generator_parameters) : Prop :=
  gn_class g = CFixedPrice /\ arguments ["cost_per_impression"%string] (gn_params g) /\
  exists q, given (gn_params g) "cost_per_impression" q.

Definition usable_impressions (g : generator_parameters) : Prop :=
  let kw := gn_params g in
  (gn_class g = CHomogeneous /\ arguments ["poisson_lambda"%string] kw /\
   exists q, given kw "poisson_lambda" q /\ (0 <= q <= 1000000000)%Q) \/
  (gn_class g = CHeterogeneous /\ arguments ["gamma_shape"; "gamma_scale"]%string kw /\
   if_given kw "gamma_shape" (fun q => 0 <= q <= 1000)%Q /\
   if_given kw "gamma_scale" (fun q => 0 <= q <= 1000)%Q) \/
  (gn_class g = CHeavyTailed /\ arguments ["zeta_s"%string] kw /\
   if_given kw "zeta_s" (fun q => 1 < q)%Q).

(** Sequential overlaps in another than the original order need publishers of equal size. *)
Definition usable_overlap (equal_sizes : Prop) (largest : Z) (g : generator_parameters) : Prop :=
  let kw := gn_params g in
  (gn_class g = CDataSet /\ kw = []) \/
  (gn_class g = CIndependent /\ arguments ["universe_size"; "random_generator"]%string kw /\
   (exists u, In ("universe_size"%string, VNum (PInt u)) kw /\ largest <= u) /\
   In "random_generator"%string (map fst kw)) \/
  (gn_class g = CSequential /\
   arguments ["order"; "correlated_sets"; "shared_prop"; "random_generator"]%string kw /\
   (exists o, In ("order"%string, VStr o) kw /\
      (o = "original" \/ ((o = "reversed" \/ o = "random") /\ equal_sizes))%string) /\
   (exists c, In ("correlated_sets"%string, VStr c) kw /\ (c = "all" \/ c = "one")%string) /\
   (exists q, given kw "shared_prop" q /\ (0 <= q <= 1)%Q)).

(** Settings that can be carried out: the smallest publisher has a user even though the sizes
    are rounded down at each step and roots are not exact. *)
Definition feasible (p : set_parameters) : Prop :=
  let n := fp_num_publishers p in
  let ratio := number_Q (fp_ratio p) in
  1 <= n /\ 1 <= fp_largest p /\ (0 < ratio <= 1)%Q /\
  (2 <= n -> (inject_Z (n - 1) < (999 # 1000) * (inject_Z (fp_largest p) * ratio))%Q) /\
  usable_pricing (fp_pricing p) /\ usable_impressions (fp_impressions p) /\
  usable_overlap (n = 1 \/ (ratio == 1)%Q) (fp_largest p) (fp_overlap p).

(** ** The environment *)

(** numpy raises no exception for parameters in these ranges. *)
Record numpy_draws {St} (rng : numpy_rng St) : Prop := {
  dr_poisson : forall lambda st, (0 <= lambda <= 1000000000)%Q ->
    exists x st', rng_poisson rng lambda st = Ok (x, st');
  dr_gamma : forall shape scale st, (0 <= shape <= 1000)%Q -> (0 <= scale <= 1000)%Q ->
    exists x st', rng_gamma rng shape scale st = Ok (x, st') /\ (0 <= x <= 1000000000)%Q;
  dr_zipf : forall s st, (1 < s)%Q -> exists x st', rng_zipf rng s st = Ok (x, st') }.

(** [pow x k] is close to the [k]-th root of [x]. *)
Definition nearly_root (pow : Q -> Z -> Q) : Prop :=
  forall x k, (0 < x <= 1)%Q -> 1 <= k ->
    (0 <= pow x k <= 1)%Q /\ ((999 # 1000) * x <= Qpow (pow x k) (Z.to_nat k))%Q /\
    ((x == 1)%Q -> (pow x k == 1)%Q).

(** A label set for a publisher of the given size. *)
Definition labels_for (L : list Z) (size : Z) : Prop := NoDup L /\ Z.of_nat (length L) = size.

(** The set generators of the cardinality estimation framework: independent sets of the sizes
    asked for, if they fit into the universe; sequentially correlated sets in the order of the
    sizes for the order 'original', and in some order otherwise. *)
Record set_generators (x : synthetic_externals seq_options) : Prop := {
  sg_order : visits_each_once (sx_set_order x);
  sg_independent : forall sizes u seed, Forall (fun s => 1 <= s <= u) sizes ->
    exists labels, sx_independent x sizes u seed = Ok labels /\ Forall2 labels_for labels sizes;
  sg_sequential : forall sizes o seed, Forall (fun s => 1 <= s) sizes ->
    In (so_order o) ["original"; "reversed"; "random"]%string ->
    In (so_correlated o) ["all"; "one"]%string -> (0 <= so_shared o <= 1)%Q ->
    exists labels sizes', sx_sequential x sizes o seed = Ok labels /\
      Permutation sizes' sizes /\ (so_order o = "original"%string -> sizes' = sizes) /\
      Forall2 labels_for labels sizes' }.

(** All of the environment that generating a design depends on. *)
Record environment {St} (rng : numpy_rng St) (x : synthetic_externals seq_options)
    (F : float_format) : Prop := {
  en_behaves : numpy_behaves rng;
  en_draws : numpy_draws rng;
  en_root : nearly_root (sx_pow x);
  en_sets : set_generators x;
  en_ints : forall k, sx_str x k = string_of_list_ascii (str_of_int k);
  en_floats : forall q, prints_back F q }.

(** ** What is on the disk *)

(** By how much the publishers shrink. *)
Definition shrink (pow : Q -> Z -> Q) (p : set_parameters) : Q :=
  if Z.eq_dec (fp_num_publishers p) 1 then 1
  else pow (number_Q (fp_ratio p)) (fp_num_publishers p - 1).

(** The data set [d] has the publishers that the parameters ask for. *)
Definition as_planned (F : float_format) (pow : Q -> Z -> Q) (p : set_parameters) (d : data_set) : Prop :=
  ds_name d = string_of_list_ascii (show_set F p) /\
  Z.of_nat (length (ds_data d)) = fp_num_publishers p /\
  forall i pub, nth_error (ds_data d) i = Some pub ->
    pd_name pub = string_of_list_ascii (str_of_int (Z.of_nat i + 1)) /\
    pd_max_reach pub = planned_size (fp_largest p) (shrink pow p) i /\ 1 <= pd_max_reach pub.

(** The name of the data set with these parameters. *)
Definition set_name_of (F : float_format) (p : set_parameters) : string :=
  string_of_list_ascii (show_set F p).

(** In [dir] there is a data set as planned by [p], and it can be read. *)
Definition holds (F : float_format) (pow : Q -> Z -> Q) (k : disk) (dir : string)
    (p : set_parameters) : Prop :=
  exists d d', as_planned F pow p d /\
    read_data_set F k (os_join dir (set_name_of F p)) = Ok d' /\
    same_publishers (entry (to_path dir) (set_name_of F p)) d d' /\
    ds_name d' = set_name_of F p /\ ds_maximum_reach d' = ds_maximum_reach d.

(** Settings that can be carried out, and whose name can be the name of a directory. *)
Definition writable (F : float_format) (p : set_parameters) : Prop :=
  feasible p /\ file_name (set_name_of F p).

(** What is true of the files [fs'] and the design [d] after the data sets of a list have been
    added to the directory [dir] of [fs]: the design lists the old and the new data sets, the
    new ones are as planned, the old ones are as before, and nothing else has changed. *)
Definition filled (F : float_format) (pow : Q -> Z -> Q) (fs : store) (dir : string)
    (ps : list set_parameters) (fs' : store) (d : design) : Prop :=
  design_ok fs' d /\ de_dirpath d = dir /\ st_cache fs' = st_cache fs /\
  (forall n, In n (sorted_names d) <->
     stat (st_disk fs) (entry (to_path dir) n) = Some Dir \/ In n (map (set_name_of F) ps)) /\
  (forall p, In p ps -> holds F pow (st_disk fs') dir p) /\
  (forall n, file_name n -> ~ In n (map (set_name_of F) ps) ->
     read_data_set F (st_disk fs') (os_join dir n) = read_data_set F (st_disk fs) (os_join dir n)) /\
  (forall q, ~ on_the_way (to_path dir) q ->
     (forall p, In p ps -> ~ within (entry (to_path dir) (set_name_of F p)) q) ->
     stat (st_disk fs') q = stat (st_disk fs) q).

(** ** Latin hypercube designs *)

(** [q] falls into the part of the unit interval that belongs to [v], one of the equal parts
    for the elements of [l]. *)
Definition chosen {A} (l : list A) (q : Q) (v : A) : Prop :=
  exists k, nth_error l k = Some v /\
    (inject_Z (Z.of_nat k) <= q * inject_Z (Z.of_nat (length l)))%Q /\
    (q * inject_Z (Z.of_nat (length l)) < inject_Z (Z.of_nat k + 1))%Q.

Definition point (s : list Q) : Prop := length s = 6%nat /\ Forall (fun q => 0 <= q < 1)%Q s.

(** A Latin sample of [n] points: in each coordinate there is one point in each of [n] equal
    parts of the unit interval. *)
Definition latin (samples : list (list Q)) : Prop :=
  let n := length samples in
  Forall point samples /\
  forall j, (j < 6)%nat ->
    Permutation (map (fun s => Qfloor (nth j s 0%Q * inject_Z (Z.of_nat n))) samples)
                (map Z.of_nat (seq 0 n)).

(** The parameters that a point of the sample stands for. *)
Definition from_levels (L : levels) (i : nat) (s : list Q) (p : set_parameters) : Prop :=
  fp_name p = ""%string /\ fp_id p = string_of_list_ascii (str_of_int (Z.of_nat i)) /\
  chosen (lv_num_publishers L) (nth 0 s 0%Q) (fp_num_publishers p) /\
  chosen (lv_largest L) (nth 1 s 0%Q) (fp_largest p) /\
  chosen (lv_ratio L) (nth 2 s 0%Q) (fp_ratio p) /\
  chosen (lv_pricing L) (nth 3 s 0%Q) (fp_pricing p) /\
  chosen (lv_impressions L) (nth 4 s 0%Q) (fp_impressions p) /\
  chosen (lv_overlap L) (nth 5 s 0%Q) (fp_overlap p).

(** [p'] is [p] except that an overlap called "Independent" has a universe of which the
    largest publisher makes up the given part. *)
Definition with_universe (p p' : set_parameters) : Prop :=
  fp_name p' = fp_name p /\ fp_id p' = fp_id p /\
  fp_num_publishers p' = fp_num_publishers p /\ fp_largest p' = fp_largest p /\
  fp_ratio p' = fp_ratio p /\ fp_pricing p' = fp_pricing p /\
  fp_impressions p' = fp_impressions p /\
  (gn_name (fp_overlap p) <> "Independent"%string -> fp_overlap p' = fp_overlap p) /\
  (gn_name (fp_overlap p) = "Independent"%string ->
   exists r g u,
     In ("largest_pub_to_universe_ratio"%string, VNum r) (gn_params (fp_overlap p)) /\
     In ("random_generator"%string, g) (gn_params (fp_overlap p)) /\
     gn_name (fp_overlap p') = "Independent"%string /\
     gn_class (fp_overlap p') = gn_class (fp_overlap p) /\
     gn_params (fp_overlap p') = [("universe_size", VNum (PInt u)); ("random_generator", g)]%string /\
     (inject_Z u * number_Q r <= inject_Z (fp_largest p))%Q /\
     (inject_Z (fp_largest p) < inject_Z (u + 1) * number_Q r)%Q).

(** The elements of a list are pairwise not related. *)
Definition pairwise_different {A} (same : A -> A -> Prop) (l : list A) : Prop :=
  forall i j a b, nth_error l i = Some a -> nth_error l j = Some b -> same a b -> i = j.

(** The levels of a design are all different. *)
Definition different_levels (L : levels) : Prop :=
  NoDup (lv_num_publishers L) /\ NoDup (lv_largest L) /\
  pairwise_different same_number (lv_ratio L) /\
  pairwise_different same_generator (lv_pricing L) /\
  pairwise_different same_generator (lv_impressions L) /\
  pairwise_different same_generator (lv_overlap L).

(** A combination of levels. *)
Definition combination (L : levels) (p : set_parameters) : Prop :=
  fp_name p = ""%string /\ fp_id p = ""%string /\
  In (fp_num_publishers p) (lv_num_publishers L) /\ In (fp_largest p) (lv_largest L) /\
  In (fp_ratio p) (lv_ratio L) /\ In (fp_pricing p) (lv_pricing L) /\
  In (fp_impressions p) (lv_impressions L) /\ In (fp_overlap p) (lv_overlap L).

(** No list of levels is empty. *)
Definition has_levels (L : levels) : Prop :=
  lv_num_publishers L <> [] /\ lv_largest L <> [] /\ lv_ratio L <> [] /\ lv_pricing L <> [] /\
  lv_impressions L <> [] /\ lv_overlap L <> [].

(** The overlaps called "Independent" say which part of the universe the largest publisher is. *)
Definition has_universe_ratio (g : generator_parameters) : Prop :=
  gn_name g = "Independent"%string -> NoDup (map fst (gn_params g)) /\
  (exists r, In ("largest_pub_to_universe_ratio"%string, VNum r) (gn_params g) /\ (0 < number_Q r)%Q) /\
  In "random_generator"%string (map fst (gn_params g)).

(** [c] of [n] things is a [k]-th part of them, exactly if [k] divides [n], and otherwise up
    to two. *)
Definition even_share (n k c : nat) : Prop :=
  (k * c < n + 2 * k)%nat /\ (n < k * c + 2 * k)%nat /\ (Nat.divide k n -> (k * c = n)%nat).

(** Each position of [levels] is taken by an even share of [ps]. *)
Definition balanced {A} (levels : list A) (field : set_parameters -> A) (ps : list set_parameters) : Prop :=
  exists ks, Forall2 (fun p k => nth_error levels k = Some (field p)) ps ks /\
    forall k, (k < length levels)%nat ->
      even_share (length ps) (length levels) (count_occ Nat.eq_dec ks k).

(** ** Whole designs *)

(** The levels contain no characters that are special in names. *)
Definition plain_levels (F : float_format) (L : levels) : Prop :=
  Forall (plain_generator F) (lv_pricing L) /\ Forall (plain_generator F) (lv_impressions L) /\
  Forall (plain_generator F) (lv_overlap L).

(** Every combination of the levels can be carried out. *)
Definition workable (F : float_format) (L : levels) : Prop :=
  plain_levels F L /\ forall p, combination L p -> feasible p.

(** [p] with another overlap. *)
Definition with_overlap (p : set_parameters) (g : generator_parameters) : set_parameters :=
  {| fp_name := fp_name p; fp_num_publishers := fp_num_publishers p; fp_largest := fp_largest p;
     fp_ratio := fp_ratio p; fp_pricing := fp_pricing p; fp_impressions := fp_impressions p;
     fp_overlap := g; fp_id := fp_id p |}.

(** The sizes of the publishers that [p] asks for. *)
Definition sizes_of (pow : Q -> Z -> Q) (p : set_parameters) : list Z :=
  map (planned_size (fp_largest p) (shrink pow p)) (seq 0 (Z.to_nat (fp_num_publishers p))).

(** [g] asks for a sequentially correlated overlap with these options. *)
Definition asks_for_sequence (g : generator_parameters) (o : seq_options) : Prop :=
  let kw := gn_params g in
  gn_class g = CSequential /\
  arguments ["order"; "correlated_sets"; "shared_prop"; "random_generator"]%string kw /\
  In ("order"%string, VStr (so_order o)) kw /\
  In ("correlated_sets"%string, VStr (so_correlated o)) kw /\ given kw "shared_prop" (so_shared o).

(** The set generator returns the sets for [p] in an order that changes the list of sizes. *)
Definition shuffles_sizes (x : synthetic_externals seq_options) (p : set_parameters) : Prop :=
  exists o, asks_for_sequence (fp_overlap p) o /\
    forall seed, exists labels sizes', sx_sequential x (sizes_of (sx_pow x) p) o seed = Ok labels /\
      Forall2 labels_for labels sizes' /\ Permutation sizes' (sizes_of (sx_pow x) p) /\
      sizes' <> sizes_of (sx_pow x) p.

(** The sequentially correlated overlap of [p] has the original order, or all publishers have
    the same size. *)
Definition order_is_kept (p : set_parameters) : Prop :=
  gn_class (fp_overlap p) = CSequential ->
  In ("order"%string, VStr "original"%string) (gn_params (fp_overlap p)) \/
  fp_num_publishers p = 1 \/ (number_Q (fp_ratio p) == 1)%Q.

(** The words that the shipped designs use as parameters are not printed floats. *)
Definition words_are_words (F : float_format) : Prop :=
  Forall (looks_like_a_string F) ["original"; "random"; "all"; "one"]%string.
