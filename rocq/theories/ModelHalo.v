(** Model of src/simulator/publisher.py and src/simulator/halo_simulator.py.

    Code outside /repo (numpy's random generator, the Liquid Legions sketches and
    estimator, geometric noise, special functions) is represented by the fields of
    [externals]: arbitrary functions, so theorems hold for every behaviour of theirs, or
    for every behaviour that meets the hypotheses stated in the theorem. The random
    generator has an explicit state which is threaded through. A call returns a value or
    raises, and in both cases leaves a world (privacy tracker and generator state). *)
From Coq Require Import String Qround.
From Verif Require Import Prelude ModelReachPoint ModelData ModelPrivacy.
Open Scope Z_scope.

(** system_parameters.py 24-39: LiquidLegionsParameters *)
Record liquid_legions : Type := { ll_decay_rate : Q; ll_sketch_size : Z; ll_random_seed : Z }.

(** halo_simulator.py 176-193: the arguments given to StandardizedHistogramEstimator. *)
Record estimator_config : Type := {
  ec_max_freq : Z;
  ec_reach_epsilon : Q; ec_frequency_epsilon : Q;
  ec_reach_delta : Q; ec_frequency_delta : Q;
  ec_reach_seed : Z; ec_frequency_seed : Z
}.

(** Behaviour of code outside /repo. *)
Record externals : Type := {
  rng : Type;
  (** [generator.integers(low=0, high=1e9)] *)
  rng_integers : rng -> Z * rng;
  (** [generator.multinomial(n, register_probs)] for the given sketch parameters *)
  rng_multinomial : rng -> Z -> liquid_legions -> result (list Z) * rng;
  (** [generator.multivariate_hypergeometric(population, n)] *)
  rng_hypergeometric : rng -> list Z -> Z -> result (list Z) * rng;
  (** [generator.normal(mean, std)] *)
  rng_normal : rng -> Z -> Q -> result Q * rng;
  (** noise added by the [n]-th call of GeometricEstimateNoiser(epsilon, RandomState(seed)) *)
  geometric_noise : Q -> Z -> nat -> result Z;
  sketch : Type;
  sketch_new : liquid_legions -> sketch;
  sketch_add : sketch -> list Z -> sketch;
  sketch_merge : sketch -> sketch -> result sketch;
  (** StandardizedHistogramEstimator(config).estimate_cardinality *)
  estimate : estimator_config -> sketch -> result (list Q);
  (** (epsilon, delta) pairs of StandardizedHistogramEstimator.output_privacy_parameters *)
  output_privacy_parameters : estimator_config -> list (Q * Q);
  (** [np.sqrt(_liquid_legions_cardinality_estimate_variance(n))], halo_simulator.py 227-249 *)
  ll_std : liquid_legions -> Z -> result Q
}.

(** The mutable state during a simulation. *)
Record world (X : externals) : Type := { w_tracker : tracker; w_rng : rng X }.
Arguments w_tracker {X}. Arguments w_rng {X}.

(** A Python call that may change the world and may raise. *)
Definition M (X : externals) (A : Type) : Type := world X -> result A * world X.
Definition mret {X A} (a : A) : M X A := fun w => (Ok a, w).
Definition mbind {X A B} (m : M X A) (f : A -> M X B) : M X B :=
  fun w => match m w with
           | (Ok a, w') => f a w'
           | (Err e, w') => (Err e, w')
           end.
Definition mlift {X A} (r : result A) : M X A := fun w => (r, w).
Definition mdraw {X A} (f : rng X -> result A * rng X) : M X A :=
  fun w => let '(a, g) := f (w_rng w) in (a, {| w_tracker := w_tracker w; w_rng := g |}).
Definition mappend {X} (e : noising_event) : M X unit :=
  fun w => (Ok tt, {| w_tracker := append (w_tracker w) e; w_rng := w_rng w |}).
Notation "x <~ e ;; f" := (mbind e (fun x => f))
  (at level 61, e at next level, right associativity).
Notation "e ;;; f" := (mbind e (fun _ => f)) (at level 61, right associativity).

Fixpoint mmap {X A B} (f : A -> M X B) (l : list A) : M X (list B) :=
  match l with
  | [] => mret []
  | x :: r => y <~ f x ;; ys <~ mmap f r ;; mret (y :: ys)
  end.
Fixpoint mfold {X A B} (f : A -> B -> M X A) (l : list B) (a : A) : M X A :=
  match l with [] => mret a | x :: r => a' <~ f a x ;; mfold f r a' end.

Definition draw_seed {X} : M X Z :=
  mdraw (fun g => let '(z, g') := rng_integers X g in (Ok z, g')).

(** publisher.py 39-63: Publisher. *)
Record publisher : Type := { pub_data : publisher_data; pub_campaign_spend : Q }.

(** halo_simulator.py 80-108: HaloSimulator. *)
Record halo : Type := {
  h_data_set : data_set; h_ll : liquid_legions; h_publishers : list publisher }.

Definition mk_halo (d : data_set) (fractions : list Q) (ll : liquid_legions) : result halo :=
  pubs <- mapM (fun ip => f <- py_index fractions (Z.of_nat (fst ip)) ;;
                          Ok {| pub_data := snd ip;
                                pub_campaign_spend := (f * pd_max_spend (snd ip))%Q |})
               (combine (seq 0 (publisher_count d)) (ds_data d)) ;;
  Ok {| h_data_set := d; h_ll := ll; h_publishers := pubs |}.

(** halo_simulator.py 110-123 *)
Definition h_publisher_count (h : halo) : nat := length (h_publishers h).
Definition campaign_spends (h : halo) : list Q := map pub_campaign_spend (h_publishers h).
Definition max_spends (h : halo) : list Q := map (fun p => pd_max_spend (pub_data p)) (h_publishers h).

(** publisher.py 75-88: true_reach_by_spend *)
Definition pub_true_reach_by_spend (p : publisher) (s : Q) (m : Z) : result (reach_point Z Z) :=
  let uc := user_counts_by_spend (pub_data p) s in
  kp <- user_counts_to_kplus_reaches uc m ;;
  mk_reach_point Zops [Zsum (dict_values uc)] kp (Some [s]) None.

(** halo_simulator.py 125-143 *)
Definition true_reach_by_spend (h : halo) (spends : list Q) (m : Z) : result (reach_point Z Z) :=
  reach_by_spend (h_data_set h) spends m.

(** Python's min(a, b). *)
Definition py_min2 (a b : Q) : Q := if Qltb b a then b else a.

(** publisher.py 90-102: liquid_legions_sketch *)
Definition liquid_legions_sketch (X : externals) (ll : liquid_legions) (p : publisher) (s : Q)
  : sketch X :=
  fold_left (fun sk kv => sketch_add X sk (repeat (fst kv) (Z.to_nat (snd kv))))
    (user_counts_by_spend (pub_data p) (py_min2 s (pub_campaign_spend p)))
    (sketch_new X ll).

(** Python's round() on floats: nearest integer, ties to even. *)
Definition py_round (x : Q) : Z :=
  let f := Qfloor x in
  let d := (x - inject_Z f)%Q in
  if Qltb d (1#2) then f
  else if Qltb (1#2) d then f + 1
  else if Z.even f then f else f + 1.

(** np.minimum.accumulate *)
Fixpoint min_accumulate_from (a : Z) (l : list Z) : list Z :=
  match l with [] => [] | x :: r => let b := Z.min a x in b :: min_accumulate_from b r end.
Definition min_accumulate (l : list Z) : list Z :=
  match l with [] => [] | x :: r => x :: min_accumulate_from x r end.

(** halo_simulator.py 194-198: the loop over the other publishers. *)
Definition merge_step {X} (h : halo) (spends : list Q) (sk : sketch X) (i : Z) : M X (sketch X) :=
  p <~ mlift (py_index (h_publishers h) i) ;;
  s <~ mlift (py_index spends i) ;;
  mlift (sketch_merge X sk (liquid_legions_sketch X (h_ll h) p s)).

Definition halo_event (e d : Q) (mechanism : string) : noising_event :=
  {| ev_budget := {| epsilon := e; delta := d |}; ev_mechanism := mechanism;
     ev_buckets := full_buckets |}.

(** halo_simulator.py 145-225: simulated_reach_by_spend. numpy arrays of ints are lists of
    integers here. *)
Definition simulated_reach_by_spend {X} (h : halo) (spends : list Q) (b : budget)
    (split : Q) (m : Z) : M X (reach_point Z Z) :=
  p0 <~ mlift (py_index (h_publishers h) 0) ;;
  s0 <~ mlift (py_index spends 0) ;;
  let sk0 := liquid_legions_sketch X (h_ll h) p0 s0 in
  seed1 <~ draw_seed ;;
  seed2 <~ draw_seed ;;
  let cfg := {| ec_max_freq := m;
                ec_reach_epsilon := epsilon b * split;
                ec_frequency_epsilon := epsilon b * (1 - split);
                ec_reach_delta := delta b * split;
                ec_frequency_delta := delta b * (1 - split);
                ec_reach_seed := seed1; ec_frequency_seed := seed2 |} in
  sk <~ mfold (merge_step h spends) (py_range 1 (Z.of_nat (length spends))) sk0 ;;
  est <~ mlift (estimate X cfg sk) ;;
  let kp := min_accumulate (map (fun x => Z.max x 0) (map py_round est)) in
  mfold (fun _ ed => mappend (halo_event (fst ed) (snd ed) "Discrete Gaussian"))
        (output_privacy_parameters X cfg) tt ;;;
  imps <~ mlift (ds_impressions_by_spend (h_data_set h) spends) ;;
  r1 <~ mlift (py_index kp 0) ;;
  let kp' := if Zsum imps <=? r1
             then Z.max (Zsum imps - 1) 1 :: repeat 0 (Z.to_nat (Z.max 0 (m - 1)))
             else kp in
  mlift (mk_reach_point Zops imps kp' (Some spends) (Some (ds_universe (h_data_set h)))).

(** ** Venn diagrams *)

(** itertools.combinations(l, r), in lexicographic order. *)
Fixpoint combinations {A} (r : nat) (l : list A) : list (list A) :=
  match r, l with
  | O, _ => [[]]
  | S _, [] => []
  | S r', x :: l' => map (cons x) (combinations r' l') ++ combinations r l'
  end.

(** [chain.from_iterable(combinations(l, r) for r in range(1, len(l) + 1))] *)
Definition nonempty_subsets {A} (l : list A) : list (list A) :=
  flat_map (fun r => combinations r l) (seq 1 (length l)).

(** [sum(1 << pub_id for pub_id in pub_ids)] *)
Definition region_repr (ids : list Z) : Z := Zsum (map (fun i => Z.shiftl 1 i) ids).

(** [d[k] = f(d[k])] on a defaultdict(int). *)
Fixpoint dict_modify (f : Z -> Z) (d : zdict) (k : Z) : zdict :=
  match d with
  | [] => [(k, f 0)]
  | (k', v) :: r => if k =? k' then (k', f v) :: r else (k', v) :: dict_modify f r k
  end.

(** [d[k]] on a dict; missing keys raise KeyError. *)
Fixpoint lookup {V} (d : list (Z * V)) (k : Z) : result V :=
  match d with
  | [] => Err KeyError
  | (k', v) :: r => if k =? k' then Ok v else lookup r k
  end.
(** [d[k]] on a defaultdict(int), when only read. *)
Definition lookup0 (d : zdict) (k : Z) : Z := match lookup d k with Ok v => v | Err _ => 0 end.

(** [d[k][i] += 1] *)
Fixpoint bump_region (d : list (Z * list Z)) (k i : Z) : result (list (Z * list Z)) :=
  match d with
  | [] => Err KeyError
  | (k', l) :: r =>
      if k =? k' then x <- py_index l i ;; l' <- py_set l i (x + 1) ;; Ok ((k', l') :: r)
      else r' <- bump_region r k i ;; Ok ((k', l) :: r')
  end.

Fixpoint bump_regions (m : Z) (imps : zdict) (users : zdict) (d : list (Z * list Z))
  : result (list (Z * list Z)) :=
  match users with
  | [] => Ok d
  | (u, region) :: r =>
      d' <- bump_region d region (Z.min m (lookup0 imps u)) ;; bump_regions m imps r d'
  end.

Definition max_active_publishers : nat := 20.

(** halo_simulator.py 375-380: user counts of the publishers with non-zero spend. *)
Fixpoint active_counts_from (pubs : list publisher) (i : Z) (spends : list Q)
  : result (list (Z * zdict)) :=
  match spends with
  | [] => Ok []
  | s :: r =>
      if Qeqb s 0 then active_counts_from pubs (i + 1) r
      else p <- py_index pubs i ;;
           rest <- active_counts_from pubs (i + 1) r ;;
           Ok ((i, user_counts_by_spend (pub_data p) s) :: rest)
  end.

(** halo_simulator.py 403-413: one publisher's counts entered in user_region and
    user_impressions. *)
Definition locate_users (st : zdict * zdict) (pc : Z * zdict) : zdict * zdict :=
  fold_left (fun st ui =>
    (dict_modify (fun r => Z.lor r (Z.shiftl 1 (fst pc))) (fst st) (fst ui),
     dict_incr (snd st) (fst ui) (snd ui))) (snd pc) st.

(** halo_simulator.py 344-430: _form_venn_diagram_regions *)
Definition form_venn_diagram_regions (h : halo) (spends : list Q) (m : Z)
  : result (list (Z * list Z)) :=
  active <- active_counts_from (h_publishers h) 0 spends ;;
  if (max_active_publishers <? length active)%nat then Err ValueError
  else
    let keys := map region_repr (nonempty_subsets (map fst active)) in
    let '(user_region, user_impressions) := fold_left locate_users active ([], []) in
    freqs <- bump_regions m user_impressions user_region
               (map (fun r => (r, repeat 0 (Z.to_nat (m + 1)))) keys) ;;
    let occupied := map snd user_region in
    Ok (map (fun rf => (fst rf,
          if existsb (fun o => o =? fst rf) occupied
          then frequencies_to_kplus_reaches Zops (tl (snd rf))
          else tl (snd rf))) freqs).

(** halo_simulator.py 251-273: _liquid_legions_num_active_regions *)
Definition num_active_regions {X} (h : halo) (n : Z) : M X Z :=
  v <~ mdraw (fun g => rng_multinomial X g n (h_ll h)) ;;
  let a := Z.of_nat (length (filter (fun x => x =? 1) v)) in
  mlift (if a =? 0 then Err RuntimeError else Ok a).

(** halo_simulator.py 432-480: _sample_venn_diagram. With no region, unpacking the empty
    zip raises ValueError. *)
Definition sample_venn_diagram {X} (regions : list (Z * list Z)) (size : Z)
  : M X (list (Z * Z)) :=
  pairs <~ mlift (mapM (fun rk => x <- py_index (snd rk) 0 ;; Ok (fst rk, x)) regions) ;;
  match pairs with
  | [] => mlift (Err ValueError)
  | _ =>
      if Zsum (map snd pairs) <? size then mlift (Err ValueError)
      else s <~ mdraw (fun g => rng_hypergeometric X g (map snd pairs) size) ;;
           mret (combine (map fst pairs) s)
  end.

(** [noiser(x)], the [n]-th call. *)
Definition noised (X : externals) (e : Q) (seed : Z) (n : nat) (x : Z) : result Z :=
  z <- geometric_noise X e seed n ;; Ok (x + z).
Definition noisedQ (X : externals) (e : Q) (seed : Z) (n : nat) (x : Q) : result Q :=
  z <- geometric_noise X e seed n ;; Ok (x + inject_Z z)%Q.

(** halo_simulator.py 482-534: _add_dp_noise_to_primitive_regions *)
Definition add_dp_noise {X} (regions : list (Z * Z)) (b : budget) (split : Q)
  : M X (list (Z * Z)) :=
  seed <~ draw_seed ;;
  r <~ mlift (mapM (fun nr => x <- noised X (epsilon b * split) seed (fst nr) (snd (snd nr)) ;;
                              Ok (fst (snd nr), Z.max 0 x))
                   (combine (seq 0 (length regions)) regions)) ;;
  mappend (halo_event (epsilon b * split) (delta b * split) "Discrete Laplace") ;;;
  mret r.

(** halo_simulator.py 536-604: _scale_up_reach_in_primitive_regions *)
Definition scale_up {X} (regions : list (Z * Z)) (card : Z) (std : Q) (b : budget) (split : Q)
  : M X (list (Z * Q)) :=
  seed <~ draw_seed ;;
  x <~ mdraw (fun g => rng_normal X g card std) ;;
  c <~ mlift (noisedQ X (epsilon b * split) seed 0 x) ;;
  mappend (halo_event (epsilon b * split) (delta b * split) "Discrete Laplace") ;;;
  let total := Zsum (map snd regions) in
  let factor := if total =? 0 then 0%Q else (c / inject_Z total)%Q in
  mret (map (fun r => (fst r, (inject_Z (snd r) * factor)%Q)) regions).

(** halo_simulator.py 606-644: _aggregate_reach_in_primitive_venn_diagram_regions *)
Definition aggregate_reach (ids : list Z) (regions : list (Z * Q)) : Q :=
  Qsum (map snd (filter (fun r => negb (Z.land (fst r) (region_repr ids) =? 0)) regions)).

(** [np.array(l) * pub_vector] where pub_vector marks the positions in [ids]; the lengths
    are equal when this is reached. *)
Definition masked {A} (zero : A) (ids : list Z) (l : list A) : list A :=
  map (fun ix => if existsb (Z.eqb (Z.of_nat (fst ix))) ids then snd ix else zero)
      (combine (seq 0 (length l)) l).

(** halo_simulator.py 670: [[i for i in range(len(spends)) if spends[i]]] *)
Definition active_ids (spends : list Q) : list Z :=
  map (fun ix => Z.of_nat (fst ix))
      (filter (fun ix => negb (Qeqb (snd ix) 0)) (combine (seq 0 (length spends)) spends)).

(** halo_simulator.py 646-699: _generate_reach_points_from_venn_diagram *)
Definition generate_reach_points (h : halo) (spends : list Q) (regions : list (Z * Q))
  : result (list (reach_point Z Q)) :=
  imps <- ds_impressions_by_spend (h_data_set h) spends ;;
  mapM (fun ids => mk_reach_point Qops (masked 0 ids imps) [aggregate_reach ids regions]
                     (Some (masked 0%Q ids spends)) (Some (ds_universe (h_data_set h))))
       (nonempty_subsets (active_ids spends)).

(** halo_simulator.py 275-342: simulated_venn_diagram_reach_by_spend *)
Definition simulated_venn {X} (h : halo) (spends : list Q) (b : budget) (split : Q) (m : Z)
  : M X (list (reach_point Z Q)) :=
  if negb (m =? 1) then mlift (Err ValueError)
  else
    regions <~ mlift (form_venn_diagram_regions h spends m) ;;
    match regions with
    | [] => mret []
    | _ =>
        p <~ mlift (true_reach_by_spend h spends 1) ;;
        card <~ mlift (reach p 1) ;;
        size <~ num_active_regions h card ;;
        sampled <~ sample_venn_diagram regions size ;;
        noisy <~ add_dp_noise sampled b split ;;
        std <~ mlift (ll_std X (h_ll h) card) ;;
        scaled <~ scale_up noisy card std b (1 - split) ;;
        mlift (generate_reach_points h spends scaled)
    end.
