(** Vocabulary for the arguments of the generators that a data design names. *)
From Coq Require Import String.
From Verif Require Import Prelude ModelReachPoint ModelData ModelFiles ModelGenerators ModelDriver ModelDesigns SpecStack2.
Open Scope Q_scope.

Definition only_passed (kw : kwargs) (names : list string) : Prop := forall k v, In (k, v) kw -> In k names.
Definition numeric (kw : kwargs) (name : string) (q : Q) : Prop := exists n, passed kw name (VNum n) /\ q = number_Q n.
Definition numeric_or (kw : kwargs) (name : string) (default q : Q) : Prop :=
  (not_passed kw name /\ q = default) \/ numeric kw name q.

(** The generator of impressions that the parameters describe. *)
Definition impressions_of (g : generator_parameters) (i : impression_params) : Prop :=
  let kw := gn_params g in
  match gn_class g with
  | CHomogeneous => only_passed kw ["poisson_lambda"%string] /\
      exists lambda, numeric kw "poisson_lambda" lambda /\ i = Homogeneous lambda
  | CHeterogeneous => only_passed kw ["gamma_shape"; "gamma_scale"]%string /\
      exists shape scale, numeric_or kw "gamma_shape" 1 shape /\ numeric_or kw "gamma_scale" 1 scale /\
        i = Heterogeneous shape scale
  | CHeavyTailed => only_passed kw ["zeta_s"%string] /\ exists s, numeric_or kw "zeta_s" 2 s /\ i = HeavyTailed s
  | _ => False
  end.
Definition pricing_of (g : generator_parameters) (cost : Q) : Prop :=
  gn_class g = CFixedPrice /\ only_passed (gn_params g) ["cost_per_impression"%string] /\
  numeric (gn_params g) "cost_per_impression" cost.
(** The overlap that the parameters describe. A generator must be passed for the independent
    one, and may be for the sequential one; it is replaced. *)
Definition overlap_of (g : generator_parameters) (o : overlap_params seq_options) : Prop :=
  let kw := gn_params g in
  match gn_class g with
  | CDataSet => kw = [] /\ o = FullOverlap
  | CIndependent => only_passed kw ["universe_size"; "random_generator"]%string /\
      exists u r, passed kw "universe_size" (VNum (PInt u)) /\ passed kw "random_generator" r /\ o = Independent u
  | CSequential => only_passed kw ["order"; "correlated_sets"; "shared_prop"; "random_generator"]%string /\
      exists order sets shared gen, passed kw "order" (VStr order) /\ passed kw "correlated_sets" (VStr sets) /\
        numeric kw "shared_prop" shared /\ (gen = true <-> exists r, passed kw "random_generator" r) /\
        o = Sequential {| so_order := order; so_correlated := sets; so_shared := shared |} gen
  | _ => False
  end.
