(** Properties C29-C32 and C43: reach surfaces. *)
From Coq Require Import Lqa Sorting.Sorted Sorting.Permutation.
From Verif Require Import Prelude ModelReachPoint ReachPointLemmas DataLemmas ModelCurves ModelSurface SpecSurface
  SurfaceLemmas SurfaceLemmas2 SurfaceLemmas3 SurfaceLemmas4 SurfaceLemmas5.
Open Scope Z_scope.

Lemma in_nth_lt (rs : list Q) r n : In r rs -> length rs = n -> exists k, (k < n)%nat /\ nth k rs 0%Q = r.
Proof. intros H <-. apply In_nth with (d := 0%Q) in H. destruct H as [k [H1 H2]]. eauto. Qed.

Lemma vec_le_nth u v i : vec_le u v -> (nth i u 0 <= nth i v 0)%Q.
Proof. intros H. revert i. induction H; intros [|i]; simpl; auto; lra. Qed.

(** ** C29 *)

(** The modelled union is at least every single reach and at most their sum. *)
Theorem C29_union_bounds curves a imps rs m :
  overlap_coefficients (length curves) a -> non_trivial_curves curves ->
  single_reaches curves imps rs ->
  exists pt u, pairwise_by_impressions (length curves) a curves imps m = Ok pt /\ reach pt 1 = Ok u /\
    rp_impressions pt = imps /\
    (forall r, In r rs -> (r <= u)%Q) /\ (u <= Qsum rs)%Q.
Proof.
  intros Ha Hn H. destruct (single_reaches_vector _ _ _ H) as [_ [_ L]].
  destruct (pairwise_by_impressions_ok a curves imps rs m (proj1 Ha) H Hn) as (pt & u & E1 & E2 & E3 & _ & E5).
  exists pt, u. repeat split; auto.
  - intros r Hr. destruct (in_nth_lt rs r _ Hr L) as [k [Hk <-]]. rewrite E5.
    apply pairwise_value_ge; auto. intros i _. eapply single_reaches_bounds; eauto.
  - rewrite E5, Qsum_total, L. apply pairwise_value_le_sum; auto.
    intros i _. pose proof (single_reaches_bounds _ _ _ i H). lra.
Qed.
Print Assumptions C29_union_bounds.

(** Where no single reach is smaller, the union is not smaller. *)
Theorem C29_monotone curves a imps imps' rs rs' m pt pt' u u' :
  overlap_coefficients (length curves) a -> non_trivial_curves curves ->
  single_reaches curves imps rs -> single_reaches curves imps' rs' -> vec_le rs rs' ->
  pairwise_by_impressions (length curves) a curves imps m = Ok pt -> reach pt 1 = Ok u ->
  pairwise_by_impressions (length curves) a curves imps' m = Ok pt' -> reach pt' 1 = Ok u' ->
  (u <= u')%Q.
Proof.
  intros Ha Hn H H' Hle E1 E2 E1' E2'.
  destruct (pairwise_by_impressions_ok a curves imps rs m (proj1 Ha) H Hn) as (p0 & u0 & F1 & F2 & _ & _ & F5).
  destruct (pairwise_by_impressions_ok a curves imps' rs' m (proj1 Ha) H' Hn) as (p1 & u1 & G1 & G2 & _ & _ & G5).
  assert (u0 = u) as -> by congruence. assert (u1 = u') as -> by congruence. rewrite F5, G5.
  apply pairwise_value_mono; auto.
  - intros i _. pose proof (single_reaches_bounds _ _ _ i H). pose proof (vec_le_nth _ _ i Hle). lra.
  - intros i _. pose proof (single_reaches_bounds _ _ _ i H'). lra.
Qed.
Print Assumptions C29_monotone.

(** With one active publisher the surface is that publisher's curve. *)
Theorem C29_one_active curves a imps rs m k pt u :
  overlap_coefficients (length curves) a -> non_trivial_curves curves ->
  single_reaches curves imps rs -> (k < length curves)%nat ->
  (forall i, (i < length curves)%nat -> i <> k -> nth i rs 0 == 0)%Q ->
  pairwise_by_impressions (length curves) a curves imps m = Ok pt -> reach pt 1 = Ok u ->
  (u == nth k rs 0)%Q.
Proof.
  intros Ha Hn H Hk Hz E1 E2.
  destruct (pairwise_by_impressions_ok a curves imps rs m (proj1 Ha) H Hn) as (p0 & u0 & F1 & F2 & _ & _ & F5).
  assert (u0 = u) as -> by congruence. rewrite F5. apply pairwise_value_single; auto.
Qed.
Print Assumptions C29_one_active.

(** The value is the documented formula. *)
Theorem C29_formula curves a imps rs m pt u :
  length a = (length curves * length curves)%nat -> non_trivial_curves curves ->
  single_reaches curves imps rs ->
  pairwise_by_impressions (length curves) a curves imps m = Ok pt -> reach pt 1 = Ok u ->
  let p := length curves in
  let mx i := nth i (map c_max_reach curves) 0%Q in
  (u == total p (fun i => nth i rs 0) - (1#2) * total p (fun j => total p (fun k =>
     entry p a j k * (nth j rs 0 * nth k rs 0 / (if Qle_bool (mx j) (mx k) then mx k else mx j)))))%Q.
Proof.
  intros La Hn H E1 E2 p mx.
  destruct (pairwise_by_impressions_ok a curves imps rs m La H Hn) as (p0 & u0 & F1 & F2 & _ & _ & F5).
  assert (u0 = u) as -> by congruence. rewrite F5. unfold pairwise_value. fold p.
  apply Qplus_comp; [reflexivity|]. apply Qopp_comp. rewrite <- total_scal. apply total_ext. intros i Hi.
  rewrite <- total_scal. apply total_ext. intros j Hj.
  unfold pden. pose proof (ent_cmax curves i ltac:(auto)) as Ei. pose proof (ent_cmax curves j ltac:(auto)) as Ej.
  unfold ent in Ei, Ej. unfold mx. rewrite Ei, Ej.
  change (if Qle_bool (cmax curves i) (cmax curves j) then cmax curves j else cmax curves i)
    with (Qmax (cmax curves i) (cmax curves j)).
  pose proof (cmax_pos curves i Hn ltac:(auto)). pose proof (Qmax_le_l (cmax curves i) (cmax curves j)).
  field. lra.
Qed.
Print Assumptions C29_formula.

(** The constraints handed to the solver are the documented ones. *)
Theorem C29_solver_constraints p zs residuals x : length x = (p * p)%nat ->
  (qp_feasible (pairwise_qp p zs residuals) x <-> overlap_coefficients p x).
Proof. apply pairwise_feasible_iff. Qed.
Print Assumptions C29_solver_constraints.

(** So a fit with any solver that respects its constraints gives such coefficients. *)
Theorem C29_fit_gives_coefficients solver curves points a :
  returns_feasible solver (length curves * length curves) ->
  Forall (fun pt => length (rp_impressions pt) = length curves) points ->
  pairwise_fit solver curves points = Ok a -> overlap_coefficients (length curves) a.
Proof. apply pairwise_fit_feasible. Qed.
Print Assumptions C29_fit_gives_coefficients.

(** Example: two publishers, curves min(x, 100) and min(x, 50), half overlap. *)
Definition capped (m : Q) : reach_curve :=
  {| c_reach := fun x => Ok (Qmin x m); c_max_reach := m; c_impressions_for_spend := fun s => Ok (s * 10)%Q |}.
Definition ex_curves : list reach_curve := [capped 100; capped 50].
Definition ex_a : list Q := [0; 1#2; 1#2; 0]%Q.
Example ex_a_ok : overlap_coefficients 2 ex_a.
Proof.
  split; [reflexivity|]. repeat split; intros;
  repeat match goal with H : (?i < 2)%nat |- _ => destruct i as [|[|?]]; [clear H|clear H|lia] end;
  vm_compute; congruence.
Qed.
Example ex_single : single_reaches ex_curves [60; 80]%Q [60; 50]%Q.
Proof. repeat (constructor; [reflexivity| vm_compute; split; congruence |]). constructor. Qed.
Example ex_pairwise : exists pt, pairwise_by_impressions 2 ex_a ex_curves [60; 80]%Q 1 = Ok pt /\
  match reach pt 1 with Ok u => (u == 95)%Q | Err _ => False end.
Proof. eexists. split; [reflexivity|]. vm_compute. reflexivity. Qed.

(** ** C43 *)

(** With an optimal solver the fitted pairwise surface has the smallest squared error on the
    training points among all admissible coefficients. *)
Theorem C43_fit_minimises_training_error solver curves points a :
  returns_optimum solver (length curves * length curves) -> non_trivial_curves curves ->
  Forall (fun pt => exists rs, single_reaches curves (rp_impressions pt) rs) points ->
  pairwise_fit solver curves points = Ok a ->
  overlap_coefficients (length curves) a /\
  forall b, overlap_coefficients (length curves) b -> exists ea eb,
    training_error (fun x => pairwise_by_impressions (length curves) a curves x 1) points = Some ea /\
    training_error (fun x => pairwise_by_impressions (length curves) b curves x 1) points = Some eb /\
    (ea <= eb)%Q.
Proof. apply pairwise_fit_optimal. Qed.
Print Assumptions C43_fit_minimises_training_error.

(** A surface that matches its training points exactly is recovered: the fit has no error. *)
Theorem C43_exact_data_fitted_exactly solver curves points a b :
  returns_optimum solver (length curves * length curves) -> non_trivial_curves curves ->
  Forall (fun pt => exists rs, single_reaches curves (rp_impressions pt) rs) points ->
  pairwise_fit solver curves points = Ok a ->
  overlap_coefficients (length curves) b ->
  (exists e, training_error (fun x => pairwise_by_impressions (length curves) b curves x 1) points = Some e /\ e == 0)%Q ->
  Forall (fun pt => exists q u y, pairwise_by_impressions (length curves) a curves (rp_impressions pt) 1 = Ok q /\
            reach q 1 = Ok u /\ reach pt 1 = Ok y /\ (u == y)%Q) points.
Proof.
  intros Hs Hn HF E Hb [e [Ee E0]].
  destruct (pairwise_fit_optimal solver curves points a Hs Hn HF E) as [_ K].
  destruct (K b Hb) as [ea [eb [E1 [E2 Hle]]]]. rewrite E2 in Ee. injection Ee as ->.
  rewrite E0 in Hle. clear - E1 Hle.
  set (pred := fun x => pairwise_by_impressions (length curves) a curves x 1) in *.
  change (Forall (fun pt => exists q u y, pred (rp_impressions pt) = Ok q /\ reach q 1 = Ok u /\ reach pt 1 = Ok y /\ (u == y)%Q) points).
  assert (forall pts e, training_error pred pts = Some e -> 0 <= e)%Q as Hpos.
  { induction pts as [|pt pts IH]; intros e E; cbn [training_error] in E; [injection E as <-; lra|].
    destruct (pred (rp_impressions pt)) as [q|]; [|discriminate]. destruct (reach pt 1) as [y|]; [|discriminate].
    destruct (training_error pred pts) as [e'|]; [|discriminate]. destruct (reach q 1) as [u|]; [|discriminate].
    injection E as <-. specialize (IH e' eq_refl). pose proof (square_nonneg (y - u)). lra. }
  revert ea E1 Hle. induction points as [|pt pts IH]; intros ea E Hle; [constructor|]. cbn [training_error] in E.
  destruct (pred (rp_impressions pt)) as [q|] eqn:Eq; [|discriminate]. destruct (reach pt 1) as [y|] eqn:Ey; [|discriminate].
  destruct (training_error pred pts) as [e'|] eqn:Et; [|discriminate]. destruct (reach q 1) as [u|] eqn:Eu; [|discriminate].
  injection E as <-. pose proof (Hpos _ _ Et). pose proof (square_nonneg (y - u)).
  constructor.
  - exists q, u, y. repeat split; auto.
    destruct (Qlt_le_dec (y - u) 0) as [L|L].
    + pose proof (Qmult_lt_0_compat (-(y - u)) (-(y - u)) ltac:(lra) ltac:(lra)). lra.
    + destruct (Qlt_le_dec 0 (y - u)) as [L'|L'].
      * pose proof (Qmult_lt_0_compat (y - u) (y - u) L' L'). lra.
      * lra.
  - apply (IH e'); auto. lra.
Qed.
Print Assumptions C43_exact_data_fitted_exactly.

(** Example: two training points with different overlaps, and a solver that answers (0, 1/2,
    1/2, 0); the coefficients it returns are admissible and the training error is computed. *)
Definition ex_point (imps : list Q) (r : Q) : qpoint :=
  match mk_reach_point Qops imps [r] None None with Ok pt => pt | Err _ => Build_reach_point Q Q imps [] [] None None end.
Definition ex_points : list qpoint := [ex_point [60; 80]%Q 95; ex_point [100; 50]%Q 120].
Example ex_pairwise_fit : pairwise_fit (fun _ => Ok ex_a) ex_curves ex_points = Ok ex_a.
Proof. reflexivity. Qed.
Example ex_training_error :
  match training_error (fun x => pairwise_by_impressions 2 ex_a ex_curves x 1) ex_points with
  | Some e => (e == 25)%Q | None => False end.
Proof. vm_compute. reflexivity. Qed.

(** ** C30 *)

(** The universe size used by the mixture is at least twice every curve's maximum reach. *)
Theorem C30_universe curves N : mixture_N curves = Ok N ->
  (forall c, In c curves -> c_max_reach c * 2 <= N)%Q.
Proof. apply mixture_N_ge. Qed.
Print Assumptions C30_universe.

(** The modelled union is at least every single reach, at most their sum and at most the
    number of components times the universe. *)
Theorem C30_union_bounds curves c N a imps rs m :
  mixture_N curves = Ok N -> non_trivial_curves curves ->
  mixture_weights (length curves) c a -> single_reaches curves imps rs ->
  exists pt u, mixture_by_impressions (length curves) c N a curves imps m = Ok pt /\ reach pt 1 = Ok u /\
    rp_impressions pt = imps /\
    (forall r, In r rs -> (r <= u)%Q) /\ (u <= Qsum rs)%Q /\ (u <= inject_Z (Z.of_nat c) * N)%Q.
Proof.
  intros EN Hn Ha H. destruct (single_reaches_vector _ _ _ H) as [_ [_ L]].
  destruct (mixture_reaches_below curves imps rs N EN Hn H) as [PN Hr].
  destruct (mixture_by_impressions_ok c N a curves imps rs m (proj1 Ha) H ltac:(intros E; rewrite E in PN; lra))
    as (pt & u & E1 & E2 & E3 & _ & E5).
  exists pt, u. repeat split; auto.
  - intros r Hr0. destruct (in_nth_lt rs r _ Hr0 L) as [k [Hk <-]]. rewrite E5. apply mixture_ge; auto.
  - rewrite E5, Qsum_total, L. apply mixture_le_sum; auto.
  - rewrite E5. apply mixture_le_cN; auto.
Qed.
Print Assumptions C30_union_bounds.

Theorem C30_monotone curves c N a imps imps' rs rs' m pt pt' u u' :
  mixture_N curves = Ok N -> non_trivial_curves curves ->
  mixture_weights (length curves) c a ->
  single_reaches curves imps rs -> single_reaches curves imps' rs' -> vec_le rs rs' ->
  mixture_by_impressions (length curves) c N a curves imps m = Ok pt -> reach pt 1 = Ok u ->
  mixture_by_impressions (length curves) c N a curves imps' m = Ok pt' -> reach pt' 1 = Ok u' ->
  (u <= u')%Q.
Proof.
  intros EN Hn Ha H H' Hle E1 E2 E1' E2'.
  destruct (mixture_reaches_below curves imps rs N EN Hn H) as [PN Hr].
  destruct (mixture_reaches_below curves imps' rs' N EN Hn H') as [_ Hr'].
  assert (~ N == 0)%Q as NN by (intros E; rewrite E in PN; lra).
  destruct (mixture_by_impressions_ok c N a curves imps rs m (proj1 Ha) H NN) as (p0 & u0 & F1 & F2 & _ & _ & F5).
  destruct (mixture_by_impressions_ok c N a curves imps' rs' m (proj1 Ha) H' NN) as (p1 & u1 & G1 & G2 & _ & _ & G5).
  assert (u0 = u) as -> by congruence. assert (u1 = u') as -> by congruence. rewrite F5, G5.
  apply mixture_mono; auto. intros i Hi.
  pose proof (Hr i Hi). pose proof (Hr' i Hi). pose proof (vec_le_nth _ _ i Hle). lra.
Qed.
Print Assumptions C30_monotone.

(** With one active publisher, in particular with one publisher, the surface is the curve. *)
Theorem C30_one_active curves c N a imps rs m k pt u :
  mixture_N curves = Ok N -> non_trivial_curves curves ->
  mixture_weights (length curves) c a -> single_reaches curves imps rs ->
  (k < length curves)%nat -> (forall i, (i < length curves)%nat -> i <> k -> nth i rs 0 == 0)%Q ->
  mixture_by_impressions (length curves) c N a curves imps m = Ok pt -> reach pt 1 = Ok u ->
  (u == nth k rs 0)%Q.
Proof.
  intros EN Hn Ha H Hk Hz E1 E2.
  destruct (mixture_reaches_below curves imps rs N EN Hn H) as [PN Hr].
  assert (~ N == 0)%Q as NN by (intros E; rewrite E in PN; lra).
  destruct (mixture_by_impressions_ok c N a curves imps rs m (proj1 Ha) H NN) as (p0 & u0 & F1 & F2 & _ & _ & F5).
  assert (u0 = u) as -> by congruence. rewrite F5. apply mixture_single; auto.
Qed.
Print Assumptions C30_one_active.

(** The constraints handed to the solver are the documented ones, and the fitted weights
    satisfy them when the solver respects them. *)
Theorem C30_solver_constraints p c N zs ys x : length x = (p * c)%nat ->
  (qp_feasible (mixture_qp p c N zs ys) x <-> mixture_weights p c x).
Proof. apply mixture_feasible_iff. Qed.
Print Assumptions C30_solver_constraints.

Theorem C30_fit_gives_weights solver starts c curves points N a :
  returns_feasible solver (length curves * c) ->
  Forall (fun pt => length (rp_impressions pt) = length curves) points ->
  mixture_fit solver starts c curves points = Ok (N, a) ->
  mixture_N curves = Ok N /\ mixture_weights (length curves) c a.
Proof. apply mixture_fit_weights. Qed.
Print Assumptions C30_fit_gives_weights.

(** The union can exceed the universe: three publishers in three different components. *)
Theorem C30_universe_bound_refuted :
  exists curves c N a imps rs pt u, mixture_N curves = Ok N /\ non_trivial_curves curves /\
    mixture_weights (length curves) c a /\ single_reaches curves imps rs /\
    mixture_by_impressions (length curves) c N a curves imps 1 = Ok pt /\ reach pt 1 = Ok u /\ (N < u)%Q.
Proof.
  exists [capped 100; capped 100; capped 100], 3%nat, 200%Q, [1; 0; 0; 0; 1; 0; 0; 0; 1]%Q, [100; 100; 100]%Q, [100; 100; 100]%Q.
  eexists. eexists. split; [reflexivity|]. split; [repeat constructor|].
  split.
  { split; [reflexivity|]. split.
    - intros i j Hi Hj. destruct i as [|[|[|?]]]; [| | |cbn in Hi; lia]; (destruct j as [|[|[|?]]]; [| | |lia]); vm_compute; congruence.
    - intros i Hi. destruct i as [|[|[|?]]]; [| | |cbn in Hi; lia]; vm_compute; reflexivity. }
  split; [repeat (constructor; [reflexivity|vm_compute; split; congruence|]); constructor|].
  split; [reflexivity|]. split; [reflexivity|]. vm_compute. reflexivity.
Qed.
Print Assumptions C30_universe_bound_refuted.

Definition ex_w : list Q := [1#2; 1#2; 1; 0]%Q.
Example ex_w_ok : mixture_weights 2 2 ex_w.
Proof.
  split; [reflexivity|]. split; intros;
  repeat match goal with H : (?i < 2)%nat |- _ => destruct i as [|[|?]]; [clear H|clear H|lia] end;
  vm_compute; congruence.
Qed.
Example ex_mixture : exists pt, mixture_by_impressions 2 2 200 ex_w ex_curves [60; 80]%Q 1 = Ok pt /\
  match reach pt 1 with Ok u => (u == 205 # 2)%Q | Err _ => False end.
Proof. eexists. split; [reflexivity|]. vm_compute. reflexivity. Qed.

(** ** C31 *)

(** What the descent minimises is the squared error of the explained overlap. *)
Theorem C31_loss_is_squared_error data lbd : symmetric_data (length lbd) data ->
  (loss data lbd == squared_loss data lbd)%Q.
Proof. apply loss_squared_loss. Qed.
Print Assumptions C31_loss_is_squared_error.

(** The training data are symmetric. *)
Theorem C31_data_symmetric p curves points data n :
  setup_predictor_response p curves points = Ok data -> symmetric_data n data.
Proof. apply setup_symmetric. Qed.
Print Assumptions C31_data_symmetric.

(** From a feasible point, 0..bound is exactly the set of feasible values of a coordinate. *)
Theorem C31_bound_is_exact lbd i x : lambda_feasible lbd -> (i < length lbd)%nat -> (0 <= x)%Q ->
  (x <= feasible_bound lbd i)%Q <-> lambda_feasible (replaced lbd i x).
Proof. intros HF Hi Hx. rewrite replaced_set_nth by auto. apply bound_exact; auto. Qed.
Print Assumptions C31_bound_is_exact.

(** A step stays feasible and no feasible value of that coordinate has a smaller loss; in
    particular the loss does not grow. *)
Theorem C31_step_is_best data lbd i x : lambda_feasible lbd -> (i < length lbd)%nat ->
  symmetric_data (length lbd) data -> step data lbd i = Ok x ->
  lambda_feasible (replaced lbd i x) /\
  (forall y, lambda_feasible (replaced lbd i y) ->
     (squared_loss data (replaced lbd i x) <= squared_loss data (replaced lbd i y))%Q) /\
  (squared_loss data (replaced lbd i x) <= squared_loss data lbd)%Q.
Proof.
  intros HF Hi HS E. destruct (step_sound data lbd i x HF Hi HS E) as [F1 F2].
  assert (forall y, squared_loss data (replaced lbd i y) == loss data (set_nth i y lbd))%Q as K.
  { intros y. rewrite replaced_set_nth by auto. symmetry. apply loss_squared_loss. rewrite set_nth_length. auto. }
  split; [rewrite replaced_set_nth by auto; auto|]. split.
  - intros y Hy. rewrite !K. apply F2. rewrite <- replaced_set_nth by auto. auto.
  - rewrite K, <- (loss_squared_loss data lbd HS). specialize (F2 (nth i lbd 0%Q)).
    rewrite set_nth_same in F2. auto.
Qed.
Print Assumptions C31_step_is_best.

(** A whole descent, for any permutations, thresholds and round counts, ends feasible, not
    worse than it started, and reports the loss of what it returns. *)
Theorem C31_descent_sound data perms mi rounds lbd lbd' l conv :
  lambda_feasible lbd -> (forall r, Forall (fun i => (i < length lbd)%nat) (perms r)) ->
  symmetric_data (length lbd) data -> (mi < 1)%Q -> (0 < rounds)%nat ->
  fit_one_init_lbd data perms mi rounds lbd = Ok (lbd', l, conv) ->
  lambda_feasible lbd' /\ length lbd' = length lbd /\
  (l == squared_loss data lbd')%Q /\ (l <= squared_loss data lbd)%Q.
Proof.
  intros HF HP HS Hmi Hr E.
  destruct (fit_one_sound data perms mi rounds lbd lbd' l conv HF HP HS Hmi Hr E) as [G1 [G2 [G3 G4]]].
  split; auto. split; auto. split.
  - rewrite G4. apply loss_squared_loss. rewrite G2. auto.
  - rewrite <- (loss_squared_loss data lbd HS). auto.
Qed.
Print Assumptions C31_descent_sound.

(** The coefficients built from feasible lambdas are admissible for the pairwise surface, so
    C29 applies to the restricted surface as well. *)
Theorem C31_coefficients_admissible lbd : lambda_feasible lbd ->
  overlap_coefficients (length lbd) (construct_a lbd).
Proof. apply construct_a_ok. Qed.
Print Assumptions C31_coefficients_admissible.

Theorem C31_fit_gives_coefficients starts perms curves points a :
  (forall n, length (starts n) = length curves /\ lambda_feasible (starts n)) ->
  (forall n r, Forall (fun i => (i < length curves)%nat) (perms n r)) ->
  restricted_fit starts perms curves points = Ok a -> overlap_coefficients (length curves) a.
Proof. apply restricted_fit_ok. Qed.
Print Assumptions C31_fit_gives_coefficients.

(** What the surface predicts with those coefficients is the sum of the single reaches minus
    the explained overlap: fitting and prediction agree. *)
Theorem C31_prediction_matches_fit curves lbd imps rs m pt u :
  length lbd = length curves -> non_trivial_curves curves -> single_reaches curves imps rs ->
  pairwise_by_impressions (length curves) (construct_a lbd) curves imps m = Ok pt -> reach pt 1 = Ok u ->
  (u == Qsum rs - explained lbd (construct_D rs (map c_max_reach curves)))%Q.
Proof.
  intros HL Hn H E1 E2. destruct (single_reaches_vector _ _ _ H) as [_ [_ L]].
  destruct (pairwise_by_impressions_ok (construct_a lbd) curves imps rs m) as (p0 & u0 & F1 & F2 & _ & _ & F5); auto.
  { rewrite construct_a_length, HL. auto. }
  assert (u0 = u) as -> by congruence. rewrite F5, Qsum_total, L. apply construct_a_predicts; auto.
Qed.
Print Assumptions C31_prediction_matches_fit.

(** The start check tolerates a small excess; from such a start a step can return a negative
    coordinate, which no feasible point has. *)
Definition ex_tolerant : list Q := [0; 3#4; 666667#1000000; 666667#1000000]%Q.
Theorem C31_tolerant_start_refuted :
  exists data lbd i x, check_feasibility lbd = true /\ symmetric_data (length lbd) data /\
    (i < length lbd)%nat /\ step data lbd i = Ok x /\ (x < 0)%Q.
Proof.
  exists [(100%Q, fun _ _ => 1%Q)], ex_tolerant, 0%nat. eexists.
  split; [vm_compute; reflexivity|]. split; [constructor; [reflexivity|constructor]|].
  split; [vm_compute; lia|]. split; [vm_compute; reflexivity|]. vm_compute. reflexivity.
Qed.
Print Assumptions C31_tolerant_start_refuted.

(** The bound is documented as exact for the check of the start; it is not when all other
    coordinates vanish: the check accepts any value, the bound is a million. *)
Theorem C31_bound_iff_check_refuted :
  exists lbd i x, (i < length lbd)%nat /\ check_feasibility lbd = true /\ (0 <= x)%Q /\
    check_feasibility (replaced lbd i x) = true /\ ~ (x <= feasible_bound lbd i)%Q.
Proof.
  exists [0; 0]%Q, 0%nat, 2000000%Q. split; [vm_compute; lia|]. split; [reflexivity|].
  split; [vm_compute; congruence|]. split; [reflexivity|]. vm_compute. intros H. apply H. reflexivity.
Qed.
Print Assumptions C31_bound_iff_check_refuted.

(** The convergence flag is documented as: the last round improved the loss by less than the
    threshold. The first round is compared with an invented previous loss, so a run that
    improves by 0.9 in its only round is reported as converged. *)
Theorem C31_converged_flag_refuted :
  exists data perms mi rounds lbd lbd' l, lambda_feasible lbd /\ symmetric_data (length lbd) data /\
    fit_one_init_lbd data perms mi rounds lbd = Ok (lbd', l, true) /\
    round data (perms 0%nat) lbd = Ok lbd' /\
    (mi < loss data lbd - l)%Q.
Proof.
  exists [(15#10, fun _ _ => 1)]%Q, (fun _ => [0; 1]%nat), (1#1000)%Q, 1000%nat, [1; 1#2]%Q.
  eexists. eexists. split.
  { intros k Hk. destruct k as [|[|?]]; [| |cbn in Hk; lia]; vm_compute; repeat split; congruence. }
  split; [constructor; [reflexivity|constructor]|].
  split; [vm_compute; reflexivity|]. split; [vm_compute; reflexivity|]. vm_compute. reflexivity.
Qed.
Print Assumptions C31_converged_flag_refuted.

Definition ex_lbd : list Q := [1#2; 1#2; 1#4]%Q.
Definition ex_data : list (Q * (nat -> nat -> Q)) :=
  [(3%Q, construct_D [10; 20; 30]%Q [100; 50; 60]%Q); (1%Q, construct_D [10; 20; 0]%Q [100; 50; 60]%Q)].
Example ex_lbd_feasible : lambda_feasible ex_lbd.
Proof. intros k Hk. destruct k as [|[|[|?]]]; [| | |cbn in Hk; lia]; vm_compute; repeat split; congruence. Qed.
Example ex_data_symmetric : symmetric_data 3 ex_data.
Proof. repeat constructor; intros; apply construct_D_sym. Qed.
Example ex_descent : match fit_one_init_lbd [(1, fun _ _ => 1); (2, fun _ _ => 1)]%Q (fun _ => [0; 1]%nat)
    (1#1000) 2 [1#2; 1#4]%Q with
  | Ok (_, l, _) => Qltb l (loss [(1, fun _ _ => 1); (2, fun _ _ => 1)]%Q [1#2; 1#4]%Q) | Err _ => false end = true.
Proof. vm_compute. reflexivity. Qed.

Lemma filter_complement {A} (f : A -> bool) l :
  (length (filter f l) + length (filter (fun x => negb (f x)) l) = length l)%nat.
Proof. induction l as [|x l IH]; simpl; [auto|]. destruct (f x); simpl; lia. Qed.

(** On the training points with several publishers whose reaches overlap (by at least the
    floor 0.0001 used by the code), the loss is the squared error of the surface. *)
Theorem C31_loss_is_training_error curves points data lbd :
  length lbd = length curves -> non_trivial_curves curves ->
  Forall (fun pt => exists rs y, single_reaches curves (rp_impressions pt) rs /\ reach pt 1 = Ok y /\
            (1#10000 <= Qsum rs - y)%Q) (filter several_publishers points) ->
  Forall (fun pt => length (rp_impressions pt) = length curves) points ->
  setup_predictor_response (length curves) curves points = Ok data ->
  exists e, training_error (fun x => pairwise_by_impressions (length curves) (construct_a lbd) curves x 1)
              (filter several_publishers points) = Some e /\ (e == squared_loss data lbd)%Q.
Proof.
  intros HL Hn HF HP E. unfold setup_predictor_response in E.
  assert (filter (fun pt : qpoint => Z.of_nat (length (filter (fun x => Qeqb x 0) (rp_impressions pt))) <? Z.of_nat (length curves) - 1) points
    = filter several_publishers points) as Ef.
  { clear - HP. induction HP as [|pt pts Hpt _ IH]; [reflexivity|]. simpl. rewrite IH.
    assert ((Z.of_nat (length (filter (fun x => Qeqb x 0) (rp_impressions pt))) <? Z.of_nat (length curves) - 1) = several_publishers pt) as ->; [|auto].
    unfold several_publishers. pose proof (filter_complement (fun x => Qeqb x 0) (rp_impressions pt)) as K.
    rewrite Hpt in K. unfold Qeqb in *. 
    destruct (2 <=? _)%nat eqn:E2; [apply Nat.leb_le in E2; apply Z.ltb_lt; lia|apply Nat.leb_gt in E2; apply Z.ltb_ge; lia]. }
  rewrite Ef in E. clear Ef HP. revert data E.
  induction HF as [|pt pts (rs & y & H1 & H2 & H3) HF IH]; intros data E.
  - injection E as <-. exists 0%Q. split; reflexivity.
  - apply mapM_cons_inv in E. destruct E as [d [data' [Ed [E' ->]]]].
    destruct (IH data' E') as [e [E1 E2]].
    destruct (single_reaches_vector _ _ _ H1) as [Ev [_ L]].
    rewrite Ev in Ed. cbn [bind] in Ed. rewrite H2 in Ed. cbn [bind] in Ed. injection Ed as <-.
    destruct (pairwise_by_impressions_ok (construct_a lbd) curves (rp_impressions pt) rs 1) as (q & u & F1 & F2 & _ & _ & F5); auto.
    { rewrite construct_a_length, HL. auto. }
    cbn [training_error]. rewrite F1, H2, E1, F2. eexists. split; [reflexivity|].
    cbn [squared_loss]. rewrite E2, F5, construct_a_predicts by auto.
    assert (Qmax (1#10000) (Qsum rs - y) == Qsum rs - y)%Q as ->.
    { unfold Qmax. destruct (Qleb (1#10000) (Qsum rs - y)) eqn:Eb; [reflexivity|]. apply Qleb_gt in Eb. lra. }
    rewrite (Qsum_total rs), L. ring.
Qed.
Print Assumptions C31_loss_is_training_error.

(** ** C32 *)

(** The parameters that are kept are those of a start with the smallest loss of all starts
    made, and of the first such start. *)
Theorem C32_keeps_best {A} (run : nat -> result (A * Q * bool)) d k mn mx mf :
  fit_multi_init run d k mn mx = Ok mf ->
  exists fit l, mf_fit mf = Some (fit, l) /\
  exists n conv, (n < mf_starts mf)%nat /\ run n = Ok (fit, l, conv) /\
  forall m, (m < mf_starts mf)%nat -> exists f' l' c', run m = Ok (f', l', c') /\ (l <= l')%Q /\
     ((m < n)%nat -> (l < l')%Q).
Proof.
  intros E. apply fit_multi_init_inv in E. destruct E as (s & conv & c & E1 & E2 & E3 & ->). cbn.
  pose proof (recorded_start run k) as R. destruct (multi_loop_inv run d mn k mx _ _ R E1) as [[os [Eo [_ [HC HF]]]] _].
  assert (length os = mr_starts s) as Lo by (rewrite (mapM_ok_length _ _ _ Eo), seq_length; auto).
  destruct (mr_fit s) as [[fit l]|] eqn:Ef.
  - exists fit, l. split; auto. destruct HF as [n [cv [Hn [Rn HB]]]]. exists n, cv. split; auto. split; auto.
    intros m Hm. destruct (nth_error os m) as [[[f' l'] c']|] eqn:Em; [|apply nth_error_None in Em; lia].
    exists f', l', c'. destruct (HB m _ Em) as [B1 B2]. split; [|auto].
    assert (nth_error (seq 0 (mr_starts s)) m = Some m) as Es.
    { rewrite (nth_error_nth' _ 0%nat) by (rewrite seq_length; auto). rewrite seq_nth by auto. reflexivity. }
    destruct (mapM_ok_nth _ _ _ _ _ Eo Es) as [v [V1 V2]]. congruence.
  - rewrite HF in *. destruct os; [|discriminate]. simpl in HC. congruence.
Qed.
Print Assumptions C32_keeps_best.

(** At least one start, at least the minimum (or the maximum if that is smaller), at most the
    maximum; fewer than the maximum only when the best losses are close together. *)
Theorem C32_number_of_starts {A} (run : nat -> result (A * Q * bool)) d k mn mx mf :
  fit_multi_init run d k mn mx = Ok mf ->
  (1 <= mf_starts mf <= mx)%nat /\ (Nat.min mn mx <= mf_starts mf)%nat /\
  (mf_starts mf = mx \/ snd (mf_success mf) = true).
Proof.
  intros E. pose proof (C32_keeps_best run d k mn mx mf E) as (fit & l & _ & n & _ & Hn & _).
  apply fit_multi_init_inv in E. destruct E as (s & conv & c & E1 & E2 & E3 & ->). cbn in *.
  pose proof (recorded_start run k) as R. destruct (multi_loop_inv run d mn k mx _ _ R E1) as [_ [G1 [G2 _]]].
  cbn in G1, G2. split; [lia|]. split.
  - destruct G2 as [->|[H _]]; lia.
  - destruct G2 as [->|[_ H]]; [left; auto|right]. congruence.
Qed.
Print Assumptions C32_number_of_starts.

(** It does not go on needlessly: with any smaller maximum that still allows the minimum
    number of starts, the best losses would not have been close together. *)
Theorem C32_stops_when_close {A} (run : nat -> result (A * Q * bool)) d k mn mx mf n :
  fit_multi_init run d k mn mx = Ok mf -> (1 <= n)%nat -> (mn <= n)%nat -> (n < mf_starts mf)%nat ->
  exists mf', fit_multi_init run d k mn n = Ok mf' /\ mf_starts mf' = n /\ snd (mf_success mf') = false.
Proof.
  intros E H1 H2 H3. apply fit_multi_init_inv in E. destruct E as (s & conv & c & E1 & E2 & E3 & ->). cbn in H3.
  pose proof (recorded_start run k) as R. destruct (multi_loop_inv run d mn k mx _ _ R E1) as [_ [_ [_ G]]].
  destruct (G n ltac:(cbn; lia) H3) as [sn [F1 [F2 [[os [Eo [_ [HC _]]]] F4]]]].
  cbn in F1. rewrite Nat.sub_0_r in F1. destruct F4 as [|F4]; [lia|].
  assert (length os = n) as Lo by (rewrite (mapM_ok_length _ _ _ Eo), seq_length; auto).
  destruct os as [|o os] using rev_ind; [simpl in Lo; lia|]. rewrite map_app in HC. cbn [map] in HC. rewrite last_snoc in HC. cbn in HC.
  unfold fit_multi_init. fold (@start A k). rewrite F1. cbn [bind]. rewrite HC, F4. cbn [bind].
  eexists. split; [reflexivity|]. cbn. auto.
Qed.
Print Assumptions C32_stops_when_close.

(** The recorded losses are the k smallest losses of all starts, ascending, filled up with
    infinities; the second success flag compares the largest with the smallest of them. *)
Theorem C32_k_smallest_losses {A} (run : nat -> result (A * Q * bool)) d k mn mx mf :
  fit_multi_init run d k mn mx = Ok mf ->
  exists os, outcomes run (mf_starts mf) os /\
    k_smallest_of k (map (fun o => snd (fst o)) os) (mf_k_smallest mf) /\
    (snd (mf_success mf) = true <->
       exists smallest kth, hd_error (mf_k_smallest mf) = Some (Some smallest) /\
         last (mf_k_smallest mf) None = Some kth /\ (kth < (1 + d) * smallest)%Q).
Proof.
  intros E. apply fit_multi_init_inv in E. destruct E as (s & conv & c & E1 & E2 & E3 & ->). cbn.
  pose proof (recorded_start run k) as R. destruct (multi_loop_inv run d mn k mx _ _ R E1) as [[os [Eo [HH _]]] _].
  exists os. split; [exact Eo|]. split.
  - apply heap_ok_reported in HH. rewrite map_reported in HH. exact HH.
  - unfold close_enough in E3. destruct (mr_heap s) as [|x h] eqn:Eh; [discriminate|].
    assert (last (rev (map (option_map Qopp) (x :: h))) None = option_map Qopp x) as El.
    { simpl. apply last_snoc. }
    rewrite El.
    assert (exists h' y, x :: h = h' ++ [y]) as [h' [y Ey]].
    { clear. assert (x :: h <> []) as H by discriminate. apply exists_last in H. destruct H as [h' [y Ey]]. eauto. }
    rewrite Ey in *. rewrite last_snoc in E3. rewrite map_app, rev_app_distr. cbn [map rev app hd_error].
    destruct x as [x0|], y as [y0|]; cbn [option_map]; injection E3 as <-.
    + rewrite Qltb_lt. split.
      * intros H. exists (- y0)%Q, (- x0)%Q. auto.
      * intros [sm [kt [H1 [H2 H3]]]]. injection H1 as <-. injection H2 as <-. auto.
    + split; [discriminate|]. intros [sm [kt [H1 _]]]. discriminate.
    + split; [discriminate|]. intros [sm [kt [_ [H2 _]]]]. discriminate.
    + split; [discriminate|]. intros [sm [kt [H1 _]]]. discriminate.
Qed.
Print Assumptions C32_k_smallest_losses.

(** If every start can be fitted, the procedure ends normally. *)
Theorem C32_ends {A} (run : nat -> result (A * Q * bool)) d k mn mx :
  (0 < k)%nat -> (0 < mx)%nat -> (0 < mn)%nat -> (forall n, exists o, run n = Ok o) ->
  exists mf, fit_multi_init run d k mn mx = Ok mf.
Proof.
  intros Hk Hm Hmn Hr. pose proof (recorded_start run k) as R.
  destruct (multi_loop_total run d mn k mx Hk (start k) R ltac:(auto)) as [s E].
  destruct (multi_loop_inv run d mn k mx _ _ R E) as [[os [Eo [HH [HC _]]]] [G1 [G2 _]]].
  cbn in G1, G2.
  assert (length os = mr_starts s) as Lo by (rewrite (mapM_ok_length _ _ _ Eo), seq_length; auto).
  unfold fit_multi_init. fold (@start A k). rewrite E. cbn [bind].
  destruct os as [|o os] using rev_ind; [simpl in Lo; destruct G2 as [|[? _]]; lia|].
  rewrite map_app in HC. cbn [map] in HC. rewrite last_snoc in HC. cbn in HC. rewrite HC.
  destruct (close_enough_total d (mr_heap s) (heap_ok_ne _ _ _ HH Hk)) as [b ->]. cbn [bind]. eauto.
Qed.
Print Assumptions C32_ends.

(** The mixture surface asks for at least 30 but at most 10 starts: it always makes 10. *)
Theorem C32_mixture_makes_ten_starts {A} (run : nat -> result (A * Q * bool)) mf :
  fit_multi_init run default_distance default_num_near default_min_num_init mixture_max_num_init = Ok mf ->
  mf_starts mf = 10%nat.
Proof.
  intros E. apply C32_number_of_starts in E. unfold default_min_num_init, mixture_max_num_init in E.
  destruct E as [H1 [H2 _]]. change (Nat.min 30 10) with 10%nat in H2. lia.
Qed.
Print Assumptions C32_mixture_makes_ten_starts.

(** The first success flag is that of the last start, not of the fit that is kept. *)
Theorem C32_success_flag_refuted :
  exists (run : nat -> result (nat * Q * bool)) d k mn mx mf fit l n,
    fit_multi_init run d k mn mx = Ok mf /\ mf_fit mf = Some (fit, l) /\
    run n = Ok (fit, l, false) /\ fst (mf_success mf) = true.
Proof.
  exists (fun n => match n with O => Ok (7%nat, 1, false) | _ => Ok (8%nat, 2, true) end)%Q, (1#100)%Q, 1%nat, 2%nat, 2%nat.
  eexists. exists 7%nat, 1%Q, 0%nat. split; [reflexivity|]. split; [reflexivity|]. split; reflexivity.
Qed.
Print Assumptions C32_success_flag_refuted.

(** The mixture compares starts by a'Pa + q'a, which is not the (half) squared error: it
    ranks weights that fit the training point worse before weights that fit it exactly. *)
Theorem C32_mixture_loss_refuted :
  exists p c N zs ys a b, mixture_weights p c a /\ mixture_weights p c b /\ length zs = length ys /\
    let prob := mixture_qp p c N zs ys in
    (qp_objective prob (p * c) a < qp_objective prob (p * c) b)%Q /\
    (mixture_loss prob (p * c) b < mixture_loss prob (p * c) a)%Q.
Proof.
  exists 1%nat, 2%nat, 1%Q, [[1; 1#2]]%Q, [1]%Q, [1; 0]%Q, [0; 1]%Q.
  split; [|split; [|split; [reflexivity|]]].
  1,2: split; [reflexivity|]; split; intros;
    repeat match goal with H : (?i < 1)%nat |- _ => destruct i; [clear H|lia] end;
    repeat match goal with H : (?i < 2)%nat |- _ => destruct i as [|[|?]]; [clear H|clear H|lia] end;
    vm_compute; congruence.
  vm_compute. split; reflexivity.
Qed.
Print Assumptions C32_mixture_loss_refuted.

Example ex_multi : exists mf, fit_multi_init (fun n => Ok (n, 3 - inject_Z (Z.of_nat n), true)%Q) (1#100) 3 2 3 = Ok mf /\
  option_map fst (mf_fit mf) = Some 2%nat /\ mf_starts mf = 3%nat.
Proof. eexists. split; [reflexivity|]. split; reflexivity. Qed.
