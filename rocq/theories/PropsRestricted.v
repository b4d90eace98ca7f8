(** C54: the random starts of the restricted pairwise surface, and fits that draw them. *)
From Coq Require Import Lqa Sorting.Permutation.
From Verif Require Import Prelude ModelReachPoint ReachPointLemmas DataLemmas ModelCurves ModelSurface SpecSurface
  SurfaceLemmas SurfaceLemmas2 SurfaceLemmas3 SurfaceLemmas4 SurfaceLemmas5 PropsSurface
  ModelRestricted SpecRestricted RestrictedLemmas RestrictedLemmas2 RestrictedLemmas3.
Open Scope Z_scope.

(** ** Sampling *)

(** The uniform start is the first acceptable draw, its coordinates are between 0 and 1, and
    the generator has moved past exactly the draws made. *)
Theorem C54_uniform_start {G} (R : np_random G) fuel p g lbd g' : numpy_draws R ->
  truncated_uniform R fuel p g = Ok (lbd, g') ->
  length lbd = p /\ Forall (fun x => 0 <= x <= 1)%Q lbd /\ accepted lbd /\
  exists n, lbd = draw_number R p n g /\ g' = after_draws R p (S n) g /\
    forall k, (k < n)%nat -> ~ accepted (draw_number R p k g).
Proof.
  intros [HR _] E. destruct (truncated_inv R p fuel g lbd g' E) as [n [_ [H2 [H3 [H4 H5]]]]].
  destruct (HR p (after_draws R p n g)) as [L F]. unfold draw_number in H2. rewrite H2 in *.
  split; [exact L|]. split; [exact F|]. split; [apply check_accepted; exact H4|].
  exists n. split; [unfold draw_number; auto|]. split; [exact H3|]. intros k Hk HA. apply check_accepted in HA.
  rewrite (H5 k Hk) in HA. discriminate.
Qed.
Print Assumptions C54_uniform_start.

(** Sampling ends exactly when some draw is acceptable; otherwise it goes on for ever. *)
Theorem C54_uniform_ends {G} (R : np_random G) p g :
  (exists n, accepted (draw_number R p n g)) <-> (exists fuel out, truncated_uniform R fuel p g = Ok out).
Proof.
  split.
  - intros [n H]. apply check_accepted in H.
    assert (Q : exists m, check_feasibility (draw_number R p m g) = true /\ forall k, (k < m)%nat -> check_feasibility (draw_number R p k g) = false).
    { induction n as [n IH] using lt_wf_ind.
      destruct (forallb (fun k => negb (check_feasibility (draw_number R p k g))) (seq 0 n)) eqn:Ef.
      - exists n. split; [exact H|]. intros k Hk. rewrite forallb_forall in Ef. specialize (Ef k ltac:(apply in_seq; lia)).
        apply Bool.negb_true_iff. exact Ef.
      - apply Bool.not_true_iff_false in Ef. rewrite forallb_forall in Ef.
        assert (D : exists k, (k < n)%nat /\ check_feasibility (draw_number R p k g) = true).
        { clear IH H. induction n as [|n IHn]; [exfalso; apply Ef; intros ? []|].
          destruct (check_feasibility (draw_number R p n g)) eqn:En; [exists n; split; [lia|exact En]|].
          destruct IHn as [k [K1 K2]]; [|exists k; split; [lia|exact K2]].
          intros HA. apply Ef. intros x Hx. apply in_seq in Hx. destruct (Nat.eq_dec x n) as [->|Hne]; [rewrite En; reflexivity|].
          apply HA. apply in_seq. lia. }
        destruct D as [k [K1 K2]]. exact (IH k K1 K2). }
    destruct Q as [m [Q1 Q2]]. exists m. eexists. apply (truncated_finds R p m m g); auto.
  - intros [fuel [[lbd g'] E]]. destruct (truncated_inv R p fuel g lbd g' E) as [n [_ [H2 [_ [H4 _]]]]].
    exists n. rewrite H2. apply check_accepted. exact H4.
Qed.
Print Assumptions C54_uniform_ends.

(** The simplex start is always found, and lies in the region. *)
Theorem C54_simplex_start {G} (R : np_random G) sqrt p g : numpy_draws R -> sqrt_from_above sqrt -> (0 < p)%nat ->
  exists lbd g', scaled_from_simplex R sqrt p g = Ok (lbd, g') /\ length lbd = p /\ lambda_feasible lbd.
Proof.
  intros HR Hs Hp. destruct (simplex_total R HR sqrt p g Hp) as [lbd [g' E]]. exists lbd, g'. split; [exact E|].
  exact (simplex_feasible R HR sqrt p g lbd g' Hs E).
Qed.
Print Assumptions C54_simplex_start.

(** ** Fits *)

(** A fit that draws its starts and permutations is a fit from starts the sampler gave and
    permutations the generator gave: everything proved about C31 fits applies. *)
Theorem C54_drawn_fit_is_fit {G} (R : np_random G) sampler curves points g0 a g :
  drawn_fit R sampler curves points g0 = Ok (a, g) ->
  exists p starts perms, surface_ctor points = Ok p /\
    (forall n, exists h h', sampler p h = Ok (starts n, h')) /\
    (forall n r, exists h, perms n r = fst (np_permutation R p h)) /\
    restricted_fit starts perms curves points = Ok a.
Proof. apply drawn_fit_is. Qed.
Print Assumptions C54_drawn_fit_is_fit.

Lemma ctor_count points p n : Forall (fun pt : qpoint => length (rp_impressions pt) = n) points ->
  surface_ctor points = Ok p -> p = n.
Proof.
  unfold surface_ctor. destruct points as [|p0 r]; [discriminate|]. intros H. inversion H; subst.
  rewrite (py_index_in (p0 :: r) 0 p0) by (simpl; lia). cbn [bind]. destruct (surface_init (p0 :: r)); cbn [bind]; [|discriminate].
  intros E. inversion E. auto.
Qed.

(** With starts from the simplex, the fit gives admissible coefficients for any number of
    publishers. *)
Theorem C54_simplex_fit {G} (R : np_random G) sqrt curves points g0 a g : numpy_draws R -> sqrt_from_above sqrt ->
  Forall (fun pt => length (rp_impressions pt) = length curves) points ->
  drawn_fit R (scaled_from_simplex R sqrt) curves points g0 = Ok (a, g) -> overlap_coefficients (length curves) a.
Proof.
  intros HR Hs HF E. destruct (drawn_fit_is _ _ _ _ _ _ _ E) as [p [starts [perms [Hp [H1 [H2 H3]]]]]].
  pose proof (ctor_count _ _ _ HF Hp) as ->. apply (restricted_fit_ok starts perms curves points a); auto.
  - intros n. destruct (H1 n) as [h [h' Hn]]. exact (simplex_feasible R HR sqrt _ _ _ _ Hs Hn).
  - intros n r. destruct (H2 n r) as [h ->]. destruct HR as [_ HP]. apply Forall_forall. intros i Hi.
    apply (Permutation_in i (Permutation_sym (HP _ h))) in Hi. apply in_seq in Hi. lia.
Qed.
Print Assumptions C54_simplex_fit.

(** With the default, uniform, starts it does for up to three publishers. *)
Theorem C54_three_publishers {G} (R : np_random G) fuel curves points g0 a g : numpy_draws R ->
  (length curves <= 3)%nat ->
  Forall (fun pt => length (rp_impressions pt) = length curves) points ->
  drawn_fit R (truncated_uniform R fuel) curves points g0 = Ok (a, g) -> overlap_coefficients (length curves) a.
Proof.
  intros HR HL HF E. destruct (drawn_fit_is _ _ _ _ _ _ _ E) as [p [starts [perms [Hp [H1 [H2 H3]]]]]].
  pose proof (ctor_count _ _ _ HF Hp) as ->. apply (restricted_fit_from_small starts perms curves points a); auto.
  - intros n. destruct (H1 n) as [h [h' Hn]]. destruct (C54_uniform_start R fuel _ _ _ _ HR Hn) as [L [F _]]. auto.
  - intros n r. destruct (H2 n r) as [h ->]. apply HR.
Qed.
Print Assumptions C54_three_publishers.

(** A fit begins by seeding the process-wide generator with 0: neither its coefficients nor
    the state it leaves depend on the state it found. *)
Theorem C54_state_forgotten {G} (R : np_random G) sampler curves points g0 g1 :
  drawn_fit R sampler curves points g0 = drawn_fit R sampler curves points g1.
Proof. unfold drawn_fit, drawn_multi. cbv zeta. reflexivity. Qed.
Print Assumptions C54_state_forgotten.

(** ** Four publishers *)

(** A generator that always draws the start the check tolerates, and the identity. *)
Definition ex_np : np_random unit :=
  {| np_seed := fun _ => tt;
     np_rand := fun n _ => (if Nat.eqb n 4 then ex_tolerant else repeat (1#2)%Q n, tt);
     np_permutation := fun n _ => (seq 0 n, tt) |}.
Definition four_curves : list reach_curve := [capped 1; capped 1; capped 1; capped 1].
Definition four_points : list qpoint :=
  [{| rp_impressions := [1; 1; 1; 1]%Q; rp_kplus := [0%Q]; rp_frequencies := []; rp_spends := None; rp_universe := None |}].
Definition four_data : list (Q * (nat -> nat -> Q)) :=
  match setup_predictor_response 4 four_curves four_points with Ok d => d | Err _ => [] end.
Definition four_lambda : list Q := [-1 # 1500000; 3 # 4; 666667 # 1000000; 666667 # 1000000]%Q.

Example ex_np_draws : numpy_draws ex_np.
Proof.
  split; [|intros n g; apply Permutation_refl]. intros n g. cbn [np_rand ex_np fst].
  destruct (Nat.eqb_spec n 4) as [->|Hn].
  - split; [reflexivity|]. repeat constructor; cbn; unfold Qle; cbn; lia.
  - rewrite repeat_length. split; [reflexivity|]. apply Forall_forall. intros x Hx. apply repeat_spec in Hx. subst. lra.
Qed.

Lemma four_round : exists l, round four_data [0; 1; 2; 3]%nat ex_tolerant = Ok l /\ same l four_lambda.
Proof.
  assert (S0 : exists x, step four_data ex_tolerant 0 = Ok x /\ (x == -1 # 1500000)%Q) by (eexists; split; [vm_compute; reflexivity|vm_compute; reflexivity]).
  assert (S1 : exists x, step four_data four_lambda 1 = Ok x /\ (x == 3#4)%Q) by (eexists; split; [vm_compute; reflexivity|vm_compute; reflexivity]).
  assert (S2 : exists x, step four_data four_lambda 2 = Ok x /\ (x == 666667#1000000)%Q) by (eexists; split; [vm_compute; reflexivity|vm_compute; reflexivity]).
  assert (S3 : exists x, step four_data four_lambda 3 = Ok x /\ (x == 666667#1000000)%Q) by (eexists; split; [vm_compute; reflexivity|vm_compute; reflexivity]).
  destruct S0 as [x0 [E0 Q0]], S1 as [x1 [E1 Q1]], S2 as [x2 [E2 Q2]], S3 as [x3 [E3 Q3]].
  assert (L0 : same (set_nth 0 x0 ex_tolerant) four_lambda).
  { apply (same_trans _ (set_nth 0 (-1 # 1500000)%Q ex_tolerant)); [apply set_same; [split; [reflexivity|reflexivity]|exact Q0]|].
    split; [reflexivity|]. intros [|[|[|[|i]]]]; cbn; try reflexivity. }
  assert (K : forall l i x y, same l four_lambda -> step four_data four_lambda i = Ok x -> (x == y)%Q -> set_nth i y four_lambda = four_lambda ->
    exists z, step four_data l i = Ok z /\ same (set_nth i z l) four_lambda).
  { intros l i x y HS E Q Hy. destruct (step_same _ _ _ _ _ HS E) as [z [Ez Hz]]. exists z. split; [exact Ez|].
    rewrite <- Hy at 1. apply set_same; [exact HS|]. rewrite Hz. exact Q. }
  cbn [round]. rewrite E0. cbn [bind].
  destruct (K _ _ _ _ L0 E1 Q1 eq_refl) as [z1 [F1 G1]]. rewrite F1. cbn [bind].
  destruct (K _ _ _ _ G1 E2 Q2 eq_refl) as [z2 [F2 G2]]. rewrite F2. cbn [bind].
  destruct (K _ _ _ _ G2 E3 Q3 eq_refl) as [z3 [F3 G3]]. rewrite F3. cbn [bind]. eauto.
Qed.

Lemma four_fit : exists l, drawn_fit ex_np (truncated_uniform ex_np 0) four_curves four_points tt = Ok (construct_a l, tt) /\
  same l four_lambda.
Proof.
  destruct four_round as [l [Er Hl]]. exists l. split; [|exact Hl].
  assert (D : exists lo conv, drawn_fit_one ex_np four_data 4 default_min_improvement default_max_num_rounds ex_tolerant tt = Ok (l, lo, conv, tt)).
  { unfold drawn_fit_one.
    assert (N : exists k, default_max_num_rounds = S (S k)) by (exists 998%nat; reflexivity). destruct N as [k ->].
    assert (B : Qltb (loss four_data l) (loss four_data ex_tolerant - default_min_improvement) = false).
    { assert (B0 : Qltb (loss four_data four_lambda) (loss four_data ex_tolerant - default_min_improvement) = false) by (vm_compute; reflexivity).
      rewrite <- B0. unfold Qltb. rewrite (loss_same l four_lambda Hl four_data). reflexivity. }
    assert (B1 : Qltb (loss four_data ex_tolerant - 1) (loss four_data ex_tolerant - default_min_improvement) = true).
    { apply Qltb_lt. unfold default_min_improvement. lra. }
    cbn [drawn_descend]. rewrite B1. unfold drawn_round. cbn [np_permutation ex_np seq]. rewrite Er. cbn [bind].
    assert (B2 : Qltb (loss four_data l) (loss four_data ex_tolerant - 1 - default_min_improvement) = false).
    { unfold Qltb in *. apply Bool.negb_false_iff in B. apply Bool.negb_false_iff. apply Qle_bool_iff in B. apply Qle_bool_iff. lra. }
    rewrite B2. eauto. }
  destruct D as [lo [conv D]].
  apply (constant_fit ex_np (truncated_uniform ex_np 0) four_curves four_points 4 four_data ex_tolerant l lo conv); auto.
Qed.

(** With four publishers the default fit can end outside the region: a negative coefficient,
    and a union reach predicted above the sum of the publishers' reaches. *)
Theorem C54_negative_overlap_refuted :
  exists (R : np_random unit) fuel curves points a,
    numpy_draws R /\ Forall (fun pt => length (rp_impressions pt) = length curves) points /\
    non_trivial_curves curves /\
    drawn_fit R (truncated_uniform R fuel) curves points tt = Ok (a, tt) /\
    ~ overlap_coefficients (length curves) a /\
    exists imps rs pt u, single_reaches curves imps rs /\
      pairwise_by_impressions (length curves) a curves imps 1 = Ok pt /\ reach pt 1 = Ok u /\ (Qsum rs < u)%Q.
Proof.
  destruct four_fit as [l [Ef Hl]].
  exists ex_np, 0%nat, four_curves, four_points, (construct_a l).
  split; [apply ex_np_draws|]. split; [repeat constructor|].
  assert (Hn : non_trivial_curves four_curves) by (repeat constructor).
  split; [exact Hn|]. split; [exact Ef|]. split.
  - intros [_ [H _]]. specialize (H 0%nat 1%nat ltac:(cbn; lia) ltac:(cbn; lia)).
    destruct Hl as [L E]. destruct l as [|l0 [|l1 [|l2 [|l3 [|? ?]]]]]; try discriminate L.
    pose proof (E 0%nat) as E0. pose proof (E 1%nat) as E1. cbn in E0, E1, H. rewrite E0, E1 in H. vm_compute in H. apply H. reflexivity.
  - assert (Hs : single_reaches four_curves [1; 1; 0; 0]%Q [1; 1; 0; 0]%Q).
    { repeat constructor; cbn; try lra; try reflexivity. }
    destruct (single_reaches_vector _ _ _ Hs) as [_ [_ Lr]].
    assert (Ll : length l = length four_curves) by (destruct Hl as [-> _]; reflexivity).
    destruct (pairwise_by_impressions_ok (construct_a l) four_curves [1; 1; 0; 0]%Q [1; 1; 0; 0]%Q 1) as (p0 & u0 & F1 & F2 & _ & _ & F5); auto.
    { rewrite construct_a_length, Ll. reflexivity. }
    exists [1; 1; 0; 0]%Q, [1; 1; 0; 0]%Q, p0, u0. split; [exact Hs|]. split; [exact F1|]. split; [exact F2|].
    pose proof (C31_prediction_matches_fit four_curves l _ _ 1 p0 u0 Ll Hn Hs F1 F2) as Hu. rewrite Hu.
    rewrite <- fitted_explained by (intros; apply construct_D_sym). rewrite (fitted_same l four_lambda Hl). vm_compute. reflexivity.
Qed.
Print Assumptions C54_negative_overlap_refuted.

(** ** Examples *)

(** Two publishers, one training point: both samplers end, and the fit is the exact one. *)
Definition two_curves : list reach_curve := [capped 1; capped 1].
Definition two_points : list qpoint :=
  [{| rp_impressions := [1; 1]%Q; rp_kplus := [7#4]%Q; rp_frequencies := []; rp_spends := None; rp_universe := None |}].
Definition two_data : list (Q * (nat -> nat -> Q)) :=
  match setup_predictor_response 2 two_curves two_points with Ok d => d | Err _ => [] end.
Definition check_two (o : result (list Q * Q * bool * unit)) : bool :=
  match o with Ok ([x; y], _, _, _) => Qeqb x 1 && Qeqb y (1#2) | _ => false end.
Example ex_two_publishers : exists a,
  drawn_fit ex_np (truncated_uniform ex_np 0) two_curves two_points tt = Ok (a, tt) /\
  (entry 2 a 0 1 == 1#4)%Q /\ (entry 2 a 1 0 == 1#4)%Q.
Proof.
  assert (C : check_two (drawn_fit_one ex_np two_data 2 default_min_improvement default_max_num_rounds [1#2; 1#2]%Q tt) = true)
    by (vm_compute; reflexivity).
  destruct (drawn_fit_one ex_np two_data 2 default_min_improvement default_max_num_rounds [1#2; 1#2]%Q tt) as [[[[fit l] conv] []]|e] eqn:E;
    [|discriminate C].
  destruct fit as [|x [|y [|? ?]]]; try discriminate C. unfold check_two in C. apply andb_prop in C. destruct C as [C1 C2].
  apply Qeq_bool_iff in C1, C2. exists (construct_a [x; y]). split.
  - apply (constant_fit ex_np (truncated_uniform ex_np 0) two_curves two_points 2 two_data [1#2; 1#2]%Q [x; y] l conv); [reflexivity|reflexivity|reflexivity|reflexivity|exact E].
  - cbn. rewrite C1, C2. split; reflexivity.
Qed.
Definition ex_sqrt (x : Q) : Q := if Qleb x 1 then 1%Q else x.
Example ex_sqrt_above : sqrt_from_above ex_sqrt.
Proof.
  intros x Hx. unfold ex_sqrt. destruct (Qleb x 1) eqn:E; [apply Qle_bool_iff in E; split; lra|].
  assert (1 < x)%Q. { apply Qnot_le_lt. intros H. apply Qle_bool_iff in H. unfold Qleb in E. congruence. }
  split; nra.
Qed.
Example ex_simplex : exists lbd, scaled_from_simplex ex_np ex_sqrt 3 tt = Ok (lbd, tt) /\
  Forall2 Qeq lbd [1#4; 0; 1#4]%Q.
Proof. eexists. split; [reflexivity|]. repeat constructor; vm_compute; reflexivity. Qed.
Example ex_simplex_fit : exists a, drawn_fit ex_np (scaled_from_simplex ex_np ex_sqrt) two_curves two_points tt = Ok (a, tt).
Proof.
  assert (S : exists st, scaled_from_simplex ex_np ex_sqrt 2 tt = Ok (st, tt) /\
    match drawn_fit_one ex_np two_data 2 default_min_improvement default_max_num_rounds st tt with Ok _ => true | Err _ => false end = true)
    by (eexists; split; [reflexivity|]; vm_compute; reflexivity).
  destruct S as [st [Hs D]].
  destruct (drawn_fit_one ex_np two_data 2 default_min_improvement default_max_num_rounds st tt) as [[[[fit l] conv] []]|] eqn:E; [|discriminate D].
  exists (construct_a fit).
  apply (constant_fit ex_np (scaled_from_simplex ex_np ex_sqrt) two_curves two_points 2 two_data st fit l conv); [reflexivity|reflexivity|reflexivity|exact Hs|exact E].
Qed.
(** A generator whose first draw is refused. *)
Definition ex_counting : np_random nat :=
  {| np_seed := fun _ => O;
     np_rand := fun n g => (repeat (if Nat.eqb g 0 then 1 else 1#2)%Q n, S g);
     np_permutation := fun n g => (seq 0 n, S g) |}.
Example ex_refused : numpy_draws ex_counting /\ ~ accepted (draw_number ex_counting 3 0 0%nat) /\
  truncated_uniform ex_counting 5 3 0%nat = Ok ([1#2; 1#2; 1#2]%Q, 2%nat) /\
  truncated_uniform ex_counting 0 3 0%nat = Err OtherError.
Proof.
  split; [|split; [|split; reflexivity]].
  - split; [|intros n g; apply Permutation_refl]. intros n g. cbn [np_rand ex_counting fst]. rewrite repeat_length. split; [reflexivity|].
    apply Forall_forall. intros x Hx. apply repeat_spec in Hx. subst. destruct (Nat.eqb g 0); lra.
  - intros H. apply check_accepted in H. vm_compute in H. discriminate.
Qed.
