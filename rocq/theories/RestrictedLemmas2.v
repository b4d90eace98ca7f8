From Coq Require Import Lqa Sorting.Permutation.
From Verif Require Import Prelude ModelReachPoint ReachPointLemmas DataLemmas ModelCurves ModelSurface SpecSurface
  SurfaceLemmas SurfaceLemmas2 SurfaceLemmas3 SurfaceLemmas4 SurfaceLemmas5 ModelRestricted SpecRestricted RestrictedLemmas.
Open Scope Z_scope.

(** ** A first step back into the region *)

Lemma bound_ignores lbd i y x : (i < length lbd)%nat ->
  (x <= feasible_bound lbd i <-> x <= feasible_bound (set_nth i y lbd) i)%Q.
Proof.
  intros Hi. unfold feasible_bound. rewrite !fold_min_le, SurfaceLemmas3.set_nth_length.
  assert (T : (Qsum (set_nth i y lbd) - ent (set_nth i y lbd) i == Qsum lbd - ent lbd i)%Q).
  { rewrite !Qsum_total, SurfaceLemmas3.set_nth_length, total_set by auto. unfold ent. rewrite nth_set_nth_eq by auto. ring. }
  assert (M : forall s, (Qmax (Qsum (set_nth i y lbd) - ent (set_nth i y lbd) i) s == Qmax (Qsum lbd - ent lbd i) s)%Q)
    by (intros s; apply Qle_antisym; apply Qmax_lub; rewrite ?T, <- ?T; apply Qmax_le_l || apply Qmax_le_r).
  assert (Hj : forall j, j <> i ->
    (1 / Qmax (ent (set_nth i y lbd) j) tol - Qsum (set_nth i y lbd) + ent (set_nth i y lbd) i + ent (set_nth i y lbd) j ==
     1 / Qmax (ent lbd j) tol - Qsum lbd + ent lbd i + ent lbd j)%Q).
  { intros j Hj. assert (E : ent (set_nth i y lbd) j = ent lbd j) by (unfold ent; apply nth_set_nth_neq; auto).
    rewrite E. lra. }
  rewrite M. split; intros [H1 H2]; split; auto; intros j Hin Hne; specialize (H2 j Hin Hne).
  - rewrite Hj by auto. exact H2.
  - rewrite Hj in H2 by auto. exact H2.
Qed.

Lemma set_nth_twice {A} i (x y : A) l : set_nth i x (set_nth i y l) = set_nth i x l.
Proof. revert i. induction l as [|z l IH]; intros [|i]; cbn; auto. rewrite IH. reflexivity. Qed.

(** A step at a coordinate without which the vector is feasible gives a feasible vector. *)
Lemma first_step data lbd i x : (i < length lbd)%nat -> lambda_feasible (set_nth i 0%Q lbd) ->
  step data lbd i = Ok x -> lambda_feasible (set_nth i x lbd).
Proof.
  intros Hi HF E. set (l0 := set_nth i 0%Q lbd) in *.
  assert (L : length l0 = length lbd) by apply SurfaceLemmas3.set_nth_length.
  assert (B0 : (0 <= feasible_bound l0 i)%Q).
  { apply bound_exact; auto; try lra. - rewrite L. exact Hi. - unfold l0. rewrite set_nth_twice. exact HF. }
  assert (B : (0 <= feasible_bound lbd i)%Q) by (apply (bound_ignores lbd i 0%Q); auto).
  assert (X : (0 <= x <= feasible_bound lbd i)%Q).
  { unfold step in E. match type of E with (if ?c then _ else _) = _ => destruct c; [discriminate|] end.
    match type of E with (if Qltb ?h 0 then _ else _) = _ => revert E; generalize h end.
    intros h E. destruct (Qltb h 0) eqn:Eh; injection E as <-; [lra|].
    assert (0 <= h)%Q. { destruct (Qlt_le_dec h 0) as [G|G]; auto. apply Qltb_lt in G. congruence. }
    split; [apply Qmin_glb; auto|apply Qmin_le_r]. }
  destruct X as [X1 X2]. apply (bound_ignores lbd i 0%Q x Hi) in X2.
  apply (bound_exact l0 i x) in X2; auto; [|rewrite L; exact Hi]. unfold l0 in X2. rewrite set_nth_twice in X2. exact X2.
Qed.

(** With three coordinates of at most one, leaving any out gives a feasible vector. *)
Lemma small_without lbd i : (length lbd <= 3)%nat -> (i < length lbd)%nat ->
  Forall (fun x => 0 <= x <= 1)%Q lbd -> lambda_feasible (set_nth i 0%Q lbd).
Proof.
  intros HL Hi HF.
  assert (M : forall a b, (0 <= a <= 1 -> 0 <= b <= 1 -> 0 <= a * b /\ a * b <= 1)%Q).
  { intros a b Ha Hb. split; nra. }
  destruct lbd as [|a [|b [|c [|d l]]]]; cbn in HL, Hi; try lia;
    repeat match goal with H : Forall _ (_ :: _) |- _ => inversion H; clear H; subst end;
    destruct i as [|[|[|i]]]; try lia; cbn [set_nth];
    intros k Hk; cbn [length] in Hk; destruct k as [|[|[|k]]]; try lia; cbn [nth length total];
    try pose proof (M a b ltac:(assumption) ltac:(assumption)); try pose proof (M a c ltac:(assumption) ltac:(assumption));
    try pose proof (M b c ltac:(assumption) ltac:(assumption)); repeat split; try lra; try nra.
Qed.

Lemma round_from_small data perm lbd lbd' : (length lbd <= 3)%nat -> Forall (fun x => 0 <= x <= 1)%Q lbd ->
  Permutation (seq 0 (length lbd)) perm -> symmetric_data (length lbd) data ->
  round data perm lbd = Ok lbd' -> lambda_feasible lbd' /\ length lbd' = length lbd.
Proof.
  intros HL HF HP HS E.
  assert (Hin : Forall (fun i => (i < length lbd)%nat) perm).
  { apply Forall_forall. intros i Hi. apply (Permutation_in i (Permutation_sym HP)) in Hi. apply in_seq in Hi. lia. }
  destruct perm as [|i perm].
  - apply Permutation_sym, Permutation_nil in HP. destruct lbd as [|a l]; [|discriminate HP].
    inversion E; subst. split; [|reflexivity]. intros k Hk. cbn in Hk. lia.
  - cbn [round] in E. inversion Hin as [|? ? Hi Hin']; subst. destruct (step data lbd i) as [x|] eqn:Ex; cbn [bind] in E; [|discriminate].
    assert (F1 : lambda_feasible (set_nth i x lbd)) by (apply (first_step data); auto; apply small_without; auto).
    destruct (round_sound data perm (set_nth i x lbd) lbd' F1) as [G1 [G2 _]]; auto.
    + rewrite SurfaceLemmas3.set_nth_length. exact Hin'.
    + rewrite SurfaceLemmas3.set_nth_length. exact HS.
    + rewrite SurfaceLemmas3.set_nth_length in G2. auto.
Qed.

Lemma fit_one_from_small data perms mi rounds lbd lbd' l conv : (length lbd <= 3)%nat ->
  Forall (fun x => 0 <= x <= 1)%Q lbd -> (forall r, Permutation (seq 0 (length lbd)) (perms r)) ->
  symmetric_data (length lbd) data -> (mi < 1)%Q -> (0 < rounds)%nat ->
  fit_one_init_lbd data perms mi rounds lbd = Ok (lbd', l, conv) -> lambda_feasible lbd' /\ length lbd' = length lbd.
Proof.
  intros HL HF HP HS Hmi Hr E. unfold fit_one_init_lbd in E. destruct rounds as [|k]; [lia|]. cbn [descend] in E.
  assert (Eb : Qltb (loss data lbd - 1) (loss data lbd - mi) = true) by (apply Qltb_lt; lra). rewrite Eb in E.
  destruct (round data (perms 0%nat) lbd) as [lbd1|] eqn:E1; cbn [bind] in E; [|discriminate].
  destruct (round_from_small _ _ _ _ HL HF (HP 0%nat) HS E1) as [F1 L1].
  apply descend_sound in E; auto.
  - destruct E as [G1 [G2 _]]. split; [auto|congruence].
  - intros r. apply Forall_forall. intros i Hi. apply (Permutation_in i (Permutation_sym (HP r))) in Hi. apply in_seq in Hi. lia.
  - rewrite L1. exact HS.
Qed.

Lemma restricted_fit_from_small starts perms curves points a : let p := length curves in (p <= 3)%nat ->
  (forall n, length (starts n) = p /\ Forall (fun x => 0 <= x <= 1)%Q (starts n)) ->
  (forall n r, Permutation (seq 0 p) (perms n r)) ->
  restricted_fit starts perms curves points = Ok a -> overlap_coefficients p a.
Proof.
  intros p Hp Hst Hpm E. unfold restricted_fit in E.
  assert (0 < default_max_num_rounds)%nat as HR by (unfold default_max_num_rounds; lia).
  assert (default_min_improvement < 1)%Q as HI by reflexivity.
  generalize dependent default_max_num_rounds. intros R E HR.
  generalize dependent default_min_improvement. intros I HI E.
  revert E. generalize default_distance default_num_near default_min_num_init mixture_max_num_init restricted_max_num_init.
  intros dd kk mn mx mx' E.
  destruct (surface_ctor points) as [p'|]; [|discriminate]. cbn [bind] in E.
  destruct (setup_predictor_response p' curves points) as [data|] eqn:Ed; [|discriminate]. cbn [bind] in E.
  destruct (fit_multi_init _ _ _ _ _) as [mf|] eqn:Em in E; [|discriminate]. cbn [bind] in E.
  destruct (mf_fit mf) as [[lbd l]|] eqn:Ef; [|discriminate]. injection E as <-.
  destruct (multi_fit_from_run _ _ _ _ _ _ _ _ Em Ef) as [n [conv Er]].
  destruct (Hst n) as [Ln Fn].
  apply fit_one_from_small in Er; auto.
  - destruct Er as [F1 F2]. rewrite Ln in F2. rewrite <- F2. apply construct_a_ok. auto.
  - rewrite Ln. exact Hp.
  - intros r. rewrite Ln. apply Hpm.
  - eapply setup_symmetric; eauto.
Qed.

(** ** Starts scaled from the simplex *)

Lemma insert_perm x l : Permutation (x :: l) (insert_sorted x l).
Proof.
  induction l as [|y r IH]; cbn [insert_sorted]; [reflexivity|]. destruct (Qleb x y); [reflexivity|].
  transitivity (y :: x :: r); [constructor|]. constructor. exact IH.
Qed.
Lemma sorted_perm l : Permutation l (py_sorted l).
Proof. induction l as [|x l IH]; cbn [py_sorted fold_right]; [constructor|]. etransitivity; [|apply insert_perm]. constructor. exact IH. Qed.

Fixpoint ascending (from : Q) (l : list Q) : Prop :=
  match l with [] => (from <= 1)%Q | x :: r => (from <= x)%Q /\ ascending x r end.
Lemma insert_ascending x : forall l from, (from <= x)%Q -> (x <= 1)%Q -> ascending from l -> ascending from (insert_sorted x l).
Proof.
  induction l as [|y r IH]; intros from H1 H2 H; cbn in *; [auto|]. destruct H as [Ha Hb].
  destruct (Qleb x y) eqn:E.
  - apply Qle_bool_iff in E. cbn. auto.
  - cbn. split; [auto|]. apply IH; auto. destruct (Qlt_le_dec x y) as [G|G]; [|auto].
    assert (Qleb x y = true) by (apply Qle_bool_iff; lra). congruence.
Qed.
Lemma sorted_ascending l : Forall (fun x => 0 <= x <= 1)%Q l -> ascending 0 (py_sorted l).
Proof. induction 1 as [|x l Hx H IH]; cbn; [lra|]. apply insert_ascending; auto; lra. Qed.

Lemma gaps_ok : forall l from, ascending from l ->
  length (gaps from l) = S (length l) /\ Forall (fun x => 0 <= x)%Q (gaps from l) /\ (Qsum (gaps from l) == 1 - from)%Q.
Proof.
  induction l as [|x r IH]; intros from H; cbn [gaps length] in *.
  - cbn in H. repeat split; [constructor; [lra|constructor]|]. unfold Qsum. cbn. ring.
  - destruct H as [Ha Hb]. destruct (IH _ Hb) as [H1 [H2 H3]]. rewrite H1. split; [reflexivity|]. split; [constructor; [lra|exact H2]|].
    change (Qsum (x - from :: gaps x r)%Q) with (x - from + Qsum (gaps x r))%Q. rewrite H3. ring.
Qed.

Lemma list_max_ge l x : In x l -> (x <= list_max l)%Q.
Proof.
  destruct l as [|y r]; [intros []|]. cbn [list_max].
  assert (G : forall r z, (z <= fold_left Qmax r z)%Q /\ forall x, In x r -> (x <= fold_left Qmax r z)%Q).
  { induction r0 as [|a r0 IH]; intros z; cbn; [split; [lra|intros ? []]|].
    destruct (IH (Qmax z a)) as [I1 I2]. pose proof (Qmax_le_l z a). pose proof (Qmax_le_r z a).
    split; [lra|]. intros w [<-|Hw]; [lra|auto]. }
  destruct (G r y) as [G1 G2]. intros [<-|H]; auto.
Qed.

Lemma Qsum_nonneg l : Forall (fun x => 0 <= x)%Q l -> (0 <= Qsum l)%Q.
Proof. induction 1; unfold Qsum in *; cbn; [lra|]. fold (Qsum l) in *. lra. Qed.
Lemma Qsum_ge l x : Forall (fun x => 0 <= x)%Q l -> In x l -> (x <= Qsum l)%Q.
Proof.
  induction 1 as [|y r Hy H IH]; [intros []|]. intros [-> | Hin]; unfold Qsum in *; cbn; fold (Qsum r) in *.
  - pose proof (Qsum_nonneg r H). lra.
  - specialize (IH Hin). lra.
Qed.
Lemma Qsum_scale c l : (Qsum (map (Qmult c) l) == c * Qsum l)%Q.
Proof. induction l as [|x l IH]; unfold Qsum in *; cbn; [ring|]. rewrite IH. ring. Qed.

(** A non-negative vector with sum 1 scaled by at most 1 / sqrt(max): feasible. *)
Lemma scaled_feasible sqrt nu x : sqrt_from_above sqrt -> (0 <= x <= 1)%Q -> Forall (fun y => 0 <= y)%Q nu -> (Qsum nu == 1)%Q ->
  lambda_feasible (map (Qmult (x * (1 / Qmax (sqrt (list_max nu * Qsum nu)) tol)))%Q nu).
Proof.
  intros Hsq Hx Hnn Hs. set (M := list_max nu). set (S := Qmax (sqrt (M * Qsum nu)%Q) tol).
  assert (M0 : (0 <= M)%Q).
  { clear Hs. unfold M. destruct nu as [|y r]; [cbn; lra|]. inversion Hnn; subst. pose proof (list_max_ge (y :: r) y ltac:(left; auto)). lra. }
  assert (Hm : (0 <= M * Qsum nu)%Q) by (rewrite Hs; lra).
  destruct (Hsq _ Hm) as [Sq0 Sq1].
  assert (St : (tol <= S)%Q) by apply Qmax_le_r. assert (Sr : (sqrt (M * Qsum nu) <= S)%Q) by apply Qmax_le_l.
  assert (T0 : (tol == 1#1000000)%Q) by reflexivity.
  assert (SS : (M <= S * S)%Q).
  { assert (M * Qsum nu == M)%Q by (rewrite Hs; ring). assert (sqrt (M * Qsum nu) * sqrt (M * Qsum nu) <= S * S)%Q by nra. lra. }
  set (i := (1 / S)%Q). assert (iS : (i * S == 1)%Q) by (unfold i; field; lra).
  assert (i0 : (0 < i)%Q) by (unfold i; apply Qlt_shift_div_l; lra).
  assert (i1 : (i <= 1000000)%Q) by (unfold i; apply Qle_shift_div_r; lra).
  assert (iM : (i * i * M <= 1)%Q).
  { assert (i * i * M <= i * i * (S * S))%Q by nra.
    assert (i * i * (S * S) == 1)%Q by (transitivity ((i * S) * (i * S))%Q; [ring|rewrite iS; ring]). lra. }
  set (c := (x * i)%Q). assert (c0 : (0 <= c)%Q) by (unfold c; nra). assert (ci : (c <= i)%Q) by (unfold c; nra).
  intros k Hk. rewrite map_length in Hk.
  assert (Hin : In (nth k nu 0%Q) nu) by (apply nth_In; auto).
  cbv zeta. rewrite <- Qsum_total. rewrite Qsum_scale, Hs.
  change (map _ nu) with (map (Qmult c) nu). rewrite (nth_indep _ 0%Q (Qmult c 0%Q)) by (rewrite map_length; auto). rewrite map_nth.
  set (v := nth k nu 0%Q) in *.
  assert (v0 : (0 <= v)%Q) by (rewrite Forall_forall in Hnn; auto).
  assert (v1 : (v <= 1)%Q) by (rewrite <- Hs; apply Qsum_ge; auto).
  assert (vM : (v <= M)%Q) by (apply list_max_ge; auto).
  assert (cv : (0 <= c * v /\ c * v <= c)%Q) by (split; nra).
  split; [lra|]. split; [|split; lra].
  assert (c * c * v <= i * i * M)%Q.
  { assert (c * c <= i * i)%Q by nra. assert (0 <= c * c)%Q by nra. assert (c * c * v <= c * c * M)%Q by nra.
    assert (c * c * M <= i * i * M)%Q by nra. lra. }
  assert (0 <= c * v * (c * v))%Q by nra.
  assert (c * v * (c * 1 - c * v) == c * c * v - c * v * (c * v))%Q by ring. lra.
Qed.

Section Sampled.
Context {G : Type} (R : np_random G).
Hypothesis HR : numpy_draws R.

Lemma simplex_feasible sqrt p g lbd g' : sqrt_from_above sqrt -> scaled_from_simplex R sqrt p g = Ok (lbd, g') ->
  length lbd = p /\ lambda_feasible lbd.
Proof.
  intros Hsq. unfold scaled_from_simplex. destruct p as [|n]; [discriminate|].
  destruct HR as [Hr _]. pose proof (Hr n g) as [L1 F1]. destruct (np_rand R n g) as [u g1]. cbn [fst] in *.
  pose proof (Hr 1%nat g1) as [L2 F2]. destruct (np_rand R 1 g1) as [v g2]. cbn [fst] in *.
  destruct v as [|x [|? ?]]; try discriminate L2. cbn [py_index]. intros E.
  assert (Ex : lbd = map (Qmult (x * (1 / Qmax (sqrt (list_max (gaps 0 (py_sorted u)) * Qsum (gaps 0 (py_sorted u)))) tol)))%Q (gaps 0 (py_sorted u)))
    by (cbn in E; inversion E; reflexivity). clear E. subst lbd.
  destruct (gaps_ok (py_sorted u) 0%Q (sorted_ascending u F1)) as [H1 [H2 H3]].
  split. - rewrite map_length, H1, <- L1. f_equal. symmetry. apply Permutation_length, sorted_perm.
  - inversion F2; subst. apply scaled_feasible; auto.
Qed.

Lemma simplex_total sqrt p g : (0 < p)%nat -> exists lbd g', scaled_from_simplex R sqrt p g = Ok (lbd, g').
Proof.
  intros Hp. destruct p as [|n]; [lia|]. unfold scaled_from_simplex. destruct HR as [Hr _].
  destruct (np_rand R n g) as [u g1]. pose proof (Hr 1%nat g1) as [L2 _]. destruct (np_rand R 1 g1) as [v g2]. cbn [fst] in *.
  destruct v as [|x v]; [discriminate|]. cbn. eauto.
Qed.

End Sampled.

Lemma check_accepted lbd : check_feasibility lbd = true <-> accepted lbd.
Proof.
  unfold check_feasibility, accepted. rewrite forallb_forall. split.
  - intros H k Hk. specialize (H (nth k lbd 0%Q) ltac:(apply nth_In; auto)).
    apply Bool.negb_true_iff, Bool.orb_false_iff in H. destruct H as [H1 H2]. rewrite <- Qsum_total. unfold Qltb in *.
    apply Bool.negb_false_iff in H1, H2. apply Qle_bool_iff in H1, H2. unfold tol in H2. split; lra.
  - intros H x Hx. apply (In_nth _ _ 0%Q) in Hx. destruct Hx as [k [Hk <-]]. destruct (H k Hk) as [H1 H2]. rewrite <- Qsum_total in H2.
    apply Bool.negb_true_iff, Bool.orb_false_iff. unfold Qltb. rewrite !Bool.negb_false_iff, !Qle_bool_iff. unfold tol. split; lra.
Qed.
