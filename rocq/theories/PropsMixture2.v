(** C32, continued: the whole fit of the generalized mixture. *)
From Coq Require Import Lqa.
From Verif Require Import Prelude ModelReachPoint ModelCurves ModelSurface SpecSurface PropsSurface PropsMixture.
Open Scope Q_scope.

(** The start of number n, with at most 1000 rounds that each have to lower the loss by more
    than 1/1000. *)
Definition mixture_start (solver : qp -> result (list Q)) (starts : nat -> list Q) (p c : nat) (N : Q) rs ys (n : nat) :=
  fit_one_init_a solver p c N rs ys (1 # 1000) 1000 (starts n).

(** If every start can be fitted, so can the surface: ten starts are made, and the first of
    those with the smallest loss is taken. *)
Theorem C32_mixture_fit : forall solver starts c curves points p0 N rs ys u,
  py_index points 0 = Ok p0 -> mixture_N curves = Ok N -> surface_init points = Ok u ->
  mapM (fun pt => get_reach_vector curves (rp_impressions pt)) points = Ok rs -> mapM (fun pt => reach pt 1) points = Ok ys ->
  let start := mixture_start solver starts (length (rp_impressions p0)) c N rs ys in
  (forall n, exists o, start n = Ok o) ->
  exists a, mixture_fit solver starts c curves points = Ok (N, a) /\
  exists n l conv, (n < 10)%nat /\ start n = Ok (a, l, conv) /\
  forall m, (m < 10)%nat -> exists a' l' conv', start m = Ok (a', l', conv') /\ l <= l' /\ ((m < n)%nat -> l < l').
Proof.
  intros solver starts c curves points p0 N rs ys u E1 E2 E3 E4 E5 start T. unfold mixture_fit.
  rewrite E1. cbn [bind]. rewrite E2. cbn [bind]. rewrite E3. cbn [bind]. rewrite E4. cbn [bind]. rewrite E5. cbn [bind].
  change (fun n : nat => fit_one_init_a solver (length (rp_impressions p0)) c N rs ys default_min_improvement default_max_num_rounds (starts n)) with start.
  clearbody start. clear - T.
  destruct (C32_ends start default_distance default_num_near default_min_num_init mixture_max_num_init) as [mf E];
    [unfold default_num_near; lia|unfold mixture_max_num_init; lia|unfold default_min_num_init; lia|exact T|].
  pose proof (C32_mixture_makes_ten_starts start mf E) as Ten.
  destruct (C32_keeps_best start _ _ _ _ mf E) as [a [l [Ef [n [conv [Hn [Rn B]]]]]]].
  rewrite E. cbn [bind]. rewrite Ef. rewrite Ten in Hn, B. exists a. split; [reflexivity|]. exists n, l, conv. auto.
Qed.
Print Assumptions C32_mixture_fit.

(** Conversely, the answer of the fit is always this. *)
Theorem C32_mixture_fit_only : forall solver starts c curves points N a, mixture_fit solver starts c curves points = Ok (N, a) ->
  mixture_N curves = Ok N /\
  exists p0 rs ys n l conv, py_index points 0 = Ok p0 /\
    mapM (fun pt => get_reach_vector curves (rp_impressions pt)) points = Ok rs /\ mapM (fun pt => reach pt 1) points = Ok ys /\
    let start := mixture_start solver starts (length (rp_impressions p0)) c N rs ys in
    (n < 10)%nat /\ start n = Ok (a, l, conv) /\
    forall m, (m < 10)%nat -> exists a' l' conv', start m = Ok (a', l', conv') /\ l <= l' /\ ((m < n)%nat -> l < l').
Proof.
  intros solver starts c curves points N a H. unfold mixture_fit in H.
  destruct (py_index points 0) as [p0|] eqn:E1; cbn [bind] in H; [|discriminate H].
  destruct (mixture_N curves) as [N'|] eqn:E2; cbn [bind] in H; [|discriminate H].
  destruct (surface_init points) as [u|] eqn:E3; cbn [bind] in H; [|discriminate H].
  destruct (mapM _ points) as [rs|] eqn:E4; cbn [bind] in H; [|discriminate H].
  destruct (mapM (fun pt => reach pt 1) points) as [ys|] eqn:E5; cbn [bind] in H; [|discriminate H].
  change (fun n : nat => fit_one_init_a solver (length (rp_impressions p0)) c N' rs ys default_min_improvement default_max_num_rounds (starts n))
    with (mixture_start solver starts (length (rp_impressions p0)) c N' rs ys) in H.
  remember (mixture_start solver starts (length (rp_impressions p0)) c N' rs ys) as start eqn:Es.
  destruct (fit_multi_init start _ _ _ _) as [mf|] eqn:E; cbn [bind] in H; [|discriminate H].
  pose proof (C32_mixture_makes_ten_starts start mf E) as Ten.
  destruct (C32_keeps_best start _ _ _ _ mf E) as [a' [l [Ef [n [conv [Hn [Rn B]]]]]]].
  rewrite Ef in H. injection H as H1 H2. subst N' a'. split; [reflexivity|].
  exists p0, rs, ys, n, l, conv. rewrite <- Es. cbv zeta. rewrite Ten in Hn, B. auto 10.
Qed.
Print Assumptions C32_mixture_fit_only.

(** A fit whose fourth start is another one. *)
Definition some_point : qpoint :=
  {| rp_impressions := [60; 80]; rp_kplus := [110]; rp_frequencies := []; rp_spends := None; rp_universe := None |}.
Definition some_starts (n : nat) : list Q := if Nat.eqb n 3 then [1; 0; 0; 1] else [1#2; 1#2; 1; 0].
Example C32_mixture_fit_example : exists rs ys,
  mapM (fun pt => get_reach_vector ex_curves (rp_impressions pt)) [some_point] = Ok rs /\ mapM (fun pt => reach pt 1) [some_point] = Ok ys /\
  (forall n, exists o, mixture_start even_solver some_starts 2 2 200 rs ys n = Ok o) /\
  mixture_fit even_solver some_starts 2 ex_curves [some_point] = Ok (200, [1#2; 1#2; 1#2; 1#2]).
Proof.
  exists [[60; 50]], [110]. split; [vm_compute; reflexivity|]. split; [vm_compute; reflexivity|]. split.
  - intros n. unfold mixture_start, some_starts. destruct (Nat.eqb n 3); eexists; vm_compute; reflexivity.
  - vm_compute. reflexivity.
Qed.
