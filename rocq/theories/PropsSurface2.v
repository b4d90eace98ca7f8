(** Further properties of the reach surfaces (C29, C31, C32). *)
From Coq Require Import Sorting.Sorted Sorting.Permutation Lqa.
From Verif Require Import Prelude ModelReachPoint ModelCurves ModelSurface SpecSurface
  ReachPointLemmas DataLemmas CurvesLemmas SurfaceLemmas SurfaceLemmas2 SurfaceLemmas3
  SurfaceLemmas4 SurfaceLemmas5 PropsSurface.
Open Scope Z_scope.

(** ** C29: spends *)

(** The impressions that the publishers sell for the given spends. *)
Inductive bought : list reach_curve -> list Q -> list Q -> Prop :=
| bought_nil : bought [] [] []
| bought_cons c cs s ss x xs :
    c_impressions_for_spend c s = Ok x -> bought cs ss xs -> bought (c :: cs) (s :: ss) (x :: xs).

(** Asking by spend is asking by the impressions that the spends buy. *)
Theorem C29_by_spend_buys_impressions : forall curves by_impressions spends imps,
  bought curves spends imps ->
  surface_by_spend curves by_impressions spends = by_impressions imps.
Proof.
  intros curves f spends imps H. unfold surface_by_spend.
  assert (mapM (fun cs => c_impressions_for_spend (fst cs) (snd cs)) (combine curves spends) = Ok imps) as ->.
  { induction H; simpl; auto. rewrite H. cbn [bind]. rewrite IHbought. reflexivity. }
  reflexivity.
Qed.
Print Assumptions C29_by_spend_buys_impressions.

(** A publisher that cannot convert its spend makes the whole request fail. *)
Theorem C29_by_spend_fails : forall curves by_impressions spends k c s e,
  nth_error curves k = Some c -> nth_error spends k = Some s ->
  c_impressions_for_spend c s = Err e ->
  exists e', surface_by_spend curves by_impressions spends = Err e'.
Proof.
  intros curves f. unfold surface_by_spend.
  assert (forall curves spends k c s e, nth_error curves k = Some c -> nth_error spends k = Some s ->
    c_impressions_for_spend c s = Err e -> exists e',
    mapM (fun cs => c_impressions_for_spend (fst cs) (snd cs)) (combine curves spends) = Err e') as G.
  { clear. induction curves as [|c0 curves IH]; intros [|s0 spends] [|k] c s e H1 H2 H3; simpl in *; try discriminate.
    - inversion H1; inversion H2; subst. rewrite H3. simpl. eauto.
    - destruct (c_impressions_for_spend c0 s0); simpl; [|eauto].
      destruct (IH spends k c s e H1 H2 H3) as [e' ->]. simpl. eauto. }
  intros spends k c s e H1 H2 H3. destruct (G _ _ _ _ _ _ H1 H2 H3) as [e' ->]. simpl. eauto.
Qed.
Print Assumptions C29_by_spend_fails.

(** Two curves: the first sells ten impressions for each unit of spend, the second sells
    nothing. *)
Example ex_by_spend : exists curves spends imps, bought curves spends imps /\ imps = [20; 0]%Q /\
  spends = [2; 5]%Q.
Proof.
  exists [{| c_reach := fun x => Ok x; c_max_reach := 100; c_impressions_for_spend := fun s => Ok (Qred (s * 10))%Q |};
          {| c_reach := fun x => Ok x; c_max_reach := 100; c_impressions_for_spend := fun s => Ok 0%Q |}].
  exists [2; 5]%Q, [20; 0]%Q. split; [|split; reflexivity].
  repeat (constructor; [vm_compute; reflexivity|]). constructor.
Qed.

(** ** C31: the check of a start *)

(** The check accepts exactly the non-negative vectors in which no coordinate times the sum
    of the others exceeds one by more than the tolerance. *)
Theorem C31_start_check : forall lbd,
  check_feasibility lbd = true <->
  forall k, (k < length lbd)%nat ->
    (0 <= nth k lbd 0)%Q /\
    (nth k lbd 0 * (total (length lbd) (fun j => nth j lbd 0) - nth k lbd 0) <= 1 + (1#1000000))%Q.
Proof.
  intros lbd. unfold check_feasibility. rewrite forallb_forall.
  assert (forall l, negb (Qltb l 0 || Qltb (1 + tol) (l * (Qsum lbd - l))) = true <->
    (0 <= l)%Q /\ (l * (total (length lbd) (fun j => nth j lbd 0) - l) <= 1 + (1#1000000))%Q) as E.
  { intros l. rewrite negb_true_iff, orb_false_iff, !Qltb_ge, Qsum_total. reflexivity. }
  split.
  - intros H k Hk. apply E, H, nth_In; auto.
  - intros H l Hl. apply E. destruct (In_nth lbd l 0%Q Hl) as [k [Hk <-]]. apply H; auto.
Qed.
Print Assumptions C31_start_check.

(** Every feasible point passes. *)
Theorem C31_feasible_start_accepted : forall lbd, lambda_feasible lbd -> check_feasibility lbd = true.
Proof.
  intros lbd H. apply C31_start_check. intros k Hk. destruct (H k Hk) as [H1 [H2 _]].
  split; auto. eapply Qle_trans; [exact H2|]. lra.
Qed.
Print Assumptions C31_feasible_start_accepted.

Example ex_start_check : check_feasibility [1#2; 1#2; 1]%Q = true /\ check_feasibility [1; 1; 1]%Q = false
  /\ check_feasibility [-1; 1#2]%Q = false.
Proof. repeat split; reflexivity. Qed.

(** ** C32: the linear model that a round of the mixture fit solves *)

Lemma mixture_theta_value N a r p c j t : mixture_theta N a r p c j = Ok t ->
  (t * total p (fun i => entry c a i j * nth i r 0 / N) ==
   1 - prodn p (fun i => 1 - entry c a i j * nth i r 0 / N))%Q.
Proof.
  unfold mixture_theta. destruct (Qeqb _ 0) eqn:E; [discriminate|].
  apply Qeq_bool_neq in E. intros H. apply (f_equal (fun x => match x with Ok y => y | Err _ => 0%Q end)) in H.
  cbv beta iota in H.
  assert (forall i, mixture_x N a r c i j = (entry c a i j * nth i r 0 / N)%Q) as X.
  { intros i. unfold mixture_x, entry, ent. rewrite Nat.add_comm. reflexivity. }
  assert (sumn p (fun i => mixture_x N a r c i j) == total p (fun i => entry c a i j * nth i r 0 / N))%Q as S1.
  { rewrite sumn_total. apply total_ext. intros i _. rewrite X. reflexivity. }
  assert (forall n w, fold_left Qmult (map (fun i => 1 - mixture_x N a r c i j)%Q (seq 0 n)) w ==
    w * prodn n (fun i => 1 - entry c a i j * nth i r 0 / N))%Q as S2.
  { induction n as [|n IH]; intros w; [simpl; ring|].
    rewrite seq_S, map_app, fold_left_app. cbn [map fold_left prodn Nat.add].
    rewrite IH, X. ring. }
  rewrite <- H. rewrite <- S1, (S2 p 1%Q). field. exact E.
Qed.

(** Solving for the weights, a round replaces the surface by a linear model z·a. At the
    weights from which z was computed the linear model predicts exactly what the surface
    predicts (both divided by N). *)
Theorem C32_linear_model_exact : forall p c N a r theta,
  length a = (p * c)%nat -> (~ N == 0)%Q ->
  mapM (mixture_theta N a r p c) (seq 0 c) = Ok theta ->
  (total (p * c) (fun u => nth u (mixture_z N p c theta r) 0 * nth u a 0) * N ==
   total c (fun j => 1 - prodn p (fun i => 1 - entry c a i j * nth i r 0 / N)) * N)%Q.
Proof.
  intros p c N a r theta La HN Ht. apply Qmult_comp; [|reflexivity].
  rewrite total_mult.
  assert (forall j, (j < c)%nat -> exists t, nth j theta 0%Q = t /\ mixture_theta N a r p c j = Ok t) as T.
  { intros j Hj. assert (forall l rr j, mapM (mixture_theta N a r p c) l = Ok rr -> (j < length l)%nat ->
      mixture_theta N a r p c (nth j l O) = Ok (nth j rr 0%Q)) as G.
    { clear. induction l as [|x l IH]; intros rr j H Hj; simpl in Hj; [lia|].
      apply mapM_cons_inv in H. destruct H as [y [ys [H1 [H2 ->]]]].
      destruct j; [exact H1|]. cbn [nth]. apply IH; auto. lia. }
    exists (nth j theta 0%Q). split; auto.
    rewrite <- (G _ _ j Ht) by (rewrite seq_length; auto). rewrite seq_nth by auto. reflexivity. }
  rewrite (total_ext p _ (fun i => total c (fun j => nth j theta 0 * (entry c a i j * nth i r 0 / N))))%Q.
  2:{ intros i Hi. apply total_ext. intros j Hj. unfold mixture_z.
      rewrite (nth_flat_map_block _ c (seq 0 p) i j 0%nat 0%Q);
        [|intros; rewrite map_length, seq_length; auto|rewrite seq_length; auto|auto].
      rewrite seq_nth by auto. cbn [Nat.add]. rewrite nth_map_seq by auto. unfold ent, entry. field. exact HN. }
  rewrite total_swap. apply total_ext. intros j Hj. rewrite total_scal.
  destruct (T j Hj) as [t [-> Et]]. apply mixture_theta_value in Et. exact Et.
Qed.
Print Assumptions C32_linear_model_exact.

(** So, with the same weights, the linear model and the fitted surface answer alike. *)
Theorem C32_linear_model_matches_surface : forall c N a curves imps rs theta m, let p := length curves in
  length a = (p * c)%nat -> single_reaches curves imps rs -> (~ N == 0)%Q ->
  mapM (mixture_theta N a rs p c) (seq 0 c) = Ok theta ->
  exists pt u, mixture_by_impressions p c N a curves imps m = Ok pt /\ reach pt 1 = Ok u /\
    (total (p * c) (fun v => nth v (mixture_z N p c theta rs) 0 * nth v a 0) * N == u)%Q.
Proof.
  intros c N a curves imps rs theta m p La H HN Ht.
  destruct (mixture_by_impressions_ok c N a curves imps rs m La H HN) as [pt [u [E1 [E2 [_ [_ E3]]]]]].
  exists pt, u. split; auto. split; auto. rewrite E3. unfold mixture_value.
  apply C32_linear_model_exact; auto.
Qed.
Print Assumptions C32_linear_model_matches_surface.

Example ex_linear_model : exists theta, mapM (mixture_theta 10 [1#2; 1#2; 1; 0]%Q [4; 2]%Q 2 2) (seq 0 2) = Ok theta.
Proof. eexists. vm_compute. reflexivity. Qed.

(** The number by which starts are compared: the sum over the training points of the square
    of the linear prediction less the prediction times the observed share y/N. *)
Theorem C32_mixture_loss_value : forall p c N zs ys n a, length zs = length ys ->
  (mixture_loss (mixture_qp p c N zs ys) n a ==
   Qsum (map (fun zy => let pred := total n (fun u => nth u (fst zy) 0 * nth u a 0) in
                        pred * pred - snd zy / N * pred)%Q (combine zs ys)))%Q.
Proof.
  intros p c N zs ys n a. unfold mixture_loss. cbn [mixture_qp qp_P qp_q].
  revert ys. induction zs as [|z zs IH]; intros [|y ys] HL; cbn [length] in HL; try lia.
  - cbn [combine map Qsum]. rewrite !sumn_total. rewrite !total_0; [reflexivity| |].
    + intros u _. ring.
    + intros u _. rewrite sumn_total. apply total_0. intros v _. ring.
  - cbn [combine map Qsum fst snd]. rewrite <- IH by lia. rewrite !sumn_total.
    set (pr := total n (fun u => nth u z 0 * nth u a 0)%Q).
    assert (total n (fun u => sumn n (fun v => ent a u * (ent z u * ent z v + Qsum (map (fun z0 => ent z0 u * ent z0 v)%Q zs)) * ent a v)) ==
      pr * pr + total n (fun u => sumn n (fun v => ent a u * Qsum (map (fun z0 => ent z0 u * ent z0 v)%Q zs) * ent a v)))%Q as ->.
    { transitivity (total n (fun u => (nth u z 0 * nth u a 0) * pr +
         sumn n (fun v => ent a u * Qsum (map (fun z0 => ent z0 u * ent z0 v)%Q zs) * ent a v)))%Q.
      - apply total_ext. intros u _. rewrite !sumn_total. unfold pr. rewrite <- total_scal, <- total_plus.
        apply total_ext. intros v _. unfold ent. ring.
      - rewrite total_plus, total_scal_r. reflexivity. }
    assert (total n (fun u => - (y / N * ent z u + Qsum (map (fun zy => snd zy / N * ent (fst zy) u)%Q (combine zs ys))) * ent a u) ==
      - (y / N * pr) + total n (fun u => - Qsum (map (fun zy => snd zy / N * ent (fst zy) u)%Q (combine zs ys)) * ent a u))%Q as ->.
    { transitivity (total n (fun u => (- (y / N)) * (nth u z 0 * nth u a 0) +
         - Qsum (map (fun zy => snd zy / N * ent (fst zy) u)%Q (combine zs ys)) * ent a u))%Q.
      - apply total_ext. intros u _. unfold ent. ring.
      - rewrite total_plus, total_scal. unfold pr. ring. }
    ring.
Qed.
Print Assumptions C32_mixture_loss_value.

(** When the smallest loss is not positive (a perfect fit, or almost any fit of the mixture,
    whose loss is negative for predictions below the observed shares), the starts never count
    as close, so the fit always makes the maximal number of starts. *)
Theorem C32_nonpositive_loss_never_close {A} (run : nat -> result (A * Q * bool)) d k mn mx mf fit l :
  fit_multi_init run d k mn mx = Ok mf -> (0 <= d)%Q -> mf_fit mf = Some (fit, l) -> (l <= 0)%Q ->
  snd (mf_success mf) = false /\ mf_starts mf = mx.
Proof.
  intros E Hd Hf Hl.
  assert (snd (mf_success mf) = false) as G.
  { destruct (snd (mf_success mf)) eqn:Es; auto. exfalso.
    destruct (C32_k_smallest_losses run d k mn mx mf E) as [os [Ho [[Lk [Sk [rest [Hp Hr]]]] Hc]]].
    apply Hc in Es. destruct Es as [sm [kth [H1 [H2 H3]]]].
    destruct (C32_keeps_best run d k mn mx mf E) as [fit' [l' [F1 [n [conv [Hn [Rn HB]]]]]]].
    rewrite Hf in F1. inversion F1; subst fit' l'.
    destruct (mf_k_smallest mf) as [|x ks] eqn:Ek; [discriminate|]. cbn in H1. inversion H1; subst x.
    (* smallest <= l <= 0 *)
    assert (sm <= l)%Q as Hsm.
    { assert (In (Some l) (map Some (map (fun o => snd (fst o)) os) ++ repeat None k)) as Hin.
      { apply in_or_app. left. apply in_map. unfold outcomes in Ho.
        destruct (nth_error os n) as [o|] eqn:En.
        - assert (run n = Ok o) as Ro.
          { assert (forall l0 r0 i o0, mapM run l0 = Ok r0 -> nth_error r0 i = Some o0 ->
               exists x, nth_error l0 i = Some x /\ run x = Ok o0) as G.
            { clear. induction l0 as [|x l0 IH]; intros r0 i o0 H Hi; simpl in H.
              - inversion H; subst. destruct i; discriminate.
              - destruct (run x) eqn:E; simpl in H; [|discriminate].
                destruct (mapM run l0) eqn:E'; simpl in H; [|discriminate]. inversion H; subst.
                destruct i; simpl in Hi; [inversion Hi; subst; exists x; auto|].
                destruct (IH _ _ _ eq_refl Hi) as [y [Y1 Y2]]. exists y. auto. }
            destruct (G _ _ _ _ Ho En) as [x [X1 X2]].
            assert (nth_error (seq 0 (mf_starts mf)) n = Some n) as X3.
            { rewrite nth_error_nth' with (d := 0%nat) by (rewrite seq_length; auto).
              rewrite seq_nth by auto. reflexivity. }
            rewrite X3 in X1. inversion X1; subst x. exact X2. }
          rewrite Rn in Ro. inversion Ro; subst o. apply nth_error_In in En.
          change l with (snd (fst (fit, l, conv))). apply (in_map (fun o => snd (fst o))). exact En.
        - apply nth_error_None in En. apply mapM_ok_length in Ho. rewrite seq_length in Ho. lia. }
      eapply Permutation_in in Hin; [|exact Hp]. apply in_app_or in Hin. destruct Hin as [Hin|Hin].
      - destruct Hin as [Hin|Hin]; [inversion Hin; apply Qle_refl|].
        inversion Sk as [|? ? S1 S2]; subst. rewrite Forall_forall in S2. apply (S2 _ Hin).
      - apply (Hr (Some sm) (Some l)); [left; auto|auto]. }
    assert (sm <= kth)%Q as Hk.
    { inversion Sk as [|? ? S1 S2]; subst. rewrite Forall_forall in S2.
      destruct ks as [|y ks] using rev_ind.
      - cbn in H2. inversion H2. apply Qle_refl.
      - rewrite app_comm_cons, last_snoc in H2. subst y. apply (S2 (Some kth)).
        apply in_or_app. right. left. auto. }
    assert (d * sm <= 0)%Q by (assert (sm <= 0)%Q by lra; nra).
    lra. }
  split; auto. destruct (C32_number_of_starts run d k mn mx mf E) as [_ [_ [H|H]]]; auto. congruence.
Qed.
Print Assumptions C32_nonpositive_loss_never_close.

Example ex_never_close : exists mf, fit_multi_init (fun n => Ok (n, 0, true)%Q) (1#100) 2 1 5 = Ok mf /\
  mf_starts mf = 5%nat /\ mf_k_smallest mf = [Some 0; Some 0]%Q.
Proof. eexists. split; [reflexivity|]. split; reflexivity. Qed.
