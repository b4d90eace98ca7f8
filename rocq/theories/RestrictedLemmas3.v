From Coq Require Import Lqa Sorting.Permutation.
From Verif Require Import Prelude ModelReachPoint ReachPointLemmas DataLemmas ModelCurves ModelSurface SpecSurface
  SurfaceLemmas SurfaceLemmas2 SurfaceLemmas3 SurfaceLemmas4 SurfaceLemmas5 ModelRestricted SpecRestricted RestrictedLemmas RestrictedLemmas2.
Open Scope Z_scope.

(** ** Equal numbers written differently *)

Definition same (l l' : list Q) : Prop := length l = length l' /\ forall i, (ent l i == ent l' i)%Q.

Lemma Qsum_same {A} (f f' : A -> Q) l : (forall x, In x l -> f x == f' x)%Q -> (Qsum (map f l) == Qsum (map f' l))%Q.
Proof.
  induction l as [|x l IH]; intros H; [reflexivity|].
  change (f x + Qsum (map f l) == f' x + Qsum (map f' l))%Q.
  assert (E1 : (f x == f' x)%Q) by (apply H; left; reflexivity).
  assert (E2 : (Qsum (map f l) == Qsum (map f' l))%Q) by (apply IH; intros; apply H; right; assumption). lra.
Qed.
Lemma sumn_same n f f' : (forall i, f i == f' i)%Q -> (sumn n f == sumn n f')%Q.
Proof. intros H. apply Qsum_same. auto. Qed.

Section Same.
Variables (l l' : list Q).
Hypothesis H : same l l'.

Lemma Qsum_list_same : (Qsum l == Qsum l')%Q.
Proof. destruct H as [L E]. rewrite !Qsum_total, L. apply total_ext. intros i _. apply E. Qed.

Lemma u_same i D : (compute_u l i D == compute_u l' i D)%Q.
Proof.
  destruct H as [L E]. unfold compute_u. rewrite L.
  rewrite (sumn_same _ (fun a => sumn (length l') (fun b => ent l a * ent l b * D a b)%Q) (fun a => sumn (length l') (fun b => ent l' a * ent l' b * D a b)%Q)).
  2:{ intros a. apply sumn_same. intros b. rewrite (E a), (E b). reflexivity. }
  rewrite (sumn_same _ (fun j => ent l j * D j i)%Q (fun j => ent l' j * D j i)%Q) by (intros j; rewrite (E j); reflexivity).
  rewrite (sumn_same _ (fun j => ent l j * ent l j * D j j)%Q (fun j => ent l' j * ent l' j * D j j)%Q) by (intros j; rewrite (E j); reflexivity).
  rewrite (E i). reflexivity.
Qed.
Lemma v_same i D : (compute_v l i D == compute_v l' i D)%Q.
Proof.
  destruct H as [L E]. unfold compute_v. rewrite L.
  rewrite (sumn_same _ (fun j => ent l j * D j i)%Q (fun j => ent l' j * D j i)%Q) by (intros j; rewrite (E j); reflexivity).
  rewrite (E i). reflexivity.
Qed.
Lemma fitted_same D : (fitted l D == fitted l' D)%Q.
Proof.
  destruct H as [L E]. unfold fitted. rewrite L.
  rewrite (sumn_same _ (fun a => sumn (length l') (fun b => ent l a * ent l b * D a b)%Q) (fun a => sumn (length l') (fun b => ent l' a * ent l' b * D a b)%Q)).
  2:{ intros a. apply sumn_same. intros b. rewrite (E a), (E b). reflexivity. }
  rewrite (sumn_same _ (fun j => ent l j * ent l j * D j j)%Q (fun j => ent l' j * ent l' j * D j j)%Q) by (intros j; rewrite (E j); reflexivity).
  reflexivity.
Qed.
Lemma loss_same data : (loss data l == loss data l')%Q.
Proof. unfold loss. apply Qsum_same. intros [y D] _. cbn [fst snd]. rewrite fitted_same. reflexivity. Qed.

Lemma max_same a b c : (a == b -> Qmax a c == Qmax b c)%Q.
Proof. intros E. apply Qle_antisym; apply Qmax_lub; rewrite ?E, <- ?E; apply Qmax_le_l || apply Qmax_le_r. Qed.
Lemma min_same a b c d : (a == b -> c == d -> Qmin a c == Qmin b d)%Q.
Proof.
  intros E F. apply Qle_antisym; apply Qmin_glb; rewrite <- ?E, <- ?F; try apply Qmin_le_l; try apply Qmin_le_r;
  rewrite ?E, ?F; try apply Qmin_le_l; apply Qmin_le_r.
Qed.

Lemma bound_le_same i x : (x <= feasible_bound l i -> x <= feasible_bound l' i)%Q.
Proof.
  destruct H as [L E]. unfold feasible_bound. rewrite !fold_min_le, L. intros [H1 H2]. split.
  - rewrite <- (max_same (Qsum l - ent l i)%Q); [exact H1|]. rewrite Qsum_list_same, (E i). reflexivity.
  - intros j Hj Hne. specialize (H2 j Hj Hne). rewrite (max_same _ _ tol (E j)), Qsum_list_same, (E i), (E j) in H2. exact H2.
Qed.
End Same.

Lemma same_sym l l' : same l l' -> same l' l.
Proof. intros [L E]. split; [auto|]. intros i. rewrite (E i). reflexivity. Qed.
Lemma same_trans l l' l2 : same l l' -> same l' l2 -> same l l2.
Proof. intros [L E] [L2 E2]. split; [congruence|]. intros i. rewrite (E i). apply E2. Qed.
Lemma bound_same l l' i : same l l' -> (feasible_bound l i == feasible_bound l' i)%Q.
Proof.
  intros H. apply Qle_antisym; [apply (bound_le_same l l')|apply (bound_le_same l' l)]; auto using same_sym; apply Qle_refl.
Qed.

Lemma step_same data l l' i x : same l l' -> step data l' i = Ok x ->
  exists y, step data l i = Ok y /\ (y == x)%Q.
Proof.
  intros HS E. unfold step in *.
  set (num := fun l => Qsum (map (fun yuv : Q * (Q * Q) => (fst yuv - fst (snd yuv)) * snd (snd yuv))%Q
     (combine (map fst data) (map (fun yD : Q * (nat -> nat -> Q) => (compute_u l i (snd yD), compute_v l i (snd yD))) data)))).
  set (den := fun l => Qsum (map (fun w : Q * Q => snd w * snd w)%Q (map (fun yD : Q * (nat -> nat -> Q) => (compute_u l i (snd yD), compute_v l i (snd yD))) data))).
  assert (Hd : (den l == den l')%Q).
  { unfold den. rewrite !map_map. apply Qsum_same. intros yD _. cbn [fst snd]. rewrite (v_same l l' HS). reflexivity. }
  assert (Hn : (num l == num l')%Q).
  { unfold num. clear - HS. induction data as [|[y D] data IH]; [reflexivity|]. cbn [map combine fst snd].
    unfold Qsum in *. cbn [fold_right fst snd]. rewrite IH, (u_same l l' HS), (v_same l l' HS). reflexivity. }
  fold (den l) (num l). fold (den l') (num l') in E.
  assert (Q1 : Qeqb (den l) 0 = Qeqb (den l') 0) by (unfold Qeqb; rewrite Hd; reflexivity).
  assert (Q2 : Qltb (num l / den l) 0 = Qltb (num l' / den l') 0) by (unfold Qltb; rewrite Hd, Hn; reflexivity).
  rewrite Q1, Q2. destruct (Qeqb (den l') 0); [discriminate|].
  destruct (Qltb (num l' / den l') 0); inversion E; subst; eexists; (split; [reflexivity|]); [reflexivity|].
  apply min_same; [rewrite Hd, Hn; reflexivity|apply bound_same; auto].
Qed.

Lemma set_same l l' i x y : same l l' -> (x == y)%Q -> same (set_nth i x l) (set_nth i y l').
Proof.
  intros [L E] Hxy. split; [rewrite !SurfaceLemmas3.set_nth_length; auto|]. intros j. unfold ent in *.
  destruct (Nat.eq_dec i j) as [->|Hne]; [|rewrite !nth_set_nth_neq by auto; apply E].
  destruct (Nat.lt_ge_cases j (length l)) as [G|G].
  - rewrite !nth_set_nth_eq by (auto || congruence). exact Hxy.
  - rewrite !nth_overflow by (rewrite SurfaceLemmas3.set_nth_length; congruence || lia). reflexivity.
Qed.

Lemma round_step_same data i perm l l' x y : same l l' -> step data l' i = Ok x -> (x == y)%Q ->
  (forall l2, same l2 (set_nth i y l') -> exists r, round data perm l2 = Ok r /\ True) ->
  exists r, round data (i :: perm) l = Ok r /\ exists l2, same l2 (set_nth i y l') /\ round data perm l2 = Ok r.
Proof.
  intros HS E Hxy HR. destruct (step_same _ _ _ _ _ HS E) as [z [Ez Hz]].
  assert (S2 : same (set_nth i z l) (set_nth i y l')) by (apply set_same; auto; rewrite Hz; exact Hxy).
  destruct (HR _ S2) as [r [Hr _]]. exists r. cbn [round]. rewrite Ez. cbn [bind]. split; [exact Hr|]. eauto.
Qed.

(** ** A generator without state *)

Lemma mapM_const {A B} (f : A -> result B) o : (forall n, f n = Ok o) -> forall l, mapM f l = Ok (repeat o (length l)).
Proof. intros H. induction l as [|x l IH]; cbn; [reflexivity|]. rewrite H. cbn. rewrite IH. reflexivity. Qed.

Lemma recorded_fit {A} (run : nat -> result (A * Q * bool)) d mn k mx s o :
  (0 < k)%nat -> (forall n, run n = Ok o) -> (0 < mn)%nat -> multi_loop run d mn (S mx) (start k) = Ok s ->
  mr_fit s = Some (fst o) /\ (exists conv, mr_last_converge s = Some conv) /\ (exists c, close_enough d (mr_heap s) = Ok c).
Proof.
  intros Hk Hr Hmn E. destruct (multi_loop_inv run d mn k (S mx) _ _ (recorded_start run k) E) as [HR [HB [HC _]]].
  cbn [start mr_starts] in HB, HC.
  assert (Hs : (0 < mr_starts s)%nat) by lia.
  destruct HR as [os [HA [HH [HL HF]]]]. split; [|split].
  - destruct (mr_fit s) as [[f b]|] eqn:Ef; [|lia].
    destruct HF as [n [cv [_ [Rn _]]]]. rewrite Hr in Rn. injection Rn as ->. reflexivity.
  - rewrite HL. destruct (mr_starts s) as [|m]; [lia|]. rewrite (mapM_const run o Hr) in HA.
    assert (Eo : os = repeat o (m + 1)) by (rewrite seq_length, <- (Nat.add_1_r m) in HA; congruence).
    rewrite Eo, repeat_app, map_app. cbn [repeat map].
    rewrite last_snoc. cbn. eauto.
  - apply close_enough_total. eapply heap_ok_ne; eauto.
Qed.

Lemma constant_loop (R : np_random unit) sampler data p begin fit l conv :
  sampler tt = Ok (begin, tt) ->
  drawn_fit_one R data p default_min_improvement default_max_num_rounds begin tt = Ok (fit, l, conv, tt) ->
  forall left s, drawn_loop R sampler data p left s tt =
    (s' <- multi_loop (fun _ => Ok (fit, l, conv)) default_distance default_min_num_init left s ;; Ok (s', tt)).
Proof.
  intros Es Ef. induction left as [|k IH]; intros s; cbn [drawn_loop]; rewrite multi_loop_unfold;
    match goal with |- bind ?g _ = _ => destruct g as [[|]|] end; cbn [bind]; try reflexivity.
  rewrite Es. cbn [bind]. rewrite Ef. cbn [bind]. rewrite IH. reflexivity.
Qed.

Lemma constant_fit (R : np_random unit) sampler curves points p data begin fit l conv :
  surface_ctor points = Ok p -> setup_predictor_response p curves points = Ok data ->
  np_seed R 0 = tt -> sampler p tt = Ok (begin, tt) ->
  drawn_fit_one R data p default_min_improvement default_max_num_rounds begin tt = Ok (fit, l, conv, tt) ->
  drawn_fit R sampler curves points tt = Ok (construct_a fit, tt).
Proof.
  intros Ep Ed E0 Es Ef. unfold drawn_fit. rewrite Ep. cbn [bind]. rewrite Ed. cbn [bind]. unfold drawn_multi. rewrite E0.
  rewrite (constant_loop R (sampler p) data p begin fit l conv Es Ef).
  assert (N : exists k, restricted_max_num_init = S k) by (exists 999%nat; reflexivity). destruct N as [k ->].
  assert (K : (0 < default_num_near)%nat) by (unfold default_num_near; lia).
  assert (M : (0 < default_min_num_init)%nat) by (unfold default_min_num_init; lia).
  revert K M. generalize default_num_near default_min_num_init default_distance. intros kk mn dd K M.
  destruct (multi_loop_total (fun _ => Ok (fit, l, conv)) dd mn kk (S k) K (start kk) (recorded_start _ kk)) as [s Hs].
  { intros n _ _. eauto. }
  change {| mr_fit := None; mr_last_converge := None; mr_heap := repeat None kk; mr_starts := 0 |} with (@start (list Q) kk).
  rewrite Hs. cbn [bind].
  destruct (recorded_fit _ _ _ _ _ _ (fit, l, conv) K (fun _ => eq_refl) M Hs) as [H1 [[c H2] [b H3]]].
  rewrite H2, H1. cbn [fst]. rewrite H3. reflexivity.
Qed.
