From Coq Require Import Lqa.
From Verif Require Import Prelude ModelReachPoint ReachPointLemmas DataLemmas ModelCurves ModelSurface SpecSurface SurfaceLemmas SurfaceLemmas2 SurfaceLemmas3 SurfaceLemmas4.
Open Scope Z_scope.

(** ** Products of 1 - x *)

Fixpoint prodn (n : nat) (f : nat -> Q) : Q :=
  match n with O => 1%Q | S n' => (prodn n' f * f n')%Q end.

Lemma prodn_ext n f g : (forall i, (i < n)%nat -> f i == g i)%Q -> (prodn n f == prodn n g)%Q.
Proof.
  induction n as [|n IH]; intros H; simpl; [reflexivity|]. rewrite IH, (H n) by (auto; lia). reflexivity.
Qed.

Lemma prodn_bounds n x : (forall i, (i < n)%nat -> 0 <= x i <= 1)%Q ->
  (0 <= prodn n (fun i => 1 - x i) <= 1)%Q.
Proof.
  induction n as [|n IH]; intros H; simpl; [lra|].
  specialize (IH ltac:(intros; apply H; lia)). pose proof (H n ltac:(lia)).
  split; [apply Qmult_le_0_compat; lra|].
  apply Qle_trans with (1 * (1 - x n))%Q; [apply Qmult_le_compat_r; lra|lra].
Qed.

(** 1 - sum of x <= product of (1 - x) *)
Lemma prodn_ge n x : (forall i, (i < n)%nat -> 0 <= x i <= 1)%Q ->
  (1 - total n x <= prodn n (fun i => 1 - x i))%Q.
Proof.
  induction n as [|n IH]; intros H; simpl; [lra|].
  pose proof (prodn_bounds n x ltac:(intros; apply H; lia)).
  specialize (IH ltac:(intros; apply H; lia)). pose proof (H n ltac:(lia)).
  setoid_replace (prodn n (fun i => 1 - x i) * (1 - x n))%Q with
    (prodn n (fun i => 1 - x i) - prodn n (fun i => 1 - x i) * x n)%Q by ring.
  assert (prodn n (fun i => 1 - x i) * x n <= 1 * x n)%Q by (apply Qmult_le_compat_r; lra). lra.
Qed.

Lemma prodn_antitone n x y : (forall i, (i < n)%nat -> 0 <= x i <= y i /\ y i <= 1)%Q ->
  (prodn n (fun i => 1 - y i) <= prodn n (fun i => 1 - x i))%Q.
Proof.
  induction n as [|n IH]; intros H; simpl; [lra|].
  specialize (IH ltac:(intros; apply H; lia)). pose proof (H n ltac:(lia)).
  pose proof (prodn_bounds n y ltac:(intros i Hi; pose proof (H i ltac:(lia)); lra)).
  apply Qle_trans with (prodn n (fun i => 1 - x i) * (1 - y n))%Q.
  - apply Qmult_le_compat_r; lra.
  - rewrite !(Qmult_comm (prodn n _)). apply Qmult_le_compat_r; lra.
Qed.

Lemma prodn_single n x k : (k < n)%nat -> (forall i, (i < n)%nat -> i <> k -> x i == 0)%Q ->
  (prodn n (fun i => 1 - x i) == 1 - x k)%Q.
Proof.
  induction n as [|n IH]; intros Hk H; [lia|]. simpl.
  destruct (Nat.eq_dec k n) as [->|].
  - rewrite (prodn_ext n _ (fun _ => 1)%Q).
    + assert (prodn n (fun _ => 1) == 1)%Q as ->; [|ring]. clear. induction n; simpl; [reflexivity|]. rewrite IHn. ring.
    + intros i Hi. rewrite (H i) by lia. ring.
  - rewrite IH by (try lia; intros; apply H; lia). rewrite (H n) by lia. ring.
Qed.

(** ** The value of the mixture surface *)

Definition mixture_value (p c : nat) (N : Q) (a rv : list Q) : Q :=
  (total c (fun j => 1 - prodn p (fun i => 1 - entry c a i j * nth i rv 0 / N)) * N)%Q.

Lemma mixture_weight_ok N a rv c j : (~ N == 0)%Q -> forall is w,
  (forall i, In i is -> 0 <= j + i * c < Z.of_nat (length a) /\ 0 <= i < Z.of_nat (length rv)) ->
  mixture_weight N a rv c j is w = Ok (fold_left (fun w i =>
    w * (1 - (nth (Z.to_nat (j + i * c)) a 0 * nth (Z.to_nat i) rv 0) / N))%Q is w).
Proof.
  intros HN. induction is as [|i is IH]; intros w H; [reflexivity|]. cbn [mixture_weight fold_left].
  destruct (H i (or_introl eq_refl)) as [H1 H2].
  rewrite (py_index_in a _ 0%Q H1), (py_index_in rv _ 0%Q H2). cbn [bind].
  destruct (Qeqb N 0) eqn:E; [apply Qeq_bool_iff in E; contradiction|].
  apply IH. intros; apply H; right; auto.
Qed.

Lemma fold_prodn (f : Z -> Q) n w :
  (fold_left (fun w i => w * f i) (py_range 0 (Z.of_nat n)) w == w * prodn n (fun i => f (Z.of_nat i)))%Q.
Proof.
  rewrite py_range_0. revert w. induction n as [|n IH]; intros w; [simpl; ring|].
  rewrite seq_S, map_app, fold_left_app. simpl. rewrite IH. ring.
Qed.

Lemma mapM_Qeq {A} (f : A -> result Q) (g : A -> Q) l :
  (forall x, In x l -> exists y, f x = Ok y /\ (y == g x)%Q) ->
  exists r, mapM f l = Ok r /\ (Qsum r == Qsum (map g l))%Q.
Proof.
  induction l as [|x l IH]; intros H; [exists []; split; reflexivity|].
  destruct (H x (or_introl eq_refl)) as [y [E1 E2]].
  destruct IH as [r [E3 E4]]; [intros; apply H; right; auto|].
  exists (y :: r). simpl. rewrite E1. cbn [bind]. rewrite E3. cbn [bind]. split; auto. rewrite E2, E4. reflexivity.
Qed.

Lemma mixture_by_impressions_ok c N a curves imps rs m : let p := length curves in
  length a = (p * c)%nat -> single_reaches curves imps rs -> (~ N == 0)%Q ->
  exists pt u, mixture_by_impressions p c N a curves imps m = Ok pt /\ reach pt 1 = Ok u /\
    rp_impressions pt = imps /\ max_frequency pt = 1 /\ (u == mixture_value p c N a rs)%Q.
Proof.
  intros p La H HN. destruct (single_reaches_vector _ _ _ H) as [Ev [L1 L2]].
  unfold mixture_by_impressions. rewrite Ev. cbn [bind].
  destruct (mapM_Qeq (fun j => w <- mixture_weight N a rs (Z.of_nat c) j (py_range 0 (Z.of_nat p)) 1 ;; Ok (1 - w)%Q)
    (fun j => 1 - prodn p (fun i => 1 - entry c a i (Z.to_nat j) * nth i rs 0 / N))%Q
    (py_range 0 (Z.of_nat c))) as [r [E1 E2]].
  { intros j Hj. rewrite py_range_0 in Hj. apply in_map_iff in Hj. destruct Hj as [j0 [<- Hj]]. apply in_seq in Hj.
    rewrite mixture_weight_ok; auto.
    - cbn [bind]. eexists. split; [reflexivity|].
      rewrite (fold_prodn (fun i => 1 - nth (Z.to_nat (Z.of_nat j0 + i * Z.of_nat c)) a 0 * nth (Z.to_nat i) rs 0 / N) p)%Q.
      rewrite Qmult_1_l. apply Qplus_comp; [reflexivity|]. apply Qopp_comp. apply prodn_ext. intros i Hi.
      rewrite !Nat2Z.id. replace (Z.to_nat (Z.of_nat j0 + Z.of_nat i * Z.of_nat c)) with (i * c + j0)%nat by nia. reflexivity.
    - intros i Hi. rewrite py_range_0 in Hi. apply in_map_iff in Hi. destruct Hi as [i0 [<- Hi]]. apply in_seq in Hi.
      rewrite La, L2. fold p. nia. }
  rewrite E1. cbn [bind]. rewrite mk_reach_point_none. eexists. eexists. split; [reflexivity|].
  split; [reflexivity|]. split; [reflexivity|]. split; [reflexivity|].
  rewrite E2. unfold mixture_value. apply Qmult_comp; [|reflexivity].
  rewrite (Qsum_range c (fun j => 1 - prodn p (fun i => 1 - entry c a i (Z.to_nat j) * nth i rs 0 / N))%Q).
  apply total_ext. intros j _. rewrite Nat2Z.id. reflexivity.
Qed.

(** ** Bounds *)
Section Mixture.
Context (p c : nat) (N : Q) (a : list Q).
Hypothesis HN : (0 < N)%Q.
Hypothesis HW : mixture_weights p c a.

Lemma weight_le_1 i j : (i < p)%nat -> (j < c)%nat -> (0 <= entry c a i j <= 1)%Q.
Proof.
  intros Hi Hj. destruct HW as [La [Hp Hs]]. split; [auto|]. rewrite <- (Hs i Hi).
  apply (total_term_le c j (fun j => entry c a i j)); auto.
Qed.

Lemma x_bounds rv i j : (forall i, (i < p)%nat -> 0 <= nth i rv 0 <= N)%Q -> (i < p)%nat -> (j < c)%nat ->
  (0 <= entry c a i j * nth i rv 0 / N <= 1)%Q.
Proof.
  intros Hr Hi Hj. pose proof (weight_le_1 i j Hi Hj). pose proof (Hr i Hi).
  split; [apply Qdiv_nonneg; auto; apply Qmult_le_0_compat; lra|].
  apply Qdiv_le_1; auto.
  apply Qle_trans with (1 * nth i rv 0)%Q; [apply Qmult_le_compat_r; lra|lra].
Qed.

Lemma mixture_le_sum rv : (forall i, (i < p)%nat -> 0 <= nth i rv 0 <= N)%Q ->
  (mixture_value p c N a rv <= total p (fun i => nth i rv 0))%Q.
Proof.
  intros Hr. unfold mixture_value.
  apply Qle_trans with (total c (fun j => total p (fun i => entry c a i j * nth i rv 0 / N)) * N)%Q.
  - apply Qmult_le_compat_r; [|lra]. apply total_le. intros j Hj.
    pose proof (prodn_ge p (fun i => entry c a i j * nth i rv 0 / N)%Q ltac:(intros; apply x_bounds; auto)) as G.
    cbv beta in G. lra.
  - rewrite <- total_scal_r. rewrite (total_ext c _ (fun j => total p (fun i => entry c a i j * nth i rv 0)))%Q.
    2:{ intros j _. rewrite <- total_scal_r. apply total_ext. intros i _. field. lra. }
    rewrite total_swap. rewrite (total_ext p _ (fun i => nth i rv 0))%Q; [lra|].
    intros i Hi. rewrite total_scal_r. destruct HW as [_ [_ Hs]]. rewrite (Hs i Hi). ring.
Qed.

Lemma mixture_mono rv rv' : (forall i, (i < p)%nat -> 0 <= nth i rv 0 <= nth i rv' 0 /\ nth i rv' 0 <= N)%Q ->
  (mixture_value p c N a rv <= mixture_value p c N a rv')%Q.
Proof.
  intros Hr. unfold mixture_value. apply Qmult_le_compat_r; [|lra]. apply total_le. intros j Hj.
  assert (prodn p (fun i => 1 - entry c a i j * nth i rv' 0 / N) <= prodn p (fun i => 1 - entry c a i j * nth i rv 0 / N))%Q; [|lra].
  apply prodn_antitone. intros i Hi.
  assert (forall i, (i < p)%nat -> 0 <= nth i rv 0 <= N)%Q as H1 by (intros k Hk; pose proof (Hr k Hk); lra).
  assert (forall i, (i < p)%nat -> 0 <= nth i rv' 0 <= N)%Q as H2 by (intros k Hk; pose proof (Hr k Hk); lra).
  pose proof (x_bounds rv i j H1 Hi Hj). pose proof (x_bounds rv' i j H2 Hi Hj).
  assert (entry c a i j * nth i rv 0 / N <= entry c a i j * nth i rv' 0 / N)%Q; [|lra].
  apply Qle_shift_div_r; auto.
  setoid_replace (entry c a i j * nth i rv' 0 / N * N)%Q with (entry c a i j * nth i rv' 0)%Q by (field; lra).
  rewrite !(Qmult_comm (entry c a i j)). apply Qmult_le_compat_r; [apply Hr; auto|apply weight_le_1; auto].
Qed.

Lemma mixture_single rv k : (k < p)%nat -> (forall i, (i < p)%nat -> i <> k -> nth i rv 0 == 0)%Q ->
  (mixture_value p c N a rv == nth k rv 0)%Q.
Proof.
  intros Hk Hr. unfold mixture_value.
  rewrite (total_ext c _ (fun j => entry c a k j * (nth k rv 0 / N)))%Q.
  - rewrite total_scal_r. destruct HW as [_ [_ Hs]]. rewrite (Hs k Hk). field. lra.
  - intros j Hj. rewrite (prodn_single p (fun i => entry c a i j * nth i rv 0 / N) k)%Q; auto.
    + field. lra.
    + intros i Hi Hne. rewrite (Hr i Hi Hne). field. lra.
Qed.

Lemma mixture_ge rv k : (k < p)%nat -> length rv = p -> (forall i, (i < p)%nat -> 0 <= nth i rv 0 <= N)%Q ->
  (nth k rv 0 <= mixture_value p c N a rv)%Q.
Proof.
  intros Hk Lr Hr.
  set (r0 := set_nth k (nth k rv 0%Q) (repeat 0%Q p)).
  assert (forall i, i <> k -> nth i r0 0%Q = 0%Q) as Hz.
  { intros i Hi. unfold r0. rewrite nth_set_nth_neq by auto. apply nth_repeat. }
  assert (nth k r0 0%Q = nth k rv 0%Q) as Ek.
  { unfold r0. apply nth_set_nth_eq. rewrite repeat_length. auto. }
  assert (mixture_value p c N a r0 == nth k r0 0)%Q as E.
  { apply mixture_single; auto. intros i _ Hi. rewrite Hz by auto. reflexivity. }
  rewrite <- Ek, <- E. apply mixture_mono. intros i Hi. pose proof (Hr i Hi).
  destruct (Nat.eq_dec i k) as [->|]; [rewrite Ek|rewrite Hz by auto]; lra.
Qed.

Lemma mixture_le_cN rv : (forall i, (i < p)%nat -> 0 <= nth i rv 0 <= N)%Q ->
  (mixture_value p c N a rv <= inject_Z (Z.of_nat c) * N)%Q.
Proof.
  intros Hr. unfold mixture_value. apply Qmult_le_compat_r; [|lra].
  apply Qle_trans with (total c (fun _ => 1)%Q).
  - apply total_le. intros j Hj. pose proof (prodn_bounds p (fun i => entry c a i j * nth i rv 0 / N)%Q ltac:(intros; apply x_bounds; auto)) as G.
    cbv beta in G. lra.
  - clear. induction c as [|n IH]; [apply Qle_refl|]. cbn [total]. rewrite Nat2Z.inj_succ. unfold Z.succ. rewrite inject_Z_plus.
    change (inject_Z 1) with 1%Q. lra.
Qed.
End Mixture.

(** ** Universe size *)
Lemma mixture_N_ge curves N : mixture_N curves = Ok N -> forall c, In c curves -> (c_max_reach c * 2 <= N)%Q.
Proof.
  destruct curves as [|c0 cs]; [discriminate|]. cbn. intros E. injection E as <-.
  assert (forall l m, (m <= fold_left (fun m c' => Qmax m (c_max_reach c')) l m /\
    forall c, In c l -> c_max_reach c <= fold_left (fun m c' => Qmax m (c_max_reach c')) l m)%Q) as K.
  { induction l as [|x l IH]; intros m; simpl; [split; [lra|intros ? []]|].
    destruct (IH (Qmax m (c_max_reach x))) as [H1 H2].
    pose proof (Qmax_le_l m (c_max_reach x)). pose proof (Qmax_le_r m (c_max_reach x)).
    split; [lra|]. intros c [<-|Hc]; [lra|auto]. }
  destruct (K cs (c_max_reach c0)) as [K1 K2]. intros c [<-|Hc]; [lra|]. specialize (K2 c Hc). lra.
Qed.

Lemma mixture_reaches_below curves imps rs N : mixture_N curves = Ok N -> non_trivial_curves curves ->
  single_reaches curves imps rs ->
  (0 < N)%Q /\ forall i, (i < length curves)%nat -> (0 <= nth i rs 0 <= N)%Q.
Proof.
  intros EN Hn H. pose proof (mixture_N_ge curves N EN) as G.
  assert (forall i, (i < length curves)%nat -> 0 < cmax curves i /\ cmax curves i * 2 <= N)%Q as K.
  { intros i Hi. split; [apply cmax_pos; auto|]. unfold cmax. destruct (nth_error curves i) eqn:E.
    - apply G. eapply nth_error_In; eauto.
    - apply nth_error_None in E. lia. }
  split.
  - destruct curves; [discriminate|]. pose proof (K 0%nat ltac:(simpl; lia)). lra.
  - intros i Hi. pose proof (single_reaches_bounds _ _ _ i H). pose proof (K i Hi). lra.
Qed.

(** ** Fitted parameters *)

Lemma mixture_rounds_weights solver p c N rs ys mi : returns_feasible solver (p * c) ->
  forall left a prev cur a' l conv, mixture_rounds solver p c N rs ys mi left a prev cur = Ok (a', l, conv) ->
  a' = a \/ mixture_weights p c a'.
Proof.
  intros Hs. induction left as [|k IH]; intros a prev cur a' l conv E; cbn [mixture_rounds] in E.
  - inversion E; auto.
  - destruct (Qltb cur (prev - mi)); [|inversion E; auto].
    destruct (mixture_update solver p c N rs ys a) as [[a1 l1]|] eqn:Eu; [|discriminate]. cbn [bind] in E.
    apply IH in E. unfold mixture_update in Eu.
    destruct (mapM _ rs) as [thetas|]; [|discriminate]. cbn [bind] in Eu.
    destruct (solver _) as [a2|] eqn:Es; [|discriminate]. cbn [bind] in Eu. injection Eu as <- _.
    apply Hs in Es. destruct Es as [La Hf]. apply mixture_feasible_iff in Hf; auto.
    destruct E as [->|]; auto.
Qed.

Lemma fit_one_init_a_weights solver p c N rs ys mi rounds a a' l conv :
  returns_feasible solver (p * c) -> (mi < 1)%Q -> (0 < rounds)%nat ->
  fit_one_init_a solver p c N rs ys mi rounds a = Ok (a', l, conv) -> mixture_weights p c a'.
Proof.
  intros Hs Hmi Hr E. unfold fit_one_init_a in E. destruct rounds as [|k]; [lia|]. cbn [mixture_rounds] in E.
  destruct (Qltb _ _) eqn:Eb in E.
  2:{ exfalso. assert (Qltb (10000000000 - 1) (10000000000 - mi) = true); [|congruence]. apply Qltb_lt. lra. }
  destruct (mixture_update solver p c N rs ys a) as [[a1 l1]|] eqn:Eu; [|discriminate]. cbn [bind] in E.
  apply (mixture_rounds_weights _ _ _ _ _ _ _ Hs) in E. destruct E as [->|]; auto.
  unfold mixture_update in Eu.
  destruct (mapM _ rs) as [thetas|]; [|discriminate]. cbn [bind] in Eu.
  destruct (solver _) as [a2|] eqn:Es; [|discriminate]. cbn [bind] in Eu. injection Eu as <- _.
  apply Hs in Es. destruct Es as [La Hf]. apply mixture_feasible_iff in Hf; auto.
Qed.

(** the fit that is kept comes from one of the starts *)
Lemma multi_fit_from_run {A} (run : nat -> result (A * Q * bool)) d k mn mx mf fit l :
  fit_multi_init run d k mn mx = Ok mf -> mf_fit mf = Some (fit, l) -> exists n conv, run n = Ok (fit, l, conv).
Proof.
  intros E Ef. apply fit_multi_init_inv in E. destruct E as (s & conv & c & E1 & E2 & E3 & ->). cbn in Ef.
  pose proof (recorded_start run k) as R. destruct (multi_loop_inv run d mn k mx _ _ R E1) as [[os [_ [_ [_ HF]]]] _].
  rewrite Ef in HF. destruct HF as [n [cv [_ [Rn _]]]]. eauto.
Qed.

Lemma mixture_fit_weights solver starts c curves points N a :
  returns_feasible solver (length curves * c) ->
  Forall (fun pt => length (rp_impressions pt) = length curves) points ->
  mixture_fit solver starts c curves points = Ok (N, a) ->
  mixture_N curves = Ok N /\ mixture_weights (length curves) c a.
Proof.
  intros Hs HF E. unfold mixture_fit in E.
  assert (0 < default_max_num_rounds)%nat as HR by (unfold default_max_num_rounds; lia).
  assert (default_min_improvement < 1)%Q as HI by reflexivity.
  generalize dependent default_max_num_rounds. intros R E HR.
  generalize dependent default_min_improvement. intros I HI E.
  revert E. generalize default_distance default_num_near default_min_num_init mixture_max_num_init restricted_max_num_init.
  intros dd kk mn mx mx' E.
  destruct points as [|p0 rest]; [discriminate|].
  rewrite (py_index_in (p0 :: rest) 0 p0) in E by (simpl; lia). cbn [bind] in E.
  change (nth (Z.to_nat 0) (p0 :: rest) p0) with p0 in E.
  destruct (mixture_N curves) as [N0|] eqn:EN; [|discriminate]. cbn [bind] in E.
  destruct (surface_init (p0 :: rest)); [|discriminate]. cbn [bind] in E.
  destruct (mapM _ (p0 :: rest)) as [rs|] eqn:E1 in E; [|discriminate]. cbn [bind] in E.
  destruct (mapM _ (p0 :: rest)) as [ys|] eqn:E2 in E; [|discriminate]. cbn [bind] in E.
  inversion HF as [|? ? Hp0 _]; subst. rewrite Hp0 in E.
  destruct (fit_multi_init _ _ _ _ _) as [mf|] eqn:Em in E; [|discriminate]. cbn [bind] in E.
  destruct (mf_fit mf) as [[a1 l1]|] eqn:Ef; [|discriminate]. injection E as <- <-.
  split; auto. destruct (multi_fit_from_run _ _ _ _ _ _ _ _ Em Ef) as [n [conv Er]].
  eapply fit_one_init_a_weights; [exact Hs|exact HI|exact HR|exact Er].
Qed.

Lemma setup_symmetric p curves points data n : setup_predictor_response p curves points = Ok data -> symmetric_data n data.
Proof.
  unfold setup_predictor_response. generalize (filter (fun pt : qpoint => (Z.of_nat (length (filter (fun x => Qeqb x 0) (rp_impressions pt))) <? Z.of_nat p - 1)) points).
  intros l. revert data. induction l as [|pt l IH]; intros data E.
  - inversion E. constructor.
  - apply mapM_cons_inv in E. destruct E as [y [r [Ey [Er ->]]]]. constructor; [|apply IH; auto].
    destruct (get_reach_vector curves (rp_impressions pt)) as [rv|]; [|discriminate]. cbn [bind] in Ey.
    destruct (reach pt 1) as [u|]; [|discriminate]. cbn [bind] in Ey. injection Ey as <-. cbn [snd].
    intros. apply construct_D_sym.
Qed.

Lemma restricted_fit_ok starts perms curves points a : let p := length curves in
  (forall n, length (starts n) = p /\ lambda_feasible (starts n)) ->
  (forall n r, Forall (fun i => (i < p)%nat) (perms n r)) ->
  restricted_fit starts perms curves points = Ok a -> overlap_coefficients p a.
Proof.
  intros p Hst Hpm E. unfold restricted_fit in E.
  assert (0 < default_max_num_rounds)%nat as HR by (unfold default_max_num_rounds; lia).
  assert (default_min_improvement < 1)%Q as HI by reflexivity.
  generalize dependent default_max_num_rounds. intros R E HR.
  generalize dependent default_min_improvement. intros I HI E.
  revert E. generalize default_distance default_num_near default_min_num_init mixture_max_num_init restricted_max_num_init.
  intros dd kk mn mx mx' E.
  destruct (surface_ctor points) as [p'|]; [|discriminate]. cbn [bind] in E.
  destruct (setup_predictor_response p' curves points) as [data|] eqn:Ed; [|discriminate]. cbn [bind] in E.
  destruct (fit_multi_init _ _ _ _ _) as [mf|] eqn:Em in E; [|discriminate]. cbn [bind] in E.
  destruct (mf_fit mf) as [[lbd l]|] eqn:Ef; [|discriminate]. injection E as <-.
  destruct (multi_fit_from_run _ _ _ _ _ _ _ _ Em Ef) as [n [conv Er]].
  destruct (Hst n) as [Ln Fn].
  apply fit_one_sound in Er; auto.
  - destruct Er as [F1 [F2 _]]. rewrite Ln in F2. rewrite <- F2. apply construct_a_ok. auto.
  - intros r. rewrite Ln. apply Hpm.
  - eapply setup_symmetric; eauto.
Qed.
