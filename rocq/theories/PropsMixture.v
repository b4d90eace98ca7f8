(** C32, continued: one start of the generalized mixture's fit. *)
From Coq Require Import Lqa.
From Verif Require Import Prelude ModelReachPoint ModelCurves ModelSurface SpecSurface ReachPointLemmas SurfaceLemmas SurfaceLemmas2 SurfaceLemmas3
  SurfaceLemmas4 SurfaceLemmas5 PropsSurface PropsSurface2 SpecMixture.
Open Scope Q_scope.

Lemma product_prodn n f : product n f = prodn n f.
Proof. induction n as [|n IH]; [reflexivity|]. cbn [product prodn]. rewrite IH. reflexivity. Qed.

Lemma theta_slope N a r p c j t : mixture_theta N a r p c j = Ok t -> slope N p c a r j t.
Proof.
  intros H. split.
  - unfold mixture_theta in H. destruct (Qeqb _ 0) eqn:E; [discriminate H|]. apply Qeq_bool_neq in E.
    intros C. apply E. rewrite <- C, sumn_total. apply total_ext. intros i _. unfold mixture_x, share, entry, ent.
    rewrite Nat.add_comm. reflexivity.
  - rewrite product_prodn. exact (mixture_theta_value _ _ _ _ _ _ _ H).
Qed.

Lemma mapM_nth_ok {A B} (f : A -> result B) (l : list A) rr j da db : mapM f l = Ok rr -> (j < length l)%nat ->
  f (nth j l da) = Ok (nth j rr db).
Proof.
  revert rr j. induction l as [|x l IH]; intros rr j H Hj; cbn [length] in Hj; [lia|].
  apply mapM_cons_inv in H. destruct H as [y [ys [H1 [H2 ->]]]].
  destruct j; [exact H1|]. cbn [nth]. apply IH; [exact H2|lia].
Qed.

Lemma z_linear N a r p c theta : mapM (mixture_theta N a r p c) (seq 0 c) = Ok theta ->
  linear_model N p c a r (mixture_z N p c theta r).
Proof.
  intros H. split.
  { unfold mixture_z. assert (G : forall l, length (flat_map (fun i => map (fun j => ent r i * ent theta j / N) (seq 0 c)) l) = (length l * c)%nat).
    { induction l as [|x l IH]; [reflexivity|]. cbn [flat_map length]. rewrite app_length, IH, map_length, seq_length. lia. }
    rewrite G, seq_length. reflexivity. }
  exists (fun j => nth j theta 0). split.
  - intros j Hj. apply theta_slope. rewrite <- (mapM_nth_ok _ _ _ j O 0 H) by (rewrite seq_length; exact Hj).
    rewrite seq_nth by exact Hj. reflexivity.
  - intros i j Hi Hj. unfold mixture_z, entry.
    rewrite (nth_flat_map_block _ c (seq 0 p) i j 0%nat 0);
      [|intros; rewrite map_length, seq_length; auto|rewrite seq_length; auto|auto].
    rewrite seq_nth by auto. cbn [Nat.add]. rewrite nth_map_seq by auto. reflexivity.
Qed.

Lemma update_round solver p c N rs ys a a' l : length rs = length ys ->
  mixture_update solver p c N rs ys a = Ok (a', l) -> is_round solver p c N rs ys a a' l.
Proof.
  intros HL H. unfold mixture_update in H.
  destruct (mapM (fun r => mapM (mixture_theta N a r p c) (seq 0 c)) rs) as [thetas|] eqn:Et; cbn [bind] in H; [|discriminate H].
  set (zs := map (fun tr => mixture_z N p c (fst tr) (snd tr)) (combine thetas rs)) in H.
  destruct (solver (mixture_qp p c N zs ys)) as [x|] eqn:Es; cbn [bind] in H; [|discriminate H].
  injection H as <- <-.
  assert (F : Forall2 (linear_model N p c a) rs zs).
  { unfold zs. clear -Et. revert thetas Et. induction rs as [|r rs IH]; intros thetas Et; cbn [mapM] in Et.
    - injection Et as <-. constructor.
    - destruct (mapM (mixture_theta N a r p c) (seq 0 c)) as [t|] eqn:E1; cbn [bind] in Et; [|discriminate Et].
      destruct (mapM _ rs) as [ts|] eqn:E2; cbn [bind] in Et; [|discriminate Et]. injection Et as <-.
      cbn [combine map fst snd]. constructor; [exact (z_linear _ _ _ _ _ _ E1)|apply IH; reflexivity]. }
  assert (Lz : length zs = length ys) by (rewrite <- HL; symmetry; clear -F; induction F; cbn [length]; congruence).
  exists zs, (mixture_qp p c N zs ys). split; [exact F|]. split; [exact Es|].
  split; [intros b Hb; exact (C30_solver_constraints p c N zs ys b Hb)|]. split.
  - intros b. rewrite (mixture_qp_objective p c N zs ys (p * c) b Lz). unfold total_over.
    assert (G1 : sq_err (p * c) (combine zs (map (fun y => y / N) ys)) b ==
      Qsum (map (fun zy => let e := snd zy / N - predicted (p * c) (fst zy) b in e * e) (combine zs ys))).
    { clear. revert ys. induction zs as [|z zs IH]; intros [|y ys]; try reflexivity.
      cbn [combine map sq_err Qsum fst snd]. rewrite IH. reflexivity. }
    assert (G2 : Qsum (map (fun e => snd e * snd e) (combine zs (map (fun y => y / N) ys))) ==
      Qsum (map (fun zy => snd zy / N * (snd zy / N)) (combine zs ys))).
    { clear. revert ys. induction zs as [|z zs IH]; intros [|y ys]; try reflexivity.
      cbn [combine map Qsum fst snd]. rewrite IH. reflexivity. }
    rewrite G1, G2. reflexivity.
  - exact (C32_mixture_loss_value p c N zs ys (p * c) x Lz).
Qed.

Lemma last_cons {A} (l : list A) : forall x d, last (x :: l) d = last l x.
Proof.
  induction l as [|y l IH]; intros x d; [reflexivity|].
  change (last (x :: y :: l) d) with (last (y :: l) d). rewrite (IH y d), (IH y x). reflexivity.
Qed.

(** One start: the rounds are those of the specification, from a loss of ten billion on. The
    answer is what the last round gave, and it is reported as converged exactly if that
    round did not lower the loss by more than the given improvement. *)
Theorem C32_mixture_start : forall solver p c N rs ys mi rounds a0 a l conv, length rs = length ys ->
  fit_one_init_a solver p c N rs ys mi rounds a0 = Ok (a, l, conv) ->
  exists steps, (length steps <= rounds)%nat /\
    rounds_are (is_round solver p c N rs ys) mi rounds a0 10000000000 9999999999 steps /\
    (a, l) = last steps (a0, 10000000000 - 1) /\
    let losses := 10000000000 :: 9999999999 :: map snd steps in
    (conv = true <-> nth (length steps) losses 0 - mi <= nth (S (length steps)) losses 0).
Proof.
  intros solver p c N rs ys mi rounds a0 a l conv HL. unfold fit_one_init_a.
  assert (G : forall k a0 prev cur, mixture_rounds solver p c N rs ys mi k a0 prev cur = Ok (a, l, conv) ->
    exists steps, (length steps <= k)%nat /\ rounds_are (is_round solver p c N rs ys) mi k a0 prev cur steps /\
      (a, l) = last steps (a0, cur) /\
      (conv = true <-> nth (length steps) (prev :: cur :: map snd steps) 0 - mi <= nth (S (length steps)) (prev :: cur :: map snd steps) 0)).
  { induction k as [|k IH]; intros a1 prev cur H; cbn [mixture_rounds] in H.
    - injection H as <- <- <-. exists []. split; [reflexivity|]. split; [left; reflexivity|]. split; [reflexivity|].
      cbn [length nth map]. apply Qle_bool_iff.
    - destruct (Qltb cur (prev - mi)) eqn:B.
      + destruct (mixture_update solver p c N rs ys a1) as [[a' l']|] eqn:U; cbn [bind] in H; [|discriminate H].
        destruct (IH _ _ _ H) as [steps [S1 [S2 [S3 S4]]]]. exists ((a', l') :: steps). split; [cbn [length]; lia|].
        split.
        { cbn [rounds_are]. split; [lia|]. split.
          - unfold Qltb in B. destruct (Qle_bool (prev - mi) cur) eqn:B'; [discriminate B|].
            apply Qnot_le_lt. intros C. apply Qle_bool_iff in C. congruence.
          - split; [exact (update_round _ _ _ _ _ _ _ _ _ HL U)|]. replace (S k - 1)%nat with k by lia. exact S2. }
        split.
        { rewrite S3. symmetry. exact (last_cons steps (a', l') (a1, cur)). }
        exact S4.
      + injection H as <- <- <-. exists []. split; [cbn; lia|]. split; [right|].
        { unfold Qltb in B. destruct (Qle_bool (prev - mi) cur) eqn:B'; [apply Qle_bool_iff; exact B'|discriminate B]. }
        split; [reflexivity|]. cbn [length nth map]. apply Qle_bool_iff. }
  intros H. destruct (G _ _ _ _ H) as [steps [S1 [S2 [S3 S4]]]]. exists steps. split; [exact S1|].
  split; [exact S2|]. split; [exact S3|]. exact S4.
Qed.
Print Assumptions C32_mixture_start.

(** A start that makes two rounds. *)
Definition even_solver : qp -> result (list Q) := fun _ => Ok [1#2; 1#2; 1#2; 1#2].
Example C32_mixture_start_example : exists a l,
  fit_one_init_a even_solver 2 2 10 [[4; 2]] [5] default_min_improvement default_max_num_rounds [1; 0; 0; 1] = Ok (a, l, true) /\
  exists a1 l1, mixture_update even_solver 2 2 10 [[4; 2]] [5] [1; 0; 0; 1] = Ok (a1, l1) /\ l1 < 9999999999 - default_min_improvement.
Proof.
  eexists _, _. split; [vm_compute; reflexivity|]. eexists _, _. split; [vm_compute; reflexivity|]. vm_compute. reflexivity.
Qed.
