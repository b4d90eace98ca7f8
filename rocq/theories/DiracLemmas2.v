(** Lemmas on the Dirac mixture model: the components and the fit. *)
From Coq Require Import Lqa Qfield Qround Sorted.
From Verif Require Import Prelude ModelReachPoint ModelHalo ModelCurves SpecSurface ModelSurface SurfaceLemmas
  SurfaceLemmas2 HaloLemmas ReachPointLemmas ModelGamma GammaLemmas GammaLemmas2 ModelDirac SpecDirac DiracLemmas.
Open Scope Z_scope.
Local Open Scope Q_scope.

(** ** The components *)

Lemma linspace_spread f n : (0 <= f)%Z -> (0 <= n)%Z ->
  exists l, linspace_unit f n = Ok l /\ Forall2 Qeq l (spread (Z.to_nat f) (Z.to_nat n)).
Proof.
  intros Hf Hn. unfold linspace_unit. replace (n <? 0)%Z with false by (symmetry; apply Z.ltb_ge; lia).
  eexists. split; [reflexivity|]. unfold spread. rewrite !Z2Nat.id by assumption.
  induction (seq 0 (Z.to_nat n)) as [|j l IH]; cbn [map]; constructor; [|exact IH].
  unfold Qdiv. rewrite Qmult_1_l. reflexivity.
Qed.

Definition share (c : Z) (p : Q) : Z := py_round (inject_Z c * p).

Lemma Zsum_nonneg l : Forall (fun z => (0 <= z)%Z) l -> (0 <= Zsum l)%Z.
Proof. induction 1; cbn [Zsum]; lia. Qed.
Lemma Zsum_firstn_nonneg l i : Forall (fun z => (0 <= z)%Z) l -> (0 <= Zsum (firstn i l))%Z.
Proof. intros H. revert i. induction H; intros [|i]; cbn; try lia. specialize (IHForall i). lia. Qed.

Lemma drawn_done c ns i : Forall (fun z => (0 <= z)%Z) ns -> (c <= 0)%Z -> drawn c ns i = O.
Proof.
  intros H Hc. unfold drawn. pose proof (Zsum_firstn_nonneg ns i H).
  replace (Zsum (firstn i ns) <? c)%Z with false by (symmetry; apply Z.ltb_ge; lia). reflexivity.
Qed.

Lemma drawn_S c n ns i : drawn c (n :: ns) (S i) = drawn (c - n) ns i.
Proof.
  unfold drawn. cbn [firstn Zsum length nth].
  replace (n + Zsum (firstn i ns) <? c)%Z with (Zsum (firstn i ns) <? c - n)%Z
    by (destruct (Z.ltb_spec (Zsum (firstn i ns)) (c - n)); symmetry; [apply Z.ltb_lt|apply Z.ltb_ge]; lia).
  change (S i <? S (length ns))%nat with (i <? length ns)%nat.
  replace (c - (n + Zsum ns))%Z with (c - n - Zsum ns)%Z by lia. reflexivity.
Qed.

Lemma flat_map_nil {A B} (f : A -> list B) l : (forall a, In a l -> f a = []) -> flat_map f l = [].
Proof. induction l as [|a l IH]; intros H; cbn; auto. rewrite (H a), IH; cbn; auto. intros b Hb. apply H. cbn. auto. Qed.

Lemma shares_nonneg c pmf : (0 <= c)%Z -> Forall (fun p => 0 <= p) pmf -> Forall (fun z => (0 <= z)%Z) (map (share c) pmf).
Proof.
  intros Hc H. induction H; cbn; constructor; auto. unfold share. apply py_round_nonneg. apply Qmult_le_0_compat; auto.
  rewrite Zle_Qle in Hc. exact Hc.
Qed.

Lemma grid_from_value c pmf : (0 <= c)%Z -> Forall (fun p => 0 <= p) pmf -> forall n f, (0 <= f)%Z ->
  exists l, grid_from c n f pmf = Ok l /\
    Forall2 Qeq l (flat_map (fun i => spread (Z.to_nat f + i) (drawn n (map (share c) pmf) i)) (seq 0 (S (length pmf)))).
Proof.
  intros Hc H. induction H as [|p pmf Hp H IH]; intros n f Hf.
  - cbn [grid_from length seq flat_map map]. unfold drawn. cbn [firstn Zsum length].
    change (0 <? 0)%nat with false. cbv iota. rewrite Z.sub_0_r, Nat.add_0_r.
    destruct (Z.ltb_spec 0 n) as [B|B].
    + destruct (linspace_spread f n) as [l [E L]]; [lia|lia|]. exists l. split; auto. rewrite app_nil_r. exact L.
    + exists []. split; auto. constructor.
  - cbn [grid_from]. pose proof (shares_nonneg c (p :: pmf) Hc ltac:(constructor; auto)) as SN.
    destruct (Z.ltb_spec 0 n) as [B|B].
    + fold (share c p). assert (Hs : (0 <= share c p)%Z) by (apply Forall_inv in SN; exact SN).
      destruct (linspace_spread f (share c p) Hf Hs) as [l [E L]]. rewrite E. cbn [bind].
      destruct (IH (n - share c p)%Z (f + 1)%Z) as [r [Er R]]; [lia|]. rewrite Er. cbn [bind].
      exists (l ++ r). split; [reflexivity|]. cbn [map length]. 
      change (seq 0 (S (S (length pmf)))) with (O :: seq 1 (S (length pmf))). cbn [flat_map]. apply Forall2_app.
      * rewrite Nat.add_0_r. assert (drawn n (share c p :: map (share c) pmf) 0 = Z.to_nat (share c p)) as ->; [|exact L].
        unfold drawn. cbn [firstn Zsum nth length]. replace (0 <? n)%Z with true by (symmetry; apply Z.ltb_lt; lia). reflexivity.
      * rewrite <- seq_shift, (flat_map_concat_map _ (map S _)), map_map.
        assert (X : map (fun i => spread (Z.to_nat f + S i) (drawn n (share c p :: map (share c) pmf) (S i))) (seq 0 (S (length pmf))) =
                    map (fun i => spread (Z.to_nat (f + 1) + i) (drawn (n - share c p) (map (share c) pmf) i)) (seq 0 (S (length pmf)))).
        { apply map_ext. intros i. rewrite drawn_S. f_equal. lia. }
        rewrite X, <- flat_map_concat_map. exact R.
    + exists []. split; auto. rewrite flat_map_nil; [constructor|]. intros i _.
      rewrite drawn_done by (auto; lia). reflexivity.
Qed.

Lemma spread_in i n a : In a (spread i n) -> inject_Z (Z.of_nat i) <= a /\ a < inject_Z (Z.of_nat i) + 1.
Proof.
  unfold spread. intros H. apply in_map_iff in H. destruct H as [j [<- Hj]]. apply in_seq in Hj.
  assert (N0 : 0 < inject_Z (Z.of_nat n)) by (change 0 with (inject_Z 0); rewrite <- Zlt_Qlt; lia).
  assert (J0 : 0 <= inject_Z (Z.of_nat j)) by (change 0 with (inject_Z 0); rewrite <- Zle_Qle; lia).
  assert (JN : inject_Z (Z.of_nat j) < inject_Z (Z.of_nat n)) by (rewrite <- Zlt_Qlt; lia).
  assert (D0 : 0 <= inject_Z (Z.of_nat j) / inject_Z (Z.of_nat n)) by (apply Qle_shift_div_l; lra).
  assert (D1 : inject_Z (Z.of_nat j) / inject_Z (Z.of_nat n) < 1) by (apply Qlt_shift_div_r; lra).
  lra.
Qed.

Lemma spread_sorted i n : StronglySorted Qlt (spread i n).
Proof.
  unfold spread.
  assert (G : forall m k, (k + m <= n)%nat -> StronglySorted Qlt
    (map (fun j => inject_Z (Z.of_nat i) + inject_Z (Z.of_nat j) / inject_Z (Z.of_nat n)) (seq k m))).
  { induction m as [|m IH]; intros k Hk; cbn [seq map]; constructor.
    - apply IH. lia.
    - apply Forall_forall. intros a Ha. apply in_map_iff in Ha. destruct Ha as [j [<- Hj]]. apply in_seq in Hj.
      assert (N0 : 0 < inject_Z (Z.of_nat n)) by (change 0 with (inject_Z 0); rewrite <- Zlt_Qlt; lia).
      assert (L : inject_Z (Z.of_nat k) < inject_Z (Z.of_nat j)) by (rewrite <- Zlt_Qlt; lia).
      assert (inject_Z (Z.of_nat k) / inject_Z (Z.of_nat n) < inject_Z (Z.of_nat j) / inject_Z (Z.of_nat n)); [|lra].
      unfold Qdiv. apply Qmult_lt_compat_r; auto. apply Qinv_lt_0_compat. exact N0. }
  apply G. lia.
Qed.

Lemma sorted_app {A} (R : A -> A -> Prop) l l' : StronglySorted R l -> StronglySorted R l' ->
  (forall a b, In a l -> In b l' -> R a b) -> StronglySorted R (l ++ l').
Proof.
  intros H H' X. induction H as [|a l H IH F]; cbn; auto. constructor.
  - apply IH. intros u v Hu Hv. apply X; cbn; auto.
  - apply Forall_app. split; auto. apply Forall_forall. intros b Hb. apply X; cbn; auto.
Qed.

Lemma blocks_sorted (d : nat -> nat) m : forall k, StronglySorted Qlt (flat_map (fun i => spread i (d i)) (seq k m)).
Proof.
  induction m as [|m IH]; intros k; cbn [seq flat_map]; [constructor|]. apply sorted_app; [apply spread_sorted|apply IH|].
  intros a b Ha Hb. apply spread_in in Ha. apply in_flat_map in Hb. destruct Hb as [i [Hi Hb]]. apply in_seq in Hi.
  apply spread_in in Hb. assert (inject_Z (Z.of_nat k) + 1 <= inject_Z (Z.of_nat i)); [|lra].
  change 1 with (inject_Z 1). rewrite <- inject_Z_plus, <- Zle_Qle. lia.
Qed.

Lemma blocks_in (d : nat -> nat) m a : In a (flat_map (fun i => spread i (d i)) (seq 0 m)) ->
  0 <= a /\ a < inject_Z (Z.of_nat m).
Proof.
  intros H. apply in_flat_map in H. destruct H as [i [Hi H]]. apply in_seq in Hi. apply spread_in in H.
  assert (0 <= inject_Z (Z.of_nat i)) by (change 0 with (inject_Z 0); rewrite <- Zle_Qle; lia).
  assert (inject_Z (Z.of_nat i) + 1 <= inject_Z (Z.of_nat m))
    by (change 1 with (inject_Z 1); rewrite <- inject_Z_plus, <- Zle_Qle; lia).
  lra.
Qed.

Lemma Forall2_Qeq_sorted l l' : Forall2 Qeq l l' -> StronglySorted Qlt l' -> StronglySorted Qlt l.
Proof.
  induction 1 as [|a b l l' E H IH]; intros S; constructor.
  - apply IH. inversion S; auto.
  - apply StronglySorted_inv in S. destruct S as [_ F]. clear IH. induction H as [|u v l l' E' H IH']; constructor.
    + apply Forall_inv in F. rewrite E, E'. exact F.
    + apply IH'. apply Forall_inv_tail in F. exact F.
Qed.

Lemma Forall2_Qeq_in l l' a : Forall2 Qeq l l' -> In a l -> exists b, a == b /\ In b l'.
Proof. induction 1 as [|u v l l' E H IH]; intros []; [subst; eauto with datatypes|]. destruct (IH H0) as [b [? ?]]. eauto with datatypes. Qed.

Fixpoint drawn_total (c : Z) (ns : list Z) : nat :=
  match ns with
  | [] => Z.to_nat c
  | n :: r => if (0 <? c)%Z then (Z.to_nat n + drawn_total (c - n) r)%nat else O
  end.

Lemma drawn_total_zero ns c : Forall (fun z => (0 <= z)%Z) ns -> (c <= 0)%Z -> drawn_total c ns = O.
Proof. intros H Hc. destruct ns; cbn; [lia|]. destruct (Z.ltb_spec 0 c); [lia|reflexivity]. Qed.

Lemma blocks_length ns : Forall (fun z => (0 <= z)%Z) ns -> forall c k,
  length (flat_map (fun i => spread (k + i) (drawn c ns i)) (seq 0 (S (length ns)))) = drawn_total c ns.
Proof.
  assert (SL : forall i n, length (spread i n) = n) by (intros; unfold spread; rewrite map_length, seq_length; reflexivity).
  induction 1 as [|n ns Hn H IH]; intros c k.
  - cbn [length seq flat_map drawn_total]. rewrite app_nil_r, SL. unfold drawn. cbn.
    destruct (Z.ltb_spec 0 c); [|lia]. f_equal. lia.
  - change (seq 0 (S (length (n :: ns)))) with (O :: seq 1 (S (length ns))). cbn [flat_map].
    rewrite app_length, SL, <- seq_shift, (flat_map_concat_map _ (map S _)), map_map.
    assert (X : map (fun i => spread (k + S i) (drawn c (n :: ns) (S i))) (seq 0 (S (length ns))) =
                map (fun i => spread (S k + i) (drawn (c - n) ns i)) (seq 0 (S (length ns)))).
    { apply map_ext. intros i. rewrite drawn_S. f_equal. lia. }
    rewrite X, <- flat_map_concat_map, IH. cbn [drawn_total]. unfold drawn. cbn [firstn Zsum length nth].
    destruct (Z.ltb_spec 0 c) as [B|B]; [reflexivity|]. rewrite drawn_total_zero by (auto; lia). reflexivity.
Qed.

Lemma drawn_total_bounds ns : Forall (fun z => (0 <= z)%Z) ns -> forall c, (0 < c)%Z ->
  (c <= Z.of_nat (drawn_total c ns) <= Z.max c (Zsum ns))%Z.
Proof.
  induction 1 as [|n ns Hn H IH]; intros c Hc; cbn [drawn_total Zsum]; [lia|].
  replace (0 <? c)%Z with true by (symmetry; apply Z.ltb_lt; lia).
  pose proof (Zsum_nonneg ns H). destruct (Z_le_gt_dec c n) as [B|B].
  - rewrite drawn_total_zero by (auto; lia). lia.
  - specialize (IH (c - n)%Z ltac:(lia)). lia.
Qed.

Lemma shares_sum c pmf : (0 <= c)%Z -> inject_Z (2 * Zsum (map (share c) pmf)) <= 2 * inject_Z c * Qsum pmf + inject_Z (Z.of_nat (length pmf)).
Proof.
  intros Hc. induction pmf as [|p pmf IH]; [cbn; lra|]. cbn [map Zsum Qsum length].
  destruct (py_round_nearest (inject_Z c * p)) as [[A _] _]. fold (share c p) in A.
  replace (Z.of_nat (S (length pmf))) with (1 + Z.of_nat (length pmf))%Z by lia.
  rewrite Z.mul_add_distr_l, !inject_Z_plus, (inject_Z_mult 2 (share c p)). change (inject_Z 2) with 2. change (inject_Z 1) with 1.
  assert (2 * inject_Z c * (p + Qsum pmf) == 2 * (inject_Z c * p) + 2 * inject_Z c * Qsum pmf) as -> by ring.
  set (a := inject_Z c * p) in *. set (b := inject_Z (share c p)) in *. lra.
Qed.

(** ** The optimizer *)

Lemma validate_iff h : validate_frequency_histogram h = Ok tt <->
  (2 <= length h)%nat /\ Forall (fun v => 0 <= v) h /\ 0 < Qsum h.
Proof.
  unfold validate_frequency_histogram. destruct (Nat.ltb_spec (length h) 2) as [L|L].
  - split; [discriminate|]. lia.
  - destruct (forallb (fun v => Qleb 0 v) h) eqn:B; cbn [negb].
    + assert (F : Forall (fun v => 0 <= v) h).
      { apply Forall_forall. intros v Hv. rewrite forallb_forall in B. specialize (B v Hv). apply Qle_bool_iff. exact B. }
      destruct (Qleb_spec (Qsum h) 0) as [S0|S0]; split; try discriminate; auto. intros [_ [_ X]]. lra.
    + split; [discriminate|]. intros [_ [F _]]. exfalso.
      assert (forallb (fun v => Qleb 0 v) h = true); [|congruence]. apply forallb_forall. intros v Hv.
      rewrite Forall_forall in F. apply Qle_bool_iff. apply F. exact Hv.
Qed.

Lemma validate_err h : validate_frequency_histogram h <> Ok tt -> validate_frequency_histogram h = Err ValueError.
Proof.
  unfold validate_frequency_histogram. destruct (_ <? _)%nat; auto. destruct (negb _); auto. destruct (Qleb _ _); auto. congruence.
Qed.

Definition observed_of (h : list Q) : list Q := map (fun v => v / Qsum h) h.

Lemma observed_facts h : validate_frequency_histogram h = Ok tt ->
  length (observed_of h) = length h /\ Forall (fun p => 0 <= p) (observed_of h) /\ Qsum (observed_of h) == 1.
Proof.
  intros V. apply validate_iff in V. destruct V as [L [F S0]]. unfold observed_of. split; [apply map_length|]. split.
  - apply Forall_forall. intros p Hp. apply in_map_iff in Hp. destruct Hp as [v [<- Hv]]. rewrite Forall_forall in F.
    specialize (F v Hv). apply Qle_shift_div_l; lra.
  - rewrite Qsum_scale. field. intros E. rewrite E in S0. apply (Qlt_irrefl 0). exact S0.
Qed.

Lemma mk_optimizer_ok h n : validate_frequency_histogram h = Ok tt -> (0 <= n)%Z ->
  exists o, mk_optimizer h n = Ok o /\ op_observed o = observed_of h /\
    op_max_freq o = (Z.of_nat (length h) - 1)%Z /\ op_weights o = None /\
    in_bound_purely_weighted_grid n (observed_of h) = Ok (op_components o).
Proof.
  intros V Hn. unfold mk_optimizer. rewrite V. cbn [bind]. fold (observed_of h).
  destruct (observed_facts h V) as [_ [F _]].
  destruct (grid_from_value n (observed_of h) Hn F n 0 ltac:(lia)) as [l [E _]].
  unfold in_bound_purely_weighted_grid, in_bound_grid. change (Qltb 0 0) with false. cbv iota. cbn [bind]. rewrite E. cbn [bind].
  eexists. split; [reflexivity|]. cbn. auto.
Qed.

Lemma components_facts h n cs : validate_frequency_histogram h = Ok tt -> (0 < n)%Z ->
  in_bound_purely_weighted_grid n (observed_of h) = Ok cs ->
  Forall (fun c => 0 <= c) cs /\ (n <= Z.of_nat (length cs))%Z /\ cs <> [].
Proof.
  intros V Hn E. destruct (observed_facts h V) as [_ [F _]].
  destruct (grid_from_value n (observed_of h) ltac:(lia) F n 0 ltac:(lia)) as [l [El L]].
  unfold in_bound_purely_weighted_grid, in_bound_grid in E. change (Qltb 0 0) with false in E. cbv iota in E. cbn [bind] in E.
  assert (l = cs) by congruence. subst l. change (Z.to_nat 0) with O in L.
  assert (NN : (n <= Z.of_nat (length cs))%Z).
  { pose proof (shares_nonneg n (observed_of h) ltac:(lia) F) as SN.
    pose proof (blocks_length _ SN n 0) as BL. rewrite map_length in BL.
    assert (length cs = drawn_total n (map (share n) (observed_of h))) as -> by (rewrite <- BL; apply DataLemmas.Forall2_len with (R := Qeq); exact L).
    apply drawn_total_bounds; auto. }
  split; [|split; [exact NN|intros ->; cbn in NN; lia]].
  apply Forall_forall. intros c Hc. destruct (Forall2_Qeq_in _ _ _ L Hc) as [b [Eb Hb]].
  change (fun i => spread (0 + i) (drawn n (map (share n) (observed_of h)) i)) with
    (fun i => spread i (drawn n (map (share n) (observed_of h)) i)) in Hb.
  apply (blocks_in (fun i => drawn n (map (share n) (observed_of h)) i)) in Hb. rewrite Eb. tauto.
Qed.

(** ** The objective *)

Lemma nth_map_any {A B} (f : A -> B) a b l n : (n < length l)%nat -> nth n (map f l) b = f (nth n l a).
Proof. intros H. rewrite (nth_indep _ b (f a)) by (rewrite map_length; exact H). apply map_nth. Qed.

Section Fit.
Context (x : dirac_externals).

Lemma objective_value observed cs arrs F : log_sane x -> length observed = S F -> cs <> [] ->
  mapM (fun c => truncated_poisson_pmf_vec x c (Z.of_nat F)) cs = Ok arrs ->
  forall ws, length ws = length cs -> objective x observed arrs ws == minus_log_likelihood x observed cs ws.
Proof.
  intros LS LO N E ws LW.
  destruct (truncated_all x cs (fun c => c) F) as [arrs' [E' [La [A H]]]].
  assert (arrs' = arrs) by congruence. subst arrs'. clear E'.
  destruct (sum_arrays_value (S F) ws arrs) as [h [Eh [Lh Hh]]]; [lia|intros ->; destruct cs; [congruence|discriminate]|exact A|].
  unfold objective. rewrite Eh. unfold cross_entropy, minus_log_likelihood. rewrite <- (eq_refl : tiny = log_shift), LO. replace (S F - 1)%nat with F by lia.
  rewrite (Qsum_nth _ (S F) (fun f => nth f observed 0 * dx_log x (nth f h 0 + tiny))).
  - apply Qopp_comp. apply total_ext. intros f Hf.
    assert (X : nth f h 0 + tiny == (if Nat.eqb f F then total (length cs) (fun j => nth j ws 0 * dx_sf x (Z.of_nat F - 1) (nth j cs 0))
                 else total (length cs) (fun j => nth j ws 0 * dx_pmf x (Z.of_nat f) (nth j cs 0))) + tiny).
    { rewrite (Hh f Hf), La. destruct (Nat.eqb_spec f F) as [->|B].
      - apply Qplus_comp; [|reflexivity]. apply total_ext. intros j Hj. destruct (H j Hj) as [_ H2]. rewrite H2. reflexivity.
      - apply Qplus_comp; [|reflexivity]. apply total_ext. intros j Hj. destruct (H j Hj) as [H1 _]. rewrite (H1 f) by lia. reflexivity. }
    rewrite (LS _ _ X). reflexivity.
  - rewrite map_length, combine_length. lia.
  - intros f Hf.
    rewrite (nth_map_any (fun of => fst of * dx_log x (snd of + tiny)) (0, 0)) by (rewrite combine_length; lia).
    rewrite combine_nth by lia. reflexivity.
Qed.

Lemma mll_comp shares cs ws ws' : log_sane x -> Forall2 Qeq ws ws' ->
  minus_log_likelihood x shares cs ws == minus_log_likelihood x shares cs ws'.
Proof.
  intros LS H.
  assert (N : forall j, nth j ws 0 == nth j ws' 0).
  { induction H as [|a b l l' E H IH]; intros [|j]; cbn; auto; reflexivity. }
  unfold minus_log_likelihood. apply Qopp_comp. apply total_ext. intros f Hf.
  match goal with |- _ * dx_log x ?a == _ * dx_log x ?b => assert (X : a == b) end.
  { apply Qplus_comp; [|reflexivity]. destruct (Nat.eqb f _); apply total_ext; intros j Hj; rewrite (N j); reflexivity. }
  rewrite (LS _ _ X). reflexivity.
Qed.

Lemma solved_best shares cs ws : log_sane x -> solver_right (dx_ecos x) -> solver_right (dx_scs x) ->
  solved x shares cs (Some ws) ->
  weights (length cs) ws /\
  forall ws', weights (length cs) ws' -> minus_log_likelihood x shares cs ws <= minus_log_likelihood x shares cs ws'.
Proof.
  intros LS S1 S2 [f [A H]].
  assert (C : forall v v', length v = length cs -> Forall2 Qeq v v' -> f v == f v').
  { intros v v' L F. rewrite (A v L), (A v') by (rewrite <- L; symmetry; apply DataLemmas.Forall2_len with (R := Qeq); exact F).
    apply mll_comp; auto. }
  assert (B : weights (length cs) ws /\ forall ws', weights (length cs) ws' -> f ws <= f ws').
  { destruct H as [H|[_ H]]; [apply (S1 _ _ _ C H)|apply (S2 _ _ _ C H)]. }
  destruct B as [B1 B2]. split; [exact B1|]. intros ws' W'. rewrite <- (A ws (proj1 B1)), <- (A ws' (proj1 W')). auto.
Qed.

Lemma grid_ok n pmf : (0 <= n)%Z -> Forall (fun p => 0 <= p) pmf ->
  exists cs, in_bound_purely_weighted_grid n pmf = Ok cs /\ grid_of n pmf cs.
Proof.
  intros Hn F. destruct (grid_from_value n pmf Hn F n 0 ltac:(lia)) as [l [E L]].
  exists l. split.
  - unfold in_bound_purely_weighted_grid, in_bound_grid. change (Qltb 0 0) with false. cbv iota. cbn [bind]. exact E.
  - exists (map (share n) pmf). split; [|exact L]. clear. induction pmf; cbn; constructor; auto. apply py_round_nearest.
Qed.

Lemma optimizer_fit_cases h n o : log_sane x -> validate_frequency_histogram h = Ok tt -> (0 < n)%Z ->
  mk_optimizer h n = Ok o ->
  grid_of n (observed_of h) (op_components o) /\ Forall (fun c => 0 <= c) (op_components o) /\ op_components o <> [] /\
  ((exists r o', solved x (observed_of h) (op_components o) r /\ optimizer_fit x o = Ok o' /\
      op_components o' = op_components o /\ op_weights o' = Some r) \/
   (exists e, optimizer_fit x o = Err e) /\ unsolved x (observed_of h) (op_components o)).
Proof.
  intros LS V Hn EO.
  destruct (mk_optimizer_ok h n V ltac:(lia)) as [o1 [E1 [E2 [E3 [E4 E5]]]]]. assert (o1 = o) by congruence. subst o1.
  destruct (components_facts h n _ V Hn E5) as [C0 [_ CN]].
  destruct (observed_facts h V) as [LO [F0 _]].
  split. { destruct (grid_ok n (observed_of h) ltac:(lia) F0) as [cs [G1 G2]]. assert (cs = op_components o) by congruence. subst. exact G2. }
  split; [exact C0|]. split; [exact CN|].
  unfold optimizer_fit. rewrite E4, E3.
  assert (LH : (2 <= length h)%nat) by (apply validate_iff in V; tauto).
  replace (Z.of_nat (length h) - 1)%Z with (Z.of_nat (length h - 1)) by lia.
  destruct (truncated_all x (op_components o) (fun c => c) (length h - 1)) as [arrs [EA [LA _]]].
  rewrite EA. cbn [bind].
  assert (A : asked x (observed_of h) (op_components o) (objective x (op_observed o) arrs)).
  { intros ws LW. rewrite E2. apply (objective_value (observed_of h) (op_components o) arrs (length h - 1)); auto. lia. }
  unfold solve_optimal_weights. rewrite LA.
  destruct (dx_ecos x (length (op_components o)) (objective x (op_observed o) arrs)) as [w| |e] eqn:D1; cbn [bind].
  - left. eexists w, _. split; [exists (objective x (op_observed o) arrs); auto|]. split; [reflexivity|]. split; reflexivity.
  - destruct (dx_scs x (length (op_components o)) (objective x (op_observed o) arrs)) as [w| |e] eqn:D2; cbn [bind].
    + left. eexists w, _. split; [exists (objective x (op_observed o) arrs); auto|]. split; [reflexivity|]. split; reflexivity.
    + right. split; [eauto|]. exists (objective x (op_observed o) arrs). split; auto. right. split; auto. intros r; congruence.
    + right. split; [eauto|]. exists (objective x (op_observed o) arrs). split; auto. right. split; auto. intros r; congruence.
  - right. split; [eauto|]. exists (objective x (op_observed o) arrs). split; eauto.
Qed.

Lemma optimizer_refit o o' : optimizer_fit x o = Ok o' -> optimizer_fit x o' = Ok o'.
Proof.
  unfold optimizer_fit. destruct (op_weights o) as [w|] eqn:E.
  - intros X. assert (o' = o) by congruence. subst. rewrite E. reflexivity.
  - destruct (mapM _ _); cbn [bind]; [|discriminate]. destruct (solve_optimal_weights _ _ _); cbn [bind]; [|discriminate].
    intros X. assert (X' := f_equal (fun r => match r with Ok q => op_weights q | Err _ => None end) X). cbn in X'.
    destruct (op_weights o') as [w|]; [reflexivity|discriminate].
Qed.

(** ** The loop over the numbers of components *)

Lemma halved_0 n : halved n 0 = n.
Proof. unfold halved. cbn. apply Z.div_1_r. Qed.
Lemma halved_S n i : (0 <= n)%Z -> halved n (S i) = halved (n / 2) i.
Proof.
  intros H. unfold halved. replace (Z.of_nat (S i)) with (1 + Z.of_nat i)%Z by lia.
  rewrite Z.pow_add_r by lia. change (2 ^ 1)%Z with 2%Z. rewrite Z.div_div; [reflexivity|lia|].
  apply Z.pow_pos_nonneg; lia.
Qed.

Lemma fit_loop_value m h : log_sane x -> dm_hist m = h -> validate_frequency_histogram h = Ok tt -> forall fuel m1,
  dm_hist m1 = h -> (0 < dm_ncomponents m1)%Z -> (dm_ncomponents m1 <= Z.of_nat fuel)%Z ->
  with_optimizer m (dm_ncomponents m1) (dm_fit_computed m1) (dm_optimizer m1) = m1 ->
  (exists i o o', (0 < halved (dm_ncomponents m1) i)%Z /\
     (forall i', (i' < i)%nat -> fit_fails x (observed_of h) (halved (dm_ncomponents m1) i')) /\
     mk_optimizer h (halved (dm_ncomponents m1) i) = Ok o /\ optimizer_fit x o = Ok o' /\
     fit_loop x fuel m1 = (Ok tt, with_optimizer m (halved (dm_ncomponents m1) i) true (Some o'))) \/
  ((forall i, (0 < halved (dm_ncomponents m1) i)%Z -> fit_fails x (observed_of h) (halved (dm_ncomponents m1) i)) /\
   exists o e, mk_optimizer h 1 = Ok o /\ optimizer_fit x o = Err e /\
     fit_loop x fuel m1 = (Ok tt, with_optimizer m 0 true (Some o))).
Proof.
  intros LS Hh V. induction fuel as [|fuel IH]; intros m1 H1 Hn Hf Hw; [lia|].
  cbn [fit_loop]. replace (0 <? dm_ncomponents m1)%Z with true by (symmetry; apply Z.ltb_lt; lia).
  rewrite H1. set (n := dm_ncomponents m1) in *.
  destruct (mk_optimizer_ok h n V ltac:(lia)) as [o [EO _]]. rewrite EO.
  destruct (optimizer_fit x o) as [o'|e] eqn:EF.
  - left. exists O, o, o'. rewrite halved_0. split; [lia|]. split; [intros i' Hi; lia|]. split; [exact EO|]. split; [exact EF|].
    rewrite <- Hw. reflexivity.
  - assert (FF : fit_fails x (observed_of h) n).
    { destruct (optimizer_fit_cases h n o LS V Hn EO) as [G [_ [_ [[r [o' [_ [X _]]]]|[_ X]]]]]; [congruence|]. exists (op_components o). auto. }
    assert (Zn2 : (0 <= n / 2 < n)%Z) by (split; [apply Z.div_pos; lia|apply Z.div_lt; lia]).
    destruct (Z.eq_dec (n / 2) 0) as [Z0|Z0].
    + assert (n = 1)%Z as N1. { pose proof (Z.div_mod n 2 ltac:(lia)). pose proof (Z.mod_pos_bound n 2 ltac:(lia)). lia. }
      right. split.
      * intros [|i] Hi; [rewrite halved_0; exact FF|]. rewrite halved_S, Z0 in Hi by lia. unfold halved in Hi. rewrite Z.div_0_l in Hi; [lia|].
        pose proof (Z.pow_pos_nonneg 2 (Z.of_nat i)). lia.
      * exists o, e. split; [rewrite <- N1; exact EO|]. split; [exact EF|].
        rewrite Z0. destruct fuel as [|fuel]; cbn [fit_loop]; rewrite <- Hw; reflexivity.
    + destruct (IH (with_optimizer m1 (n / 2) (dm_fit_computed m1) (Some o))) as [A|A].
      * exact H1.
      * cbn [with_optimizer dm_ncomponents]. lia.
      * cbn [with_optimizer dm_ncomponents]. lia.
      * rewrite <- Hw. reflexivity.
      * cbn [with_optimizer dm_ncomponents] in A. left. destruct A as [i [o2 [o2' [A1 [A2 [A3 [A4 A5]]]]]]].
        exists (S i), o2, o2'. rewrite halved_S by lia. split; [exact A1|]. split; [|auto].
        intros [|i'] Hi; [rewrite halved_0; exact FF|]. rewrite halved_S by lia. apply A2. lia.
      * cbn [with_optimizer dm_ncomponents] in A. right. destruct A as [A1 A2]. split; [|exact A2].
        intros [|i] Hi; [rewrite halved_0; exact FF|]. rewrite halved_S in * by lia. apply A1. exact Hi.
Qed.

End Fit.
