(** C50, continued: the relative entropy of two distributions. *)
From Coq Require Import Lqa Qfield.
From Verif Require Import Prelude ModelReachPoint ModelHalo ModelCurves ModelSurface SpecSurface SurfaceLemmas GammaLemmas2 ModelDirac SpecDirac ModelEntropy.
Open Scope Q_scope.

(** A logarithm is at least 1 - 1/z and at most z - 1, and equal numbers have the same; that of
    1/z is the opposite of that of z. *)
Definition log_between (x : dirac_externals) : Prop :=
  log_sane x /\ forall z, 0 < z -> 1 - 1 / z <= dx_log x z <= z - 1.
Definition log_inverse (x : dirac_externals) : Prop := forall z, 0 < z -> dx_log x (1 / z) == - dx_log x z.
(** What the documentation of relative_entropy gives: minus the sum of observed log(fitted /
    observed). *)
Definition documented_entropy (x : dirac_externals) (observed fitted : list Q) : Q :=
  - Qsum (map (fun of => fst of * dx_log x (snd of / fst of)) (combine observed fitted)).

Lemma Qltb_lt a b : Qltb a b = true -> a < b.
Proof. destruct (Qltb_spec a b); [auto|discriminate]. Qed.
Lemma Qltb_ge a b : Qltb a b = false -> b <= a.
Proof. destruct (Qltb_spec a b); [discriminate|auto]. Qed.
Lemma rel_entr_none x a b : 0 <= a -> 0 <= b -> (rel_entr x a b = None <-> 0 < a /\ b == 0).
Proof.
  intros Ha Hb. unfold rel_entr. destruct (Qltb 0 a) eqn:A; destruct (Qltb 0 b) eqn:B; cbn [andb].
  - apply Qltb_lt in B. split; [discriminate|intros [_ X]; rewrite X in B; lra].
  - apply Qltb_lt in A. apply Qltb_ge in B. assert (Z : Qeqb a 0 = false) by (apply Bool.not_true_iff_false; intros X; apply Qeq_bool_iff in X; lra).
    rewrite Z. cbn [andb]. split; [intros _; split; lra|reflexivity].
  - apply Qltb_ge in A. assert (Z : Qeqb a 0 = true) by (apply Qeq_bool_iff; lra). rewrite Z.
    assert (Y : Qleb 0 b = true) by (apply Qle_bool_iff; lra). rewrite Y. cbn [andb]. split; [discriminate|intros [X _]; lra].
  - apply Qltb_ge in A. assert (Z : Qeqb a 0 = true) by (apply Qeq_bool_iff; lra). rewrite Z.
    assert (Y : Qleb 0 b = true) by (apply Qle_bool_iff; lra). rewrite Y. cbn [andb]. split; [discriminate|intros [X _]; lra].
Qed.
Lemma rel_entr_lower x a b v : log_between x -> 0 <= a -> 0 <= b -> rel_entr x a b = Some v -> a - b <= v.
Proof.
  intros [_ H] Ha Hb. unfold rel_entr. destruct (Qltb 0 a && Qltb 0 b)%bool eqn:E.
  - apply andb_prop in E. destruct E as [A B]. apply Qltb_lt in A, B. intros X. injection X as <-.
    assert (P : 0 < a / b) by (apply Qlt_shift_div_l; lra). destruct (H _ P) as [L _].
    assert (E : a * (1 - 1 / (a / b)) == a - b) by (field; split; lra).
    rewrite <- E. apply Qmult_le_l; assumption.
  - destruct (Qeqb a 0 && Qleb 0 b)%bool eqn:F; [|discriminate]. intros X. injection X as <-. apply andb_prop in F. destruct F as [F _].
    apply Qeq_bool_iff in F. lra.
Qed.

(** For arrays of different lengths it raises ValueError. For distributions it is infinite
    exactly if something was observed that the fit excludes; otherwise it is a number that is
    never negative, and 0 if both are the same. *)
Theorem C50_relative_entropy : forall x observed fitted, log_between x ->
  Forall (fun a => 0 <= a) observed -> Forall (fun b => 0 <= b) fitted -> Qsum observed == Qsum fitted ->
  if Nat.eqb (length observed) (length fitted) then
    (relative_entropy x observed fitted = Ok None <-> exists a b, In (a, b) (combine observed fitted) /\ 0 < a /\ b == 0) /\
    (forall v, relative_entropy x observed fitted = Ok (Some v) -> 0 <= v /\ (Forall2 Qeq observed fitted -> v == 0))
  else relative_entropy x observed fitted = Err ValueError.
Proof.
  intros x observed fitted Hx Ho Hf Hs. unfold relative_entropy. destruct (Nat.eqb _ _) eqn:E; [|reflexivity]. apply Nat.eqb_eq in E. split.
  - assert (G : sum_infinite (map (fun of => rel_entr x (fst of) (snd of)) (combine observed fitted)) = None <->
      exists a b, In (a, b) (combine observed fitted) /\ 0 < a /\ b == 0).
    { clear Hs. revert fitted Hf E. induction Ho as [|a observed Ha Ho IH]; intros fitted Hf E.
      - split; [discriminate|]. intros [a [b [[] _]]].
      - destruct Hf as [|b fitted Hb Hf]; [discriminate|]. cbn [combine map sum_infinite fst snd]. injection E as E.
        specialize (IH fitted Hf E). pose proof (rel_entr_none x a b Ha Hb) as N. split.
        + intros S. destruct (rel_entr x a b) as [v|].
          * destruct (sum_infinite _); [discriminate|]. destruct (proj1 IH eq_refl) as [a' [b' [I' P]]]. exists a', b'. split; [right; exact I'|exact P].
          * exists a, b. split; [left; reflexivity|]. apply N. reflexivity.
        + intros [a' [b' [[I'|I'] P]]].
          * injection I' as <- <-. rewrite (proj2 N P). reflexivity.
          * assert (X : sum_infinite (map (fun of => rel_entr x (fst of) (snd of)) (combine observed fitted)) = None) by (apply IH; eauto).
            rewrite X. destruct (rel_entr x a b); reflexivity. }
    split; [intros X; injection X as X; apply G; exact X|]. intros X. apply G in X. rewrite X. reflexivity.
  - intros v X. injection X as X.
    assert (G : Qsum observed - Qsum fitted <= v /\ (Forall2 Qeq observed fitted -> v == 0)).
    { clear Hs. revert fitted Hf E v X. induction Ho as [|a observed Ha Ho IH]; intros fitted Hf E v X.
      - destruct fitted; [|discriminate]. cbn in X. injection X as <-. cbn. split; [lra|reflexivity].
      - destruct Hf as [|b fitted Hb Hf]; [discriminate|]. cbn [combine map sum_infinite fst snd] in X. injection E as E.
        destruct (rel_entr x a b) as [w|] eqn:R; [|discriminate]. destruct (sum_infinite _) as [u|] eqn:S; [|discriminate]. injection X as <-.
        destruct (IH fitted Hf E u S) as [L1 L2]. pose proof (rel_entr_lower x a b w Hx Ha Hb R) as L3. split.
        + cbn [Qsum fold_right]. unfold Qsum in L1 |- *. cbn [fold_right]. lra.
        + intros Eq. inversion Eq as [|? ? ? ? Q1 Q2]; subst. rewrite (L2 Q2). destruct Hx as [Sane B].
          unfold rel_entr in R. destruct (Qltb 0 a && Qltb 0 b)%bool eqn:P.
          * apply andb_prop in P. destruct P as [A _]. apply Qltb_lt in A. injection R as <-.
            assert (One : a / b == 1) by (rewrite <- Q1; field; lra). rewrite (Sane _ _ One). destruct (B 1 ltac:(lra)) as [B1 B2].
            assert (Z : dx_log x 1 == 0) by (apply Qle_antisym; [apply (Qle_trans _ _ _ B2)|refine (Qle_trans _ _ _ _ B1)]; apply Qle_bool_iff; reflexivity). rewrite Z. ring.
          * destruct (Qeqb a 0 && Qleb 0 b)%bool; [|discriminate]. injection R as <-. ring. }
    destruct G as [G1 G2]. split; [lra|exact G2].
Qed.
Print Assumptions C50_relative_entropy.

(** Where nothing is 0 it is what the documentation says. *)
Theorem C50_relative_entropy_documented : forall x observed fitted, log_sane x -> log_inverse x ->
  Forall (fun a => 0 < a) observed -> Forall (fun b => 0 < b) fitted -> length observed = length fitted ->
  exists v, relative_entropy x observed fitted = Ok (Some v) /\ v == documented_entropy x observed fitted.
Proof.
  intros x observed fitted Sane Inv Ho Hf E. unfold relative_entropy. rewrite (proj2 (Nat.eqb_eq _ _) E).
  assert (G : exists v, sum_infinite (map (fun of => rel_entr x (fst of) (snd of)) (combine observed fitted)) = Some v /\ v == documented_entropy x observed fitted).
  { unfold documented_entropy, Qsum. revert fitted Hf E. induction Ho as [|a observed Ha Ho IH]; intros fitted Hf E.
    - exists 0. split; reflexivity.
    - destruct Hf as [|b fitted Hb Hf]; [discriminate|]. injection E as E. destruct (IH fitted Hf E) as [u [U1 U2]].
      cbn [combine map sum_infinite fold_right fst snd]. rewrite U1. unfold rel_entr.
      destruct (Qltb_spec 0 a) as [_|]; [|lra]. destruct (Qltb_spec 0 b) as [_|]; [|lra]. cbn [andb].
      eexists. split; [reflexivity|]. rewrite U2.
      assert (P : 0 < a / b) by (apply Qlt_shift_div_l; lra).
      assert (K : b / a == 1 / (a / b)) by (field; split; lra). rewrite (Sane _ _ K), (Inv _ P). ring. }
  destruct G as [v [G1 G2]]. exists v. rewrite G1. split; [reflexivity|exact G2].
Qed.
Print Assumptions C50_relative_entropy_documented.

(** ** Two-dimensional arrays *)

Definition same_number (o o' : option Q) : Prop :=
  match o, o' with Some a, Some b => a == b | None, None => True | _, _ => False end.
Lemma sum_infinite_app l l' : same_number (sum_infinite (l ++ l'))
  (match sum_infinite l, sum_infinite l' with Some a, Some b => Some (a + b) | _, _ => None end).
Proof.
  induction l as [|o l IH]; cbn [app sum_infinite].
  - destruct (sum_infinite l'); cbn; [ring|exact Logic.I].
  - destruct o as [a|]; [|exact Logic.I]. destruct (sum_infinite (l ++ l')) as [b|], (sum_infinite l) as [c|], (sum_infinite l') as [d|];
      cbn [same_number] in *; try contradiction; auto. rewrite IH. ring.
Qed.
Lemma combine_app (a a' b b' : list Q) : length a = length b -> combine (a ++ a') (b ++ b') = combine a b ++ combine a' b'.
Proof. revert b. induction a as [|v a IH]; intros [|w b] E; try discriminate; [reflexivity|]. cbn [app combine]. rewrite IH by (injection E; auto). reflexivity. Qed.

(** The relative entropy of two tables of the same shape is that of all their entries, one row
    after the other; tables of different shapes are refused with a ValueError. *)
Theorem C50_relative_entropy_2d : forall x observed fitted,
  (map (@length Q) observed = map (@length Q) fitted ->
   exists v v', relative_entropy_2d x observed fitted = Ok v /\ relative_entropy x (concat observed) (concat fitted) = Ok v' /\ same_number v v') /\
  (map (@length Q) observed <> map (@length Q) fitted -> relative_entropy_2d x observed fitted = Err ValueError).
Proof.
  intros x observed fitted. unfold relative_entropy_2d. destruct (list_eq_dec _ _ _) as [E|E]; (split; intros H; [|try reflexivity]); try contradiction.
  assert (LE : length (concat observed) = length (concat fitted)).
  { clear H. revert fitted E. induction observed as [|a observed IH]; intros [|b fitted] E; try discriminate; [reflexivity|].
    cbn [map] in E. injection E as E1 E2. cbn [concat]. rewrite !app_length, E1, (IH fitted E2). reflexivity. }
  unfold relative_entropy. rewrite (proj2 (Nat.eqb_eq _ _) LE). eexists _, _. split; [reflexivity|]. split; [reflexivity|]. clear LE H.
  revert fitted E. induction observed as [|a observed IH]; intros [|b fitted] E; try discriminate; [cbn; reflexivity|].
  cbn [map] in E. injection E as E1 E2. specialize (IH fitted E2). cbn [concat combine map sum_infinite fst snd].
  rewrite (combine_app _ _ _ _ E1), map_app.
  pose proof (sum_infinite_app (map (fun of => rel_entr x (fst of) (snd of)) (combine a b))
    (map (fun of => rel_entr x (fst of) (snd of)) (combine (concat observed) (concat fitted)))) as A.
  destruct (sum_infinite (map _ (combine a b))) as [u|]; [|destruct (sum_infinite (_ ++ _)); [contradiction|exact Logic.I]].
  destruct (sum_infinite (map _ (combine observed fitted))) as [v|], (sum_infinite (map _ (combine (concat observed) (concat fitted)))) as [w|],
    (sum_infinite (_ ++ _)) as [z|]; cbn [same_number] in *; try contradiction; auto. rewrite A, IH. reflexivity.
Qed.
Print Assumptions C50_relative_entropy_2d.

(** A function that meets the hypotheses, and some distributions. *)
Definition rough_log (z : Q) : Q := if Qleb 1 z then z - 1 else 1 - 1 / z.
Definition rough : dirac_externals :=
  {| dx_pmf := fun _ _ => 0; dx_sf := fun _ _ => 0; dx_log := rough_log; dx_ecos := fun _ _ => SolverError;
     dx_scs := fun _ _ => SolverError; dx_int32 := fun z => z |}.
Lemma rough_between : log_between rough.
Proof.
  split.
  - intros a b E. cbn [rough dx_log]. unfold rough_log. assert (Eb : Qleb 1 a = Qleb 1 b).
    { apply Bool.eq_true_iff_eq. unfold Qleb. rewrite !Qle_bool_iff, E. reflexivity. }
    rewrite Eb. destruct (Qleb 1 b); rewrite E; reflexivity.
  - intros z Hz. cbn [rough dx_log]. unfold rough_log.
    assert (K : (1 - 1 / z) * z == z - 1) by (field; lra).
    destruct (Qleb 1 z) eqn:Z.
    + apply Qle_bool_iff in Z. split; [|lra]. assert (0 <= 1 - 1 / z).
      { apply Qmult_le_r with z; [exact Hz|]. rewrite K. lra. }
      nra.
    + assert (z < 1) by (apply Qnot_le_lt; intros X; apply Qle_bool_iff in X; unfold Qleb in Z; congruence). split; [lra|].
      assert (1 - 1 / z <= 0). { apply Qmult_le_r with z; [exact Hz|]. rewrite K. lra. }
      nra.
Qed.
Lemma rough_inverse : log_inverse rough.
Proof.
  intros z Hz. cbn [rough dx_log]. unfold rough_log. assert (K : (1 / z) * z == 1) by (field; lra).
  assert (P : 0 < 1 / z) by (apply Qlt_shift_div_l; lra).
  destruct (Qleb_spec 1 (1 / z)) as [A|A]; destruct (Qleb_spec 1 z) as [B|B].
  - assert (z == 1) by nra. nra.
  - ring.
  - field. lra.
  - exfalso. nra.
Qed.
Example C50_relative_entropy_example :
  relative_entropy rough [1 # 2; 1 # 2; 0] [1; 0; 0] = Ok None /\ relative_entropy rough [0; 1] [1 # 2; 1 # 2] = Ok (Some (0 + (1 * rough_log (1 / (1 # 2)) + 0))) /\
  relative_entropy rough [1] [1 # 2; 1 # 2] = Err ValueError.
Proof. repeat split. Qed.
Example C50_relative_entropy_example_number : exists v, relative_entropy rough [1 # 4; 3 # 4] [1 # 2; 1 # 2] = Ok (Some v) /\ v == 1 # 8.
Proof. eexists. split; [cbn; reflexivity|]. vm_compute. reflexivity. Qed.
(** The two rows of the unit test. *)
Example C50_relative_entropy_2d_example : exists v, relative_entropy_2d rough [[2; 3]; [1; 4]] [[1; 3]; [2; 4]] = Ok (Some v) /\ v == 1.
Proof. eexists. split; [cbn; reflexivity|]. vm_compute. reflexivity. Qed.
Example C50_relative_entropy_2d_shapes : relative_entropy_2d rough [[2; 3]] [[1]; [3]] = Err ValueError.
Proof. reflexivity. Qed.
