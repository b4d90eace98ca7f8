(** C40: the test points at which models are judged lie in the spend box, the grid is
    complete, and the random generators give the promised numbers of points. *)
From Coq Require Import String Permutation Lqa.
From Verif Require Import Prelude ModelReachPoint ModelData ModelTestPoints SpecTestPoints
  ReachPointLemmas TestPointsLemmas.
Open Scope Z_scope.

Definition example_publisher (name : string) (m : Q) : publisher_data :=
  {| pd_data := [(1, m)]; pd_spends := [m]; pd_max_spend := m; pd_max_reach := 1; pd_name := name |}.
Definition example_box : data_set :=
  {| ds_data := [example_publisher "a" 10; example_publisher "b" 7];
     ds_maximum_reach := 0; ds_name := "box"; ds_universe := 0 |}.

(** ** The grid *)

(** For every data set and grid size the grid has grid_size^p points; each has one
    coordinate for each publisher, a multiple k/(grid_size + 1) of its maximum spend; every
    choice of the k's occurs; and no point occurs twice if all maximum spends are non-zero. *)
Theorem C40_grid d g :
  let p := publisher_count d in
  exists points, grid_points d g = Ok points /\
    length points = (Z.to_nat g ^ p)%nat /\
    (forall q, In q points -> length q = p /\
       forall j, (j < p)%nat -> exists k, 1 <= k <= g /\
         (nth j q 0 == max_spend_of d j * (inject_Z k / inject_Z (g + 1)))%Q) /\
    (forall ks : nat -> Z, (forall j, (j < p)%nat -> 1 <= ks j <= g) ->
       exists q, In q points /\ length q = p /\
         forall j, (j < p)%nat ->
           (nth j q 0 == max_spend_of d j * (inject_Z (ks j) / inject_Z (g + 1)))%Q) /\
    ((forall j, (j < p)%nat -> ~ (max_spend_of d j == 0)%Q) ->
       forall i i', (i < i')%nat -> (i' < length points)%nat ->
         differ (nth i points []) (nth i' points [])).
Proof.
  intros p. rewrite grid_points_ok. eexists. split; [reflexivity|].
  set (axes := map (fun p => grid_axis (pd_max_spend p) g) (ds_data d)).
  assert (Hax : length axes = p) by (unfold axes; rewrite map_length; reflexivity).
  assert (Hnth : forall j, (j < p)%nat -> nth j axes [] = grid_axis (max_spend_of d j) g).
  { intros j Hj. unfold axes, max_spend_of.
    rewrite <- (map_map pd_max_spend (fun m => grid_axis m g)).
    rewrite (nth_indep _ [] (grid_axis 0 g)) by (rewrite !map_length; exact Hj).
    apply (map_nth (fun m => grid_axis m g)). }
  split; [|split; [|split]].
  - rewrite (product_length axes (Z.to_nat g)); [rewrite Hax; reflexivity|].
    apply Forall_forall. intros l Hl. apply in_map_iff in Hl. destruct Hl as [x [<- _]]. apply grid_axis_length.
  - intros q Hq. apply product_in in Hq.
    assert (Hl : length q = p) by (rewrite <- Hax; revert Hq; clear; induction 1; cbn; congruence).
    split; [exact Hl|]. intros j Hj.
    assert (X : In (nth j q 0%Q) (nth j axes [])).
    { assert (Hj' : (j < length q)%nat) by lia. clear -Hq Hj'. revert j Hj'.
      induction Hq as [|x l q ls Hx Hq IH]; intros j Hj; cbn [length] in Hj; [lia|].
      destruct j as [|j]; [exact Hx|]. apply IH. lia. }
    rewrite (Hnth j Hj) in X. apply grid_axis_in in X. destruct X as [k [Hk ->]]. exists k.
    split; [exact Hk|]. unfold Qdiv. ring.
  - intros ks Hks.
    exists (map (fun j => (max_spend_of d j * inject_Z (ks j) / inject_Z (g + 1))%Q) (seq 0 p)).
    split; [|split; [rewrite map_length, seq_length; reflexivity|]].
    + apply product_in.
      assert (G : forall l n, (forall j, (j < length l)%nat -> nth j l [] = grid_axis (max_spend_of d (n + j)) g) ->
        (forall j, (n <= j < n + length l)%nat -> 1 <= ks j <= g) ->
        Forall2 (fun x a => In x a)
          (map (fun j => (max_spend_of d j * inject_Z (ks j) / inject_Z (g + 1))%Q) (seq n (length l))) l).
      { induction l as [|a l IH]; intros n H1 H2; [constructor|]. cbn [length seq map]. constructor.
        - specialize (H1 O ltac:(cbn; lia)). cbn [nth] in H1. rewrite H1, Nat.add_0_r. apply grid_axis_in.
          exists (ks n). split; [apply H2; cbn; lia|reflexivity].
        - apply IH.
          + intros j Hj. specialize (H1 (S j) ltac:(cbn; lia)). cbn [nth] in H1. rewrite H1. do 2 f_equal. lia.
          + intros j Hj. apply H2. cbn [length]. lia. }
      rewrite <- Hax at 1. apply G; rewrite Hax; [intros j Hj; apply Hnth; exact Hj|].
      intros j Hj. apply Hks. lia.
    + intros j Hj.
      rewrite (nth_indep _ 0%Q (max_spend_of d 0 * inject_Z (ks O) / inject_Z (g + 1))%Q)
        by (rewrite map_length, seq_length; exact Hj).
      rewrite (map_nth (fun j => (max_spend_of d j * inject_Z (ks j) / inject_Z (g + 1))%Q)).
      rewrite seq_nth by exact Hj. cbn [Nat.add]. unfold Qdiv. ring.
  - intros Hm i i' Hi Hi'. apply (product_pairwise axes) with (i := i) (j := i').
    + apply Forall_forall. intros l Hl. apply (In_nth _ _ []) in Hl. destruct Hl as [j [Hj <-]].
      rewrite Hax in Hj. rewrite (Hnth j Hj). apply grid_axis_pairwise. apply Hm. exact Hj.
    + exact Hi.
    + apply nth_error_nth'. lia.
    + apply nth_error_nth'. lia.
Qed.
Print Assumptions C40_grid.

(** Grid points lie strictly inside the spend box. *)
Theorem C40_grid_inside d g points q j :
  grid_points d g = Ok points -> In q points -> (j < publisher_count d)%nat ->
  (0 < max_spend_of d j)%Q -> (0 < nth j q 0 /\ nth j q 0 < max_spend_of d j)%Q.
Proof.
  intros E Hq Hj Hm. destruct (C40_grid d g) as [ps [E' [_ [H _]]]]. rewrite E in E'.
  injection E' as <-. destruct (H q Hq) as [_ H2]. destruct (H2 j Hj) as [k [Hk ->]].
  assert (Hg : (0 < inject_Z (g + 1))%Q) by (change 0%Q with (inject_Z 0); rewrite <- Zlt_Qlt; lia).
  assert (H0 : (0 < inject_Z k / inject_Z (g + 1))%Q).
  { apply Qlt_shift_div_l; [exact Hg|]. setoid_replace (0 * inject_Z (g + 1))%Q with (inject_Z 0) by reflexivity.
    rewrite <- Zlt_Qlt. lia. }
  assert (H1 : (inject_Z k / inject_Z (g + 1) < 1)%Q).
  { apply Qlt_shift_div_r; [exact Hg|]. rewrite Qmult_1_l, <- Zlt_Qlt. lia. }
  set (x := (inject_Z k / inject_Z (g + 1))%Q) in *. clearbody x. split; nra.
Qed.
Print Assumptions C40_grid_inside.

Example C40_grid_example :
  exists points, grid_points example_box 2 = Ok points /\ length points = 4%nat /\
    map (map Qred) points =
    [[10 # 3; 7 # 3]; [10 # 3; 14 # 3]; [20 # 3; 7 # 3]; [20 # 3; 14 # 3]]%Q.
Proof. eexists. split; [reflexivity|]. split; reflexivity. Qed.

(** A publisher without spends makes points coincide. *)
Theorem C40_grid_distinct_needs_spend_refuted :
  exists p d points, mk_publisher "x" [(1, 0%Q)] (Some "a"%string) = Ok p /\
    mk_data_set [p] (Some "z"%string) None = Ok d /\
    grid_points d 2 = Ok points /\ length points = 2%nat /\
    ~ differ (nth 0 points []) (nth 1 points []).
Proof.
  eexists. eexists. eexists. split; [reflexivity|]. split; [reflexivity|]. split; [reflexivity|]. split; [reflexivity|]. intros [j Hj]. apply Hj.
  destruct j as [|[|j]]; cbn; reflexivity.
Qed.
Print Assumptions C40_grid_distinct_needs_spend_refuted.

(** ** Uniformly random points *)

Section Random.
Context {St Gl : Type} (R : point_rng St Gl).

Definition in_box (d : data_set) (q : list Q) : Prop :=
  length q = publisher_count d /\
  forall j, (j < publisher_count d)%nat -> (0 <= max_spend_of d j)%Q ->
    (0 <= nth j q 0 /\ nth j q 0 <= max_spend_of d j /\
     (0 < max_spend_of d j -> nth j q 0 < max_spend_of d j))%Q.

Lemma fraction_in_box m u v : (0 <= m)%Q -> (0 <= u /\ u < 1)%Q -> v = (m * u)%Q ->
  (0 <= v /\ v <= m /\ (0 < m -> v < m))%Q.
Proof. intros Hm Hu ->. split; [nra|]. split; [nra|]. intros H. nra. Qed.

(** Exactly max(npoints, npublishers * minimum_points_per_publisher) points (none if that is
    negative), all in the box. *)
Theorem C40_uniform d npoints npublishers mppp st :
  random_ok R ->
  exists points st', uniform_points R d npoints npublishers mppp st = Ok (points, st') /\
    Z.of_nat (length points) = Z.max 0 (Z.max npoints (npublishers * mppp)) /\
    Forall (in_box d) points.
Proof.
  intros HR. unfold uniform_points. rewrite max_spends_ok. cbn [bind].
  destruct (uniform_loop_ok R (map pd_max_spend (ds_data d)) (publisher_count d)
    (Z.to_nat (tp_npoints npoints npublishers mppp)) st HR) as [ps [st' [E [El Hf]]]].
  { rewrite map_length. reflexivity. }
  exists ps, st'. split; [exact E|]. split; [rewrite El; unfold tp_npoints; lia|].
  eapply Forall_impl; [|exact Hf]. intros q [H1 H2]. split; [exact H1|].
  intros j Hj Hm. destruct (H2 j Hj) as [u [Hu E2]]. exact (fraction_in_box _ u _ Hm Hu E2).
Qed.

(** ** Latin hypercube points *)

(** Between 100 and 2000 points, all in the box; and they form a Latin hypercube of the
    box: for each publisher, one point in each of the equal slices of its spend range. *)
Theorem C40_latin_hypercube d npoints npublishers mppp gl st :
  permutation_ok R -> lhs_ok R ->
  exists points gl' st',
    lhs_points R d npoints npublishers mppp gl st = Ok (points, (gl', st')) /\
    Z.of_nat (length points) = Z.min (Z.max (Z.max npoints (npublishers * mppp)) 100) 2000 /\
    Forall (in_box d) points /\
    ((forall j, (j < publisher_count d)%nat -> (0 < max_spend_of d j)%Q) ->
     latin_hypercube (max_spend_of d) (publisher_count d) (length points) points).
Proof.
  intros HP HL. destruct (lhs_points_ok R d npoints npublishers mppp gl st HP HL)
    as [ps [gl' [st' [E [El [Hl [Hu Hs]]]]]]].
  exists ps, gl', st'. split; [exact E|]. split; [rewrite El; lia|]. split.
  - apply Forall_forall. intros q Hq. split; [rewrite Forall_forall in Hl; auto|].
    intros j Hj Hm. apply (In_nth _ _ []) in Hq. destruct Hq as [i [Hi <-]]. rewrite El in Hi.
    destruct (Hu i j Hi Hj) as [u [Hu' E2]]. exact (fraction_in_box _ u _ Hm Hu' E2).
  - intros Hm. split; [reflexivity|]. split; [exact Hl|]. rewrite El. intros j k Hj Hk.
    apply Hs; auto.
Qed.

(** ** What an experiment asks for *)

Lemma kw_get_set kw key v k :
  kw_get (kw_set kw key v) k = if String.eqb k key then Some v else kw_get kw k.
Proof.
  induction kw as [|[a w] kw IH]; cbn [kw_set kw_get]; [destruct (String.eqb k key); reflexivity|].
  destruct (String.eqb_spec key a) as [<-|H]; cbn [kw_get].
  - destruct (String.eqb k key); reflexivity.
  - rewrite IH. destruct (String.eqb_spec k a) as [->|H1]; [|reflexivity].
    destruct (String.eqb_spec a key) as [->|]; [congruence|reflexivity].
Qed.
Lemma kw_known_set kw key v names :
  kw_known (kw_set kw key v) names = kw_known kw names \/ kw_get kw key = None.
Proof.
  induction kw as [|[a w] kw IH]; [right; reflexivity|]. cbn [kw_set kw_get].
  destruct (String.eqb key a); [left; reflexivity|]. unfold kw_known. cbn [forallb].
  destruct IH as [IH|IH]; [left|right; exact IH]. unfold kw_known in IH. rewrite IH. reflexivity.
Qed.

Definition random_kwargs (kw : list (string * Z)) : Prop :=
  kw_known kw ["npoints"; "npublishers"; "minimum_points_per_publisher"]%string = true.

(** An experiment whose keyword arguments mention npublishers is evaluated, on each data
    set, at no fewer than npoints points and at no fewer than minimum_points_per_publisher
    points for each publisher of that data set, whatever value was written for npublishers;
    Latin hypercubes are cut off at 2000 points. *)
Theorem C40_experiment_points d kw v npoints mppp gl st :
  random_ok R -> permutation_ok R -> lhs_ok R ->
  random_kwargs kw -> kw_get kw "npublishers" = Some v ->
  npoints = kw_default kw "npoints" 100 ->
  mppp = kw_default kw "minimum_points_per_publisher" 100 ->
  let wanted := Z.max npoints (Z.of_nat (publisher_count d) * mppp) in
  (exists points s, generate_test_points R "uniformly_random" (update_kwargs kw d) d gl st =
       Ok (points, s) /\ Z.of_nat (length points) = Z.max 0 wanted) /\
  (exists points s, generate_test_points R "latin_hypercube" (update_kwargs kw d) d gl st =
       Ok (points, s) /\ Z.of_nat (length points) = Z.min (Z.max wanted 100) 2000).
Proof.
  intros HR HP HL Hk Hn -> -> wanted. unfold update_kwargs. rewrite Hn.
  set (kw' := kw_set kw "npublishers" (Z.of_nat (publisher_count d))).
  assert (K : kw_known kw' ["npoints"; "npublishers"; "minimum_points_per_publisher"]%string = true).
  { destruct (kw_known_set kw "npublishers" (Z.of_nat (publisher_count d))
      ["npoints"; "npublishers"; "minimum_points_per_publisher"]%string) as [E|E]; [|congruence].
    unfold kw'. rewrite E. exact Hk. }
  assert (D : forall k x, kw_default kw' k x = if String.eqb k "npublishers"
                then Z.of_nat (publisher_count d) else kw_default kw k x).
  { intros k x. unfold kw_default, kw'. rewrite kw_get_set. destruct (String.eqb k "npublishers"); reflexivity. }
  unfold generate_test_points. rewrite K, !D. cbn [String.eqb Ascii.eqb Bool.eqb].
  split.
  - destruct (C40_uniform d (kw_default kw "npoints" 100) (Z.of_nat (publisher_count d))
      (kw_default kw "minimum_points_per_publisher" 100) st HR) as [ps [st' [E [El _]]]].
    exists ps, (gl, st'). split; [|exact El].
    unfold minimum_number_of_test_points, minimum_number_of_test_points_per_publisher. rewrite E. reflexivity.
  - destruct (C40_latin_hypercube d (kw_default kw "npoints" 100) (Z.of_nat (publisher_count d))
      (kw_default kw "minimum_points_per_publisher" 100) gl st HP HL) as [ps [gl' [st' [E [El _]]]]].
    exists ps, (gl', st'). split; [exact E|exact El].
Qed.

(** Anything but the three strategies is rejected. *)
Theorem C40_unknown_strategy s kw d gl st :
  ~ In s ["latin_hypercube"; "uniformly_random"; "grid"]%string ->
  generate_test_points R s kw d gl st = Err ValueError.
Proof.
  intros H. unfold generate_test_points.
  destruct (String.eqb_spec s "latin_hypercube") as [->|_]; [exfalso; apply H; cbn; auto|].
  destruct (String.eqb_spec s "uniformly_random") as [->|_]; [exfalso; apply H; cbn; auto|].
  destruct (String.eqb_spec s "grid") as [->|_]; [exfalso; apply H; cbn; auto|]. reflexivity.
Qed.

(** Grid and uniformly random points do not depend on the process-wide random state. *)
Theorem C40_same_points_for_same_seed s kw d gl gl' st points a :
  s = "grid"%string \/ s = "uniformly_random"%string ->
  generate_test_points R s kw d gl st = Ok (points, a) ->
  exists a', generate_test_points R s kw d gl' st = Ok (points, a').
Proof.
  intros [->| ->]; unfold generate_test_points; cbn [String.eqb Ascii.eqb Bool.eqb].
  - destruct (kw_known kw ["grid_size"%string]); [|discriminate].
    destruct (kw_get kw "grid_size") as [g|]; [|discriminate].
    destruct (grid_points d g) as [ps|]; [|discriminate]. cbn [bind]. intros E. inversion E; subst. eauto.
  - destruct (kw_known kw _); [|discriminate].
    destruct (uniform_points R d _ _ _ st) as [[ps st']|]; [|discriminate]. cbn [bind].
    intros E. inversion E; subst. eauto.
Qed.

End Random.
Print Assumptions C40_uniform.
Print Assumptions C40_latin_hypercube.
Print Assumptions C40_experiment_points.
Print Assumptions C40_unknown_strategy.
Print Assumptions C40_same_points_for_same_seed.

(** ** A concrete random source that meets the hypotheses *)

Definition diagonal_row (samples : Z) (n : nat) (i : nat) : list Q :=
  repeat (inject_Z (2 * Z.of_nat i + 1) / inject_Z (2 * samples))%Q n.
Definition diagonal_rng : point_rng unit bool :=
  {| draw_random := fun n st => (repeat (1 # 2)%Q (Z.to_nat n), st);
     draw_permutation := fun n st => (py_range 0 n, st);
     draw_lhs := fun n samples (gl : bool) =>
       let l := map (diagonal_row samples (Z.to_nat n)) (seq 0 (Z.to_nat samples)) in
       (if gl then l else rev l, negb gl) |}.

Lemma diagonal_slice n i k : (i < n)%nat -> (k < n)%nat ->
  in_slice 1 n k (inject_Z (2 * Z.of_nat i + 1) / inject_Z (2 * Z.of_nat n)) <-> i = k.
Proof.
  intros Hi Hk. unfold in_slice.
  assert (Hn : (0 < inject_Z (Z.of_nat n))%Q) by (change 0%Q with (inject_Z 0); rewrite <- Zlt_Qlt; lia).
  rewrite inject_Z_mult.
  assert (E : (inject_Z (2 * Z.of_nat i + 1) / (inject_Z 2 * inject_Z (Z.of_nat n)) ==
     inject_Z (2 * Z.of_nat i + 1) * (1 # 2) / inject_Z (Z.of_nat n))%Q).
  { assert (inject_Z 2 == 2)%Q by reflexivity. field. intros X. rewrite X in Hn. apply (Qlt_irrefl 0). exact Hn. }
  rewrite E. set (c := inject_Z (Z.of_nat n)) in *. clearbody c. clear E.
  assert (L : forall a b, (a / c <= b / c <-> a <= b)%Q).
  { intros a b. unfold Qdiv. apply Qmult_le_r. apply Qinv_lt_0_compat. exact Hn. }
  assert (L' : forall a b, (a / c < b / c <-> a < b)%Q).
  { intros a b. unfold Qdiv. apply Qmult_lt_r. apply Qinv_lt_0_compat. exact Hn. }
  rewrite L, L'. unfold Qle, Qlt, Qmult, inject_Z. cbn [Qnum Qden]. lia.
Qed.

Example diagonal_random_ok : random_ok diagonal_rng.
Proof.
  intros n st Hn. cbn [diagonal_rng draw_random fst]. rewrite repeat_length. split; [reflexivity|].
  apply Forall_forall. intros u Hu. apply repeat_spec in Hu. subst u. split; reflexivity || discriminate.
Qed.
Example diagonal_permutation_ok : permutation_ok diagonal_rng.
Proof. intros n st. apply Permutation_refl. Qed.

Lemma diagonal_rows samples n : 0 < samples ->
  latin_hypercube (fun _ => 1%Q) n (Z.to_nat samples)
    (map (diagonal_row samples n) (seq 0 (Z.to_nat samples))).
Proof.
  intros Hs. set (N := Z.to_nat samples). replace samples with (Z.of_nat N) by lia.
  assert (HN : (0 < N)%nat) by lia. clearbody N. clear samples Hs.
  assert (C : forall i j, (i < N)%nat -> (j < n)%nat ->
    coord (map (diagonal_row (Z.of_nat N) n) (seq 0 N)) i j =
    (inject_Z (2 * Z.of_nat i + 1) / inject_Z (2 * Z.of_nat N))%Q).
  { intros i j Hi Hj. unfold coord.
    rewrite (nth_indep _ [] (diagonal_row (Z.of_nat N) n 0)) by (rewrite map_length, seq_length; exact Hi).
    rewrite map_nth, seq_nth by exact Hi. unfold diagonal_row. rewrite Nat.add_0_l.
    rewrite (nth_indep _ 0%Q (inject_Z (2 * Z.of_nat i + 1) / inject_Z (2 * Z.of_nat N))%Q)
      by (rewrite repeat_length; exact Hj).
    apply nth_repeat. }
  split; [rewrite map_length, seq_length; reflexivity|]. split.
  - apply Forall_forall. intros r Hr. apply in_map_iff in Hr. destruct Hr as [i [<- _]]. apply repeat_length.
  - intros j k Hj Hk. exists k. split.
    + split; [exact Hk|]. rewrite C by assumption. apply diagonal_slice; auto.
    + intros i [Hi Si]. rewrite C in Si by assumption. apply diagonal_slice in Si; auto.
Qed.

Lemma latin_rev box n N l : latin_hypercube box n N l -> latin_hypercube box n N (rev l).
Proof.
  intros [H1 [H2 H3]]. split; [rewrite rev_length; exact H1|]. split; [apply Forall_rev; exact H2|].
  intros j k Hj Hk. destruct (H3 j k Hj Hk) as [i [[Hi Si] Ui]]. exists (N - S i)%nat. split.
  - split; [lia|]. unfold coord in *. rewrite rev_nth by lia. rewrite H1.
    replace (N - S (N - S i))%nat with i by lia. exact Si.
  - intros i' [Hi' Si']. unfold coord in *. rewrite rev_nth in Si' by lia. rewrite H1 in Si'.
    assert (Hlt : (N - S i' < N)%nat) by lia.
    specialize (Ui (N - S i')%nat (conj Hlt Si')). lia.
Qed.

Example diagonal_lhs_ok : lhs_ok diagonal_rng.
Proof.
  intros n samples gl Hn Hs. cbn [diagonal_rng draw_lhs].
  set (l := map (diagonal_row samples (Z.to_nat n)) (seq 0 (Z.to_nat samples))).
  assert (L : latin_hypercube (fun _ => 1%Q) (Z.to_nat n) (Z.to_nat samples) l) by (apply diagonal_rows; exact Hs).
  assert (F : Forall (Forall (fun u => (0 <= u /\ u < 1)%Q)) l).
  { apply Forall_forall. intros r Hr. apply in_map_iff in Hr. destruct Hr as [i [<- Hi]]. apply in_seq in Hi.
    apply Forall_forall. intros u Hu. apply repeat_spec in Hu. subst u.
    assert (Hp : (0 < inject_Z (2 * samples))%Q) by (change 0%Q with (inject_Z 0); rewrite <- Zlt_Qlt; lia).
    split.
    - apply Qle_shift_div_l; [exact Hp|]. rewrite Qmult_0_l. change 0%Q with (inject_Z 0). rewrite <- Zle_Qle. lia.
    - apply Qlt_shift_div_r; [exact Hp|]. rewrite Qmult_1_l, <- Zlt_Qlt. lia. }
  destruct gl; cbn [fst]; split; auto; [apply latin_rev; exact L|apply Forall_rev; exact F].
Qed.

Example C40_latin_hypercube_example :
  exists points gl' st',
    lhs_points diagonal_rng example_box 150 2 50 true tt = Ok (points, (gl', st')) /\
    length points = 150%nat /\ latin_hypercube (max_spend_of example_box) 2 150 points.
Proof.
  destruct (C40_latin_hypercube diagonal_rng example_box 150 2 50 true tt
    diagonal_permutation_ok diagonal_lhs_ok) as [ps [gl' [st' [E [El [_ H]]]]]].
  assert (L : length ps = 150%nat) by (change (Z.min (Z.max (Z.max 150 (2 * 50)) 100) 2000) with 150 in El; lia).
  exists ps, gl', st'. split; [exact E|]. split; [exact L|]. rewrite <- L. apply H.
  intros j Hj. change (publisher_count example_box) with 2%nat in Hj.
  destruct j as [|[|j]]; [reflexivity|reflexivity|lia].
Qed.

Example C40_experiment_example :
  exists points s,
    generate_test_points diagonal_rng "uniformly_random"
      (update_kwargs [("npublishers"%string, 1)] example_box) example_box true tt = Ok (points, s) /\
    Z.of_nat (length points) = 200.
Proof.
  destruct (C40_experiment_points diagonal_rng example_box [("npublishers"%string, 1)] 1 100 100 true tt
    diagonal_random_ok diagonal_permutation_ok diagonal_lhs_ok eq_refl eq_refl eq_refl eq_refl) as [H _].
  exact H.
Qed.

(** The documentation promises at least 100 points; the uniformly random generator computes
    that bound and then does not use it. *)
Theorem C40_at_least_100_points_refuted :
  exists (d : data_set) points s,
    uniform_points diagonal_rng d 5 1 1 s = Ok (points, s) /\ length points = 5%nat.
Proof. exists example_box. eexists. exists tt. split; [vm_compute; reflexivity|reflexivity]. Qed.
Print Assumptions C40_at_least_100_points_refuted.

(** Latin hypercube points depend on the process-wide random state, not only on the data
    set and the generator of the trial. *)
Theorem C40_latin_hypercube_seed_refuted :
  exists (R : point_rng unit bool) d, random_ok R /\ permutation_ok R /\ lhs_ok R /\
    exists p p' a a', lhs_points R d 100 1 100 true tt = Ok (p, a) /\
      lhs_points R d 100 1 100 false tt = Ok (p', a') /\ p <> p'.
Proof.
  exists diagonal_rng, {| ds_data := [example_publisher "a" 1]; ds_maximum_reach := 0;
                          ds_name := "one"; ds_universe := 0 |}.
  split; [exact diagonal_random_ok|]. split; [exact diagonal_permutation_ok|].
  split; [exact diagonal_lhs_ok|].
  eexists; eexists; eexists; eexists.
  split; [vm_compute; reflexivity|]. split; [vm_compute; reflexivity|]. discriminate.
Qed.
Print Assumptions C40_latin_hypercube_seed_refuted.
