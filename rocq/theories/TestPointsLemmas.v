(** Lemmas on the test point generators. *)
From Coq Require Import Permutation Lqa.
From Verif Require Import Prelude ModelReachPoint ModelData ModelTestPoints SpecTestPoints
  ReachPointLemmas.
Open Scope Z_scope.

Lemma py_index_at {A} (l : list A) (i : nat) (d : A) :
  (i < length l)%nat -> py_index l (Z.of_nat i) = Ok (nth i l d).
Proof.
  intros H. rewrite py_index_nonneg by lia. rewrite Nat2Z.id.
  rewrite (nth_error_nth' l d H). reflexivity.
Qed.

Lemma mapM_index {A B} (f : Z -> result B) (g : A -> B) (l : list A) :
  (forall i x, nth_error l i = Some x -> f (Z.of_nat i) = Ok (g x)) ->
  mapM f (py_range 0 (Z.of_nat (length l))) = Ok (map g l).
Proof.
  intros H. unfold py_range. rewrite Z.sub_0_r, Nat2Z.id.
  assert (G : forall l' k, (forall i x, nth_error l' i = Some x -> f (Z.of_nat (k + i)) = Ok (g x)) ->
    mapM f (map (fun i => 0 + Z.of_nat i) (seq k (length l'))) = Ok (map g l')).
  { induction l' as [|a l' IH]; intros k Hk; [reflexivity|]. cbn [length seq map mapM].
    replace (0 + Z.of_nat k) with (Z.of_nat (k + 0)) by lia. rewrite (Hk O a eq_refl). cbn [bind].
    rewrite (IH (Datatypes.S k)); [reflexivity|]. intros i x Hi. specialize (Hk (Datatypes.S i) x Hi).
    rewrite <- Hk. do 2 f_equal. lia. }
  apply G. exact H.
Qed.

Lemma max_spends_ok d : tp_max_spends d = Ok (map pd_max_spend (ds_data d)).
Proof.
  unfold tp_max_spends, tp_npublishers, publisher_count.
  apply (mapM_index _ pd_max_spend (ds_data d)).
  intros i x H. rewrite py_index_nonneg by lia. rewrite Nat2Z.id, H. reflexivity.
Qed.

(** ** Products *)

Lemma product_length {A} (ls : list (list A)) n :
  Forall (fun l => length l = n) ls -> length (product ls) = (n ^ length ls)%nat.
Proof.
  induction ls as [|l ls IH]; intros H; [reflexivity|]. inversion H as [|? ? H1 H2]; subst.
  cbn [product length Nat.pow]. specialize (IH H2).
  assert (G : forall l', length (flat_map (fun x => map (cons x) (product ls)) l') = (length l' * length (product ls))%nat).
  { induction l' as [|a l' I2]; [reflexivity|]. cbn [flat_map length]. rewrite app_length, map_length, I2. lia. }
  rewrite G, IH. reflexivity.
Qed.

Lemma product_in {A} (ls : list (list A)) p : In p (product ls) <-> Forall2 (fun x l => In x l) p ls.
Proof.
  revert p. induction ls as [|l ls IH]; intros p; cbn [product].
  - split; [intros [<-|[]]; constructor|]. intros H. inversion H. left. reflexivity.
  - rewrite in_flat_map. split.
    + intros [x [Hx Hp]]. apply in_map_iff in Hp. destruct Hp as [q [<- Hq]].
      constructor; [exact Hx|]. apply IH. exact Hq.
    + intros H. inversion H as [|x ? q ? Hx Hq]; subst. exists x. split; [exact Hx|].
      apply in_map. apply IH. exact Hq.
Qed.

(** A list whose entries differ pairwise. *)
Definition pairwise {A} (R : A -> A -> Prop) (l : list A) : Prop :=
  forall i j x y, (i < j)%nat -> nth_error l i = Some x -> nth_error l j = Some y -> R x y.

Lemma pairwise_cons {A} (R : A -> A -> Prop) a l :
  (forall y, In y l -> R a y) -> pairwise R l -> pairwise R (a :: l).
Proof.
  intros H1 H2 i j x y Hij Hx Hy. destruct j as [|j]; [lia|]. cbn in Hy. destruct i as [|i].
  - inversion Hx; subst. apply H1. eapply nth_error_In; eauto.
  - cbn in Hx. apply (H2 i j); auto; lia.
Qed.

Lemma pairwise_app {A} (R : A -> A -> Prop) l1 l2 :
  pairwise R l1 -> pairwise R l2 -> (forall x y, In x l1 -> In y l2 -> R x y) -> pairwise R (l1 ++ l2).
Proof.
  induction l1 as [|a l1 IH]; intros H1 H2 H; [exact H2|]. cbn [app]. apply pairwise_cons.
  - intros y Hy. apply in_app_or in Hy. destruct Hy as [Hy|Hy].
    + apply In_nth_error in Hy. destruct Hy as [n Hn]. apply (H1 O (Datatypes.S n)); auto. lia.
    + apply H; [left; reflexivity|exact Hy].
  - apply IH; auto.
    + intros i j x y Hij Hx Hy. apply (H1 (Datatypes.S i) (Datatypes.S j)); auto. lia.
    + intros x y Hx Hy. apply H; [right; exact Hx|exact Hy].
Qed.

Lemma pairwise_map {A B} (R : A -> A -> Prop) (T : B -> B -> Prop) (f : A -> B) l :
  (forall x y, R x y -> T (f x) (f y)) -> pairwise R l -> pairwise T (map f l).
Proof.
  intros H H1 i j x y Hij Hx Hy. rewrite nth_error_map in Hx, Hy.
  destruct (nth_error l i) as [u|] eqn:E1; [|discriminate].
  destruct (nth_error l j) as [v|] eqn:E2; [|discriminate].
  inversion Hx; inversion Hy; subst. apply H. apply (H1 i j); auto.
Qed.

Lemma product_pairwise (ls : list (list Q)) :
  Forall (pairwise (fun x y => ~ (x == y)%Q)) ls -> pairwise differ (product ls).
Proof.
  induction ls as [|l ls IH]; intros H; cbn [product].
  - intros i j x y Hij Hx Hy. destruct j; [lia|]. destruct j; discriminate.
  - inversion H as [|? ? H1 H2]; subst. specialize (IH H2). clear H H2.
    induction l as [|a l I2]; [intros i j x y _ Hx; destruct i; discriminate|]. cbn [flat_map].
    apply pairwise_app.
    + apply (pairwise_map differ differ (cons a)); [|exact IH].
      intros x y [j Hj]. exists (Datatypes.S j). exact Hj.
    + apply I2. intros i j x y Hij Hx Hy. apply (H1 (Datatypes.S i) (Datatypes.S j)); auto. lia.
    + intros x y Hx Hy. apply in_map_iff in Hx. destruct Hx as [x' [<- _]].
      apply in_flat_map in Hy. destruct Hy as [b [Hb Hy]]. apply in_map_iff in Hy.
      destruct Hy as [y' [<- _]]. exists O. cbn [nth].
      apply In_nth_error in Hb. destruct Hb as [n Hn]. apply (H1 O (Datatypes.S n)); auto. lia.
Qed.

(** ** Grids *)

Lemma grid_points_ok d g :
  grid_points d g = Ok (product (map (fun p => grid_axis (pd_max_spend p) g) (ds_data d))).
Proof.
  unfold grid_points. rewrite max_spends_ok. cbn [bind]. unfold tp_npublishers, publisher_count.
  rewrite (mapM_index _ (fun p => grid_axis (pd_max_spend p) g)); [reflexivity|].
  intros i x H. rewrite py_index_nonneg by lia. rewrite Nat2Z.id, nth_error_map, H. reflexivity.
Qed.

Lemma grid_axis_length m g : length (grid_axis m g) = Z.to_nat g.
Proof. unfold grid_axis, py_range. rewrite !map_length, seq_length. lia. Qed.

Lemma grid_axis_in m g v : In v (grid_axis m g) <->
  exists k, 1 <= k <= g /\ v = (m * inject_Z k / inject_Z (g + 1))%Q.
Proof.
  unfold grid_axis, py_range. rewrite in_map_iff. split.
  - intros [k [<- Hk]]. apply in_map_iff in Hk. destruct Hk as [i [<- Hi]]. apply in_seq in Hi.
    exists (1 + Z.of_nat i). split; [lia|reflexivity].
  - intros [k [Hk ->]]. exists k. split; [reflexivity|]. apply in_map_iff. exists (Z.to_nat (k - 1)).
    split; [lia|]. apply in_seq. lia.
Qed.

Lemma grid_axis_pairwise m g : ~ (m == 0)%Q -> pairwise (fun x y => ~ (x == y)%Q) (grid_axis m g).
Proof.
  intros Hm i j x y Hij Hx Hy. unfold grid_axis, py_range in Hx, Hy. rewrite map_map, nth_error_map in Hx, Hy.
  assert (Hl : (j < Z.to_nat (g + 1 - 1))%nat).
  { destruct (nth_error (seq 0 (Z.to_nat (g + 1 - 1))) j) eqn:E; [|discriminate].
    assert (X : nth_error (seq 0 (Z.to_nat (g + 1 - 1))) j <> None) by congruence.
    apply nth_error_Some in X. rewrite seq_length in X. exact X. }
  rewrite (nth_error_nth' _ O) in Hx by (rewrite seq_length; lia).
  rewrite (nth_error_nth' _ O) in Hy by (rewrite seq_length; lia).
  rewrite seq_nth in Hx by lia. rewrite seq_nth in Hy by lia. cbn [option_map] in Hx, Hy.
  assert (Ex : x = (m * inject_Z (1 + Z.of_nat (0 + i)) / inject_Z (g + 1))%Q) by congruence.
  assert (Ey : y = (m * inject_Z (1 + Z.of_nat (0 + j)) / inject_Z (g + 1))%Q) by congruence.
  subst x y. clear Hx Hy. intros E.
  assert (Hg : ~ (inject_Z (g + 1) == 0)%Q).
  { change 0%Q with (inject_Z 0). rewrite inject_Z_injective. lia. }
  assert (E2 : (inject_Z (1 + Z.of_nat (0 + i)) == inject_Z (1 + Z.of_nat (0 + j)))%Q).
  { set (a := inject_Z (1 + Z.of_nat (0 + i))) in *. set (b := inject_Z (1 + Z.of_nat (0 + j))) in *.
    set (c := inject_Z (g + 1)) in *. clearbody a b c.
    setoid_replace a with (m * a / c * (c / m))%Q by (field; auto).
    setoid_replace b with (m * b / c * (c / m))%Q by (field; auto).
    rewrite E. reflexivity. }
  rewrite inject_Z_injective in E2. lia.
Qed.

(** ** Random points *)

Lemma np_mult_ok a b : length a = length b ->
  np_mult a b = Ok (map (fun p => (fst p * snd p)%Q) (combine a b)).
Proof. intros H. unfold np_mult. rewrite H, Nat.eqb_refl. reflexivity. Qed.

Lemma np_mult_nth a b p j : np_mult a b = Ok p -> (j < length a)%nat ->
  nth j p 0%Q = (nth j a 0 * nth j b 0)%Q /\ length p = length a.
Proof.
  unfold np_mult. intros H Hj. destruct (Nat.eqb_spec (length a) (length b)) as [E|]; [|discriminate].
  inversion H; subst p; clear H. rewrite map_length, combine_length. split; [|lia].
  rewrite (nth_indep _ 0%Q (fst (0%Q,0%Q) * snd (0%Q,0%Q))%Q) by (rewrite map_length, combine_length; lia).
  rewrite (map_nth (fun p => (fst p * snd p)%Q)), combine_nth by exact E. reflexivity.
Qed.

Lemma np_mult_length a b p : np_mult a b = Ok p -> length p = length a.
Proof.
  unfold np_mult. intros H. destruct (Nat.eqb_spec (length a) (length b)) as [E|]; [|discriminate].
  inversion H. rewrite map_length, combine_length. lia.
Qed.

Section Random.
Context {St Gl : Type} (R : point_rng St Gl).

Lemma uniform_loop_ok spends n k st : random_ok R -> length spends = n ->
  exists ps st', uniform_loop R spends (Z.of_nat n) k st = Ok (ps, st') /\ length ps = k /\
    Forall (fun p => length p = n /\ forall j, (j < n)%nat ->
      exists u, (0 <= u /\ u < 1)%Q /\ nth j p 0%Q = (nth j spends 0 * u)%Q) ps.
Proof.
  intros HR Hn. revert st. induction k as [|k IH]; intros st.
  - exists [], st. split; [reflexivity|]. split; [reflexivity|constructor].
  - cbn [uniform_loop]. destruct (HR (Z.of_nat n) st ltac:(lia)) as [H1 H2].
    destruct (draw_random R (Z.of_nat n) st) as [u st1]. cbn [fst] in H1, H2. rewrite Nat2Z.id in H1.
    destruct (np_mult spends u) as [p|e] eqn:Ep; [|unfold np_mult in Ep; rewrite Hn, H1, Nat.eqb_refl in Ep; discriminate].
    cbn [bind]. destruct (IH st1) as [ps [st' [E [El Hf]]]]. rewrite E. cbn [bind].
    exists (p :: ps), st'. split; [reflexivity|]. split; [cbn [length]; congruence|].
    constructor; [|exact Hf]. split; [rewrite (np_mult_length _ _ _ Ep); exact Hn|].
    intros j Hj. exists (nth j u 0%Q). split.
    + rewrite Forall_forall in H2. apply H2. apply nth_In. lia.
    + apply (np_mult_nth _ _ _ j Ep). lia.
Qed.

(** ** Latin hypercubes *)

Lemma permutation_nth n l : Permutation (py_range 0 n) l ->
  length l = Z.to_nat n /\
  (forall i, (i < Z.to_nat n)%nat -> exists k, (k < Z.to_nat n)%nat /\ nth i l 0 = Z.of_nat k) /\
  (forall k, (k < Z.to_nat n)%nat -> exists i, (i < Z.to_nat n)%nat /\ nth i l 0 = Z.of_nat k) /\
  (forall i j, (i < Z.to_nat n)%nat -> (j < Z.to_nat n)%nat -> nth i l 0 = nth j l 0 -> i = j).
Proof.
  intros H. assert (Hl : length l = Z.to_nat n).
  { rewrite <- (Permutation_length H). unfold py_range. rewrite map_length, seq_length. lia. }
  assert (Hin : forall v, In v (py_range 0 n) <-> exists k, (k < Z.to_nat n)%nat /\ v = Z.of_nat k).
  { intros v. unfold py_range. rewrite in_map_iff. split.
    - intros [i [<- Hi]]. apply in_seq in Hi. exists i. lia.
    - intros [k [Hk ->]]. exists k. split; [lia|]. apply in_seq. lia. }
  assert (Hnd : NoDup (py_range 0 n)).
  { unfold py_range. apply FinFun.Injective_map_NoDup; [intros a b; lia|]. apply seq_NoDup. }
  split; [exact Hl|]. split; [|split].
  - intros i Hi. assert (X : In (nth i l 0) l) by (apply nth_In; lia).
    apply (Permutation_in _ (Permutation_sym H)) in X. apply Hin in X. destruct X as [k [Hk E]]. eauto.
  - intros k Hk. assert (X : In (Z.of_nat k) l) by (apply (Permutation_in _ H), Hin; eauto).
    apply (In_nth _ _ 0) in X. destruct X as [i [Hi E]]. exists i. split; [lia|exact E].
  - intros i j Hi Hj E. apply (Permutation_NoDup H) in Hnd.
    apply (proj1 (NoDup_nth l 0) Hnd); auto; lia.
Qed.

(** Taking rows or entries at valid positions. *)
Lemma take_ok {A} (l : list A) (is : list Z) (d : A) :
  (forall i, In i is -> 0 <= i < Z.of_nat (length l)) ->
  mapM (fun i => py_index l i) is = Ok (map (fun i => nth (Z.to_nat i) l d) is).
Proof.
  intros H. apply mapM_ok_all. intros i Hi. specialize (H i Hi).
  rewrite <- (Z2Nat.id i) at 1 by lia. apply py_index_at. lia.
Qed.

Lemma mapM_np_mult spends rows : Forall (fun r => length r = length spends) rows ->
  exists ps, mapM (np_mult spends) rows = Ok ps /\ length ps = length rows /\
    forall i j, (i < length rows)%nat -> (j < length spends)%nat ->
      coord ps i j = (nth j spends 0 * coord rows i j)%Q /\ length (nth i ps []) = length spends.
Proof.
  induction rows as [|r rows IH]; intros H.
  - exists []. split; [reflexivity|]. split; [reflexivity|]. intros i j Hi. cbn in Hi. lia.
  - inversion H as [|? ? H1 H2]; subst. destruct (IH H2) as [ps [E [El Hc]]].
    cbn [mapM]. rewrite np_mult_ok by congruence. cbn [bind]. rewrite E. cbn [bind].
    eexists. split; [reflexivity|]. split; [cbn [length]; congruence|].
    intros i j Hi Hj. destruct i as [|i].
    + unfold coord. cbn [nth]. apply (np_mult_nth spends r); [apply np_mult_ok; congruence|exact Hj].
    + unfold coord in *. cbn [nth]. apply Hc; [cbn in Hi; lia|exact Hj].
Qed.

Lemma slice_scale m n k v : (0 < m)%Q -> in_slice 1 n k v <-> in_slice m n k (m * v).
Proof.
  intros Hm. unfold in_slice.
  set (a := inject_Z (Z.of_nat k)). set (b := inject_Z (Z.of_nat (k + 1))). set (c := inject_Z (Z.of_nat n)).
  clearbody a b c.
  assert (Ha : (m * a / c == m * (1 * a / c))%Q) by (unfold Qdiv; ring).
  assert (Hb : (m * b / c == m * (1 * b / c))%Q) by (unfold Qdiv; ring).
  rewrite Ha, Hb. set (x := (1 * a / c)%Q). set (y := (1 * b / c)%Q). clearbody x y. clear Ha Hb.
  rewrite (Qmult_le_l x v m Hm), (Qmult_lt_l v y m Hm). reflexivity.
Qed.

Lemma lhs_points_ok d npoints npublishers mppp gl st :
  permutation_ok R -> lhs_ok R ->
  let p := publisher_count d in
  let n := Z.to_nat (Z.min (Z.max (Z.max npoints (npublishers * mppp)) 100) 2000) in
  exists points gl' st', lhs_points R d npoints npublishers mppp gl st = Ok (points, (gl', st')) /\
    length points = n /\
    Forall (fun q => length q = p) points /\
    (forall i j, (i < n)%nat -> (j < p)%nat ->
       exists u, (0 <= u /\ u < 1)%Q /\ coord points i j = (max_spend_of d j * u)%Q) /\
    (forall j k, (j < p)%nat -> (k < n)%nat -> (0 < max_spend_of d j)%Q ->
       exists! i, (i < n)%nat /\ in_slice (max_spend_of d j) n k (coord points i j)).
Proof.
  intros HP HL p n. unfold lhs_points. rewrite max_spends_ok. cbn [bind].
  unfold tp_npoints, minimum_number_of_test_points, maximum_number_of_test_points.
  set (N := Z.min (Z.max (Z.max npoints (npublishers * mppp)) 100) 2000) in *.
  assert (HN : 100 <= N <= 2000) by (unfold N; lia). clearbody N.
  unfold tp_npublishers. fold p.
  destruct (HL (Z.of_nat p) N gl ltac:(lia) ltac:(lia)) as [[L1 [L2 L3]] L4].
  destruct (draw_lhs R (Z.of_nat p) N gl) as [design gl1]. cbn [fst] in L1, L2, L3, L4.
  fold n in L1, L3. rewrite Nat2Z.id in L2, L3.
  pose proof (HP N st) as P1. destruct (draw_permutation R N st) as [rows st1]. cbn [fst] in P1.
  apply permutation_nth in P1. fold n in P1. destruct P1 as [R1 [R2 [R3 R4]]].
  rewrite (take_ok design rows []).
  2:{ intros i Hi. apply (In_nth _ _ 0) in Hi. destruct Hi as [x [Hx <-]]. rewrite R1 in Hx.
      destruct (R2 x Hx) as [k [Hk ->]]. lia. }
  cbn [bind]. pose proof (HP (Z.of_nat p) st1) as P2.
  destruct (draw_permutation R (Z.of_nat p) st1) as [cols st2]. cbn [fst] in P2.
  apply permutation_nth in P2. rewrite Nat2Z.id in P2. destruct P2 as [C1 [C2 [C3 C4]]].
  set (design1 := map (fun i => nth (Z.to_nat i) design []) rows).
  assert (D1 : Forall (fun r => length r = p) design1).
  { unfold design1. apply Forall_forall. intros r Hr. apply in_map_iff in Hr. destruct Hr as [i [<- Hi]].
    apply (In_nth _ _ 0) in Hi. destruct Hi as [x [Hx <-]]. rewrite R1 in Hx.
    destruct (R2 x Hx) as [k [Hk ->]]. rewrite Nat2Z.id. rewrite Forall_forall in L2. apply L2.
    apply nth_In. lia. }
  rewrite (mapM_ok_all _ (fun r => map (fun j => nth (Z.to_nat j) r 0%Q) cols) design1).
  2:{ intros r Hr. apply take_ok. intros j Hj. rewrite Forall_forall in D1. rewrite (D1 r Hr).
      apply (In_nth _ _ 0) in Hj. destruct Hj as [x [Hx <-]]. rewrite C1 in Hx.
      destruct (C2 x Hx) as [k [Hk ->]]. lia. }
  cbn [bind]. set (design2 := map _ design1).
  assert (Hlen2 : length design2 = n) by (unfold design2, design1; rewrite !map_length; exact R1).
  assert (Hsp : length (map pd_max_spend (ds_data d)) = p) by (rewrite map_length; reflexivity).
  destruct (mapM_np_mult (map pd_max_spend (ds_data d)) design2) as [points [E [El Hc]]].
  { unfold design2. apply Forall_forall. intros r Hr. apply in_map_iff in Hr. destruct Hr as [x [<- _]].
    rewrite map_length, Hsp. exact C1. }
  rewrite E. cbn [bind]. exists points, gl1, st2. split; [reflexivity|].
  rewrite Hlen2 in El, Hc. rewrite Hsp in Hc.
  assert (Hd2 : forall i j, (i < n)%nat -> (j < p)%nat ->
    coord design2 i j = coord design (Z.to_nat (nth i rows 0)) (Z.to_nat (nth j cols 0))).
  { intros i j Hi Hj. unfold coord, design2.
    rewrite (nth_indep _ [] (map (fun j => nth (Z.to_nat j) [] 0%Q) cols))
      by (unfold design1; rewrite !map_length; lia).
    rewrite (map_nth (fun r => map (fun j => nth (Z.to_nat j) r 0%Q) cols)).
    rewrite (nth_indep _ 0%Q (nth (Z.to_nat 0) (nth i design1 []) 0%Q)) by (rewrite map_length; lia).
    rewrite (map_nth (fun j => nth (Z.to_nat j) (nth i design1 []) 0%Q)). f_equal.
    unfold design1. rewrite (nth_indep _ [] (nth (Z.to_nat 0) design [])) by (rewrite map_length; lia).
    rewrite (map_nth (fun i => nth (Z.to_nat i) design [])). reflexivity. }
  split; [exact El|]. split; [|split].
  - rewrite <- Hsp. clear -E. revert points E. induction design2 as [|r l IH]; intros ps E; cbn [mapM] in E.
    + inversion E. constructor.
    + destruct (np_mult (map pd_max_spend (ds_data d)) r) as [q|] eqn:E1; [|discriminate]. cbn [bind] in E.
      destruct (mapM (np_mult (map pd_max_spend (ds_data d))) l) as [qs|] eqn:E2; [|discriminate].
      inversion E. constructor; [apply (np_mult_length _ _ _ E1)|]. apply IH. reflexivity.
  - intros i j Hi Hj. destruct (Hc i j Hi Hj) as [-> _].
    exists (coord design2 i j). split; [|reflexivity].
    rewrite (Hd2 i j Hi Hj). destruct (R2 i Hi) as [a [Ha ->]]. destruct (C2 j Hj) as [b [Hb ->]].
    rewrite !Nat2Z.id. assert (Ha' : (a < length design)%nat) by (rewrite L1; exact Ha).
    rewrite Forall_forall in L4. specialize (L4 (nth a design []) (nth_In design [] Ha')).
    rewrite Forall_forall in L4. apply L4. apply nth_In. rewrite Forall_forall in L2.
    rewrite (L2 _ (nth_In design [] Ha')). exact Hb.
  - intros j k Hj Hk Hm. destruct (C2 j Hj) as [b [Hb Eb]].
    destruct (L3 b k Hb Hk) as [r [[Hr Sr] Ur]]. destruct (R3 r Hr) as [i [Hi Ei]].
    exists i. split.
    + split; [exact Hi|]. destruct (Hc i j Hi Hj) as [-> _]. rewrite (Hd2 i j Hi Hj), Ei, Eb, !Nat2Z.id.
      apply slice_scale; assumption.
    + intros i' [Hi' Si']. destruct (Hc i' j Hi' Hj) as [E' _]. rewrite E' in Si'. clear E'.
      apply slice_scale in Si'; [|exact Hm]. rewrite (Hd2 i' j Hi' Hj), Eb, Nat2Z.id in Si'.
      destruct (R2 i' Hi') as [a [Ha Ea]]. rewrite Ea, Nat2Z.id in Si'.
      specialize (Ur a (conj Ha Si')). subst a. apply R4; try assumption. congruence.
Qed.

End Random.
