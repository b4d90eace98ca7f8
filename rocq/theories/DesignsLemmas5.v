(** Latin hypercube designs sample by sample; cartesian designs. *)
From Coq Require Import String Ascii Qround Permutation Lqa.
From Verif Require Import Prelude ModelReachPoint ModelData DataLemmas ModelFiles SpecFiles ModelGenerators SpecGenerators
  ModelDriver SpecDriver DriverLemmas4 DriverLemmas5 ModelDesigns SpecDesigns DesignsLemmas DesignsLemmas2 DesignsLemmas4.
Open Scope Z_scope.

Lemma str_inj a b : string_of_list_ascii a = string_of_list_ascii b -> a = b.
Proof. intros E. rewrite <- (list_ascii_of_string_of_list_ascii a), <- (list_ascii_of_string_of_list_ascii b), E. reflexivity. Qed.

(** ** Latin hypercube designs *)

Lemma lhs_config_ok L samples : has_levels L -> Forall point samples ->
  exists ps, lhs_config L samples = map Ok ps /\ length ps = length samples /\
    forall k s p, nth_error samples k = Some s -> nth_error ps k = Some p ->
      from_levels L k s p /\ levels_at L s p.
Proof.
  intros HL Pt. rewrite Forall_forall in Pt. unfold lhs_config.
  apply (collect (lhs_set L) (fun k s p => from_levels L k s p /\ levels_at L s p) samples 0%nat).
  intros k s Is. apply lhs_set_ok; [exact HL|apply Pt; exact Is].
Qed.

Lemma ids_distinct F ps :
  (forall k p, nth_error ps k = Some p ->
     fp_name p = ""%string /\ fp_id p = string_of_list_ascii (str_of_int (Z.of_nat k))) ->
  NoDup (map (set_name_of F) ps).
Proof.
  intros H. apply NoDup_nth_error. intros i j Hi E. rewrite map_length in Hi.
  rewrite !nth_error_map in E. destruct (nth_error ps i) as [a|] eqn:Ea; [|apply nth_error_None in Ea; lia].
  destruct (nth_error ps j) as [b|] eqn:Eb; [|discriminate]. cbn [option_map] in E.
  assert (E' : set_name_of F a = set_name_of F b) by congruence. apply str_inj in E'.
  destruct (H i a Ea) as [N1 I1], (H j b Eb) as [N2 I2].
  pose proof (id_decides F a b (Z.of_nat i) (Z.of_nat j) N1 N2 I1 I2 E'). lia.
Qed.

Lemma Forall2_nth_error {A B} (R : A -> B -> Prop) l : forall l', length l' = length l ->
  (forall k a b, nth_error l k = Some a -> nth_error l' k = Some b -> R a b) -> Forall2 R l l'.
Proof.
  induction l as [|a l IH]; intros [|b l'] Hl H; try discriminate; [constructor|].
  constructor; [apply (H 0%nat); reflexivity|]. apply IH; [cbn in Hl; lia|]. intros k. exact (H (S k)).
Qed.

Lemma balanced_at {A} (lv : list A) field j samples ps : latin samples -> (j < 6)%nat ->
  length ps = length samples ->
  (forall k s p, nth_error samples k = Some s -> nth_error ps k = Some p ->
     nth_error lv (index_of (length lv) (nth j s 0%Q)) = Some (field p)) ->
  balanced lv field ps.
Proof.
  intros La Hj Hn H. exists (map (fun s => index_of (length lv) (nth j s 0%Q)) samples). split.
  - apply Forall2_nth_error; [rewrite map_length; congruence|].
    intros k p i Ep Ei. rewrite nth_error_map in Ei. destruct (nth_error samples k) as [s|] eqn:Es; [|discriminate].
    cbn [option_map] in Ei. inversion Ei; subst. apply (H k s p Es Ep).
  - intros k Hk. rewrite Hn. apply shares; assumption.
Qed.

(** ** The M3 design *)

Lemma m3_config_ok L samples : has_levels L -> Forall point samples ->
  Forall has_universe_ratio (lv_overlap L) -> Forall (fun n => 0 <= n) (lv_largest L) ->
  exists ps0 ps, lhs_config L samples = map Ok ps0 /\ m3_config L samples = map Ok ps /\
    length ps0 = length samples /\ Forall2 with_universe ps0 ps.
Proof.
  intros HL Pt HU HN. pose proof Pt as Pt'. rewrite Forall_forall in Pt.
  destruct (lhs_config_ok L samples HL Pt') as [ps0 [E0 [L0 H0]]].
  exists ps0.
  destruct (collect (m3_set L) (fun k s p' => exists p, lhs_set L (Z.of_nat k) s = Ok p /\ with_universe p p') samples 0%nat) as [ps [E1 [L1 H1]]].
  { intros k s Is. destruct (lhs_set_ok L k s HL (Pt s Is)) as [p [Ep [_ At]]]. unfold m3_set. rewrite Ep. cbn [bind].
    destruct (point_nth s 5 (Pt s Is) ltac:(lia)) as [q [-> _]].
    destruct (m3_universe_ok p) as [p' [E' W]].
    - rewrite Forall_forall in HU. apply HU. eapply nth_error_In. apply (la_overlap _ _ _ At).
    - rewrite Forall_forall in HN. apply HN. eapply nth_error_In. apply (la_largest _ _ _ At).
    - exists p'. split; [exact E'|]. exists p. split; [reflexivity|exact W]. }
  exists ps. split; [exact E0|]. split; [exact E1|]. split; [exact L0|].
  apply Forall2_nth_error; [congruence|]. intros k p p' Ep Ep'.
  destruct (nth_error samples k) as [s|] eqn:Es.
  2:{ apply nth_error_None in Es. assert (nth_error ps0 k <> None) as X by congruence. apply nth_error_Some in X. lia. }
  destruct (H1 k s p' Es Ep') as [p2 [E2 W]]. cbn [Nat.add] in E2.
  assert (E3 : lhs_set L (Z.of_nat k) s = Ok p).
  { assert (A : nth_error (lhs_config L samples) k = Some (lhs_set L (Z.of_nat k) s)).
    { unfold lhs_config. rewrite nth_error_map.
      assert (G : forall l (i : Z) k, nth_error (enumerate_from i l) k = option_map (fun a => (i + Z.of_nat k, a)) (@nth_error (list Q) l k)).
      { clear. induction l as [|a l IH]; intros i [|k]; cbn [enumerate_from nth_error option_map]; try reflexivity.
        - rewrite Z.add_0_r. reflexivity.
        - rewrite IH. destruct (nth_error l k); [|reflexivity]. cbn [option_map]. do 2 f_equal. lia. }
      rewrite G, Es. reflexivity. }
    rewrite E0, nth_error_map, Ep in A. cbn [option_map] in A. congruence. }
  assert (p2 = p) as -> by congruence. exact W.
Qed.

(** ** Cartesian designs *)

Definition cart6 (L : levels) : list set_parameters :=
  flat_map (fun n =>
  flat_map (fun largest =>
  flat_map (fun ratio =>
  flat_map (fun pricing =>
  flat_map (fun impressions =>
  map (fun overlap =>
    {| fp_name := ""; fp_num_publishers := n; fp_largest := largest; fp_ratio := ratio;
       fp_pricing := pricing; fp_impressions := impressions; fp_overlap := overlap; fp_id := "" |})
  (lv_overlap L)) (lv_impressions L)) (lv_pricing L)) (lv_ratio L)) (lv_largest L))
  (lv_num_publishers L).

Lemma map_flat_map {A B C} (g : B -> C) (f : A -> list B) l : map g (flat_map f l) = flat_map (fun a => map g (f a)) l.
Proof. induction l as [|a l IH]; [reflexivity|]. cbn [flat_map]. rewrite map_app, IH. reflexivity. Qed.
Lemma flat_map_same {A B} (f g : A -> list B) l : (forall a, f a = g a) -> flat_map f l = flat_map g l.
Proof. intros H. induction l as [|a l IH]; [reflexivity|]. cbn [flat_map]. rewrite H, IH. reflexivity. Qed.
Lemma flat_map_len {A B} (f : A -> list B) n l : (forall a, length (f a) = n) -> length (flat_map f l) = (length l * n)%nat.
Proof. intros H. induction l as [|a l IH]; [reflexivity|]. cbn [flat_map length]. rewrite app_length, H, IH. reflexivity. Qed.

Lemma cartesian_cart6 L : cartesian_config L = map Ok (cart6 L).
Proof.
  unfold cartesian_config, cart6. rewrite map_flat_map. apply flat_map_same. intros a1.
  rewrite map_flat_map. apply flat_map_same. intros a2. rewrite map_flat_map. apply flat_map_same. intros a3.
  rewrite map_flat_map. apply flat_map_same. intros a4. rewrite map_flat_map. apply flat_map_same. intros a5.
  rewrite map_map. reflexivity.
Qed.

Lemma cart6_length L : length (cart6 L) =
  (length (lv_num_publishers L) * (length (lv_largest L) * (length (lv_ratio L) * (length (lv_pricing L) *
   (length (lv_impressions L) * length (lv_overlap L))))))%nat.
Proof.
  unfold cart6. apply flat_map_len. intros a1. apply flat_map_len. intros a2. apply flat_map_len. intros a3.
  apply flat_map_len. intros a4. apply flat_map_len. intros a5. apply map_length.
Qed.

Lemma cart6_in L p : In p (cart6 L) <-> combination L p.
Proof.
  unfold cart6, combination. split.
  - intros I. apply in_flat_map in I. destruct I as [a1 [I1 I]]. apply in_flat_map in I. destruct I as [a2 [I2 I]].
    apply in_flat_map in I. destruct I as [a3 [I3 I]]. apply in_flat_map in I. destruct I as [a4 [I4 I]].
    apply in_flat_map in I. destruct I as [a5 [I5 I]]. apply in_map_iff in I. destruct I as [a6 [<- I6]].
    cbn [fp_name fp_id fp_num_publishers fp_largest fp_ratio fp_pricing fp_impressions fp_overlap]. auto 10.
  - destruct p as [nm n N r a b c i].
    cbn [fp_name fp_id fp_num_publishers fp_largest fp_ratio fp_pricing fp_impressions fp_overlap].
    intros [-> [-> [I1 [I2 [I3 [I4 [I5 I6]]]]]]].
    apply in_flat_map. exists n. split; [exact I1|]. apply in_flat_map. exists N. split; [exact I2|].
    apply in_flat_map. exists r. split; [exact I3|]. apply in_flat_map. exists a. split; [exact I4|].
    apply in_flat_map. exists b. split; [exact I5|]. apply in_map_iff. exists c. split; [reflexivity|exact I6].
Qed.

(** Pairwise different, as a list in order. *)
Definition apart {A} (same : A -> A -> Prop) (l : list A) : Prop := ForallOrdPairs (fun a b => ~ same a b) l.

Lemma pairwise_apart {A} (same : A -> A -> Prop) l : pairwise_different same l -> apart same l.
Proof.
  unfold apart. induction l as [|a l IH]; intros H; [constructor|]. constructor.
  - apply Forall_forall. intros b Ib Sb. apply In_nth_error in Ib. destruct Ib as [k Ek].
    specialize (H 0%nat (S k) a b eq_refl Ek Sb). discriminate.
  - apply IH. intros i j x y Hx Hy Sm. specialize (H (S i) (S j) x y Hx Hy Sm). lia.
Qed.
Lemma apart_pairwise {A} (same : A -> A -> Prop) l : (forall a b, same a b -> same b a) ->
  apart same l -> pairwise_different same l.
Proof.
  intros Sym H. unfold apart in H. induction H as [|a l Ha H IH]; intros i j x y Hx Hy S; [destruct i; discriminate|].
  rewrite Forall_forall in Ha.
  destruct i as [|i], j as [|j]; cbn [nth_error] in Hx, Hy; [reflexivity| | |].
  - exfalso. inversion Hx; subst. exact (Ha y (nth_error_In _ _ Hy) S).
  - exfalso. inversion Hy; subst. exact (Ha x (nth_error_In _ _ Hx) (Sym _ _ S)).
  - f_equal. exact (IH i j x y Hx Hy S).
Qed.
Lemma apart_app {A} (same : A -> A -> Prop) l l' : apart same l -> apart same l' ->
  (forall a b, In a l -> In b l' -> ~ same a b) -> apart same (l ++ l').
Proof.
  unfold apart. intros H H' C. induction H as [|a l Ha H IH]; [exact H'|]. cbn [app]. constructor.
  - apply Forall_app. split; [exact Ha|]. apply Forall_forall. intros b Ib. apply C; [left; reflexivity|exact Ib].
  - apply IH. intros x y Ix. apply C. right. exact Ix.
Qed.
Lemma apart_flat_map {A B} (sa : A -> A -> Prop) (sb : B -> B -> Prop) f l : apart sa l ->
  (forall a, In a l -> apart sb (f a)) ->
  (forall a b x y, In x (f a) -> In y (f b) -> sb x y -> sa a b) -> apart sb (flat_map f l).
Proof.
  intros H Hf D. unfold apart in H. induction H as [|a l Ha H IH]; [constructor|]. cbn [flat_map].
  apply apart_app; [apply Hf; left; reflexivity|apply IH; intros; apply Hf; right; assumption|].
  intros x y Ix Iy S. apply in_flat_map in Iy. destruct Iy as [b [Ib Iy]]. rewrite Forall_forall in Ha.
  exact (Ha b Ib (D a b x y Ix Iy S)).
Qed.
Lemma apart_map {A B} (sa : A -> A -> Prop) (sb : B -> B -> Prop) f l : apart sa l ->
  (forall a b, sb (f a) (f b) -> sa a b) -> apart sb (map f l).
Proof.
  intros H D. unfold apart in H. induction H as [|a l Ha H IH]; [constructor|]. cbn [map]. constructor; [|exact IH].
  apply Forall_forall. intros y Iy S. apply in_map_iff in Iy. destruct Iy as [b [<- Ib]]. rewrite Forall_forall in Ha.
  exact (Ha b Ib (D a b S)).
Qed.

Lemma same_number_sym a b : same_number a b -> same_number b a.
Proof. destruct a, b; cbn [same_number]; auto; intros; symmetry; assumption. Qed.
Lemma same_value_sym a b : same_value a b -> same_value b a.
Proof. destruct a, b; cbn [same_value]; auto. apply same_number_sym. Qed.
Lemma same_kwargs_sym a b : same_kwargs a b -> same_kwargs b a.
Proof.
  unfold same_kwargs. intros H. induction H as [|x y l l' [H1 H2] H IH]; [constructor|].
  constructor; [split; [auto|apply same_value_sym; exact H2]|exact IH].
Qed.
Lemma same_generator_sym a b : same_generator a b -> same_generator b a.
Proof. intros [H1 H2]. split; [auto|apply same_kwargs_sym; exact H2]. Qed.
Lemma same_set_sym a b : same_set a b -> same_set b a.
Proof.
  intros [H1 [H2 [H3 [H4 [H5 [H6 H7]]]]]]. unfold same_set.
  auto 10 using same_number_sym, same_generator_sym.
Qed.

Lemma NoDup_apart {A} (l : list A) : NoDup l -> apart eq l.
Proof.
  unfold apart. intros H. induction H as [|a l Ha H IH]; constructor; [|exact IH].
  apply Forall_forall. intros b Ib <-. exact (Ha Ib).
Qed.

Lemma cart6_different L : different_levels L -> pairwise_different same_set (cart6 L).
Proof.
  intros [D1 [D2 [D3 [D4 [D5 D6]]]]]. apply apart_pairwise; [exact same_set_sym|]. unfold cart6.
  apply pairwise_apart in D3, D4, D5, D6. apply NoDup_apart in D1, D2.
  Ltac unpack H := repeat (apply in_flat_map in H; destruct H as [? [_ H]]); apply in_map_iff in H; destruct H as [? [<- _]].
  apply (apart_flat_map eq); [exact D1| |intros a b x y Hx Hy S; unpack Hx; unpack Hy; apply S].
  intros n _. apply (apart_flat_map eq); [exact D2| |intros a b x y Hx Hy S; unpack Hx; unpack Hy; apply S].
  intros N _. apply (apart_flat_map same_number); [exact D3| |intros a b x y Hx Hy S; unpack Hx; unpack Hy; apply S].
  intros r _. apply (apart_flat_map same_generator); [exact D4| |intros a b x y Hx Hy S; unpack Hx; unpack Hy; apply S].
  intros c _. apply (apart_flat_map same_generator); [exact D5| |intros a b x y Hx Hy S; unpack Hx; unpack Hy; apply S].
  intros d _. apply (apart_map same_generator); [exact D6|intros a b S; apply S].
Qed.

Lemma different_names F ps : tells_floats_apart F -> Forall (plain_set F) ps ->
  pairwise_different same_set ps -> NoDup (map (set_name_of F) ps).
Proof.
  intros T Pl D. rewrite Forall_forall in Pl. apply NoDup_nth_error. intros i j Hi E. rewrite map_length in Hi.
  rewrite !nth_error_map in E. destruct (nth_error ps i) as [a|] eqn:Ea; [|apply nth_error_None in Ea; lia].
  destruct (nth_error ps j) as [b|] eqn:Eb; [|discriminate]. cbn [option_map] in E.
  assert (E' : set_name_of F a = set_name_of F b) by congruence. apply str_inj in E'.
  apply (D i j a b Ea Eb). apply (set_apart F); [exact T| | |exact E']; apply Pl; eapply nth_error_In; eassumption.
Qed.
