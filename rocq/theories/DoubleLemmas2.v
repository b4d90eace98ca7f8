(** Lemmas on privacy accounting in double precision. *)
From Coq Require Import String Lqa Qfield Qabs Qpower.
From Verif Require Import Prelude DataLemmas ModelReachPoint ModelData ModelPrivacy SpecPrivacy PrivacyLemmas ModelHalo
  SpecHalo ModelStrategy HaloLemmas ModelDouble SpecDouble DoubleLemmas.
Notation length := List.length.
Open Scope Z_scope.

Local Open Scope Q_scope.
Notation ur := unit_error.

(** ** Several rounding errors *)

Lemma ur_pos : 0 < ur.
Proof. reflexivity. Qed.
Lemma ur_lt1 : ur < 1.
Proof. reflexivity. Qed.
Lemma low_pos n : 0 < (1 - ur) ^ Z.of_nat n.
Proof. apply Qpower_0_lt. reflexivity. Qed.
Lemma high_pos n : 0 < (1 + ur) ^ Z.of_nat n.
Proof. apply Qpower_0_lt. reflexivity. Qed.
Lemma low_S n : (1 - ur) ^ Z.of_nat (S n) == (1 - ur) * (1 - ur) ^ Z.of_nat n.
Proof. rewrite Nat2Z.inj_succ, <- Z.add_1_l. rewrite Qpower_plus by discriminate. reflexivity. Qed.
Lemma high_S n : (1 + ur) ^ Z.of_nat (S n) == (1 + ur) * (1 + ur) ^ Z.of_nat n.
Proof. rewrite Nat2Z.inj_succ, <- Z.add_1_l. rewrite Qpower_plus by discriminate. reflexivity. Qed.
Lemma low_le1 n : (1 - ur) ^ Z.of_nat n <= 1.
Proof.
  induction n as [|n IH]; [discriminate|]. rewrite low_S. pose proof (low_pos n). pose proof ur_pos.
  pose proof (Qmult_le_0_compat ur _ (Qlt_le_weak _ _ ur_pos) (Qlt_le_weak _ _ (low_pos n))). lra.
Qed.
Lemma high_ge1 n : 1 <= (1 + ur) ^ Z.of_nat n.
Proof.
  induction n as [|n IH]; [discriminate|]. rewrite high_S.
  pose proof (Qmult_le_0_compat ur _ (Qlt_le_weak _ _ ur_pos) (Qlt_le_weak _ _ (high_pos n))). lra.
Qed.

Lemma up_to_compat n x x' r r' : x == x' -> r == r' -> up_to n x r -> up_to n x' r'.
Proof. unfold up_to. intros E F. rewrite E, F. exact (fun H => H). Qed.
Lemma up_to_refl n x : 0 <= x -> up_to n x x.
Proof.
  intros H. unfold up_to. pose proof (low_le1 n). pose proof (high_ge1 n).
  split.
  - rewrite <- (Qmult_1_r x) at 2. rewrite !(Qmult_comm x). apply Qmult_le_compat_r; assumption.
  - rewrite <- (Qmult_1_r x) at 1. rewrite !(Qmult_comm x). apply Qmult_le_compat_r; assumption.
Qed.
Lemma up_to_nonneg n x r : 0 <= x -> up_to n x r -> 0 <= r.
Proof.
  intros H [A _]. pose proof (low_pos n) as P.
  pose proof (Qmult_le_0_compat x _ H (Qlt_le_weak _ _ P)). lra.
Qed.
Lemma up_to_add n x y r s : up_to n x r -> up_to n y s -> up_to n (x + y) (r + s).
Proof. unfold up_to. intros [A B] [C D]. split; lra. Qed.
Lemma up_to_S n x r : 0 <= x -> up_to n x r -> up_to (S n) x r.
Proof.
  intros H [A B]. unfold up_to. rewrite low_S, high_S.
  pose proof (Qmult_le_0_compat x _ H (Qlt_le_weak _ _ (low_pos n))) as P.
  pose proof (Qmult_le_0_compat x _ H (Qlt_le_weak _ _ (high_pos n))) as P'.
  pose proof (Qmult_le_0_compat ur _ (Qlt_le_weak _ _ ur_pos) P).
  pose proof (Qmult_le_0_compat ur _ (Qlt_le_weak _ _ ur_pos) P'). split; lra.
Qed.
Lemma up_to_le n m x r : (n <= m)%nat -> 0 <= x -> up_to n x r -> up_to m x r.
Proof. intros L. induction L; auto. intros. apply up_to_S; auto. Qed.
Lemma up_to_round n x r : 0 <= x -> up_to n x r -> fine r -> up_to (S n) x (double r).
Proof.
  intros H U F. pose proof (up_to_nonneg n x r H U) as N. destruct (double_relative r N F) as [A B].
  destruct U as [C D]. unfold up_to. rewrite low_S, high_S.
  assert (L : 0 <= 1 - ur) by discriminate. assert (L' : 0 <= 1 + ur) by discriminate.
  pose proof (Qmult_le_compat_r _ _ (1 - ur) C L). pose proof (Qmult_le_compat_r _ _ (1 + ur) D L').
  split; lra.
Qed.
Lemma up_to_scale n x r c : 0 <= c -> up_to n x r -> up_to n (c * x) (c * r).
Proof.
  intros H [A B]. unfold up_to. split.
  - rewrite <- Qmult_assoc, !(Qmult_comm c). apply Qmult_le_compat_r; assumption.
  - rewrite <- Qmult_assoc, !(Qmult_comm c). apply Qmult_le_compat_r; assumption.
Qed.
Lemma low_add m n : (1 - ur) ^ Z.of_nat (m + n) == (1 - ur) ^ Z.of_nat m * (1 - ur) ^ Z.of_nat n.
Proof. rewrite Nat2Z.inj_add. apply Qpower_plus. discriminate. Qed.
Lemma high_add m n : (1 + ur) ^ Z.of_nat (m + n) == (1 + ur) ^ Z.of_nat m * (1 + ur) ^ Z.of_nat n.
Proof. rewrite Nat2Z.inj_add. apply Qpower_plus. discriminate. Qed.
Lemma up_to_trans m n x r s : up_to m x r -> up_to n r s -> up_to (m + n) x s.
Proof.
  intros [A B] [C D]. unfold up_to. rewrite low_add, high_add.
  pose proof (Qmult_le_compat_r _ _ _ A (Qlt_le_weak _ _ (low_pos n))).
  pose proof (Qmult_le_compat_r _ _ _ B (Qlt_le_weak _ _ (high_pos n))). split; lra.
Qed.

(** ** Sums *)

Definition add_fl (acc e : Q) : Q := double (acc + e).

Lemma fold_double l : forall a, is_double a -> is_double (fold_left add_fl l a).
Proof. induction l as [|x l IH]; intros a H; [exact H|]. apply IH. apply double_is_double. Qed.

Lemma fold_up_to l : Forall (fun e => is_double e /\ 0 <= e) l -> forall n x a,
  0 <= x -> is_double a -> up_to n x a -> up_to (n + length l) (x + Qsum l) (fold_left add_fl l a).
Proof.
  induction 1 as [|e l [He Hp] Hl IH]; intros n x a Hx Ha U.
  - cbn. rewrite Nat.add_0_r. apply (up_to_compat n x _ a a); [ring|reflexivity|exact U].
  - cbn [fold_left Qsum length]. rewrite <- plus_n_Sm.
    assert (U' : up_to (S n) (x + e) (add_fl a e)).
    { apply up_to_round; [lra| |apply sum_fine; assumption].
      apply up_to_add; [exact U|apply up_to_refl; exact Hp]. }
    assert (Hxe : 0 <= x + e) by lra.
    pose proof (IH (S n) (x + e) (add_fl a e) Hxe (double_is_double _) U') as G.
    apply (up_to_compat (S n + length l) (x + e + Qsum l) _ (fold_left add_fl l (add_fl a e)) _); [cbn; ring|reflexivity|exact G].
Qed.

(** The first addition is exact. *)
Lemma sum_up_to l : Forall (fun e => is_double e /\ 0 <= e) l ->
  up_to (pred (length l)) (Qsum l) (fold_left add_fl l 0).
Proof.
  intros H. destruct l as [|e l]; [apply up_to_refl; apply Qle_refl|].
  pose proof (Forall_inv H) as [He Hp]. pose proof (Forall_inv_tail H) as Hl.
  cbn [fold_left length pred]. 
  assert (E : add_fl 0 e == e).
  { unfold add_fl. rewrite (double_proper (0 + e) e) by ring. apply double_exact. exact He. }
  pose proof (fold_up_to l Hl 0 e (add_fl 0 e) Hp (double_is_double _)
                (up_to_compat 0 e e e _ ltac:(reflexivity) ltac:(symmetry; exact E) (up_to_refl 0 e Hp))) as G.
  exact G.
Qed.

Lemma fold_mono l : Forall (fun e => 0 <= e) l -> forall a, is_double a -> a <= fold_left add_fl l a.
Proof.
  induction 1 as [|e l He Hl IH]; intros a Ha; [apply Qle_refl|].
  cbn [fold_left]. apply Qle_trans with (add_fl a e); [|apply IH; apply double_is_double].
  unfold add_fl. rewrite <- (double_exact a Ha) at 1. apply double_mono. lra.
Qed.

(** ** The tracker *)

(** The amounts of the events that cover a point. *)
Definition covering_fl (sel : budget -> Q) (x : Q) (es : list noising_event) : list Q :=
  map (fun e => sel (ev_budget e)) (filter (fun e => contains_fl double (ev_buckets e) x) es).

Lemma consumption_fold sel (Hs : is_sel sel) x es : forall acc a, sel acc = a ->
  sel (fold_left (fun acc e =>
    if contains_fl double (ev_buckets e) x
    then {| epsilon := double (epsilon acc + epsilon (ev_budget e));
            delta := double (delta acc + delta (ev_budget e)) |}
    else acc) es acc) = fold_left add_fl (covering_fl sel x es) a.
Proof.
  induction es as [|e es IH]; intros acc a E; [exact E|].
  cbn [fold_left covering_fl filter map]. unfold covering_fl. cbn [filter].
  destruct (contains_fl double (ev_buckets e) x); cbn [map fold_left]; apply IH; [|exact E].
  subst a. destruct Hs as [-> | ->]; reflexivity.
Qed.
Lemma consumption_at_fl_sel sel x t : is_sel sel ->
  sel (consumption_at_fl double t x) = fold_left add_fl (covering_fl sel x (tr_events t)) 0.
Proof. intros Hs. apply (consumption_fold sel Hs). destruct Hs as [-> | ->]; reflexivity. Qed.

Lemma py_max2_facts a b : a <= py_max2 a b /\ b <= py_max2 a b /\ (py_max2 a b = a \/ py_max2 a b = b).
Proof.
  unfold py_max2. destruct (Qltb a b) eqn:E; [apply Qltb_lt in E|apply Qltb_ge in E].
  - split; [lra|]. split; [lra|]. right; reflexivity.
  - split; [lra|]. split; [lra|]. left; reflexivity.
Qed.

(** Maximum over a list of points, for the rounded and the exact tracker alike. *)
Lemma max_fold sel (Hs : is_sel sel) (f : Q -> budget) l : forall acc,
  let m := sel (fold_left (fun acc x =>
     {| epsilon := py_max2 (epsilon acc) (epsilon (f x)); delta := py_max2 (delta acc) (delta (f x)) |}) l acc) in
  sel acc <= m /\ (forall x, In x l -> sel (f x) <= m) /\ (m = sel acc \/ exists x, In x l /\ m = sel (f x)).
Proof.
  induction l as [|y l IH]; intros acc; cbn [fold_left].
  - cbv zeta. split; [apply Qle_refl|]. split; [intros x []|left; reflexivity].
  - set (acc' := {| epsilon := _; delta := _ |}). specialize (IH acc'). cbv zeta in IH |- *.
    set (m := sel (fold_left _ l acc')) in *. destruct IH as (A & B & C).
    assert (E : sel acc' = py_max2 (sel acc) (sel (f y))) by (destruct Hs as [-> | ->]; reflexivity).
    rewrite E in A, C. destruct (py_max2_facts (sel acc) (sel (f y))) as (P1 & P2 & P3).
    split; [lra|]. split.
    + intros x [->|Hx]; [lra|apply B; exact Hx].
    + destruct C as [C|(x & Hx & C)].
      * rewrite C. destruct P3 as [-> | ->]; [left; reflexivity|]. right. exists y. split; [left; reflexivity|reflexivity].
      * right. exists x. split; [right; exact Hx|exact C].
Qed.

Lemma consumption_fl_facts sel t : is_sel sel ->
  let c := sel (privacy_consumption_fl double t) in
  0 <= c /\ (forall x, In x (tr_starts t) -> sel (consumption_at_fl double t x) <= c) /\
  (c = 0 \/ exists x, In x (tr_starts t) /\ c = sel (consumption_at_fl double t x)).
Proof.
  intros Hs. cbv zeta.
  destruct (max_fold sel Hs (consumption_at_fl double t) (tr_starts t) {| epsilon := 0; delta := 0 |}) as (A & B & C).
  cbv zeta in A, B, C. replace (sel {| epsilon := 0; delta := 0 |}) with 0 in A, C by (destruct Hs as [-> | ->]; reflexivity).
  split; [exact A|]. split; [exact B|exact C].
Qed.
Lemma consumption_facts sel t : is_sel sel ->
  let c := sel (privacy_consumption t) in
  0 <= c /\ (forall x, In x (tr_starts t) -> sel (consumption_at t x) <= c) /\
  (c = 0 \/ exists x, In x (tr_starts t) /\ c = sel (consumption_at t x)).
Proof.
  intros Hs. cbv zeta.
  destruct (max_fold sel Hs (consumption_at t) (tr_starts t) {| epsilon := 0; delta := 0 |}) as (A & B & C).
  cbv zeta in A, B, C. replace (sel {| epsilon := 0; delta := 0 |}) with 0 in A, C by (destruct Hs as [-> | ->]; reflexivity).
  split; [exact A|]. split; [exact B|exact C].
Qed.

Lemma covering_ok sel x es : is_sel sel -> Forall double_event es ->
  Forall (fun e => is_double e /\ 0 <= e) (covering_fl sel x es).
Proof.
  intros Hs H. unfold covering_fl. apply Forall_forall. intros y Hy. apply in_map_iff in Hy.
  destruct Hy as (e & <- & He). apply filter_In in He. destruct He as [He _].
  rewrite Forall_forall in H. destruct (H e He) as (A & B & C & D). destruct Hs as [-> | ->]; split; assumption.
Qed.
Lemma covering_nonneg sel x es : is_sel sel -> Forall double_event es -> Forall (fun e => 0 <= e) (covering_fl sel x es).
Proof. intros Hs H. eapply Forall_impl; [|apply (covering_ok sel x es Hs H)]. intros a [_ A]. exact A. Qed.

Lemma tracker_app es es' : tracker_of (es ++ es') = fold_left append es' (tracker_of es).
Proof. apply fold_left_app. Qed.
Lemma starts_grow es' : forall t x, In x (tr_starts t) -> In x (tr_starts (fold_left append es' t)).
Proof.
  induction es' as [|e es' IH]; intros t x H; [exact H|]. apply IH. cbn. unfold set_addQ.
  destruct (existsb _ _); [exact H|]. apply in_or_app. left. exact H.
Qed.

Lemma consumption_fl_grows sel es es' : is_sel sel -> Forall double_event es' ->
  sel (privacy_consumption_fl double (tracker_of es)) <= sel (privacy_consumption_fl double (tracker_of (es ++ es'))).
Proof.
  intros Hs H. destruct (consumption_fl_facts sel (tracker_of es) Hs) as (A & _ & C).
  destruct (consumption_fl_facts sel (tracker_of (es ++ es')) Hs) as (A' & B' & _).
  destruct C as [C|(x & Hx & C)]; [rewrite C; exact A'|]. rewrite C.
  assert (Hx' : In x (tr_starts (tracker_of (es ++ es')))) by (rewrite tracker_app; apply starts_grow; exact Hx).
  eapply Qle_trans; [|apply (B' x Hx')].
  rewrite !consumption_at_fl_sel, !tracker_of_events by exact Hs.
  unfold covering_fl. rewrite filter_app, map_app, fold_left_app. apply fold_mono.
  - apply (covering_nonneg sel x es' Hs H).
  - apply fold_double. apply is_double_0.
Qed.

Lemma Qltb_eq a b c : b == c -> Qltb a b = Qltb a c.
Proof.
  intros E. destruct (Qltb a c) eqn:F; [apply Qltb_lt in F; apply Qltb_lt; lra|apply Qltb_ge in F; apply Qltb_ge; lra].
Qed.
Lemma contains_exact e x : exact_range e -> contains_fl double (ev_buckets e) x = contains (ev_buckets e) x.
Proof.
  intros [A B]. unfold contains_fl, contains. cbv zeta. pose proof (double_exact _ A) as E.
  destruct (Qleb _ x); apply Qltb_eq; [exact E|].
  rewrite E. apply double_exact. exact B.
Qed.

Definition covering (sel : budget -> Q) (x : Q) (es : list noising_event) : list Q :=
  map (fun e => sel (ev_budget e)) (filter (fun e => contains (ev_buckets e) x) es).
Lemma covering_eq sel x es : Forall exact_range es -> covering_fl sel x es = covering sel x es.
Proof.
  induction 1 as [|e es H Hl IH]; [reflexivity|]. unfold covering_fl, covering in *. cbn [filter].
  rewrite (contains_exact e x H). destruct (contains (ev_buckets e) x); cbn [map]; rewrite IH; reflexivity.
Qed.
Lemma total_covering sel x es : total_at_fn sel x es == Qsum (covering sel x es).
Proof.
  induction es as [|e es IH]; [reflexivity|]. unfold covering in *. cbn [filter total_at_fn].
  destruct (contains (ev_buckets e) x); cbn [map Qsum]; rewrite IH; ring.
Qed.
Lemma covering_len sel x es : (length (covering sel x es) <= length es)%nat.
Proof.
  unfold covering. rewrite map_length. induction es as [|e es IH]; [apply Nat.le_refl|]. cbn [filter].
  destruct (contains (ev_buckets e) x); cbn [length]; lia.
Qed.

Lemma consumption_at_up_to sel x es : is_sel sel -> Forall double_event es -> Forall exact_range es ->
  up_to (pred (length es)) (sel (consumption_at (tracker_of es) x)) (sel (consumption_at_fl double (tracker_of es) x)).
Proof.
  intros Hs H R. rewrite consumption_at_fl_sel, tracker_of_events, (covering_eq sel x es R) by exact Hs.
  pose proof (covering_ok sel x es Hs H) as K. rewrite (covering_eq sel x es R) in K.
  pose proof (sum_up_to _ K) as U. pose proof (covering_len sel x es) as L.
  assert (N : 0 <= Qsum (covering sel x es)).
  { apply Qsum_nonneg. intros y Hy. rewrite Forall_forall in K. apply (K y Hy). }
  apply (up_to_compat _ (Qsum (covering sel x es)) _ (fold_left add_fl (covering sel x es) 0) _).
  - rewrite (consumption_at_sel sel) by exact Hs. rewrite tracker_of_events, total_covering. reflexivity.
  - reflexivity.
  - apply (up_to_le (pred (length (covering sel x es)))); [lia|exact N|exact U].
Qed.

Lemma consumption_up_to sel es : is_sel sel -> Forall double_event es -> Forall exact_range es ->
  up_to (pred (length es)) (sel (privacy_consumption (tracker_of es))) (sel (privacy_consumption_fl double (tracker_of es))).
Proof.
  intros Hs H R. set (n := pred (length es)).
  destruct (consumption_facts sel (tracker_of es) Hs) as (A & B & C).
  destruct (consumption_fl_facts sel (tracker_of es) Hs) as (A' & B' & C').
  set (c := sel (privacy_consumption (tracker_of es))) in *.
  set (c' := sel (privacy_consumption_fl double (tracker_of es))) in *.
  pose proof (low_pos n) as LP. pose proof (high_pos n) as HP.
  assert (U : forall x, up_to n (sel (consumption_at (tracker_of es) x)) (sel (consumption_at_fl double (tracker_of es) x)))
    by (intros x; apply consumption_at_up_to; assumption).
  split.
  - destruct C as [C|(x & Hx & C)].
    + rewrite C. lra.
    + rewrite C. destruct (U x) as [U1 _]. pose proof (B' x Hx). lra.
  - destruct C' as [C'|(x & Hx & C')].
    + rewrite C'. apply Qmult_le_0_compat; lra.
    + rewrite C'. destruct (U x) as [_ U2]. pose proof (B x Hx) as K.
      apply (Qle_trans _ _ _ U2). apply Qmult_le_compat_r; lra.
Qed.
