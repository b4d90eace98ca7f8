(** C58: budgets, prices and spends in double precision. *)
From Coq Require Import String Lqa Qfield Qabs Qpower Permutation.
From Verif Require Import Prelude DataLemmas DataLemmas2 DataLemmas3 SpecData ModelReachPoint ModelData ModelGenerators ModelPrivacy
  SpecPrivacy PrivacyLemmas ModelHalo SpecHalo ModelStrategy ModelTestPoints HaloLemmas HaloLemmas2 PropsData PropsHalo
  ModelDouble SpecDouble DoubleLemmas DoubleLemmas2 DoubleLemmas3 DoubleLemmas4 DoubleLemmas5.
Notation length := List.length.
Open Scope Z_scope.
Local Open Scope Q_scope.

(** ** Rounding *)

(** The function the model rounds with is the rounding of double precision: the nearest
    double, the even one of two, and there is no other. *)
Theorem C58_rounding : forall x d, rounded x d <-> is_double d /\ d == double x.
Proof.
  intros x d. split.
  - intros H. split; [apply H|apply rounded_unique; exact H].
  - intros [_ E]. destruct (double_rounded x) as [A B]. split; [apply (is_double_compat (double x)); [symmetry; exact E|exact A]|].
    intros y Hy. destruct (B y Hy) as [C D].
    assert (F : Qabs (d - x) == Qabs (double x - x)) by (rewrite E; reflexivity).
    rewrite F. split; [exact C|]. intros G. destruct (D G) as [K|K]; [left; rewrite E; exact K|].
    right. apply (even_double_compat (double x)); [symmetry; exact E|exact K].
Qed.
Print Assumptions C58_rounding.

(** It keeps doubles and the order, and errs by one unit at most on numbers that are not tiny
    and on sums of doubles. *)
Theorem C58_rounding_errors :
  (forall x, is_double x -> double x == x) /\
  (forall x y, x <= y -> double x <= double y) /\
  (forall x, normal x -> up_to 1 x (double x)) /\
  (forall x y, is_double x -> is_double y -> 0 <= x -> 0 <= y -> up_to 1 (x + y) (double (x + y))).
Proof.
  split; [exact double_exact|]. split; [exact double_mono|]. split.
  - intros x H. pose proof (normal_pos x H). apply up_to_round; [lra|apply up_to_refl; lra|]. right; left. exact H.
  - intros x y Hx Hy Nx Ny. apply up_to_round; [lra|apply up_to_refl; lra|]. apply sum_fine; assumption.
Qed.
Print Assumptions C58_rounding_errors.

(** The double next to 1/10, and a sum that is not the double one would write down. *)
Example C58_rounding_example :
  double (1#10) == 3602879701896397 # 36028797018963968 /\
  double (double (1#10) + double (2#10)) == double (3#10) + (1 # 2 ^ 54).
Proof. split; vm_compute; reflexivity. Qed.

(** Without rounding, the definitions are those of the other properties. *)
Theorem C58_same_code :
  (contains_fl (fun x => x) = contains /\ privacy_consumption_fl (fun x => x) = privacy_consumption) /\
  (forall X, @simulated_reach_by_spend_fl (fun x => x) X = @simulated_reach_by_spend X) /\
  (forall X, @m3_fit_fl (fun x => x) X = @m3_fit X) /\
  (forall X, @single_publisher_fit_fl (fun x => x) X = @single_publisher_fit X) /\
  (mk_halo_fl (fun x => x) = mk_halo /\ fixed_price_call_fl (fun x => x) = fixed_price_call /\
   grid_axis_fl (fun x => x) = grid_axis /\ np_mult_fl (fun x => x) = np_mult).
Proof. repeat split. Qed.
Print Assumptions C58_same_code.

(** ** The tracker *)

(** The consumption that is reported is the exact one up to one rounding error for each event
    after the first. *)
Theorem C58_tracker : forall es,
  Forall double_event es -> Forall exact_range es ->
  let c := privacy_consumption (tracker_of es) in
  let r := privacy_consumption_fl double (tracker_of es) in
  up_to (pred (length es)) (epsilon c) (epsilon r) /\ up_to (pred (length es)) (delta c) (delta r).
Proof.
  intros es H R. split; apply consumption_up_to; try assumption; [left|right]; reflexivity.
Qed.
Print Assumptions C58_tracker.

(** It never goes down, whatever the ranges. *)
Theorem C58_tracker_grows : forall es es', Forall double_event es' ->
  epsilon (privacy_consumption_fl double (tracker_of es)) <= epsilon (privacy_consumption_fl double (tracker_of (es ++ es'))) /\
  delta (privacy_consumption_fl double (tracker_of es)) <= delta (privacy_consumption_fl double (tracker_of (es ++ es'))).
Proof. intros es es' H. split; apply consumption_fl_grows; try assumption; [left|right]; reflexivity. Qed.
Print Assumptions C58_tracker_grows.

(** But the order of the events matters: small amounts added first count, added last they may
    be lost. *)
Definition event_of (e : Q) : noising_event := halo_event e 0 "Laplace".
Theorem C58_order_refuted : exists es es',
  Forall double_event es /\ Forall exact_range es /\ Permutation es es' /\
  epsilon (privacy_consumption_fl double (tracker_of es)) < epsilon (privacy_consumption_fl double (tracker_of es')).
Proof.
  exists [event_of 1; event_of (1 # 2 ^ 53); event_of (1 # 2 ^ 53)],
         [event_of (1 # 2 ^ 53); event_of (1 # 2 ^ 53); event_of 1].
  assert (D1 : is_double 1) by (exists 1%Z, 0%Z; split; [split; [reflexivity|discriminate]|reflexivity]).
  assert (D2 : is_double (1 # 2 ^ 53)) by (exists 1%Z, (-53)%Z; split; [split; [reflexivity|discriminate]|reflexivity]).
  assert (V : forall e, is_double e -> 0 <= e -> double_event (event_of e)).
  { intros e A B. split; [exact A|]. split; [exact B|]. split; [apply is_double_0|discriminate]. }
  split; [repeat constructor; apply V; try assumption; discriminate|]. split.
  { repeat constructor; cbn -[Qplus Qminus]; [apply (is_double_compat 1)|apply (is_double_compat 0)|
      apply (is_double_compat 1)|apply (is_double_compat 0)|apply (is_double_compat 1)|apply (is_double_compat 0)];
    try reflexivity; try exact D1; apply is_double_0. }
  split; [|vm_compute; reflexivity].
  apply (Permutation_app_comm [event_of 1] [event_of (1 # 2 ^ 53); event_of (1 # 2 ^ 53)]).
Qed.
Print Assumptions C58_order_refuted.

(** ** The single publisher strategy *)

Lemma run_tracker {X A} (m : M X A) l w : logs m l -> w_tracker w = new_tracker ->
  exists k, w_tracker (snd (m w)) = tracker_of (map ev_of (firstn k l)) /\
            (forall a, fst (m w) = Ok a -> firstn k l = l).
Proof. intros H E. destruct (H w) as [k [T R]]. exists k. rewrite E in T. split; [exact T|exact R]. Qed.

Lemma reported_prefix sel l k : is_sel sel -> Forall (fun e => is_double e /\ 0 <= e) (map (amount sel) l) ->
  sel (privacy_consumption_fl double (tracker_of (map ev_of (firstn k l)))) <= fold_left add_fl (map (amount sel) l) 0.
Proof.
  intros Hs H. rewrite reported.
  - rewrite <- firstn_map. apply fold_prefix. exact H.
  - exact Hs.
  - apply Forall_forall. intros a Ha. rewrite Forall_forall in H. apply (H (amount sel a)).
    apply in_map. rewrite <- (firstn_skipn k l). apply in_or_app. left. exact Ha.
Qed.
Lemma reported_all sel l : is_sel sel -> Forall (fun e => is_double e /\ 0 <= e) (map (amount sel) l) ->
  sel (privacy_consumption_fl double (tracker_of (map ev_of l))) == fold_left add_fl (map (amount sel) l) 0.
Proof.
  intros Hs H. apply reported; [exact Hs|]. apply Forall_forall. intros a Ha. rewrite Forall_forall in H.
  apply (H (amount sel a)). apply in_map. exact Ha.
Qed.

(** On a new tracker the strategy reports exactly the budget, and never more. *)
Theorem C58_single_publisher : forall X S h b (w : world X),
  reports_two_amounts X -> w_tracker w = new_tracker ->
  is_double (epsilon b) -> 0 <= epsilon b -> can_halve (epsilon b) ->
  is_double (delta b) -> 0 <= delta b -> can_halve (delta b) ->
  let run := single_publisher_fit_fl double S h b w in
  let used := privacy_consumption_fl double (w_tracker (snd run)) in
  (epsilon used <= epsilon b /\ delta used <= delta b) /\
  (forall c, fst run = Ok c -> epsilon used == epsilon b /\ delta used == delta b).
Proof.
  intros X S h b w HX Hw E1 E2 E3 D1 D2 D3.
  destruct (Nat.eq_dec (h_publisher_count h) 1) as [P|P].
  - destruct (run_tracker _ _ w (logs_single S h b HX P) Hw) as [k [T Ok']]. cbv zeta.
    assert (G : forall sel, is_sel sel -> is_double (sel b) -> 0 <= sel b -> can_halve (sel b) ->
      Forall (fun e => is_double e /\ 0 <= e) (map (amount sel) (two_amounts b (1#2))) /\
      fold_left add_fl (map (amount sel) (two_amounts b (1#2))) 0 == sel b).
    { intros sel Hs A B C. destruct (requests_total sel b 1 Hs A B C) as [F _]. split; [exact F|].
      pose proof (two_exact sel b Hs A B C) as T2. pose proof (Forall_inv T2) as [T3 _].
      pose proof (Forall_inv (Forall_inv_tail T2)) as [T4 _].
      cbn [two_amounts map fold_left] in T3, T4 |- *. unfold add_fl. rewrite T3, T4.
      rewrite (double_proper (0 + sel b * (1#2)) (sel b * (1#2))) by ring.
      rewrite (double_exact _ (half_double _ A B C)).
      rewrite (double_proper _ (sel b)) by ring. apply double_exact. exact A. }
    destruct (G epsilon (or_introl eq_refl) E1 E2 E3) as [F1 G1].
    destruct (G delta (or_intror eq_refl) D1 D2 D3) as [F2 G2].
    rewrite T. split.
    + split; [rewrite <- G1|rewrite <- G2]; apply reported_prefix; try assumption; [left|right]; reflexivity.
    + intros c Hc. rewrite (Ok' c Hc).
      split; [rewrite <- G1|rewrite <- G2]; apply reported_all; try assumption; [left|right]; reflexivity.
  - cbv zeta. unfold single_publisher_fit_fl. apply Nat.eqb_neq in P. rewrite P. cbn [negb mlift fst snd].
    rewrite Hw. replace (privacy_consumption_fl double new_tracker) with {| epsilon := 0; delta := 0 |} by (vm_compute; reflexivity).
    cbn [epsilon delta]. split; [split; assumption|]. intros c C. discriminate C.
Qed.
Print Assumptions C58_single_publisher.

(** ** The M3 strategy *)

Lemma share_ok x n : (0 < n)%Z -> 0 <= x -> can_share x n ->
  let y := double (x / inject_Z n) in
  is_double y /\ 0 <= y /\ can_halve y /\ up_to 1 x (inject_Z n * y).
Proof.
  intros Hn Hx C y. assert (Pn : 0 < inject_Z n) by (change 0 with (inject_Z 0); rewrite <- Zlt_Qlt; exact Hn).
  assert (Q0 : 0 <= x / inject_Z n) by (apply Qle_shift_div_l; [exact Pn|lra]).
  assert (E : x == inject_Z n * (x / inject_Z n)) by (field; lra).
  split; [apply double_is_double|]. split; [apply double_nonneg; exact Q0|].
  assert (H : can_halve y /\ fine (x / inject_Z n)).
  { destruct C as [Z|L].
    - assert (Z' : x / inject_Z n == 0) by (rewrite Z; field; lra). split; left; [|exact Z'].
      unfold y. apply double_0. exact Z'.
    - assert (L' : 2 ^ (-1021) <= x / inject_Z n) by (apply Qle_shift_div_l; assumption).
      split; right; [|left].
      + unfold y. rewrite <- (double_exact (2 ^ (-1021))); [apply double_mono; exact L'|].
        exists 1%Z, (-1021)%Z. split; [split; [reflexivity|discriminate]|]. change (inject_Z 1) with 1. ring.
      + unfold normal. pose proof (p2_lt (-1022) (-1021) ltac:(lia)). lra. }
  destruct H as [H1 H2]. split; [exact H1|].
  apply (up_to_compat 1 (inject_Z n * (x / inject_Z n)) _ (inject_Z n * y) _); [symmetry; exact E|reflexivity|].
  apply up_to_scale; [lra|]. apply up_to_round; [exact Q0|apply up_to_refl; exact Q0|exact H2].
Qed.

Section M3.
Context (X : externals) (S : modelers) (gt : bool) (h : halo) (b : budget) (w : world X).
Hypothesis HX : reports_two_amounts X.
Hypothesis Hw : w_tracker w = new_tracker.
Let p := h_publisher_count h.
Let q := (2 * p + 1)%nat.
Let run := m3_fit_fl double S gt h b w.

Lemma m3_part sel : is_sel sel -> 0 <= sel b -> can_share (sel b) (Z.of_nat q) ->
  let used := sel (privacy_consumption_fl double (w_tracker (snd run))) in
  let n := m3_count p in
  used <= sel b * (inject_Z (Z.of_nat n) / inject_Z (Z.of_nat q)) * (1 + ur) ^ Z.of_nat (2 * n) /\
  (forall a, fst run = Ok a ->
     up_to (2 * n) (sel b * (inject_Z (Z.of_nat n) / inject_Z (Z.of_nat q))) used).
Proof.
  intros Hs Hb Hc used n.
  destruct (run_tracker _ _ w (logs_m3 S gt h b HX) Hw) as [k [T Ok']].
  fold run in T, Ok'. fold p in T, Ok'. fold n in T, Ok'.
  set (pb := per_request_budget_fl double b p) in *.
  assert (Epb : sel pb = double (sel b / inject_Z (Z.of_nat q))).
  { unfold pb, per_request_budget_fl, q. replace (Z.of_nat (2 * p + 1)) with (2 * Z.of_nat p + 1)%Z by lia.
    destruct Hs as [-> | ->]; reflexivity. }
  destruct (share_ok (sel b) (Z.of_nat q) ltac:(unfold q; lia) Hb Hc) as (S1 & S2 & S3 & S4). cbv zeta in S1, S2, S3, S4.
  rewrite <- Epb in S1, S2, S3, S4.
  destruct (requests_total sel pb n Hs S1 S2 S3) as [F U].
  set (L := concat (repeat (two_amounts pb (1#2)) n)) in *.
  assert (Pq : 0 < inject_Z (Z.of_nat q)) by (change 0 with (inject_Z 0); rewrite <- Zlt_Qlt; unfold q; lia).
  assert (Nn : (1 <= n)%nat) by (unfold n, m3_count; destruct (2 <? p)%nat; lia).
  assert (N0 : 0 <= inject_Z (Z.of_nat n)) by (apply iZ_nonneg; lia).
  assert (V : up_to (2 * n) (sel b * (inject_Z (Z.of_nat n) / inject_Z (Z.of_nat q))) (fold_left add_fl (map (amount sel) L) 0)).
  { replace (2 * n)%nat with (1 + pred (2 * n))%nat by lia. refine (up_to_trans _ _ _ _ _ _ U).
    apply (up_to_compat 1 (inject_Z (Z.of_nat n) / inject_Z (Z.of_nat q) * sel b) _
             (inject_Z (Z.of_nat n) / inject_Z (Z.of_nat q) * (inject_Z (Z.of_nat q) * sel pb)) _); [ring|field; lra|].
    apply up_to_scale; [|exact S4]. apply Qle_shift_div_l; [exact Pq|lra]. }
  split.
  - unfold used. rewrite T. apply (Qle_trans _ (fold_left add_fl (map (amount sel) L) 0)); [|apply V].
    apply reported_prefix; assumption.
  - intros a Ha. unfold used. rewrite T, (Ok' a Ha).
    eapply up_to_compat; [reflexivity|symmetry; apply reported_all; assumption|exact V].
Qed.
End M3.

(** The budget that is reported during and after a fit on a new tracker exceeds the budget by
    no more than 4p+2 rounding errors, and after a fit that completes with more than two
    publishers it is the budget up to these errors. *)
Theorem C58_m3 : forall X S gt h b (w : world X),
  reports_two_amounts X -> w_tracker w = new_tracker ->
  let p := h_publisher_count h in
  let requests := (2 * p + 1)%nat in
  (1 <= p)%nat ->
  0 <= epsilon b -> can_share (epsilon b) (Z.of_nat requests) ->
  0 <= delta b -> can_share (delta b) (Z.of_nat requests) ->
  let run := m3_fit_fl double S gt h b w in
  let used := privacy_consumption_fl double (w_tracker (snd run)) in
  (epsilon used <= epsilon b * (1 + unit_error) ^ Z.of_nat (2 * requests) /\
   delta used <= delta b * (1 + unit_error) ^ Z.of_nat (2 * requests)) /\
  ((p <= 2)%nat -> epsilon used <= epsilon b /\ delta used <= delta b) /\
  ((2 < p)%nat -> forall a, fst run = Ok a ->
     up_to (2 * requests) (epsilon b) (epsilon used) /\ up_to (2 * requests) (delta b) (delta used)).
Proof.
  intros X S gt h b w HX Hw p requests Hp E1 E2 D1 D2 run used.
  assert (G : forall sel, is_sel sel -> 0 <= sel b -> can_share (sel b) (Z.of_nat requests) ->
    sel used <= sel b * (1 + unit_error) ^ Z.of_nat (2 * requests) /\
    ((p <= 2)%nat -> sel used <= sel b) /\
    ((2 < p)%nat -> forall a, fst run = Ok a -> up_to (2 * requests) (sel b) (sel used))).
  { intros sel Hs A B. destruct (m3_part X S gt h b w HX Hw sel Hs A B) as [C D]. cbv zeta in C, D.
    fold run in C, D. fold used in C, D. fold p in C, D. fold requests in C, D.
    pose proof (high_ge1 (2 * requests)) as H1.
    assert (W : sel b <= sel b * (1 + unit_error) ^ Z.of_nat (2 * requests)) by apply (up_to_refl (2 * requests) (sel b) A).
    destruct (2 <? p)%nat eqn:Lt.
    - apply Nat.ltb_lt in Lt.
      assert (N : m3_count p = requests) by (unfold m3_count, requests; apply Nat.ltb_lt in Lt; rewrite Lt; reflexivity).
      rewrite N in C, D.
      assert (Eq : sel b * (inject_Z (Z.of_nat requests) / inject_Z (Z.of_nat requests)) == sel b).
      { assert (0 < inject_Z (Z.of_nat requests)) by (change 0 with (inject_Z 0); rewrite <- Zlt_Qlt; unfold requests; lia). field. lra. }
      rewrite Eq in C. split; [exact C|]. split; [intros K; lia|]. intros _ a Ha.
      eapply up_to_compat; [exact Eq|reflexivity|apply (D a Ha)].
    - assert (Few : sel used <= sel b).
      { apply Nat.ltb_ge in Lt. apply (Qle_trans _ _ _ C).
        rewrite <- (Qmult_1_r (sel b)) at 2. rewrite <- Qmult_assoc, !(Qmult_comm (sel b)).
        apply Qmult_le_compat_r; [|exact A]. unfold requests. clearbody p. clear - Hp Lt.
        assert (p = 1 \/ p = 2)%nat as [-> | ->] by lia; vm_compute; discriminate. }
      split; [lra|]. split; [intros _; exact Few|]. intros K. apply Nat.ltb_ge in Lt. lia. }
  destruct (G epsilon (or_introl eq_refl) E1 E2) as (A1 & A2 & A3).
  destruct (G delta (or_intror eq_refl) D1 D2) as (B1 & B2 & B3).
  split; [split; assumption|]. split.
  - intros K. split; [apply A2; exact K|apply B2; exact K].
  - intros K a Ha. split; [apply (A3 K a Ha)|apply (B3 K a Ha)].
Qed.
Print Assumptions C58_m3.

(** The errors can go either way. With four publishers and epsilon 1 every fit that completes
    reports one unit more than the budget: the statement that a strategy never exceeds its
    budget holds for exact numbers (C23) but not for doubles. *)
Theorem C58_m3_over_budget_refuted : forall X S gt h b (w : world X) a,
  reports_two_amounts X -> w_tracker w = new_tracker ->
  h_publisher_count h = 4%nat -> epsilon b == 1 -> 0 <= delta b ->
  let run := m3_fit_fl double S gt h b w in
  fst run = Ok a ->
  epsilon (privacy_consumption_fl double (w_tracker (snd run))) == 1 + 2 * 2 ^ (-53).
Proof.
  intros X S gt h b w a HX Hw Hp He Hd run Ha.
  destruct (run_tracker _ _ w (logs_m3 S gt h b HX) Hw) as [k [T Ok']]. fold run in T, Ok'.
  rewrite T, (Ok' a Ha), Hp. unfold m3_count. cbn [Nat.ltb Nat.leb].
  change (2 * 4 + 1)%nat with 9%nat. set (pb := per_request_budget_fl double b 4).
  assert (Epb : epsilon pb == double (1 / 9)).
  { unfold pb, per_request_budget_fl. cbn [epsilon]. apply double_proper. change (inject_Z (2 * Z.of_nat 4 + 1)) with 9.
    rewrite He. reflexivity. }
  set (l := concat _).
  assert (N : Forall (fun e => 0 <= e) (map (amount epsilon) l)).
  { unfold l, two_amounts. repeat constructor; unfold amount; cbn [ev_of halo_event ev_budget epsilon fst snd];
    apply double_nonneg; rewrite Epb; vm_compute; discriminate. }
  rewrite (reported epsilon); [|left; reflexivity|].
  2: { apply Forall_forall. intros y Hy. rewrite Forall_forall in N. apply N. apply in_map. exact Hy. }
  set (c := Qred (double (double (1/9) * (1#2)))).
  assert (Ec : Forall (fun e => e == c) (map (amount epsilon) l)).
  { unfold l, two_amounts. repeat constructor; unfold amount; cbn [ev_of halo_event ev_budget epsilon fst snd];
    unfold c; rewrite Qred_correct, Epb; vm_compute; reflexivity. }
  assert (Len : length (map (amount epsilon) l) = 18%nat) by reflexivity.
  clear - Ec Len. generalize dependent (map (amount epsilon) l). intros m Ec Len.
  assert (F : forall m a a', Forall (fun e => e == c) m -> a == a' -> fold_left add_fl m a == fold_left add_fl (repeat c (length m)) a').
  { clear. induction m as [|x m IH]; intros a a' H E; [exact E|]. cbn [length repeat fold_left].
    apply IH; [apply (Forall_inv_tail H)|]. unfold add_fl. apply double_proper. rewrite E, (Forall_inv H). reflexivity. }
  rewrite (F m 0 0 Ec (Qeq_refl 0)), Len. unfold c. vm_compute. reflexivity.
Qed.
Print Assumptions C58_m3_over_budget_refuted.

(** ** Prices *)

Lemma fl_increasing cpi imps : 0 <= cpi -> forall i, increasing_prices (price_from_fl double cpi i imps).
Proof.
  intros Hc. induction imps as [|u imps IH]; intros i; [exact I|].
  destruct imps as [|v imps]; [exact I|]. specialize (IH (i + 1)%Z).
  cbn [price_from_fl increasing_prices snd] in IH |- *. split; [|exact IH].
  apply double_mono. apply Qmult_le_compat_r; [|exact Hc]. rewrite <- Zle_Qle. lia.
Qed.

(** Fixed prices: up to 2^52 impressions the prices stay different, [k] impressions cost the
    double next to [k] times the price, and that amount buys [k] impressions again. *)
Theorem C58_fixed_price : forall cpi imps rn name p,
  normal cpi -> (Z.of_nat (length imps) <= 2 ^ 52)%Z ->
  mk_publisher rn (fixed_price_call_fl double cpi imps) name = Ok p ->
  max_impressions p = Z.of_nat (length imps) /\
  pd_max_spend p == double (inject_Z (max_impressions p) * cpi) /\
  (forall k, (0 <= k <= max_impressions p)%Z ->
     exists c, spend_by_impressions p k = Ok c /\ c == double (inject_Z k * cpi) /\
               up_to 1 (inject_Z k * cpi) c /\ impressions_by_spend p c = k) /\
  (forall j k, (0 <= j < k)%Z -> (k <= max_impressions p)%Z ->
     double (inject_Z j * cpi) < double (inject_Z k * cpi)).
Proof.
  intros cpi imps rn name p Hc HL Hp. pose proof (normal_pos cpi Hc) as Pc.
  set (log := fixed_price_call_fl double cpi imps) in *.
  assert (Hip : is_publisher_of log p) by (exists rn, name; exact Hp).
  assert (Hinc : increasing_prices log) by (apply fl_increasing; lra).
  assert (Ll : length log = length imps) by apply price_fl_length.
  assert (M : max_impressions p = Z.of_nat (length imps)).
  { unfold max_impressions. pose proof Hp as Hp'. apply publisher_fields in Hp'. destruct Hp' as [-> _].
    rewrite sort_rows_length, Ll. reflexivity. }
  assert (Hne : imps <> []) by (intros E; unfold log in Hp; rewrite E in Hp; discriminate Hp).
  assert (L1 : (1 <= length imps)%nat) by (destruct imps; [congruence|cbn; lia]).
  split; [exact M|]. split.
  - destruct (C07_publisher_maxima log p Hip) as [X1 [X2 _]]. rewrite M.
    apply in_map_iff in X1. destruct X1 as [r [X1 X3]]. apply In_nth_error in X3. destruct X3 as [k X3].
    assert (Hk : (k < length imps)%nat).
    { rewrite <- Ll. apply nth_error_Some. rewrite X3. discriminate. }
    unfold log, fixed_price_call_fl in X3. rewrite price_fl_nth in X3 by exact Hk.
    assert (X4 : snd r = double (inject_Z (0 + Z.of_nat k + 1) * cpi)) by (injection X3 as <-; reflexivity).
    apply Qle_antisym.
    + rewrite <- X1, X4. apply double_mono. apply Qmult_le_compat_r; [|lra]. rewrite <- Zle_Qle. lia.
    + pose proof (price_fl_nth cpi imps 0 (length imps - 1) ltac:(lia)) as X5.
      apply nth_error_In in X5. apply X2 in X5. cbn [snd] in X5.
      replace (0 + Z.of_nat (length imps - 1) + 1)%Z with (Z.of_nat (length imps)) in X5 by lia. exact X5.
  - split.
    + intros k Hk. rewrite M in Hk.
      destruct (spend_by_impressions_ok log p k Hip ltac:(lia)) as [c [E W]]. exists c. split; [exact E|].
      assert (Ec : c = double (inject_Z k * cpi)).
      { destruct W as [[-> ->]|[Hk1 [r [R1 R2]]]].
        - unfold double. replace (Qeqb (inject_Z 0 * cpi) 0) with true; [reflexivity|]. symmetry. apply Qeq_bool_iff. ring.
        - rewrite (sort_rows_id log Hinc), Ll in R1. unfold log, fixed_price_call_fl in R1.
          rewrite price_fl_nth in R1 by lia. subst c. injection R1 as <-. cbn [snd].
          replace (Z.of_nat (Z.to_nat (Z.min (Z.of_nat (length imps)) k - 1)) + 1)%Z with k by lia. reflexivity. }
      split; [rewrite Ec; reflexivity|]. split; [rewrite Ec; apply multiple_up_to; [exact Hc|lia]|].
      rewrite (impressions_by_spend_sorted log p c Hip Hinc). unfold bought_at_spend. rewrite Ec.
      pose proof (price_fl_filter cpi k imps Hc ltac:(lia) 0 ltac:(lia) ltac:(lia) ltac:(lia)) as F.
      unfold Qleb in F. unfold log, fixed_price_call_fl. rewrite F, firstn_length, price_fl_length. lia.
    + intros j k Hj Hk. apply multiple_lt; [exact Hc|exact Hj|lia].
Qed.
Print Assumptions C58_fixed_price.

(** ** Spends *)

(** Campaign spends lie between 0 and the maximal spend of the publisher. *)
Theorem C58_campaign_spends : forall d fractions ll h,
  (forall f, In f fractions -> 0 <= f <= 1) ->
  (forall p, In p (ds_data d) -> is_double (pd_max_spend p) /\ 0 <= pd_max_spend p) ->
  mk_halo_fl double d fractions ll = Ok h ->
  forall p, In p (h_publishers h) -> 0 <= pub_campaign_spend p <= pd_max_spend (pub_data p).
Proof.
  intros d fractions ll h Hf Hd H p Hp. unfold mk_halo_fl in H.
  destruct (mapM _ _) as [pubs|e] eqn:E in H; [|discriminate H]. cbn [bind] in H. injection H as <-.
  cbn [h_publishers] in Hp. revert pubs E Hp. generalize (publisher_count d). intros n.
  generalize 0%nat. intros n0. revert n0 n. induction (ds_data d) as [|x l IH]; intros n0 n pubs E Hp.
  - rewrite combine_nil in E. injection E as <-. destruct Hp.
  - destruct n as [|n]; [injection E as <-; destruct Hp|]. cbn [seq combine mapM fst snd] in E.
    destruct (py_index fractions (Z.of_nat n0)) as [f|e] eqn:Ef; [|discriminate E]. cbn [bind] in E.
    destruct (mapM _ (combine (seq (S n0) n) l)) as [rest|e] eqn:Er in E; [|discriminate E]. cbn [bind] in E.
    injection E as <-. destruct Hp as [<-|Hp].
    + cbn [pub_campaign_spend pub_data]. destruct (Hd x (or_introl eq_refl)) as [D1 D2].
      apply fraction_inside; [|exact D2|exact D1]. apply Hf. unfold py_index in Ef.
      cbv zeta in Ef. destruct (_ && _) in Ef; [|discriminate Ef].
      destruct (nth_error fractions _) eqn:Ej in Ef; [|discriminate Ef]. injection Ef as <-. apply (nth_error_In _ _ Ej).
    + apply (IH (fun p Hp => Hd p (or_intror Hp)) (S n0) n rest Er Hp).
Qed.
Print Assumptions C58_campaign_spends.

(** Random test points stay in the box of the maximal spends. *)
Theorem C58_random_points : forall us maxima point,
  (forall u, In u us -> 0 <= u <= 1) -> (forall m, In m maxima -> is_double m /\ 0 <= m) ->
  np_mult_fl double us maxima = Ok point ->
  length point = length maxima /\
  forall j, (j < length maxima)%nat -> 0 <= nth j point 0 <= nth j maxima 0.
Proof.
  intros us maxima point Hu Hm H. unfold np_mult_fl in H.
  destruct (Nat.eqb (length us) (length maxima)) eqn:L; [|discriminate H]. apply Nat.eqb_eq in L. injection H as <-.
  rewrite map_length, combine_length, L, Nat.min_id. split; [reflexivity|]. intros j Hj.
  rewrite (nth_indep _ 0 (double (fst (0, 0) * snd (0, 0)))) by (rewrite map_length, combine_length, L, Nat.min_id; exact Hj).
  rewrite (map_nth (fun p => double (fst p * snd p)) (combine us maxima) (0, 0) j), combine_nth by exact L. cbn [fst snd].
  destruct (Hm (nth j maxima 0) (nth_In _ _ Hj)) as [D1 D2].
  apply fraction_inside; [apply Hu; apply nth_In; lia|exact D2|exact D1].
Qed.
Print Assumptions C58_random_points.

(** The points of a grid stay strictly inside, and different, on grids of up to 2^51 - 1
    points a side and maximal spends that are not tiny. *)
Theorem C58_grid : forall m g,
  (0 <= g)%Z -> (g + 1 <= 2 ^ 51)%Z -> 2 ^ (-1021) * inject_Z (g + 1) <= m ->
  let axis := grid_axis_fl double m g in
  Z.of_nat (length axis) = g /\
  (forall x, In x axis -> 0 < x < m) /\
  (forall i j, (i < j)%nat -> (j < length axis)%nat -> nth i axis 0 < nth j axis 0).
Proof.
  intros m g Hg Hg2 Hm axis.
  assert (L : length axis = Z.to_nat g) by (unfold axis, grid_axis_fl; rewrite map_length, py_range_length; lia).
  assert (N : forall i, (i < length axis)%nat -> nth i axis 0 = grid_at m g (Z.of_nat i + 1)).
  { intros i Hi. rewrite L in Hi. unfold axis, grid_axis_fl.
    rewrite (nth_indep _ 0 (grid_at m g 0)) by (rewrite map_length, py_range_length; lia).
    change (fun k => double (double (m * inject_Z k) / inject_Z (g + 1))) with (grid_at m g).
    rewrite map_nth. f_equal. unfold py_range.
    rewrite (nth_indep _ 0%Z ((fun n => 1 + Z.of_nat n)%Z 0%nat)) by (rewrite map_length, seq_length; lia).
    rewrite (map_nth (fun n => 1 + Z.of_nat n)%Z), seq_nth by lia. lia. }
  split; [lia|]. split.
  - intros x Hx. apply (In_nth _ _ 0) in Hx. destruct Hx as [i [Hi <-]]. rewrite (N i Hi).
    apply (grid_inside m g Hg Hg2 Hm). lia.
  - intros i j Hij Hj. rewrite (N i), (N j) by lia. apply (grid_increasing m g Hg Hg2 Hm); lia.
Qed.
Print Assumptions C58_grid.

(** ** Examples *)

(** The smallest normal number, a price of 1/10 and a budget of 1 meet the hypotheses. *)
Example C58_example_hypotheses :
  normal (double (1#10)) /\ is_double 1 /\ can_halve 1 /\ can_share 1 9 /\ reports_two_amounts ex_externals.
Proof.
  split; [vm_compute; discriminate|]. split; [exists 1%Z, 0%Z; split; [split; [reflexivity|discriminate]|reflexivity]|].
  split; [right; vm_compute; discriminate|]. split; [right; vm_compute; discriminate|]. intros cfg. reflexivity.
Qed.

(** Four publishers: a fit that completes. *)
Definition ex_halo4 : halo :=
  match (pubs <- mapM (fun l => mk_publisher "r" l (Some "p"%string)) [ex_log1; ex_log2; ex_log3; ex_log1] ;;
         d <- mk_data_set pubs (Some "d"%string) None ;; mk_halo_fl double d [1; 1; 1#2; 1]%Q ex_ll) with
  | Ok h => h
  | Err _ => ex_halo
  end.
Example C58_over_budget_example : exists s,
  h_publisher_count ex_halo4 = 4%nat /\
  fst (m3_fit_fl double ex_modelers false ex_halo4 {| epsilon := 1; delta := 0 |} ex_world) = Ok (inr s).
Proof. eexists. split; [vm_compute; reflexivity|]. vm_compute. reflexivity. Qed.

Example C58_price_example : exists p,
  mk_publisher "r" (fixed_price_call_fl double (double (1#10)) [4; 7; 4]%Z) None = Ok p /\
  spend_by_impressions p 3 = Ok (double (3 * double (1#10))) /\
  double (3 * double (1#10)) == double (3#10) + (1 # 2 ^ 54).
Proof. eexists. split; [reflexivity|]. split; vm_compute; reflexivity. Qed.

Example C58_grid_example :
  Forall2 Qeq (grid_axis_fl double 1 2) [double (1#3); double (2#3)].
Proof. repeat constructor; vm_compute; reflexivity. Qed.
