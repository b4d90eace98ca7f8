(** C32, continued: the whole fit of the restricted pairwise surface, with its numbers. *)
From Coq Require Import Permutation Lqa.
From Verif Require Import Prelude ModelReachPoint ModelCurves ModelSurface ModelRestricted SpecSurface SpecRestricted RestrictedLemmas2 PropsSurface PropsRestricted.
Open Scope Q_scope.

(** The start of number n, with at most 1000 rounds that each have to lower the loss by more
    than 1/1000. *)
Definition restricted_start (data : list (Q * (nat -> nat -> Q))) (starts : nat -> list Q) (perms : nat -> nat -> list nat) (n : nat) :=
  fit_one_init_lbd data (perms n) (1 # 1000) 1000 (starts n).

(** Among the ten smallest losses, in ascending order, the largest is less than one percent
    above the smallest. *)
Definition within_one_percent (losses : list (option Q)) : Prop :=
  exists smallest tenth, hd_error losses = Some (Some smallest) /\ last losses None = Some tenth /\ tenth < (101 # 100) * smallest.
(** After [n] starts the ten smallest losses are [losses]. *)
Definition ten_best (start : nat -> result (list Q * Q * bool)) (n : nat) (losses : list (option Q)) : Prop :=
  exists os, outcomes start n os /\ k_smallest_of 10 (map (fun o => snd (fst o)) os) losses.

Lemma percent losses : (exists smallest kth, hd_error losses = Some (Some smallest) /\ last losses None = Some kth /\ kth < (1 + default_distance) * smallest) <->
  within_one_percent losses.
Proof.
  split; intros [s [t [H1 [H2 H3]]]]; exists s, t; (split; [exact H1|]); (split; [exact H2|]).
  - assert ((1 + default_distance) * s == (101 # 100) * s) as E by (unfold default_distance; lra). rewrite E in H3. exact H3.
  - assert ((1 + default_distance) * s == (101 # 100) * s) as E by (unfold default_distance; lra). rewrite E. exact H3.
Qed.

Lemma multi_with_numbers (start : nat -> result (list Q * Q * bool)) mf :
  fit_multi_init start default_distance default_num_near default_min_num_init restricted_max_num_init = Ok mf ->
  exists total n lbd l conv, (30 <= total <= 1000)%nat /\ (n < total)%nat /\ start n = Ok (lbd, l, conv) /\ mf_fit mf = Some (lbd, l) /\
      (forall m, (m < total)%nat -> exists lbd' l' conv', start m = Ok (lbd', l', conv') /\ l <= l' /\ ((m < n)%nat -> l < l')) /\
      ((total < 1000)%nat -> exists losses, ten_best start total losses /\ within_one_percent losses) /\
      (forall m, (30 <= m < total)%nat -> exists losses, ten_best start m losses /\ ~ within_one_percent losses).
Proof.
  intros E. destruct (C32_number_of_starts start _ _ _ _ mf E) as [N1 [N2 N3]].
  destruct (C32_keeps_best start _ _ _ _ mf E) as [lbd [l [Ef [n [conv [Hn [Rn B]]]]]]].
  destruct (C32_k_smallest_losses start _ _ _ _ mf E) as [os [O1 [O2 O3]]].
  change (Nat.min default_min_num_init restricted_max_num_init) with 30%nat in N2.
  exists (mf_starts mf), n, lbd, l, conv. split; [split; [exact N2|apply N1]|]. split; [exact Hn|]. split; [exact Rn|]. split; [exact Ef|].
  split; [exact B|]. split.
  - intros Lt. exists (mf_k_smallest mf). split; [exists os; split; [exact O1|exact O2]|]. apply percent, O3.
    destruct N3 as [N3|N3]; [|exact N3]. rewrite N3 in Lt. destruct (Nat.lt_irrefl _ Lt).
  - intros m [M1 M2]. destruct (C32_stops_when_close start _ _ _ _ mf m E ltac:(lia) M1 M2) as [mf' [F1 [F2 F3]]].
    destruct (C32_k_smallest_losses start _ _ _ _ mf' F1) as [os' [P1 [P2 P3]]]. rewrite F2 in P1.
    exists (mf_k_smallest mf'). split; [exists os'; split; [exact P1|exact P2]|]. intros W. apply percent, P3 in W. congruence.
Qed.
Lemma restricted_fit_unfold starts perms curves points : restricted_fit starts perms curves points =
  (p <- surface_ctor points ;;
   data <- setup_predictor_response p curves points ;;
   mf <- fit_multi_init (restricted_start data starts perms) default_distance default_num_near default_min_num_init restricted_max_num_init ;;
   match mf_fit mf with None => Err OtherError | Some (lbd, _) => Ok (construct_a lbd) end).
Proof. unfold restricted_fit, restricted_start, default_min_improvement, default_max_num_rounds. reflexivity. Qed.

Lemma bind_gives {A B} (m : result A) (f : A -> result B) b : bind m f = Ok b -> exists a, m = Ok a /\ f a = Ok b.
Proof. destruct m as [a|e]; [|discriminate]. intros H. exists a. split; [reflexivity|exact H]. Qed.
Lemma bind_with {A B} (m : result A) (f : A -> result B) a : m = Ok a -> bind m f = f a.
Proof. intros ->. reflexivity. Qed.

(** The fit makes between 30 and 1000 starts and answers with the first of those with the
    smallest loss. It ends before 1000 starts only if the ten smallest losses are within one
    percent, and it ends as soon as they are. *)
Theorem C32_restricted_fit_only : forall starts perms curves points a, restricted_fit starts perms curves points = Ok a ->
  exists p data, surface_ctor points = Ok p /\ setup_predictor_response p curves points = Ok data /\
    let start := restricted_start data starts perms in
    exists total n lbd l conv, (30 <= total <= 1000)%nat /\ (n < total)%nat /\ start n = Ok (lbd, l, conv) /\ a = construct_a lbd /\
      (forall m, (m < total)%nat -> exists lbd' l' conv', start m = Ok (lbd', l', conv') /\ l <= l' /\ ((m < n)%nat -> l < l')) /\
      ((total < 1000)%nat -> exists losses, ten_best start total losses /\ within_one_percent losses) /\
      (forall m, (30 <= m < total)%nat -> exists losses, ten_best start m losses /\ ~ within_one_percent losses).
Proof.
  intros starts perms curves points a H. rewrite restricted_fit_unfold in H.
  apply bind_gives in H. destruct H as [p [E1 H]]. apply bind_gives in H. destruct H as [data [E2 H]].
  apply bind_gives in H. destruct H as [mf [E H]].
  exists p, data. split; [exact E1|]. split; [exact E2|]. cbv zeta.
  destruct (multi_with_numbers _ mf E) as [total [n [lbd [l [conv [T1 [T2 [T3 [T4 T5]]]]]]]]].
  rewrite T4 in H. injection H as <-. exists total, n, lbd, l, conv. auto.
Qed.
Print Assumptions C32_restricted_fit_only.

(** If every start can be fitted, so can the surface. *)
Theorem C32_restricted_fit : forall starts perms curves points p data,
  surface_ctor points = Ok p -> setup_predictor_response p curves points = Ok data ->
  (forall n, exists o, restricted_start data starts perms n = Ok o) -> exists a, restricted_fit starts perms curves points = Ok a.
Proof.
  intros starts perms curves points p data E1 E2 T. rewrite restricted_fit_unfold, (bind_with _ _ _ E1), (bind_with _ _ _ E2).
  destruct (C32_ends (restricted_start data starts perms) default_distance default_num_near default_min_num_init restricted_max_num_init) as [mf E];
    [unfold default_num_near; lia|apply Nat.lt_0_succ|unfold default_min_num_init; lia|exact T|].
  rewrite (bind_with _ _ _ E). destruct (multi_with_numbers _ mf E) as [_ [_ [lbd [l [_ [_ [_ [_ [Ef _]]]]]]]]]. rewrite Ef. eauto.
Qed.
Print Assumptions C32_restricted_fit.

(** From feasible starts, the answer has a squared error that is not above that of any of the
    starts that were made, before and after their descents. *)
Theorem C31_fit_not_worse : forall starts perms curves points a, restricted_fit starts perms curves points = Ok a ->
  Forall (fun pt => length (rp_impressions pt) = length curves) points ->
  (forall n, length (starts n) = length curves /\ lambda_feasible (starts n)) ->
  (forall n r, Forall (fun i => (i < length curves)%nat) (perms n r)) ->
  exists data total lbd, setup_predictor_response (length curves) curves points = Ok data /\ a = construct_a lbd /\ lambda_feasible lbd /\
    length lbd = length curves /\ (30 <= total <= 1000)%nat /\
    forall m, (m < total)%nat -> squared_loss data lbd <= squared_loss data (starts m) /\
      exists lbd' l' conv', restricted_start data starts perms m = Ok (lbd', l', conv') /\ squared_loss data lbd <= squared_loss data lbd'.
Proof.
  intros starts perms curves points a H HP HS HR.
  destruct (C32_restricted_fit_only starts perms curves points a H) as [p [data [E1 [E2 [total [n [lbd [l [conv [T1 [T2 [T3 [T4 [T5 _]]]]]]]]]]]]]].
  pose proof (ctor_count points p _ HP E1) as ->.
  assert (D : forall m lbd' l' conv', restricted_start data starts perms m = Ok (lbd', l', conv') ->
    lambda_feasible lbd' /\ length lbd' = length curves /\ l' == squared_loss data lbd' /\ l' <= squared_loss data (starts m)).
  { intros m lbd' l' conv' R. destruct (HS m) as [S1 S2]. rewrite <- S1.
    apply (C31_descent_sound data (perms m) (1 # 1000) 1000 (starts m) lbd' l' conv'); auto; try lra; try lia.
    - intros r. rewrite S1. apply HR.
    - rewrite S1. eapply C31_data_symmetric; eauto. }
  destruct (D n lbd l conv T3) as [D1 [D2 [D3 _]]].
  exists data, total, lbd. split; [exact E2|]. split; [exact T4|]. split; [exact D1|]. split; [exact D2|]. split; [exact T1|].
  intros m Hm. destruct (T5 m Hm) as [lbd' [l' [conv' [F1 [F2 _]]]]]. destruct (D m lbd' l' conv' F1) as [_ [_ [D4 D5]]].
  split; [rewrite <- D3; lra|]. exists lbd', l', conv'. split; [exact F1|]. rewrite <- D3, <- D4. exact F2.
Qed.
Print Assumptions C31_fit_not_worse.

(** The same for the fit as it is, with starts from the simplex sampler and orders of the
    coordinates from numpy's generator. *)
Theorem C54_simplex_fit_not_worse {G} : forall (R : np_random G) sqrt curves points g0 a g, numpy_draws R -> sqrt_from_above sqrt ->
  Forall (fun pt => length (rp_impressions pt) = length curves) points ->
  drawn_fit R (scaled_from_simplex R sqrt) curves points g0 = Ok (a, g) ->
  exists starts data total lbd, (forall n, exists h h', scaled_from_simplex R sqrt (length curves) h = Ok (starts n, h')) /\
    setup_predictor_response (length curves) curves points = Ok data /\ a = construct_a lbd /\ lambda_feasible lbd /\
    (30 <= total <= 1000)%nat /\ forall m, (m < total)%nat -> squared_loss data lbd <= squared_loss data (starts m).
Proof.
  intros R sqrt curves points g0 a g HR Hs HF E.
  destruct (C54_drawn_fit_is_fit R (scaled_from_simplex R sqrt) curves points g0 a g E) as [p [starts [perms [Hp [H1 [H2 H3]]]]]].
  pose proof (ctor_count _ _ _ HF Hp) as ->.
  destruct (C31_fit_not_worse starts perms curves points a H3 HF) as [data [total [lbd [D1 [D2 [D3 [_ [D5 D6]]]]]]]].
  - intros n. destruct (H1 n) as [h [h' Hn]]. exact (simplex_feasible R HR sqrt _ _ _ _ Hs Hn).
  - intros n r. destruct (H2 n r) as [h ->]. destruct HR as [_ HP]. apply Forall_forall. intros i Hi.
    apply (Permutation_in i (Permutation_sym (HP _ h))) in Hi. apply in_seq in Hi. lia.
  - exists starts, data, total, lbd. split; [exact H1|]. split; [exact D1|]. split; [exact D2|]. split; [exact D3|]. split; [exact D5|].
    intros m Hm. exact (proj1 (D6 m Hm)).
Qed.
Print Assumptions C54_simplex_fit_not_worse.

(** ** Example: two publishers, every start alike *)
Definition half_starts (n : nat) : list Q := [1 # 2; 1 # 2].
Definition in_place (n r : nat) : list nat := [0%nat; 1%nat].
Example C32_restricted_fit_example : exists a, restricted_fit half_starts in_place two_curves two_points = Ok a /\
  Forall (fun pt => length (rp_impressions pt) = length two_curves) two_points /\
  (forall n, length (half_starts n) = length two_curves /\ lambda_feasible (half_starts n)) /\
  (forall n r, Forall (fun i => (i < length two_curves)%nat) (in_place n r)).
Proof.
  assert (F : exists a, restricted_fit half_starts in_place two_curves two_points = Ok a).
  { apply (C32_restricted_fit half_starts in_place two_curves two_points 2%nat two_data); [reflexivity|reflexivity|].
    intros n. assert (C : match fit_one_init_lbd two_data (in_place 0) (1 # 1000) 1000 [1 # 2; 1 # 2] with Ok _ => true | Err _ => false end = true)
      by (vm_compute; reflexivity).
    unfold restricted_start. change (in_place n) with (in_place 0). change (half_starts n) with [1 # 2; 1 # 2].
    destruct (fit_one_init_lbd two_data (in_place 0) (1 # 1000) 1000 [1 # 2; 1 # 2]) as [o|e]; [exists o; reflexivity|discriminate C]. }
  destruct F as [a F]. exists a. split; [exact F|]. split; [repeat constructor|]. split.
  - intros n. split; [reflexivity|]. intros k Hk. cbn in Hk. destruct k as [|[|k]]; [| |lia]; cbn; lra.
  - intros n r. repeat constructor.
Qed.
