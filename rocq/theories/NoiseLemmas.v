From Coq Require Import String Lqa Qround.
From Verif Require Import Prelude ModelReachPoint ModelData DataLemmas ReachPointLemmas
  ModelPrivacy SpecPrivacy ModelHalo SpecHalo HaloLemmas ModelStrategy SpecNoise VennLemmas VennLemmas2.
Notation length := List.length.
Open Scope Z_scope.

(** ** Seeds drawn *)
Lemma after_add X n m g : after X (n + m) g = after X m (after X n g).
Proof. revert g. induction n as [|n IH]; intros g; [reflexivity|]. cbn [Nat.add after]. apply IH. Qed.

Lemma draws_ret {X A} (a : A) : draws_seeds (X:=X) (mret a) 0.
Proof. intros w x w' H. unfold mret in H. injection H as _ <-. reflexivity. Qed.
Lemma draws_lift {X A} (r : result A) : draws_seeds (X:=X) (mlift r) 0.
Proof. intros w x w' H. unfold mlift in H. injection H as _ <-. reflexivity. Qed.
Lemma draws_append {X} e : draws_seeds (X:=X) (mappend e) 0.
Proof. intros w x w' H. unfold mappend in H. injection H as _ <-. reflexivity. Qed.
Lemma draws_seed {X} : draws_seeds (X:=X) draw_seed 1.
Proof.
  intros w x w' H. unfold draw_seed, mdraw in H. cbn [after].
  destruct (rng_integers X (w_rng w)) as [z g]. injection H as _ <-. reflexivity.
Qed.
Lemma draws_bind {X A B} (m : M X A) (f : A -> M X B) n k :
  draws_seeds m n -> (forall a, draws_seeds (f a) k) -> draws_seeds (mbind m f) (n + k).
Proof.
  intros Hm Hf w b w' H. unfold mbind in H. destruct (m w) as [[a|e] w1] eqn:E; [|discriminate H].
  rewrite (Hf a _ _ _ H), (Hm _ _ _ E), after_add. reflexivity.
Qed.
Lemma draws_bind0 {X A B} (m : M X A) (f : A -> M X B) n :
  draws_seeds m n -> (forall a, draws_seeds (f a) 0) -> draws_seeds (mbind m f) n.
Proof. intros H1 H2. pose proof (draws_bind m f n 0 H1 H2) as H. rewrite Nat.add_0_r in H. exact H. Qed.
Lemma draws_fold {X A B} (f : A -> B -> M X A) l : (forall a b, draws_seeds (f a b) 0) ->
  forall a, draws_seeds (mfold f l a) 0.
Proof.
  intros Hf. induction l as [|x l IH]; intros a; cbn [mfold]; [apply draws_ret|].
  apply draws_bind0; [apply Hf|]. intros. apply IH.
Qed.
Lemma draws_map {X A B} (f : A -> M X B) n l : (forall a, draws_seeds (f a) n) ->
  draws_seeds (mmap f l) (n * length l).
Proof.
  intros Hf. induction l as [|x l IH]; cbn [mmap length].
  - rewrite Nat.mul_0_r. apply draws_ret.
  - replace (n * S (length l))%nat with (n + n * length l)%nat by lia.
    apply draws_bind; [apply Hf|]. intros y. apply draws_bind0; [exact IH|]. intros. apply draws_ret.
Qed.

Lemma draws_reach {X} h spends b split m : draws_seeds (X:=X) (simulated_reach_by_spend h spends b split m) 2.
Proof.
  unfold simulated_reach_by_spend.
  apply (draws_bind _ _ 0 2); [apply draws_lift|]. intros p0.
  apply (draws_bind _ _ 0 2); [apply draws_lift|]. intros s0. cbv zeta.
  apply (draws_bind _ _ 1 1); [apply draws_seed|]. intros z1.
  apply draws_bind0; [apply draws_seed|]. intros z2.
  apply draws_bind0; [apply draws_fold; intros a i; unfold merge_step|].
  { apply draws_bind0; [apply draws_lift|]. intros p. apply draws_bind0; [apply draws_lift|]. intros s. apply draws_lift. }
  intros sk. apply draws_bind0; [apply draws_lift|]. intros est.
  apply draws_bind0; [apply draws_fold; intros; apply draws_append|]. intros [].
  apply draws_bind0; [apply draws_lift|]. intros imps. apply draws_bind0; [apply draws_lift|]. intros r1.
  apply draws_lift.
Qed.

Lemma draws_m3 {X} S gt h b (w w' : world X) a : m3_fit S gt h b w = (Ok a, w') ->
  w_rng w' = after X (2 * (if (2 <? h_publisher_count h)%nat
                           then 2 * h_publisher_count h + 1 else h_publisher_count h + 1))%nat (w_rng w).
Proof.
  revert w a w'. change (draws_seeds (X:=X) (m3_fit S gt h b)
    (2 * (if (2 <? h_publisher_count h)%nat then 2 * h_publisher_count h + 1 else h_publisher_count h + 1))).
  unfold m3_fit. set (p := h_publisher_count h). cbv zeta.
  assert (length (py_range 0 (Z.of_nat p)) = p) as L.
  { unfold py_range. rewrite map_length, seq_length. lia. }
  set (k := if (2 <? p)%nat then (2 * p)%nat else 0%nat).
  replace (2 * (if (2 <? p)%nat then 2 * p + 1 else p + 1))%nat with (2 + (2 * p + (k + 0)))%nat
    by (unfold k; destruct (2 <? p)%nat; lia).
  apply draws_bind; [apply draws_reach|]. intros total.
  apply draws_bind.
  { pose proof (draws_map (single_pub_request (X:=X) h (per_request_budget b p) p) 2 (py_range 0 (Z.of_nat p))) as G.
    rewrite L in G. apply G. clear G. intros i. unfold single_pub_request.
    apply (draws_bind _ _ 0 2); [apply draws_lift|]. intros s.
    apply (draws_bind _ _ 0 2); [apply draws_lift|]. intros vec.
    apply draws_bind0; [apply draws_reach|]. intros rp.
    apply draws_bind0; [apply draws_lift|]. intros kp.
    apply draws_bind0; [apply draws_lift|]. intros imp.
    apply draws_bind0; [apply draws_lift|]. intros sp. apply draws_lift. }
  intros singles. apply draws_bind.
  { unfold k. destruct (2 <? p)%nat; [|apply draws_ret].
    pose proof (draws_map (all_but_one_request (X:=X) h (per_request_budget b p)) 2 (py_range 0 (Z.of_nat p))) as G.
    rewrite L in G. apply G. clear G. intros i. unfold all_but_one_request. apply (draws_bind _ _ 0 2); [apply draws_lift|]. intros vec.
    apply draws_reach. }
  intros abo. apply draws_bind0; [apply draws_lift|]. intros curves.
  destruct (Nat.eqb p 1); (apply draws_bind0; [apply draws_lift|]; intros; apply draws_ret).
Qed.

(** ** Independence of the tracker *)
Lemma blind_ret {X A} (a : A) : ignores_spent_privacy (X:=X) (mret a).
Proof. intros w v E. split; [reflexivity|exact E]. Qed.
Lemma blind_lift {X A} (r : result A) : ignores_spent_privacy (X:=X) (mlift r).
Proof. intros w v E. split; [reflexivity|exact E]. Qed.
Lemma blind_append {X} e : ignores_spent_privacy (X:=X) (mappend e).
Proof. intros w v E. split; [reflexivity|exact E]. Qed.
Lemma blind_draw {X A} (f : rng X -> result A * rng X) : ignores_spent_privacy (mdraw f).
Proof.
  intros w v E. unfold mdraw. rewrite E. destruct (f (w_rng v)). split; reflexivity.
Qed.
Lemma blind_bind {X A B} (m : M X A) (f : A -> M X B) :
  ignores_spent_privacy m -> (forall a, ignores_spent_privacy (f a)) -> ignores_spent_privacy (mbind m f).
Proof.
  intros Hm Hf w v E. destruct (Hm w v E) as [E1 E2]. unfold mbind.
  destruct (m w) as [ra w1], (m v) as [rv v1]. cbn [fst snd] in *. subst rv.
  destruct ra as [a|e]; [apply Hf; exact E2|split; [reflexivity|exact E2]].
Qed.
Lemma blind_fold {X A B} (f : A -> B -> M X A) l : (forall a b, ignores_spent_privacy (f a b)) ->
  forall a, ignores_spent_privacy (mfold f l a).
Proof.
  intros Hf. induction l as [|x l IH]; intros a; cbn [mfold]; [apply blind_ret|].
  apply blind_bind; [apply Hf|exact IH].
Qed.
Lemma blind_map {X A B} (f : A -> M X B) l : (forall a, ignores_spent_privacy (f a)) ->
  ignores_spent_privacy (mmap f l).
Proof.
  intros Hf. induction l as [|x l IH]; cbn [mmap]; [apply blind_ret|].
  apply blind_bind; [apply Hf|]. intros y. apply blind_bind; [exact IH|]. intros. apply blind_ret.
Qed.
Ltac blind := repeat (cbv zeta; first [apply blind_ret | apply blind_lift | apply blind_append
  | apply blind_draw | apply blind_bind; [|intros ?] | apply blind_fold; intros ? ? | apply blind_map; intros ?]).

Lemma blind_reach {X} h spends b split m : ignores_spent_privacy (X:=X) (simulated_reach_by_spend h spends b split m).
Proof. unfold simulated_reach_by_spend, draw_seed, merge_step. blind. Qed.
Lemma blind_venn {X} h spends b split m : ignores_spent_privacy (X:=X) (simulated_venn h spends b split m).
Proof.
  unfold simulated_venn, num_active_regions, sample_venn_diagram, add_dp_noise, scale_up, draw_seed.
  destruct (negb (m =? 1)); [apply blind_lift|]. apply blind_bind; [apply blind_lift|]. intros regions.
  destruct regions as [|r0 rs]; [apply blind_ret|]. blind.
  match goal with |- ignores_spent_privacy match ?l with [] => _ | _ => _ end => destruct l end;
    [apply blind_lift|]. destruct (_ <? _); blind.
Qed.
Lemma blind_m3 {X} S gt h b : ignores_spent_privacy (X:=X) (m3_fit S gt h b).
Proof.
  unfold m3_fit. cbv zeta. apply blind_bind; [apply blind_reach|]. intros total.
  apply blind_bind.
  { apply blind_map. intros i. unfold single_pub_request. blind. }
  intros singles. apply blind_bind.
  { destruct (2 <? _)%nat; [|apply blind_ret]. apply blind_map. intros i. unfold all_but_one_request. blind. }
  intros abo. apply blind_bind; [apply blind_lift|]. intros curves. destruct (Nat.eqb _ 1); blind.
Qed.
Lemma blind_single {X} S h b : ignores_spent_privacy (X:=X) (single_publisher_fit S h b).
Proof.
  unfold single_publisher_fit. destruct (negb _); [apply blind_lift|].
  apply blind_bind; [apply blind_reach|]. intros. apply blind_lift.
Qed.

(** ** Rounding *)
Lemma floor_bounds x : (inject_Z (Qfloor x) <= x < inject_Z (Qfloor x) + 1)%Q.
Proof.
  split; [apply Qfloor_le|]. pose proof (Qlt_floor x) as H. rewrite inject_Z_plus in H. exact H.
Qed.
Lemma py_round_rounds x : rounds_to x (py_round x).
Proof.
  unfold py_round, rounds_to. destruct (floor_bounds x) as [L U]. set (f := Qfloor x) in *.
  destruct (Qltb (x - inject_Z f) (1 # 2)) eqn:E1.
  - apply Qltb_lt in E1. split; [lra|]. intros [H|H]; lra.
  - apply Qltb_ge in E1. destruct (Qltb (1 # 2) (x - inject_Z f)) eqn:E2.
    + apply Qltb_lt in E2. rewrite inject_Z_plus. change (inject_Z 1) with 1%Q. split; [lra|]. intros [H|H]; lra.
    + apply Qltb_ge in E2. destruct (Z.even f) eqn:Ev.
      * split; [lra|]. auto.
      * rewrite inject_Z_plus. change (inject_Z 1) with 1%Q. split; [lra|]. intros _.
        replace (f + 1) with (Z.succ f) by lia. rewrite Z.even_succ. rewrite <- Z.negb_even, Ev. reflexivity.
Qed.
Lemma rounds_to_unique x n k : rounds_to x n -> rounds_to x k -> n = k.
Proof.
  intros [[A1 A2] A3] [[B1 B2] B3].
  assert (forall a c, (inject_Z a < inject_Z c)%Q -> a < c) as L by (intros a c; rewrite <- Zlt_Qlt; auto).
  assert (n <= k + 1) by (assert (n < k + 2); [apply L; rewrite inject_Z_plus; change (inject_Z 2) with 2%Q; lra|lia]).
  assert (k <= n + 1) by (assert (k < n + 2); [apply L; rewrite inject_Z_plus; change (inject_Z 2) with 2%Q; lra|lia]).
  assert (n = k \/ n = k + 1 \/ k = n + 1) as [->|[-> | ->]] by lia; [reflexivity| |]; exfalso;
    rewrite inject_Z_plus in *; change (inject_Z 1) with 1%Q in *.
  - assert (Z.even (k + 1) = true) as E1 by (apply A3; left; lra).
    assert (Z.even k = true) as E2 by (apply B3; right; lra).
    replace (k + 1) with (Z.succ k) in E1 by lia. rewrite Z.even_succ, <- Z.negb_even, E2 in E1. discriminate E1.
  - assert (Z.even (n + 1) = true) as E1 by (apply B3; left; lra).
    assert (Z.even n = true) as E2 by (apply A3; right; lra).
    replace (n + 1) with (Z.succ n) in E1 by lia. rewrite Z.even_succ, <- Z.negb_even, E2 in E1. discriminate E1.
Qed.

Lemma min_from_least l : forall a k r, nth_error (min_accumulate_from a l) k = Some r ->
  (r <= a /\ (forall i x, (i <= k)%nat -> nth_error l i = Some x -> r <= x)) /\
  (r = a \/ exists i, (i <= k)%nat /\ nth_error l i = Some r).
Proof.
  induction l as [|x l IH]; intros a k r H; [destruct k; discriminate H|].
  cbn [min_accumulate_from] in H. destruct k as [|k]; cbn [nth_error] in H.
  - injection H as <-. split; [split; [lia|]|].
    + intros i y Hi E. assert (i = 0%nat) as -> by lia. cbn in E. injection E as <-. lia.
    + destruct (Z.min_spec a x) as [[_ ->]|[_ ->]]; [left; reflexivity|right; exists 0%nat; split; [lia|reflexivity]].
  - destruct (IH _ _ _ H) as [[I1 I2] I3]. split; [split; [lia|]|].
    + intros [|i] y Hi E; cbn in E; [injection E as <-; lia|]. apply (I2 i); [lia|exact E].
    + destruct I3 as [->|[i [Hi E]]].
      * destruct (Z.min_spec a x) as [[_ ->]|[_ ->]]; [left; reflexivity|right; exists 0%nat; split; [lia|reflexivity]].
      * right. exists (S i). split; [lia|exact E].
Qed.
Lemma min_accumulate_least l k r : nth_error (min_accumulate l) k = Some r ->
  (forall i x, (i <= k)%nat -> nth_error l i = Some x -> r <= x) /\
  exists i, (i <= k)%nat /\ nth_error l i = Some r.
Proof.
  destruct l as [|a l]; [destruct k; intros H; discriminate H|]. cbn [min_accumulate].
  destruct k as [|k]; cbn [nth_error]; intros H.
  - injection H as <-. split; [|exists 0%nat; split; [lia|reflexivity]].
    intros i x Hi E. assert (i = 0%nat) as -> by lia. cbn in E. injection E as <-. lia.
  - destruct (min_from_least l a k r H) as [[I1 I2] I3]. split.
    + intros [|i] x Hi E; cbn in E; [injection E as <-; exact I1|]. apply (I2 i); [lia|exact E].
    + destruct I3 as [->|[i [Hi E]]]; [exists 0%nat; split; [lia|reflexivity]|].
      exists (S i). split; [lia|exact E].
Qed.

(** ** The events of a request *)
Lemma fold_events mech l : forall (X : externals) (w : world X),
  exists w', mfold (fun _ ed => mappend (X:=X) (halo_event (fst ed) (snd ed) mech)) l tt w = (Ok tt, w') /\
    w_rng w' = w_rng w /\ tr_events (w_tracker w') = tr_events (w_tracker w) ++ events_of mech l.
Proof.
  induction l as [|ed l IH]; intros X w; cbn [mfold].
  - exists w. unfold mret, events_of. cbn [map]. rewrite app_nil_r. auto.
  - unfold mbind, mappend at 1.
    destruct (IH X {| w_tracker := append (w_tracker w) (halo_event (fst ed) (snd ed) mech); w_rng := w_rng w |})
      as [w' [E1 [E2 E3]]].
    exists w'. split; [exact E1|]. cbn [w_rng w_tracker] in *. split; [exact E2|].
    rewrite E3. unfold append. cbn [tr_events]. rewrite <- app_assoc. reflexivity.
Qed.
