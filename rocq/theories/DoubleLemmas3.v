(** What the strategies record, in double precision. *)
From Coq Require Import String Lqa Qfield Qabs Qpower.
From Verif Require Import Prelude DataLemmas ModelReachPoint ModelData ModelPrivacy SpecPrivacy PrivacyLemmas ModelHalo
  SpecHalo ModelStrategy HaloLemmas ModelDouble SpecDouble DoubleLemmas DoubleLemmas2.
Notation length := List.length.
Open Scope Z_scope.

Definition ev_of (a : Q * Q) : noising_event := halo_event (fst a) (snd a) "Discrete Gaussian".

(** [m] records a beginning of [l], all of it if it returns. *)
Definition logs {X A} (m : M X A) (l : list (Q * Q)) : Prop :=
  forall w, exists k,
    w_tracker (snd (m w)) = fold_left append (map ev_of (firstn k l)) (w_tracker w) /\
    (forall a, fst (m w) = Ok a -> firstn k l = l).

Lemma logs_ret {X A} (a : A) : logs (X:=X) (mret a) [].
Proof. intros w. exists 0%nat. split; reflexivity. Qed.
Lemma logs_lift {X A} (r : result A) : logs (X:=X) (mlift r) [].
Proof. intros w. exists 0%nat. split; reflexivity. Qed.
Lemma logs_draw {X A} (f : rng X -> result A * rng X) : logs (mdraw f) [].
Proof. intros w. exists 0%nat. unfold mdraw. destruct (f (w_rng w)). split; reflexivity. Qed.
Lemma logs_seed {X} : logs (X:=X) draw_seed [].
Proof. apply logs_draw. Qed.
Lemma logs_append {X} a : logs (X:=X) (mappend (ev_of a)) [a].
Proof. intros w. exists 1%nat. split; reflexivity. Qed.

Lemma logs_bind {X A B} (m : M X A) (f : A -> M X B) l1 l2 :
  logs m l1 -> (forall a, logs (f a) l2) -> logs (mbind m f) (l1 ++ l2).
Proof.
  intros Hm Hf w. destruct (Hm w) as [k [E Hok]]. unfold mbind.
  destruct (m w) as [[a|err] w'] eqn:Em; cbn [fst snd] in *.
  - rewrite (Hok a eq_refl) in E. destruct (Hf a w') as [k2 [E2 Hok2]].
    exists (length l1 + k2)%nat. rewrite firstn_app_2, map_app, fold_left_app, <- E. split; [exact E2|].
    intros b Hb. rewrite (Hok2 b Hb). reflexivity.
  - exists (Nat.min k (length l1)). split.
    + rewrite firstn_app. replace (Nat.min k (length l1) - length l1)%nat with 0%nat by lia.
      rewrite firstn_O, app_nil_r. destruct (Nat.le_gt_cases k (length l1)) as [L|L].
      * rewrite Nat.min_l by exact L. exact E.
      * rewrite Nat.min_r by lia. rewrite firstn_all2 in E |- * by lia. exact E.
    + intros b C. discriminate C.
Qed.
Lemma logs_bind0 {X A B} (m : M X A) (f : A -> M X B) l :
  logs m [] -> (forall a, logs (f a) l) -> logs (mbind m f) l.
Proof. intros Hm Hf. apply (logs_bind m f [] l Hm Hf). Qed.
Lemma logs_bind1 {X A B} (m : M X A) (f : A -> M X B) l :
  logs m l -> (forall a, logs (f a) []) -> logs (mbind m f) l.
Proof. intros Hm Hf. rewrite <- (app_nil_r l). apply (logs_bind m f l [] Hm Hf). Qed.
Lemma logs_mfold0 {X A B} (f : A -> B -> M X A) l : forall a,
  (forall a b, logs (f a b) []) -> logs (mfold f l a) [].
Proof.
  induction l as [|x l IH]; intros a H; cbn [mfold]; [apply logs_ret|].
  apply logs_bind0; [apply H|]. intros b. apply IH. exact H.
Qed.
Lemma logs_append_all {X} l :
  logs (X:=X) (mfold (fun _ ed => mappend (halo_event (fst ed) (snd ed) "Discrete Gaussian")) l tt) l.
Proof.
  induction l as [|x l IH]; cbn [mfold]; [apply logs_ret|].
  apply (logs_bind _ _ [x] l); [apply logs_append|]. intros []. exact IH.
Qed.
Lemma logs_mmap {X A B} (f : A -> M X B) l L :
  (forall a, logs (f a) L) -> logs (mmap f l) (concat (repeat L (length l))).
Proof.
  intros H. induction l as [|x l IH]; cbn [mmap length repeat concat]; [apply logs_ret|].
  apply logs_bind; [apply H|]. intros y. apply logs_bind1; [exact IH|]. intros ys. apply logs_ret.
Qed.

(** The two amounts of a request. *)
Definition two_amounts (b : budget) (split : Q) : list (Q * Q) :=
  [(double (epsilon b * split), double (delta b * split));
   (double (epsilon b * double (1 - split)), double (delta b * double (1 - split)))]%Q.

Lemma logs_simulated {X} h spends b split m : reports_two_amounts X ->
  logs (X:=X) (simulated_reach_by_spend_fl double h spends b split m) (two_amounts b split).
Proof.
  intros HX. unfold simulated_reach_by_spend_fl.
  apply logs_bind0; [apply logs_lift|]. intros p0.
  apply logs_bind0; [apply logs_lift|]. intros s0. cbv zeta.
  apply logs_bind0; [apply logs_seed|]. intros seed1.
  apply logs_bind0; [apply logs_seed|]. intros seed2.
  apply logs_bind0.
  { apply logs_mfold0. intros sk i. unfold merge_step.
    apply logs_bind0; [apply logs_lift|]. intros p.
    apply logs_bind0; [apply logs_lift|]. intros s. apply logs_lift. }
  intros sk. apply logs_bind0; [apply logs_lift|]. intros est.
  rewrite HX. cbn [ec_reach_epsilon ec_frequency_epsilon ec_reach_delta ec_frequency_delta].
  apply logs_bind1; [apply logs_append_all|]. intros [].
  apply logs_bind0; [apply logs_lift|]. intros imps.
  apply logs_bind0; [apply logs_lift|]. intros r1. apply logs_lift.
Qed.

Lemma logs_single_pub {X} h b p i : reports_two_amounts X ->
  logs (X:=X) (single_pub_request_fl double h b p i) (two_amounts b (1#2)).
Proof.
  intros HX. unfold single_pub_request_fl.
  apply logs_bind0; [apply logs_lift|]. intros s.
  apply logs_bind0; [apply logs_lift|]. intros vec.
  apply logs_bind1; [apply logs_simulated; exact HX|]. intros rp.
  apply logs_bind0; [apply logs_lift|]. intros kp.
  apply logs_bind0; [apply logs_lift|]. intros imp.
  apply logs_bind0; [apply logs_lift|]. intros sp. apply logs_lift.
Qed.
Lemma logs_all_but_one {X} h b i : reports_two_amounts X ->
  logs (X:=X) (all_but_one_request_fl double h b i) (two_amounts b (1#2)).
Proof.
  intros HX. unfold all_but_one_request_fl. apply logs_bind0; [apply logs_lift|]. intros vec.
  apply logs_simulated. exact HX.
Qed.

(** The number of requests. *)
Definition m3_count (p : nat) : nat := (if (2 <? p)%nat then 2 * p + 1 else p + 1)%nat.

Lemma concat_repeat_app {A} (l : list A) m n :
  concat (repeat l m) ++ concat (repeat l n) = concat (repeat l (m + n)).
Proof. rewrite repeat_app, concat_app. reflexivity. Qed.

Lemma logs_m3 {X} S gt h b : reports_two_amounts X ->
  logs (X:=X) (m3_fit_fl double S gt h b)
    (concat (repeat (two_amounts (per_request_budget_fl double b (h_publisher_count h)) (1#2))
                    (m3_count (h_publisher_count h)))).
Proof.
  intros HX. unfold m3_fit_fl. cbv zeta. set (p := h_publisher_count h).
  set (pb := per_request_budget_fl double b p). set (L := two_amounts pb (1#2)).
  assert (N : length (py_range 0 (Z.of_nat p)) = p) by (rewrite py_range_length; lia).
  assert (E : concat (repeat L (m3_count p)) =
    L ++ concat (repeat L p) ++ (if (2 <? p)%nat then concat (repeat L p) else []) ++ []).
  { unfold m3_count. destruct (2 <? p)%nat; rewrite !app_nil_r.
    - rewrite concat_repeat_app. replace (2 * p + 1)%nat with (Datatypes.S (p + p)) by lia. reflexivity.
    - replace (p + 1)%nat with (Datatypes.S p) by lia. reflexivity. }
  assert (R : concat (repeat L p) = concat (repeat L (length (py_range 0 (Z.of_nat p))))) by (rewrite N; reflexivity).
  rewrite E, R. apply logs_bind; [apply logs_simulated; exact HX|]. intros total.
  apply logs_bind.
  { apply logs_mmap. intros i. apply logs_single_pub. exact HX. }
  intros singles. apply logs_bind.
  { destruct (2 <? p)%nat; [|apply logs_ret]. apply logs_mmap. intros i.
    apply logs_all_but_one. exact HX. }
  intros abo. apply logs_bind0; [apply logs_lift|]. intros curves.
  destruct (Nat.eqb p 1).
  - apply logs_bind0; [apply logs_lift|]. intros c. apply logs_ret.
  - apply logs_bind0; [apply logs_lift|]. intros s. apply logs_ret.
Qed.

Lemma logs_single {X} S h b : reports_two_amounts X -> h_publisher_count h = 1%nat ->
  logs (X:=X) (single_publisher_fit_fl double S h b) (two_amounts b (1#2)).
Proof.
  intros HX E. unfold single_publisher_fit_fl. rewrite E. cbn [Nat.eqb negb].
  apply logs_bind1; [apply logs_simulated; exact HX|]. intros total. apply logs_lift.
Qed.

(** ** What a new tracker reports afterwards *)

Local Open Scope Q_scope.

Lemma full_starts l : tr_starts (tracker_of (map ev_of l)) = [0%Q].
Proof.
  induction l as [|a l IH] using rev_ind; [reflexivity|].
  rewrite map_app, tracker_app. cbn [map fold_left append tr_starts]. rewrite IH. reflexivity.
Qed.
Lemma covering_all sel l : covering_fl sel 0 (map ev_of l) = map (fun a => sel (ev_budget (ev_of a))) l.
Proof.
  unfold covering_fl. induction l as [|a l IH]; [reflexivity|]. cbn [map filter].
  replace (contains_fl double (ev_buckets (ev_of a)) 0) with true by (vm_compute; reflexivity).
  cbn [map]. rewrite IH. reflexivity.
Qed.

Definition amount (sel : budget -> Q) (a : Q * Q) : Q := sel (ev_budget (ev_of a)).

Lemma reported sel l : is_sel sel -> Forall (fun a => 0 <= amount sel a) l ->
  sel (privacy_consumption_fl double (tracker_of (map ev_of l))) == fold_left add_fl (map (amount sel) l) 0.
Proof.
  intros Hs H. destruct (consumption_fl_facts sel (tracker_of (map ev_of l)) Hs) as (A & B & C).
  set (c := sel (privacy_consumption_fl double (tracker_of (map ev_of l)))) in *.
  rewrite full_starts in B, C.
  assert (F : sel (consumption_at_fl double (tracker_of (map ev_of l)) 0) = fold_left add_fl (map (amount sel) l) 0).
  { rewrite consumption_at_fl_sel, tracker_of_events, covering_all by exact Hs. reflexivity. }
  pose proof (B 0 (or_introl eq_refl)) as B0. rewrite F in B0.
  destruct C as [C|(x & [<-|[]] & C)].
  - assert (N : 0 <= fold_left add_fl (map (amount sel) l) 0).
    { apply fold_mono; [|apply is_double_0]. apply Forall_forall. intros y Hy. apply in_map_iff in Hy.
      destruct Hy as (a & <- & Ha). rewrite Forall_forall in H. apply (H a Ha). }
    rewrite C in B0 |- *. apply Qle_antisym; assumption.
  - rewrite C, F. reflexivity.
Qed.

Lemma fold_prefix l k : Forall (fun e => is_double e /\ 0 <= e) l ->
  fold_left add_fl (firstn k l) 0 <= fold_left add_fl l 0.
Proof.
  intros H. rewrite <- (firstn_skipn k l) at 2. rewrite fold_left_app. apply fold_mono.
  - apply Forall_forall. intros y Hy. rewrite Forall_forall in H. apply (H y).
    rewrite <- (firstn_skipn k l). apply in_or_app. right. exact Hy.
  - apply fold_double. apply is_double_0.
Qed.

(** ** Halves *)

Lemma half_double x : is_double x -> 0 <= x -> can_halve x -> is_double (x * (1#2)).
Proof.
  intros H N [E|L].
  - apply (is_double_compat 0); [rewrite E; reflexivity|apply is_double_0].
  - assert (L' : 2 ^ (-1021) <= Qabs x) by (rewrite Qabs_pos; assumption).
    assert (P : 0 < x) by (pose proof (p2_pos (-1021)); lra).
    destruct (exponent_spec x P) as [A B].
    assert (A' : 2 ^ exponent x <= Qabs x) by (rewrite Qabs_pos; assumption).
    destruct (on_grid x (exponent x) H (or_introl A')) as [n En].
    assert (K : (-1021 < exponent x + 1)%Z) by (apply p2_lt_inv; lra).
    rewrite Z.max_l in En by lia. clear H A'. generalize dependent (exponent x). intros k A B En K.
    assert (Hn : (Z.abs n <= 2 ^ 53)%Z).
    { rewrite En in B. replace (k + 1)%Z with (53 + (k - 52))%Z in B by lia.
      rewrite p2_add, (p2_Z 53) in B by lia. pose proof (p2_pos (k - 52)) as Q.
      apply Qmult_lt_r in B; [|exact Q]. rewrite <- Zlt_Qlt in B.
      assert (0 <= n)%Z; [|lia]. rewrite Zle_Qle. change (inject_Z 0) with 0.
      destruct (Qlt_le_dec (inject_Z n) 0) as [W|W]; [exfalso|exact W].
      assert (inject_Z n * 2 ^ (k - 52) < 0 * 2 ^ (k - 52)) by (apply Qmult_lt_r; assumption).
      lra. }
    apply (is_double_compat (inject_Z n * 2 ^ (k - 53))).
    + rewrite En. replace (k - 52)%Z with (k - 53 + 1)%Z by lia. rewrite p2_succ. ring.
    + apply written_le; lia.
Qed.

Lemma two_exact sel b : is_sel sel -> is_double (sel b) -> 0 <= sel b -> can_halve (sel b) ->
  Forall (fun a => amount sel a == sel b * (1#2) /\ is_double (amount sel a)) (two_amounts b (1#2)).
Proof.
  intros Hs H N C. pose proof (double_exact _ (half_double _ H N C)) as E.
  assert (E2 : double (sel b * double (1 - (1#2))) == sel b * (1#2)).
  { apply (Qeq_trans _ (double (sel b * (1#2)))); [|exact E]. apply double_proper. replace (double (1 - (1#2))) with (1#2) by (vm_compute; reflexivity). reflexivity. }
  unfold two_amounts, amount, ev_of, halo_event. repeat constructor; cbn [ev_budget fst snd];
  destruct Hs as [-> | ->]; cbn [epsilon delta]; try assumption; apply double_is_double.
Qed.

Lemma Qsum_const l c : Forall (fun a => a == c) l -> Qsum l == inject_Z (Z.of_nat (length l)) * c.
Proof.
  induction 1 as [|a l H Hl IH]; [reflexivity|]. cbn [Qsum length]. rewrite H, IH, Nat2Z.inj_succ, <- Z.add_1_l, inject_Z_plus.
  change (inject_Z 1) with 1. ring.
Qed.

(** [n] requests. *)
Lemma requests_total sel b n : is_sel sel -> is_double (sel b) -> 0 <= sel b -> can_halve (sel b) ->
  let l := concat (repeat (two_amounts b (1#2)) n) in
  Forall (fun e => is_double e /\ 0 <= e) (map (amount sel) l) /\
  up_to (pred (2 * n)) (inject_Z (Z.of_nat n) * sel b) (fold_left add_fl (map (amount sel) l) 0).
Proof.
  intros Hs H N C l. pose proof (two_exact sel b Hs H N C) as T.
  assert (A : Forall (fun a => amount sel a == sel b * (1#2) /\ is_double (amount sel a)) l).
  { unfold l. clear l. induction n as [|n IH]; [constructor|]. cbn [repeat concat]. apply Forall_app. split; [exact T|exact IH]. }
  assert (Len : length l = (2 * n)%nat).
  { unfold l. clear. induction n as [|n IH]; [reflexivity|]. cbn [repeat concat]. rewrite app_length, IH. cbn [two_amounts length]. lia. }
  assert (Hp : Forall (fun e => is_double e /\ 0 <= e) (map (amount sel) l)).
  { apply Forall_forall. intros y Hy. apply in_map_iff in Hy. destruct Hy as (a & <- & Ha).
    rewrite Forall_forall in A. destruct (A a Ha) as [E D]. split; [exact D|]. rewrite E. lra. }
  split; [exact Hp|]. pose proof (sum_up_to _ Hp) as U. rewrite map_length, Len in U.
  eapply up_to_compat; [|reflexivity|exact U].
  rewrite (Qsum_const _ (sel b * (1#2))).
  - rewrite map_length, Len, Nat2Z.inj_mul, inject_Z_mult. change (inject_Z (Z.of_nat 2)) with 2. ring.
  - apply Forall_forall. intros y Hy. apply in_map_iff in Hy. destruct Hy as (a & <- & Ha).
    rewrite Forall_forall in A. apply (A a Ha).
Qed.
