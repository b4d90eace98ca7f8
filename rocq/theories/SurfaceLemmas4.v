From Coq Require Import Lqa Sorting.Sorted Sorting.Permutation.
From Verif Require Import Prelude ModelReachPoint ReachPointLemmas DataLemmas ModelCurves ModelSurface SpecSurface SurfaceLemmas SurfaceLemmas2 SurfaceLemmas3.
Open Scope Z_scope.

(** ** The heap of negated losses *)

Definition nle (x y : option Q) : Prop := ninf_le x y = true.

Lemma nle_trans x y z : nle x y -> nle y z -> nle x z.
Proof.
  unfold nle. destruct x, y, z; simpl; auto; try discriminate.
  intros H1 H2. apply Qleb_le in H1, H2. apply Qleb_le. lra.
Qed.
Lemma nle_total x y : ninf_le x y = false -> nle y x.
Proof.
  unfold nle. destruct x, y; simpl; auto; try discriminate. intros H. apply Qleb_gt in H. apply Qleb_le. lra.
Qed.
Lemma nle_refl x : nle x x.
Proof. unfold nle. destruct x; simpl; auto. apply Qleb_le. lra. Qed.

Lemma heap_insert_perm x h : Permutation (x :: h) (heap_insert x h).
Proof.
  induction h as [|y h IH]; simpl; auto. destruct (ninf_le x y); auto.
  rewrite perm_swap. constructor. auto.
Qed.

Lemma heap_insert_sorted x h : StronglySorted nle h -> StronglySorted nle (heap_insert x h).
Proof.
  induction 1 as [|y h HS IH HF]; simpl; [repeat constructor|].
  destruct (ninf_le x y) eqn:E.
  - constructor; [constructor; auto|]. constructor; auto.
    eapply Forall_impl; [|exact HF]. intros z. apply nle_trans. auto.
  - constructor; auto. eapply Permutation_Forall; [apply heap_insert_perm|]. constructor; auto.
    apply nle_total; auto.
Qed.

Definition heap_ok (k : nat) (losses : list Q) (h : list (option Q)) : Prop :=
  length h = k /\ StronglySorted nle h /\
  exists rest, Permutation (map (fun l => Some (- l)%Q) losses ++ repeat None k) (h ++ rest) /\
    forall x y, In x h -> In y rest -> nle y x.

Lemma heap_ok_init k : heap_ok k [] (repeat None k).
Proof.
  split; [apply repeat_length|]. split.
  - induction k; simpl; constructor; auto. apply Forall_forall. intros; reflexivity.
  - exists []. rewrite app_nil_r. split; auto. intros ? ? _ [].
Qed.

Lemma heap_ok_push k losses h l : heap_ok k losses h -> heap_ok k (losses ++ [l]) (heappushpop h (- l)).
Proof.
  intros [HL [HS [rest [HP HR]]]]. unfold heappushpop. 
  assert (length (heap_insert (Some (- l)%Q) h) = S (length h)) as EL.
  { rewrite <- (Permutation_length (heap_insert_perm (Some (- l)%Q) h)). auto. }
  split; [|split].
  - destruct (heap_insert (Some (- l)%Q) h); simpl in *; lia.
  - pose proof (heap_insert_sorted (Some (- l)%Q) h HS) as G. destruct G; simpl; [constructor|auto].
  - destruct (heap_insert (Some (- l)%Q) h) as [|d h'] eqn:Eh; [simpl in EL; lia|]. cbn [tl].
    exists (d :: rest). split.
    + rewrite map_app. cbn [map]. rewrite <- app_assoc. cbn [app].
      rewrite <- Permutation_middle. rewrite HP. rewrite <- Permutation_middle.
      rewrite !app_comm_cons. apply Permutation_app_tail. rewrite <- Eh. apply heap_insert_perm.
    + intros x y Hx [<-|Hy].
      * pose proof (heap_insert_sorted (Some (- l)%Q) h HS) as G. rewrite Eh in G. inversion G as [|? ? ? HF]; subst.
        rewrite Forall_forall in HF. apply HF. auto.
      * destruct h as [|a t].
        { cbn [heap_insert] in Eh. injection Eh as Ea Et; subst d h'. destruct Hx. }
        cbn [heap_insert] in Eh. destruct (ninf_le (Some (- l)%Q) a) eqn:E.
        { injection Eh as Ea Et; subst d h'. auto. }
        injection Eh as Ea Et; subst d h'.
        assert (In x (Some (- l)%Q :: t)) as Hx'.
        { eapply Permutation_in; [symmetry; apply heap_insert_perm|auto]. }
        destruct Hx' as [<-|Hx'].
        -- apply nle_trans with a; [apply HR; auto; left; auto|]. apply nle_total. auto.
        -- apply HR; auto. right; auto.
Qed.

Lemma nle_inf_le x y : nle x y -> inf_le (option_map Qopp y) (option_map Qopp x).
Proof.
  unfold nle. destruct x, y; simpl; auto; try discriminate. intros H. apply Qleb_le in H. lra.
Qed.

Lemma sorted_rev_map h : StronglySorted nle h -> StronglySorted inf_le (rev (map (option_map Qopp) h)).
Proof.
  induction 1 as [|x h HS IH HF]; simpl; [constructor|].
  assert (forall l y, StronglySorted inf_le l -> Forall (fun z => inf_le z y) l -> StronglySorted inf_le (l ++ [y])) as K.
  { clear. induction 1 as [|a l HS IH HF]; simpl; intros H; [repeat constructor|].
    inversion H; subst. constructor; auto. apply Forall_app. split; auto. }
  apply K; auto. apply Forall_rev. rewrite Forall_map. eapply Forall_impl; [|exact HF].
  intros y Hy. apply nle_inf_le. auto.
Qed.

(** Pointwise equality of losses is Qeq only through -(-l); the reported losses are the
    double negations. *)
Definition reported (l : Q) : Q := (- - l)%Q.

Lemma heap_ok_reported k losses h : heap_ok k losses h ->
  k_smallest_of k (map reported losses) (rev (map (option_map Qopp) h)).
Proof.
  intros [HL [HS [rest [HP HR]]]]. split; [rewrite rev_length, map_length; auto|].
  split; [apply sorted_rev_map; auto|].
  exists (map (option_map Qopp) rest). split.
  - assert (map Some (map reported losses) ++ repeat None k =
            map (option_map Qopp) (map (fun l => Some (- l)%Q) losses ++ repeat None k)) as ->.
    { rewrite map_app, !map_map. f_equal. clear. induction k; simpl; [auto|f_equal; auto]. }
    rewrite (Permutation_map (option_map Qopp) HP), map_app.
    apply Permutation_app_tail. apply Permutation_rev.
  - intros x y Hx Hy. rewrite <- in_rev in Hx. apply in_map_iff in Hx, Hy.
    destruct Hx as [x' [<- Hx]], Hy as [y' [<- Hy]]. apply nle_inf_le. auto.
Qed.

Lemma reported_id l : reported l = l.
Proof. unfold reported, Qopp. destruct l as [n d]. simpl. f_equal. lia. Qed.
Lemma map_reported l : map reported l = l.
Proof. induction l; simpl; [auto|]. rewrite reported_id. f_equal. auto. Qed.

(** ** The loop over starts *)

Section Loop.
Context {A : Type} (run : nat -> result (A * Q * bool)) (distance : Q) (min_num_init : nat) (k : nat).

Definition loss_of (o : A * Q * bool) : Q := snd (fst o).

(** What has been recorded after some starts. *)
Definition recorded (s : multi_result A) : Prop :=
  exists os, mapM run (seq 0 (mr_starts s)) = Ok os /\
    heap_ok k (map loss_of os) (mr_heap s) /\
    mr_last_converge s = option_map (fun o => snd o) (last (map Some os) None) /\
    match mr_fit s with
    | None => mr_starts s = 0%nat
    | Some (fit, l) => exists n conv, (n < mr_starts s)%nat /\ run n = Ok (fit, l, conv) /\
        forall m o, nth_error os m = Some o -> (l <= loss_of o)%Q /\ ((m < n)%nat -> (l < loss_of o)%Q)
    end.

Definition next (s : multi_result A) (o : A * Q * bool) : multi_result A :=
  let '(fit, l, conv) := o in
  let better := match mr_fit s with Some (_, best) => Qltb l best | None => true end in
  {| mr_fit := if better then Some (fit, l) else mr_fit s;
     mr_last_converge := Some conv;
     mr_heap := heappushpop (mr_heap s) (- l);
     mr_starts := S (mr_starts s) |}.

Lemma mapM_app {B C} (f : B -> result C) l1 l2 r1 r2 : mapM f l1 = Ok r1 -> mapM f l2 = Ok r2 ->
  mapM f (l1 ++ l2) = Ok (r1 ++ r2).
Proof.
  revert r1. induction l1 as [|x l1 IH]; intros r1 E1 E2.
  - inversion E1. auto.
  - apply mapM_cons_inv in E1. destruct E1 as [y [r' [Ey [Er ->]]]]. simpl. rewrite Ey. cbn [bind].
    rewrite (IH r' Er E2). reflexivity.
Qed.

Lemma last_snoc {B} (l : list B) x d : last (l ++ [x]) d = x.
Proof. induction l as [|y l IH]; [auto|]. simpl. rewrite IH. destruct (l ++ [x]) eqn:E; auto. destruct l; discriminate. Qed.

Lemma recorded_next s o : recorded s -> run (mr_starts s) = Ok o -> recorded (next s o).
Proof.
  intros [os [E [HH [HC HF]]]] Er. destruct o as [[fit l] conv]. 
  assert (length os = mr_starts s) as Los by (rewrite (mapM_ok_length _ _ _ E), seq_length; auto).
  exists (os ++ [(fit, l, conv)]). cbn [next mr_starts mr_heap mr_last_converge].
  split; [|split; [|split]].
  - rewrite seq_S. apply mapM_app; auto. simpl. rewrite Er. reflexivity.
  - rewrite map_app. apply heap_ok_push. auto.
  - rewrite map_app. simpl. rewrite last_snoc. reflexivity.
  - cbn [next mr_fit mr_starts].
    destruct (mr_fit s) as [[f0 b0]|] eqn:Ef.
    + destruct HF as [n [cv [Hn [Rn HB]]]]. destruct (Qltb l b0) eqn:Eb.
      * apply Qltb_lt in Eb. exists (mr_starts s), conv. split; [lia|]. split; auto.
        intros m o Hm. destruct (Nat.lt_ge_cases m (length os)) as [L|L].
        -- rewrite nth_error_app1 in Hm by auto. destruct (HB m o Hm). split; intros; lra.
        -- rewrite nth_error_app2 in Hm by auto. destruct (m - length os)%nat as [|x] eqn:Ed.
           ++ injection Hm as <-. simpl. split; [cbn; lra|]. lia.
           ++ simpl in Hm. destruct x; discriminate.
      * exists n, cv. split; [lia|]. split; auto.
        intros m o Hm. destruct (Nat.lt_ge_cases m (length os)) as [L|L].
        -- rewrite nth_error_app1 in Hm by auto. apply HB; auto.
        -- rewrite nth_error_app2 in Hm by auto. destruct (m - length os)%nat as [|x] eqn:Ed.
           ++ injection Hm as <-. cbn [loss_of fst snd]. split; [|lia].
              destruct (Qlt_le_dec l b0) as [G|]; auto. apply Qltb_lt in G. congruence.
           ++ simpl in Hm. destruct x; discriminate.
    + exists (mr_starts s), conv. split; [lia|]. split; auto.
      rewrite HF in Los. destruct os; [|discriminate]. intros m o Hm. destruct m as [|m]; simpl in Hm.
      * injection Hm as <-. split; [cbn; lra|lia].
      * destruct m; discriminate.
Qed.

Lemma multi_loop_unfold left s : multi_loop run distance min_num_init left s =
  (go <- (if (mr_starts s <? min_num_init)%nat then Ok true
         else c <- close_enough distance (mr_heap s) ;; Ok (negb c)) ;;
  match go, left with
  | true, S k =>
      o <- run (mr_starts s) ;; multi_loop run distance min_num_init k (next s o)
  | _, _ => Ok s
  end).
Proof.
  destruct left as [|n]; cbn [multi_loop];
  match goal with |- bind ?g _ = _ => destruct g as [[|]|] end; cbn [bind]; auto;
  destruct (run (mr_starts s)) as [[[fit l] conv]|]; reflexivity.
Qed.

(** Stopping and progress. *)
Lemma multi_loop_inv left : forall s s', recorded s -> multi_loop run distance min_num_init left s = Ok s' ->
  recorded s' /\ (mr_starts s <= mr_starts s' <= mr_starts s + left)%nat /\
  ((mr_starts s' = mr_starts s + left)%nat \/
   ((min_num_init <= mr_starts s')%nat /\ close_enough distance (mr_heap s') = Ok true)) /\
  (forall n, (mr_starts s <= n)%nat -> (n < mr_starts s')%nat -> exists sn,
     multi_loop run distance min_num_init (n - mr_starts s) s = Ok sn /\ mr_starts sn = n /\ recorded sn /\
     ((n < min_num_init)%nat \/ close_enough distance (mr_heap sn) = Ok false)).
Proof.
  induction left as [|left IH]; intros s s' HR E; rewrite multi_loop_unfold in E.
  - assert (s' = s) as ->.
    { match type of E with bind ?g _ = _ => destruct g as [[|]|] end; cbn [bind] in E; congruence. }
    split; auto. split; [lia|]. split; [left; lia|]. intros n H1 H2. lia.
  - match type of E with bind ?g _ = _ => destruct g as [go|] eqn:Eg end; [|discriminate]. cbn [bind] in E.
    destruct go.
    + destruct (run (mr_starts s)) as [o|] eqn:Er; [|discriminate]. cbn [bind] in E.
      pose proof (recorded_next s o HR Er) as HR'.
      assert (mr_starts (next s o) = S (mr_starts s)) as Es by (destruct o as [[? ?] ?]; reflexivity).
      destruct (IH (next s o) s' HR' E) as [G1 [G2 [G3 G4]]]. rewrite Es in *.
      split; auto. split; [lia|]. split; [destruct G3; [left; lia|right; auto]|].
      intros n H1 H2. destruct (Nat.eq_dec n (mr_starts s)) as [->|Hne].
      * exists s. split; [|split; [auto|split; [auto|]]].
        -- rewrite Nat.sub_diag, multi_loop_unfold, Eg. reflexivity.
        -- destruct (mr_starts s <? min_num_init)%nat eqn:El; [left; apply Nat.ltb_lt; auto|].
           right. destruct (close_enough distance (mr_heap s)) as [[|]|]; cbn in Eg; congruence.
      * destruct (G4 n ltac:(lia) H2) as [sn [E1 [E2 E3]]]. exists sn. split; auto.
        replace (n - mr_starts s)%nat with (S (n - S (mr_starts s))) by lia.
        rewrite multi_loop_unfold, Eg. cbn [bind]. rewrite Er. cbn [bind]. auto.
    + injection E as <-. split; auto. split; [lia|]. split; [right|].
      * destruct (mr_starts s <? min_num_init)%nat eqn:El; [discriminate|]. apply Nat.ltb_ge in El. split; auto.
        destruct (close_enough distance (mr_heap s)) as [[|]|]; cbn in Eg; congruence.
      * intros n H1 H2. lia.
Qed.

Definition start : multi_result A :=
  {| mr_fit := None; mr_last_converge := None; mr_heap := repeat None k; mr_starts := 0 |}.

Lemma recorded_start : recorded start.
Proof. exists []. cbn. split; [auto|]. split; [apply heap_ok_init|]. auto. Qed.

Lemma close_enough_total h : h <> [] -> exists b, close_enough distance h = Ok b.
Proof. destruct h as [|x h]; [congruence|]. intros _. unfold close_enough. generalize (last (x :: h) None). intros y. destruct x, y; eauto. Qed.

Lemma heap_ok_ne losses h : heap_ok k losses h -> (0 < k)%nat -> h <> [].
Proof. intros [HL _] Hk ->. simpl in HL. lia. Qed.

(** If every start gives an outcome, the loop ends normally. *)
Lemma multi_loop_total left : (0 < k)%nat -> forall s, recorded s ->
  (forall n, (mr_starts s <= n)%nat -> (n < mr_starts s + left)%nat -> exists o, run n = Ok o) ->
  exists s', multi_loop run distance min_num_init left s = Ok s'.
Proof.
  intros Hk. induction left as [|left IH]; intros s HR Hrun; rewrite multi_loop_unfold.
  all: assert (exists go, (if (mr_starts s <? min_num_init)%nat then Ok true
         else c <- close_enough distance (mr_heap s) ;; Ok (negb c)) = Ok go) as [go ->].
  1,3: destruct HR as [os [_ [HH _]]]; destruct (close_enough_total (mr_heap s) (heap_ok_ne _ _ HH Hk)) as [b ->];
       destruct (mr_starts s <? min_num_init)%nat; cbn [bind]; eauto.
  - cbn [bind]. destruct go; eauto.
  - cbn [bind]. destruct go; [|eauto].
    destruct (Hrun (mr_starts s) ltac:(lia) ltac:(lia)) as [o Er]. rewrite Er. cbn [bind].
    assert (mr_starts (next s o) = S (mr_starts s)) as Es by (destruct o as [[? ?] ?]; reflexivity).
    apply IH; [apply recorded_next; auto|]. rewrite Es. intros n H1 H2. apply Hrun; lia.
Qed.
End Loop.

Lemma fit_multi_init_inv {A} (run : nat -> result (A * Q * bool)) d k mn mx mf :
  fit_multi_init run d k mn mx = Ok mf ->
  exists s conv c, multi_loop run d mn mx (start k) = Ok s /\ mr_last_converge s = Some conv /\
    close_enough d (mr_heap s) = Ok c /\
    mf = {| mf_fit := mr_fit s; mf_success := (conv, c);
            mf_k_smallest := rev (map (option_map Qopp) (mr_heap s)); mf_starts := mr_starts s |}.
Proof.
  unfold fit_multi_init. fold (@start A k). destruct (multi_loop run d mn mx (start k)) as [s|] eqn:E; [|discriminate].
  cbn [bind]. destruct (mr_last_converge s) as [conv|] eqn:Ec; [|discriminate].
  destruct (close_enough d (mr_heap s)) as [c|] eqn:Ed; [|discriminate]. cbn [bind]. intros H. inversion H.
  exists s, conv, c. auto.
Qed.
