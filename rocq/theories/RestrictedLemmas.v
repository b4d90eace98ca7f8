From Coq Require Import Lqa Sorting.Permutation.
From Verif Require Import Prelude ModelReachPoint ReachPointLemmas DataLemmas ModelCurves ModelSurface SpecSurface
  SurfaceLemmas SurfaceLemmas2 SurfaceLemmas3 SurfaceLemmas4 SurfaceLemmas5 ModelRestricted SpecRestricted.
Open Scope Z_scope.

(** ** Runs that agree *)

Lemma descend_ext data perms perms' mi : forall left num lbd prev cur,
  (forall r, (num <= r)%nat -> perms r = perms' r) ->
  descend data perms mi left num lbd prev cur = descend data perms' mi left num lbd prev cur.
Proof.
  induction left as [|k IH]; intros num lbd prev cur H; cbn [descend]; [reflexivity|].
  destruct (Qltb cur (prev - mi)); [|reflexivity]. rewrite (H num) by lia.
  destruct (round data (perms' num) lbd) as [l1|e]; cbn [bind]; [|reflexivity]. apply IH. intros. apply H. lia.
Qed.

Lemma multi_loop_ext {A} (run run' : nat -> result (A * Q * bool)) d mn : forall left s,
  (forall n, (mr_starts s <= n)%nat -> run n = run' n) ->
  multi_loop run d mn left s = multi_loop run' d mn left s.
Proof.
  induction left as [|k IH]; intros s H; rewrite !multi_loop_unfold;
    match goal with |- bind ?g _ = _ => destruct g as [[|]|] end; cbn [bind]; auto.
  rewrite (H (mr_starts s)) by lia. destruct (run' (mr_starts s)) as [[[fit l] conv]|]; cbn [bind]; [|reflexivity].
  apply IH. cbn. intros. apply H. lia.
Qed.

Section Drawn.
Context {G : Type} (R : np_random G).

(** ** Sampling *)

Lemma truncated_inv p : forall fuel g lbd g', truncated_uniform R fuel p g = Ok (lbd, g') ->
  exists n, (n <= fuel)%nat /\ draw_number R p n g = lbd /\ g' = after_draws R p (S n) g /\ check_feasibility lbd = true /\
    forall k, (k < n)%nat -> check_feasibility (draw_number R p k g) = false.
Proof.
  induction fuel as [|f IH]; intros g lbd g' E; cbn [truncated_uniform] in E;
    destruct (np_rand R p g) as [x g1] eqn:Er; destruct (check_feasibility x) eqn:Ec.
  - inversion E; subst. exists O. unfold draw_number. cbn. rewrite Er. cbn. repeat split; auto. intros; lia.
  - discriminate.
  - inversion E; subst. exists O. unfold draw_number. cbn. rewrite Er. cbn. repeat split; auto; try lia; intros; lia.
  - destruct (IH _ _ _ E) as [n [H1 [H2 [H3 [H4 H5]]]]]. exists (S n).
    unfold draw_number in *. cbn [after_draws]. rewrite Er. cbn [snd].
    split; [lia|]. split; [exact H2|]. split; [exact H3|]. split; [exact H4|].
    intros [|k] Hk; cbn [after_draws]; rewrite Er; cbn [fst snd]; [exact Ec|]. apply H5. lia.
Qed.

Lemma truncated_finds p : forall n fuel g, (n <= fuel)%nat -> check_feasibility (draw_number R p n g) = true ->
  (forall k, (k < n)%nat -> check_feasibility (draw_number R p k g) = false) ->
  truncated_uniform R fuel p g = Ok (draw_number R p n g, after_draws R p (S n) g).
Proof.
  induction n as [|n IH]; intros fuel g Hf Ha Hr.
  - unfold draw_number in *. cbn [after_draws] in *. destruct fuel; cbn [truncated_uniform];
    destruct (np_rand R p g) as [x g1]; cbn [fst snd] in *; rewrite Ha; reflexivity.
  - destruct fuel as [|f]; [lia|]. cbn [truncated_uniform].
    pose proof (Hr 0%nat ltac:(lia)) as H0. unfold draw_number in H0. cbn [after_draws] in H0.
    unfold draw_number in *. cbn [after_draws] in Ha |- *.
    destruct (np_rand R p g) as [x g1] eqn:Er. cbn [fst] in H0. rewrite H0. cbn [snd] in *.
    rewrite IH; [reflexivity|lia|exact Ha|]. intros k Hk. specialize (Hr (S k) ltac:(lia)). cbn [after_draws] in Hr. rewrite Er in Hr. exact Hr.
Qed.

Lemma truncated_never p fuel : forall g, (forall n, check_feasibility (draw_number R p n g) = false) ->
  truncated_uniform R fuel p g = Err OtherError.
Proof.
  induction fuel as [|f IH]; intros g H; cbn [truncated_uniform];
    pose proof (H 0%nat) as H0; unfold draw_number in H0; cbn [after_draws] in H0;
    destruct (np_rand R p g) as [x g1] eqn:Er; cbn [fst] in H0; rewrite H0; [reflexivity|].
  apply IH. intros n. specialize (H (S n)). unfold draw_number in *. cbn [after_draws] in H. rewrite Er in H. exact H.
Qed.

(** ** The drawn fit is a fit *)

Lemma drawn_descend_is data p mi : forall left num lbd prev cur g lbd' l conv g',
  drawn_descend R data p mi left lbd prev cur g = Ok (lbd', l, conv, g') ->
  exists perms, (forall r, exists h, perms r = fst (np_permutation R p h)) /\
    descend data perms mi left num lbd prev cur = Ok (lbd', l, conv).
Proof.
  induction left as [|k IH]; intros num lbd prev cur g lbd' l conv g' E; cbn [drawn_descend] in E.
  - inversion E; subst. exists (fun _ => fst (np_permutation R p g')). split; [eauto|]. reflexivity.
  - destruct (Qltb cur (prev - mi)) eqn:Eq.
    + unfold drawn_round in E. destruct (np_permutation R p g) as [perm g1] eqn:Ep.
      destruct (round data perm lbd) as [l1|] eqn:Er; cbn [bind] in E; [|discriminate].
      destruct (IH (S num) _ _ _ _ _ _ _ _ E) as [perms [Hp Hd]].
      exists (fun r => if Nat.eqb r num then perm else perms r). split.
      * intros r. destruct (Nat.eqb r num); [exists g; rewrite Ep; reflexivity|apply Hp].
      * cbn [descend]. rewrite Eq, Nat.eqb_refl, Er. cbn [bind]. rewrite <- Hd. apply descend_ext.
        intros r Hr. destruct (Nat.eqb_spec r num); [lia|reflexivity].
    + inversion E; subst. exists (fun _ => fst (np_permutation R p g')). split; [eauto|]. cbn [descend]. rewrite Eq. reflexivity.
Qed.

Definition sampled (sampler : G -> result (list Q * G)) (x : list Q) : Prop := exists g g', sampler g = Ok (x, g').

Lemma drawn_loop_is sampler data p d : sampled sampler d -> forall left s g s' g',
  drawn_loop R sampler data p left s g = Ok (s', g') ->
  exists starts perms, (forall n, sampled sampler (starts n)) /\
    (forall n r, exists h, perms n r = fst (np_permutation R p h)) /\
    multi_loop (fun n => fit_one_init_lbd data (perms n) default_min_improvement default_max_num_rounds (starts n))
      default_distance default_min_num_init left s = Ok s'.
Proof.
  intros Hd. unfold drawn_fit_one, fit_one_init_lbd.
  induction left as [|k IH]; intros s g s' g' E.
  - exists (fun _ => d), (fun _ _ => fst (np_permutation R p g)). split; [auto|]. split; [eauto|].
    rewrite multi_loop_unfold. cbn [drawn_loop] in E.
    match type of E with bind ?x _ = _ => destruct x as [[|]|] end; cbn [bind] in *; inversion E; reflexivity.
  - cbn [drawn_loop] in E.
    match type of E with bind ?x _ = _ => destruct x as [[|]|] eqn:Eg end; cbn [bind] in E; [| |discriminate].
    2:{ exists (fun _ => d), (fun _ _ => fst (np_permutation R p g)). split; [auto|]. split; [eauto|].
        rewrite multi_loop_unfold, Eg. cbn [bind]. inversion E; reflexivity. }
    destruct (sampler g) as [[start g1]|] eqn:Es; cbn [bind] in E; [|discriminate].
    unfold drawn_fit_one in E.
    destruct (drawn_descend R data p default_min_improvement default_max_num_rounds start (loss data start) (loss data start - 1) g1)
      as [[[[fit l] conv] g2]|] eqn:Ed; cbn [bind] in E; [|discriminate].
    destruct (drawn_descend_is _ _ _ _ 0%nat _ _ _ _ _ _ _ _ Ed) as [pm [Hpm Hdesc]].
    destruct (IH _ _ _ _ E) as [starts [perms [H1 [H2 H3]]]].
    exists (fun n => if Nat.eqb n (mr_starts s) then start else starts n),
           (fun n => if Nat.eqb n (mr_starts s) then pm else perms n). split; [|split].
    + intros n. destruct (Nat.eqb n (mr_starts s)); [exists g, g1; exact Es|apply H1].
    + intros n r. destruct (Nat.eqb n (mr_starts s)); [apply Hpm|apply H2].
    + rewrite multi_loop_unfold, Eg. cbn [bind]. rewrite Nat.eqb_refl.
      unfold fit_one_init_lbd in *. rewrite Hdesc. cbn [bind].
      rewrite <- H3. apply multi_loop_ext. cbn. intros n Hn. destruct (Nat.eqb_spec n (mr_starts s)); [lia|reflexivity].
Qed.

Lemma first_start sampler data p g s' g' left :
  drawn_loop R sampler data p (S left)
    {| mr_fit := None; mr_last_converge := None; mr_heap := repeat None default_num_near; mr_starts := 0 |} g = Ok (s', g') ->
  exists d, sampled sampler d.
Proof.
  cbn [drawn_loop mr_starts]. replace (0 <? default_min_num_init)%nat with true by reflexivity. cbn [bind].
  destruct (sampler g) as [[start g1]|] eqn:Es; cbn [bind]; [|discriminate]. intros _. exists start, g, g1. exact Es.
Qed.

Lemma drawn_fit_is sampler curves points g0 a g :
  drawn_fit R sampler curves points g0 = Ok (a, g) ->
  exists p starts perms, surface_ctor points = Ok p /\ (forall n, sampled (sampler p) (starts n)) /\
    (forall n r, exists h, perms n r = fst (np_permutation R p h)) /\
    restricted_fit starts perms curves points = Ok a.
Proof.
  unfold drawn_fit, drawn_multi. destruct (surface_ctor points) as [p|] eqn:Ep; cbn [bind]; [|discriminate].
  destruct (setup_predictor_response p curves points) as [data|] eqn:Ed; cbn [bind]; [|discriminate].
  match goal with |- context [drawn_loop R ?sm data p ?n ?s0 ?g0] =>
    destruct (drawn_loop R sm data p n s0 g0) as [[s' g']|] eqn:El end; cbn [bind]; [|discriminate].
  destruct (mr_last_converge s') as [conv|] eqn:Ec; cbn [bind]; [|discriminate].
  destruct (mr_fit s') as [[lbd l]|] eqn:Ef; cbn [bind]; [|discriminate].
  destruct (close_enough default_distance (mr_heap s')) as [c|] eqn:Eh; cbn [bind]; [|discriminate].
  intros E. inversion E; subst. clear E.
  assert (Hs : exists d, sampled (sampler p) d).
  { assert (N : exists k, restricted_max_num_init = S k) by (exists 999%nat; reflexivity). destruct N as [k N].
    rewrite N in El. exact (first_start _ _ _ _ _ _ _ El). }
  destruct Hs as [d Hd].
  destruct (drawn_loop_is (sampler p) data p d Hd _ _ _ _ _ El) as [starts [perms [H1 [H2 H3]]]].
  exists p, starts, perms. split; [reflexivity|]. split; [exact H1|]. split; [exact H2|].
  unfold restricted_fit. rewrite Ep. cbn [bind]. rewrite Ed. cbn [bind]. unfold fit_multi_init. rewrite H3. cbn [bind].
  rewrite Ec, Eh. cbn [bind mf_fit]. rewrite Ef. reflexivity.
Qed.

End Drawn.
