(** Boundary cases of C34, C36, C48 and C50: calls with the wrong number of spends, disks on
    which a file cannot be written, the marker, the parameters of the sketches, and models
    without a maximum reach. *)
From Coq Require Import String Ascii.
From Verif Require Import Prelude ModelReachPoint ModelData ModelPrivacy ModelHalo ModelAggregator ModelFiles
  SpecFiles FilesLemmas FilesLemmas2 SpecAggregator ModelDriver SpecDriver SpecTrial DriverLemmas DriverLemmas2 DriverLemmas3 DriverLemmas4 TrialLemmas
  ExampleDriver PropsDriver PropsTrial ModelGamma ModelDirac SpecDirac.
Open Scope Z_scope.

(** ** C34 *)

(** The k-inflated model is asked for exactly one spend; anything else is refused and leaves
    the model as it was. *)
Theorem C34_one_spend : forall x fuel m spends k, length spends <> 1%nat ->
  km_by_spend x fuel m spends k = (Err ValueError, m).
Proof. intros x fuel m [|a [|b l]] k H; [reflexivity|contradiction|reflexivity]. Qed.
Print Assumptions C34_one_spend.

(** ** C50 *)

(** The Dirac mixture model has no maximum reach, and no quantiles of it: asking for them
    raises. A quantile outside (0,1) is refused before that. *)
Theorem C50_no_maximum : forall m q,
  dm_max_reach m = Err OtherError /\
  ((0 < q)%Q /\ (q < 1)%Q -> dm_at_reach_quantile m q = Err OtherError) /\
  (~ ((0 < q)%Q /\ (q < 1)%Q) -> dm_at_reach_quantile m q = Err ValueError).
Proof.
  intros m q. split; [reflexivity|]. unfold dm_at_reach_quantile, Qltb.
  split.
  - intros [A B]. destruct (Qle_bool q 0) eqn:E; [apply Qle_bool_iff in E; exfalso; exact (Qlt_not_le _ _ A E)|].
    destruct (Qle_bool 1 q) eqn:E'; [apply Qle_bool_iff in E'; exfalso; exact (Qlt_not_le _ _ B E')|reflexivity].
  - intros N. destruct (Qle_bool q 0) eqn:E; [reflexivity|]. destruct (Qle_bool 1 q) eqn:E'; [reflexivity|].
    exfalso. apply N. split; apply Qnot_le_lt; intros X; apply Qle_bool_iff in X; congruence.
Qed.
Print Assumptions C50_no_maximum.

(** ** C48 *)

Lemma mapM_length {A B} (f : A -> result B) : forall l r, mapM f l = Ok r -> length r = length l.
Proof.
  induction l as [|a l IH]; intros r; cbn [mapM]; [intros E; injection E as <-; reflexivity|].
  destruct (f a) as [b|]; cbn [bind]; [|discriminate]. destruct (mapM f l) as [bs|]; cbn [bind]; [|discriminate].
  intros E. injection E as <-. cbn. rewrite (IH bs eq_refl). reflexivity.
Qed.

(** The simulator behind a row is made of the trial's data set and sketch parameters; its
    generator is the one of the trial's system parameters, and only that one moves. *)
Theorem C48_simulator : forall L t seed g row g',
  compute_row L t seed g = (Ok row, g') ->
  let system := td_system (tr_descriptor t) in
  exists d h fit w, dd_by_name (tr_design t) (tr_data_set t) = Ok d /\
    h_data_set h = d /\ length (h_publishers h) = length (ds_data d) /\
    ll_decay_rate (h_ll h) = number_Q (lp_decay_rate (sp_ll system)) /\
    (forall z, lp_sketch_size (sp_ll system) = PInt z -> ll_sketch_size (h_ll h) = z) /\
    ll_random_seed (h_ll h) = lp_random_seed (sp_ll system) /\
    lab_fit L (td_strategy (tr_descriptor t)) h
      {| epsilon := number_Q (ep_epsilon (td_experiment (tr_descriptor t)));
         delta := number_Q (ep_delta (td_experiment (tr_descriptor t))) |}
      (lab_seed_global L seed) {| w_tracker := new_tracker; w_rng := g (sp_generator system) |} = (fit, w) /\
    column row "privacy_used_epsilon" = Some (CStat (Num (epsilon (privacy_consumption (w_tracker w))))) /\
    g' (sp_generator system) = w_rng w /\ forall n, n <> sp_generator system -> g' n = g n.
Proof.
  intros L t seed g row g' E system.
  destruct (compute_row_inv L _ _ _ _ _ E) as [d [h [fit [w [iv [E1 [E2 [E3 [E4 [E5 E6]]]]]]]]]].
  exists d, h, fit, w. split; [exact E1|].
  pose proof (C48_privacy L t seed g row g' d h fit w E E1 E2 E3) as [_ [_ [P _]]].
  unfold mk_halo in E2.
  destruct (mapM _ _) as [pubs|] eqn:Em in E2; cbn [bind] in E2; [|discriminate E2]. injection E2 as <-.
  cbn [h_data_set h_ll h_publishers]. split; [reflexivity|]. split.
  - rewrite (mapM_length _ _ _ Em), combine_length, seq_length. unfold publisher_count. lia.
  - split; [reflexivity|]. split.
    + intros z Hz. unfold halo_ll. cbn [ll_sketch_size]. unfold system_of. fold system. rewrite Hz. reflexivity.
    + split; [reflexivity|]. split; [exact E3|]. split; [exact P|]. subst g'. unfold put_generator. split.
      * unfold system_of. fold system. rewrite Nat.eqb_refl. reflexivity.
      * intros n Hn. unfold system_of. fold system. destruct (Nat.eqb_spec n (sp_generator system)) as [X|X]; [contradiction|reflexivity].
Qed.
Print Assumptions C48_simulator.

(** ** C36 *)

(** While a trial is computed, its marker says when it was started, on which data set, and
    which trial it is. *)
Theorem C36_marker_text : forall L t seed now g d e g',
  sane_trials L [t] -> usable L [t] d -> no_result L t d -> compute_row L t seed g = (Err e, g') ->
  exists d', finish (evaluate L t seed now g) d = ((Err e, g'), d') /\
    stat d' (pending_path L t) =
      Some (File (now ++ [newline] ++ chars (tr_data_set t) ++ [newline] ++
                  show_descriptor (lab_float L) (tr_descriptor t) ++ [newline] ++ [newline])).
Proof.
  intros L t seed now g d e g' S U N E. destruct (C36_failed L t seed now g d e g' S U N E) as [d' [H1 [_ [H2 _]]]].
  exists d'. split; [exact H1|]. exact H2.
Qed.
Print Assumptions C36_marker_text.

Lemma finish_ops {A} os rest (k : result unit -> prog A) : forall d d', run_ops d os = (Ok tt, d') ->
  finish (acts (map Plain os ++ rest) k) d = finish (acts rest k) d'.
Proof.
  induction os as [|o os IH]; intros d d' E; cbn [map app acts finish].
  - cbn in E. congruence.
  - cbn [run_ops] in E. cbn [run_effect]. destruct (run_op d o) as [w|e]; [|discriminate]. apply IH. exact E.
Qed.

Lemma truncate_dir {A} p c rest (k : result unit -> prog A) d :
  stat d (parent p) = Some Dir -> stat d p = Some Dir ->
  finish (acts (map Plain (write_file_ops p c) ++ rest) k) d = finish (k (Err OtherError)) d.
Proof.
  intros H1 H2. unfold write_file_ops. cbn [map app acts finish run_effect run_op]. rewrite H1, H2. reflexivity.
Qed.

(** A disk on which the trial can run, except that a directory may be in the place of its
    files. *)
Definition roads_free (L : lab) (t : trial) (d : disk) : Prop :=
  disk_ok d /\ forall q c, directory_of L t q -> stat d q <> Some (File c).

(** If the marker cannot be written, the evaluation raises before anything is computed: no
    generator moves and there is no result. *)
Theorem C36_marker_unwritable : forall L t seed now g d,
  sane_trials L [t] -> roads_free L t d -> stat d (out_of L t) = None ->
  stat d (pending_path L t) = Some Dir ->
  exists d', finish (evaluate L t seed now g) d = ((Err OtherError, g), d') /\
    stat d' (out_of L t) = None /\ stat d' (pending_path L t) = Some Dir.
Proof.
  intros L t seed now g d S [K R] Ho Hp. apply sane_separate in S.
  destruct (sep_trial L [t] S t ltac:(left; reflexivity)) as [A [B [C [D E]]]].
  destruct (mkdir_ok d (parent (pending_path L t)) K) as [w1 [R1 [K1 [S1 [F1 G1]]]]].
  { intros q x H. apply R. right. exact H. }
  assert (Dir1 : forall q, on_the_way (parent (pending_path L t)) q -> place_of L [t] q).
  { intros q H. exists t. split; [left; reflexivity|]. right. exact H. }
  exists w1. split; [|split].
  - unfold evaluate. fold (out_of L t). cbn [finish]. rewrite Ho. unfold recompute, save. cbv zeta.
    rewrite <- (app_nil_r (map Plain _)), map_app, <- app_assoc. rewrite (finish_ops _ _ _ _ _ R1).
    rewrite truncate_dir; [reflexivity|exact S1|].
    rewrite G1; [exact Hp|]. intros X. apply E. apply Dir1. exact X.
  - rewrite G1; [exact Ho|]. intros X. apply D. apply Dir1. exact X.
  - rewrite G1; [exact Hp|]. intros X. apply E. apply Dir1. exact X.
Qed.
Print Assumptions C36_marker_unwritable.

(** If the results file cannot be written, the evaluation raises, although the row has been
    computed, and the marker stays. *)
Theorem C36_result_unwritable : forall L t seed now g d row g',
  sane_trials L [t] -> roads_free L t d -> stat d (out_of L t) = Some Dir ->
  stat d (pending_path L t) <> Some Dir -> compute_row L t seed g = (Ok row, g') ->
  exists d', finish (evaluate L t seed now g) d = ((Err OtherError, g'), d') /\
    stat d' (out_of L t) = Some Dir /\ stat d' (pending_path L t) = Some (File (pending_text L t now)).
Proof.
  intros L t seed now g d row g' S [K R] Ho Hp Er. apply sane_separate in S.
  destruct (sep_trial L [t] S t ltac:(left; reflexivity)) as [A [B [C [D E]]]].
  set (out := out_of L t) in *. set (pend := pending_path L t) in *.
  assert (Dir1 : forall q, on_the_way (parent pend) q -> place_of L [t] q).
  { intros q H. exists t. split; [left; reflexivity|]. right. exact H. }
  assert (Dir2 : forall q, on_the_way (parent out) q -> place_of L [t] q).
  { intros q H. exists t. split; [left; reflexivity|]. left. exact H. }
  destruct (mkdir_ok d (parent pend) K) as [w1 [R1 [K1 [S1 [F1 G1]]]]].
  { intros q x H. apply R. right. exact H. }
  assert (P1 : stat w1 pend = stat d pend).
  { apply G1. intros X. apply E. apply Dir1. exact X. }
  assert (O1 : stat w1 out = Some Dir).
  { rewrite G1; [exact Ho|]. intros X. apply D. apply Dir1. exact X. }
  destruct (write_file_ok w1 pend (pending_text L t now) K1 B S1) as [w2 [R2 [K2 [S2 F2]]]]; [congruence|].
  destruct (mkdir_ok w2 (parent out) K2) as [w3 [R3 [K3 [S3 [F3 G3]]]]].
  { intros q x H Y.
    assert (Nq : q <> pend) by (intros Z; subst q; apply E; apply Dir2; exact H).
    rewrite F2 in Y by auto.
    destruct (on_the_way_dec (parent pend) q) as [W|W].
    - rewrite (F1 q W) in Y. discriminate.
    - rewrite (G1 q W) in Y. revert Y. apply R. left. exact H. }
  assert (P3 : stat w3 pend = stat w2 pend).
  { apply G3. intros X. apply E. apply Dir2. exact X. }
  assert (O3 : stat w3 out = Some Dir).
  { rewrite G3 by (intros X; apply D; apply Dir2; exact X). rewrite F2 by auto. exact O1. }
  exists w3. split; [|split; [exact O3|congruence]].
  unfold evaluate. fold (out_of L t). fold out. cbn [finish]. rewrite Ho. unfold recompute, save. cbv zeta.
  fold (out_of L t). fold out pend.
  rewrite <- (app_nil_r (map Plain (mkdir_ops (parent pend) ++ _))), (map_app Plain (mkdir_ops (parent pend))), <- app_assoc.
  rewrite (finish_ops _ _ _ _ _ R1). rewrite (finish_ops _ _ _ _ _ R2). cbn [acts]. rewrite Er.
  rewrite map_app, <- app_assoc. rewrite (finish_ops _ _ _ _ _ R3).
  rewrite truncate_dir; [reflexivity|exact S3|exact O3].
Qed.
Print Assumptions C36_result_unwritable.

(** The marker may be removed by someone else once the result has been written: there is a
    moment at which the results file is complete and the marker there, and from which, the
    marker taken away, the evaluation still ends well. *)
Theorem C36_marker_taken : forall L t seed now g d row g',
  sane_trials L [t] -> usable L [t] d -> stat d (out_of L t) = None -> compute_row L t seed g = (Ok row, g') ->
  exists n d1 rest, advances n d (evaluate L t seed now g) = (d1, rest) /\
    stat d1 (out_of L t) = Some (File (lab_print L [row])) /\
    stat d1 (pending_path L t) = Some (File (pending_text L t now)) /\
    let d2 := disk_remove d1 (pending_path L t) in
    finish rest d2 = ((Ok [row], g'), d2) /\ done_with L t [row] d2.
Proof.
  intros L t seed now g d row g' S U Ho Er. apply sane_separate in S.
  destruct (sep_trial L [t] S t ltac:(left; reflexivity)) as [A [B [C [D E]]]].
  destruct U as [U1 U2]. destruct (U2 t ltac:(left; reflexivity)) as [V1 [V2 V3]].
  set (out := out_of L t) in *. set (pend := pending_path L t) in *.
  assert (Dir1 : forall q, on_the_way (parent pend) q -> place_of L [t] q).
  { intros q H. exists t. split; [left; reflexivity|]. right. exact H. }
  assert (Dir2 : forall q, on_the_way (parent out) q -> place_of L [t] q).
  { intros q H. exists t. split; [left; reflexivity|]. left. exact H. }
  destruct (mkdir_ok d (parent pend) U1) as [w1 [R1 [K1 [S1 [F1 G1]]]]].
  { intros q x H. apply V1. right. exact H. }
  assert (P1 : stat w1 pend = stat d pend).
  { apply G1. intros X. apply E. apply Dir1. exact X. }
  assert (O1 : stat w1 out = stat d out).
  { apply G1. intros X. apply D. apply Dir1. exact X. }
  destruct (write_file_ok w1 pend (pending_text L t now) K1 B S1) as [w2 [R2 [K2 [S2 F2]]]]; [congruence|].
  destruct (mkdir_ok w2 (parent out) K2) as [w3 [R3 [K3 [S3 [F3 G3]]]]].
  { intros q x H Y.
    assert (Nq : q <> pend) by (intros Z; subst q; apply E; apply Dir2; exact H).
    rewrite F2 in Y by auto.
    destruct (on_the_way_dec (parent pend) q) as [W|W].
    - rewrite (F1 q W) in Y. discriminate.
    - rewrite (G1 q W) in Y. revert Y. apply V1. left. exact H. }
  assert (P3 : stat w3 pend = stat w2 pend).
  { apply G3. intros X. apply E. apply Dir2. exact X. }
  assert (O3 : stat w3 out = stat d out).
  { rewrite G3 by (intros X; apply D; apply Dir2; exact X). rewrite F2 by auto. exact O1. }
  destruct (write_file_ok w3 out (lab_print L [row]) K3 A S3) as [w4 [R4 [K4 [S4 F4]]]]; [congruence|].
  assert (Q1 : run_ops d (mkdir_ops (parent pend) ++ write_file_ops pend (pending_text L t now)) = (Ok tt, w2)).
  { rewrite (run_ops_app _ _ _ _ R1). exact R2. }
  assert (Q2 : run_ops w2 (mkdir_ops (parent out) ++ write_file_ops out (lab_print L [row])) = (Ok tt, w4)).
  { rewrite (run_ops_app _ _ _ _ R3). exact R4. }
  exists (Datatypes.S (length (mkdir_ops (parent pend) ++ write_file_ops pend (pending_text L t now)) +
          length (mkdir_ops (parent out) ++ write_file_ops out (lab_print L [row]))))%nat, w4.
  eexists. split; [|split; [exact S4|split; [rewrite F4 by auto; congruence|]]].
  - cbn [advances]. unfold evaluate. fold (out_of L t). fold out. cbn [advance]. rewrite Ho.
    unfold recompute, save. cbv zeta. fold (out_of L t). fold out pend. rewrite advances_add.
    rewrite <- (app_nil_r (map Plain (mkdir_ops (parent pend) ++ _))).
    rewrite (advances_ops _ _ _ _ _ Q1). cbn [acts]. rewrite Er.
    rewrite (advances_ops _ _ _ _ _ Q2). reflexivity.
  - cbv zeta. cbn [acts finish run_effect]. rewrite stat_remove_eq by assumption.
    split; [reflexivity|]. split.
    + change (out_of L t) with out. rewrite stat_remove_neq by auto. exact S4.
    + apply stat_remove_eq; assumption.
Qed.
Print Assumptions C36_marker_taken.

(** Disks of the last theorems: a directory in the place of one of the trial's files. *)
Lemma blocked_disk L t p : separate L [t] -> p = out_of L t \/ p = pending_path L t ->
  exists d, roads_free L t d /\ stat d p = Some Dir /\
    forall q, (q = out_of L t \/ q = pending_path L t) -> q <> p -> stat d q = None.
Proof.
  intros S Hp. destruct (sep_trial L [t] S t ltac:(left; reflexivity)) as [A [B [C [D E]]]].
  assert (K0 : disk_ok []) by exact (proj1 (toy_usable toy_print toy_parse 0 1 (or_intror eq_refl))).
  assert (N0 : forall q, snd q <> [] -> stat [] q = None) by (intros [r [|x l]] H; [destruct (H eq_refl)|reflexivity]).
  destruct (mkdir_ok [] p K0) as [w [R [K [S1 [F1 G1]]]]].
  { intros q c _. destruct q as [r [|x l]]; discriminate. }
  exists w. split; [|split; [exact S1|]].
  - split; [exact K|]. intros q c _ X. destruct (on_the_way_dec p q) as [W|W]; [rewrite (F1 q W) in X; discriminate|].
    rewrite (G1 q W) in X. destruct q as [r [|x l]]; discriminate.
  - intros q Hq Nq. rewrite G1.
    + apply N0. destruct Hq as [-> | ->]; assumption.
    + intros [W1 [rest W2]]. assert (rest <> []) as Nr by (intros ->; rewrite app_nil_r in W2; destruct q; cbn in W2; congruence).
      assert (on_the_way (parent p) q) as W.
      { split; [exact W1|]. exists (removelast rest). subst p. unfold parent. cbn [fst snd].
        rewrite removelast_app by exact Nr. reflexivity. }
      assert (place_of L [t] q) as P by (exists t; split; [left; reflexivity|]; destruct Hp as [-> | ->]; [left|right]; exact W).
      destruct Hq as [-> | ->]; contradiction.
Qed.

Example C36_unwritable_example :
  (exists d, sane_trials toy [toy_trial 0 1] /\ roads_free toy (toy_trial 0 1) d /\
     stat d (out_of toy (toy_trial 0 1)) = None /\ stat d (pending_path toy (toy_trial 0 1)) = Some Dir) /\
  exists d, roads_free toy (toy_trial 0 1) d /\
     stat d (out_of toy (toy_trial 0 1)) = Some Dir /\ stat d (pending_path toy (toy_trial 0 1)) <> Some Dir.
Proof.
  pose proof (toy_sane toy_print toy_parse 0 1 (or_intror eq_refl)) as S.
  pose proof (sane_separate _ _ S) as Sep.
  destruct (sep_trial _ _ Sep (toy_trial 0 1) ltac:(left; reflexivity)) as [_ [_ [C _]]].
  split.
  - destruct (blocked_disk _ _ _ Sep (or_intror eq_refl)) as [d [H1 [H2 H3]]].
    exists d. split; [exact S|]. split; [exact H1|]. split; [apply H3; auto|exact H2].
  - destruct (blocked_disk _ _ _ Sep (or_introl eq_refl)) as [d [H1 [H2 H3]]].
    exists d. split; [exact H1|]. split; [exact H2|]. change toy with (toy_with toy_print toy_parse).
    rewrite (H3 (pending_path (toy_with toy_print toy_parse) (toy_trial 0 1))); [discriminate|right; reflexivity|].
    intros X. apply C. symmetry. exact X.
Qed.
