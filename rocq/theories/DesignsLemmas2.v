(** Feasible settings can be carried out. *)
From Coq Require Import String Ascii Qround Permutation Lqa.
From Verif Require Import Prelude ModelReachPoint ModelData SpecData ReachPointLemmas DataLemmas DataLemmas2
  DataLemmas3 PropsData ModelFiles SpecFiles FilesLemmas FilesLemmas2 FilesLemmas3 ModelGenerators SpecGenerators
  GeneratorsLemmas GeneratorsLemmas2 PropsGenerators PropsSynthetic ModelDriver SpecDriver DriverLemmas4 DriverLemmas5
  ModelDesigns SpecDesigns DesignsLemmas.
Open Scope Z_scope.

(** ** Keyword arguments *)

Lemma kw_get_in kw k v : NoDup (map fst kw) -> In (k, v) kw -> kw_get kw k = Some v.
Proof.
  induction kw as [|[k' v'] kw IH]; intros N I; [destruct I|]. cbn [kw_get].
  cbn [map fst] in N. inversion N as [|? ? N1 N2]; subst. destruct I as [I|I].
  - inversion I; subst. rewrite String.eqb_refl. reflexivity.
  - destruct (String.eqb_spec k k') as [->|]; [|auto]. exfalso. apply N1. apply (in_map fst) in I. exact I.
Qed.
Lemma kw_get_some kw k v : kw_get kw k = Some v -> In (k, v) kw.
Proof.
  induction kw as [|[k' v'] kw IH]; cbn [kw_get]; [discriminate|].
  destruct (String.eqb_spec k k') as [->|]; intros H; [inversion H; left; reflexivity|right; auto].
Qed.
Lemma kw_get_key kw k : In k (map fst kw) -> exists v, kw_get kw k = Some v.
Proof.
  induction kw as [|[k' v'] kw IH]; intros I; [destruct I|]. cbn [kw_get].
  destruct (String.eqb_spec k k') as [->|]; [eauto|]. destruct I as [I|I]; [cbn in I; congruence|auto].
Qed.
Lemma known_in names k : known names k = true <-> In k names.
Proof.
  unfold known. rewrite existsb_exists. split.
  - intros [y [H1 H2]]. apply String.eqb_eq in H2. subst. exact H1.
  - intros H. exists k. split; [exact H|apply String.eqb_refl].
Qed.
Lemma only_keys_ok names kw : arguments names kw -> only_keys names kw = true.
Proof.
  intros [_ H]. unfold only_keys. apply forallb_forall. intros [k v] I. apply known_in. apply H.
  apply (in_map fst) in I. exact I.
Qed.
Lemma given_get names kw k q : arguments names kw -> given kw k q ->
  exists v, kw_get kw k = Some v /\ as_float v = Ok q.
Proof.
  intros [N _] [n [I E]]. exists (VNum n). split; [apply kw_get_in; assumption|]. cbn. rewrite E. reflexivity.
Qed.
Lemma if_given_get kw k (P : Q -> Prop) d : P d -> if_given kw k P -> exists q, float_or (kw_get kw k) d = Ok q /\ P q.
Proof.
  intros D H. destruct (kw_get kw k) as [v|] eqn:E; cbn [float_or]; [|eauto].
  destruct (H v (kw_get_some _ _ _ E)) as [n [-> Pn]]. cbn [as_float]. eauto.
Qed.

Definition legal (i : impression_params) : Prop :=
  match i with
  | Homogeneous l => (0 <= l <= 1000000000)%Q
  | Heterogeneous a b => (0 <= a <= 1000)%Q /\ (0 <= b <= 1000)%Q
  | HeavyTailed s => (1 < s)%Q
  end.

Lemma make_pricing_ok g : usable_pricing g -> exists q, make_pricing g = Ok q.
Proof.
  intros [C [A [q G]]]. unfold make_pricing. rewrite C, (only_keys_ok _ _ A).
  destruct (given_get _ _ _ _ A G) as [v [E1 E2]]. rewrite E1. cbn [need bind]. eauto.
Qed.
Lemma make_impressions_ok g : usable_impressions g -> exists i, make_impressions g = Ok i /\ legal i.
Proof.
  intros [[C [A [q [G B]]]]|[[C [A [G1 G2]]]|[C [A G]]]]; unfold make_impressions; rewrite C, (only_keys_ok _ _ A).
  - destruct (given_get _ _ _ _ A G) as [v [E1 E2]]. rewrite E1. cbn [need bind]. rewrite E2. cbn [bind]. eauto.
  - destruct (if_given_get _ _ (fun q => 0 <= q <= 1000)%Q 1%Q ltac:(cbn; lra) G1) as [a [-> Pa]].
    destruct (if_given_get _ _ (fun q => 0 <= q <= 1000)%Q 1%Q ltac:(cbn; lra) G2) as [b [-> Pb]].
    cbn [bind]. eexists. split; [reflexivity|]. split; assumption.
  - destruct (if_given_get _ _ (fun q => 1 < q)%Q 2%Q ltac:(cbn; lra) G) as [a [-> Pa]]. cbn [bind]. eauto.
Qed.

Definition fits (equal : Prop) (largest : Z) (o : overlap_params seq_options) : Prop :=
  match o with
  | FullOverlap => True
  | Independent u => largest <= u
  | Sequential o _ =>
      (so_order o = "original"%string \/
       (so_order o = "reversed"%string \/ so_order o = "random"%string) /\ equal) /\
      In (so_correlated o) ["all"; "one"]%string /\ (0 <= so_shared o <= 1)%Q
  end.
Lemma make_overlap_ok equal largest g : usable_overlap equal largest g ->
  exists o, make_overlap g = Ok o /\ fits equal largest o.
Proof.
  intros [[C A]|[[C [A [[u [I U]] R]]]|[C [A [[o [Io Po]] [[c [Ic Pc]] [q [G B]]]]]]]];
    unfold make_overlap; rewrite C.
  - rewrite A. eexists. split; [reflexivity|exact Logic.I].
  - rewrite (only_keys_ok _ _ A). rewrite (kw_get_in _ _ _ (proj1 A) I). cbn [need bind].
    destruct (kw_get_key _ _ R) as [v ->]. cbn [need bind as_int]. eexists. split; [reflexivity|exact U].
  - rewrite (only_keys_ok _ _ A). rewrite (kw_get_in _ _ _ (proj1 A) Io), (kw_get_in _ _ _ (proj1 A) Ic).
    destruct (given_get _ _ _ _ A G) as [v [E1 E2]]. rewrite E1. cbn [need bind as_str]. rewrite E2. cbn [bind].
    eexists. split; [reflexivity|]. cbn [fits so_order so_correlated so_shared].
    split; [|split; [|exact B]].
    + destruct Po as [->|[P1 P2]]; [left; reflexivity|right; split; assumption].
    + cbn [In]. destruct Pc as [->| ->]; auto.
Qed.

(** ** Sizes *)

Lemma Qpow_between r k : (0 <= r <= 1)%Q -> (0 <= Qpow r k <= 1)%Q.
Proof.
  intros H. induction k as [|k IH]; cbn [Qpow]; [lra|]. split; [apply Qmult_le_0_compat; lra|].
  apply Qle_trans with (1 * Qpow r k)%Q; [apply Qmult_le_compat_r; lra|lra].
Qed.
Lemma Qpow_decreasing r k m : (0 <= r <= 1)%Q -> (Qpow r (k + m) <= Qpow r k)%Q.
Proof.
  intros H. induction m as [|m IH]; [rewrite Nat.add_0_r; lra|]. rewrite Nat.add_succ_r. cbn [Qpow].
  pose proof (Qpow_between r (k + m) H). apply Qle_trans with (1 * Qpow r (k + m))%Q; [apply Qmult_le_compat_r; lra|lra].
Qed.

Lemma planned_one n rate i : (rate == 1)%Q -> planned_size n rate i = n.
Proof.
  intros H. induction i as [|i IH]; [reflexivity|]. cbn [planned_size]. rewrite IH.
  assert ((inject_Z n * rate == inject_Z n)%Q) as -> by (rewrite H; ring). apply Qfloor_Z.
Qed.

Lemma shrink_between pow p : nearly_root pow -> feasible p -> (0 <= shrink pow p <= 1)%Q.
Proof.
  intros R [H1 [H2 [H3 _]]]. unfold shrink. destruct (Z.eq_dec _ _); [lra|].
  apply R; [exact H3|lia].
Qed.

Lemma feasible_sizes pow p i : nearly_root pow -> feasible p -> (i < Z.to_nat (fp_num_publishers p))%nat ->
  1 <= planned_size (fp_largest p) (shrink pow p) i <= fp_largest p.
Proof.
  intros R Fe Hi. pose proof (shrink_between pow p R Fe) as Sb.
  destruct Fe as [H1 [H2 [H3 [H4 _]]]].
  destruct (C47_sizes (fp_largest p) (shrink pow p) i ltac:(lia) (proj1 Sb) (proj2 Sb)) as [_ [_ [A B]]].
  assert (HN : (0 <= inject_Z (fp_largest p))%Q) by (change 0%Q with (inject_Z 0); rewrite <- Zle_Qle; lia).
  split.
  - unfold shrink in *. destruct (Z.eq_dec (fp_num_publishers p) 1) as [E|E].
    { rewrite planned_one by reflexivity. exact H2. }
    specialize (H4 ltac:(lia)).
    destruct (R (number_Q (fp_ratio p)) (fp_num_publishers p - 1) H3 ltac:(lia)) as [R1 [R2 _]].
    set (rate := pow (number_Q (fp_ratio p)) (fp_num_publishers p - 1)) in *.
    set (m := Z.to_nat (fp_num_publishers p - 1)) in *.
    assert (Hm : Z.of_nat m = fp_num_publishers p - 1) by (unfold m; lia).
    pose proof (Qpow_decreasing rate i (m - i) Sb) as D. replace (i + (m - i))%nat with m in D by lia.
    assert (L1 : ((999 # 1000) * (inject_Z (fp_largest p) * number_Q (fp_ratio p)) <= inject_Z (fp_largest p) * Qpow rate i)%Q).
    { setoid_replace ((999 # 1000) * (inject_Z (fp_largest p) * number_Q (fp_ratio p)))%Q
        with (inject_Z (fp_largest p) * ((999 # 1000) * number_Q (fp_ratio p)))%Q by ring.
      rewrite (Qmult_comm (inject_Z (fp_largest p)) ((999 # 1000) * number_Q (fp_ratio p))),
              (Qmult_comm (inject_Z (fp_largest p)) (Qpow rate i)).
      apply Qmult_le_compat_r; [lra|exact HN]. }
    assert (L2 : (inject_Z (Z.of_nat i) <= inject_Z (fp_num_publishers p - 1))%Q) by (rewrite <- Zle_Qle; lia).
    assert (L3 : (inject_Z 0 < inject_Z (planned_size (fp_largest p) rate i))%Q) by (change (inject_Z 0) with 0%Q; lra).
    rewrite <- Zlt_Qlt in L3. lia.
  - rewrite Zle_Qle. apply Qle_trans with (1 := B). pose proof (Qpow_between (shrink pow p) i Sb) as P.
    setoid_replace (inject_Z (fp_largest p))%Q with (1 * inject_Z (fp_largest p))%Q at 2 by ring.
    rewrite Qmult_comm. apply Qmult_le_compat_r; [lra|exact HN].
Qed.

(** ** Publishers *)

Lemma impression_call_ok {St} (rng : numpy_rng St) i n st : numpy_draws rng -> legal i ->
  exists imps st', impression_call rng i n st = Ok (imps, st').
Proof.
  intros D L.
  assert (forall draw, (forall s, exists x s', draw s = Ok (x, s')) -> exists imps st',
      ('(impressions, st1) <- extend_loop draw (py_range 0 n) [] st ;; Ok (rng_shuffle rng impressions st1)) = Ok (imps, st')) as G.
  { intros draw T. destruct (extend_loop_total draw (py_range 0 n) T [] st) as [r [st1 ->]]. cbn [bind].
    destruct (rng_shuffle rng r st1) as [a s]. eauto. }
  destruct i as [l|a b|z]; cbn [impression_call legal] in *.
  - apply G. intros s. unfold homogeneous_draw. destruct (dr_poisson _ D l s L) as [x [s' ->]]. cbn [bind]. eauto.
  - apply G. intros s. unfold heterogeneous_draw. destruct L as [La Lb].
    destruct (dr_gamma _ D a b s La Lb) as [x [s' [-> Lx]]]. cbn [bind].
    destruct (dr_poisson _ D x s' Lx) as [y [s2 ->]]. cbn [bind]. eauto.
  - unfold heavy_tailed_call. assert (Qltb 1 z = true) as -> by (apply Qltb_lt; auto).
    apply G. intros s. apply (dr_zipf _ D). exact L.
Qed.

Lemma publisher_ok {St} (rng : numpy_rng St) i n rn cpi name st : numpy_behaves rng -> numpy_draws rng ->
  legal i -> 1 <= n ->
  exists p st', generate_publisher_data rn (impression_call rng i n) cpi name st = Ok (p, st').
Proof.
  intros N D L Hn. destruct (impression_call_ok rng i n st D L) as [imps [st' E]].
  pose proof (impressions_ids _ _ _ _ _ _ N E) as I.
  unfold generate_publisher_data. rewrite E. cbn [bind].
  destruct imps as [|y imps]; [exfalso; apply (proj2 (I 0)); lia|].
  unfold fixed_price_call, mk_publisher. cbn [price_from map py_maxQ bind]. eauto.
Qed.

Lemma planned_shift n rate : forall i, planned_size (Qfloor (inject_Z n * rate)) rate i = planned_size n rate (S i).
Proof. intros i. induction i as [|i IH]; [reflexivity|]. cbn [planned_size]. rewrite IH. reflexivity. Qed.

Lemma publishers_ok {St Opt} (rng : numpy_rng St) str_of rn (params : data_set_params Opt) rate :
  numpy_behaves rng -> numpy_draws rng -> legal (dp_impressions params) ->
  forall ids size st, (forall i, (i < length ids)%nat -> 1 <= planned_size size rate i) ->
  exists ps st', generate_publishers rng str_of rn params rate ids size st = Ok (ps, st').
Proof.
  intros N D L ids. induction ids as [|k ids IH]; intros size st H; cbn [generate_publishers]; [eauto|].
  destruct (publisher_ok rng (dp_impressions params) size rn (dp_cpi params) (Some (str_of (k + 1))) st N D L)
    as [p [st1 ->]]; [apply (H O); cbn; lia|]. cbn [bind].
  destruct (IH (Qfloor (inject_Z size * rate)) st1) as [ps [st2 ->]].
  - intros i Hi. rewrite planned_shift. apply H. cbn. lia.
  - cbn [bind]. eauto.
Qed.

(** ** Data sets *)

Lemma Forall2_repeat_perm {A} (R : A -> Z -> Prop) l sizes sizes' n :
  Permutation sizes' sizes -> Forall (fun s => s = n) sizes -> Forall2 R l sizes' -> Forall2 R l sizes.
Proof.
  intros P Fo H. assert (sizes' = sizes) as <-; [|exact H].
  assert (Fo' : Forall (fun s => s = n) sizes') by (eapply Permutation_Forall; [apply Permutation_sym; exact P|exact Fo]).
  apply Permutation_length in P. clear H. revert sizes P Fo Fo'. induction sizes' as [|a s IH]; intros [|b t] P Fo Fo'; try discriminate; auto.
  inversion Fo; inversion Fo'; subst. f_equal. apply IH; auto.
Qed.

Lemma make_named pubs name : name <> ""%string -> exists d, mk_data_set pubs (Some name) None = Ok d /\
  ds_data d = pubs /\ ds_name d = name.
Proof. intros H. unfold mk_data_set. destruct name; [congruence|]. cbn [truthy bind]. eexists. split; [reflexivity|]. auto. Qed.

Lemma named_pubs_storable F logs pubs name d :
  (forall q, prints_back F q) -> Forall2 is_publisher_of logs pubs ->
  (forall i p, nth_error pubs i = Some p -> pd_name p = string_of_list_ascii (str_of_int (Z.of_nat i + 1))) ->
  mk_data_set pubs (Some name) None = Ok d -> storable F d.
Proof.
  intros PB Fo Nm Mk. pose proof (data_set_fields _ _ _ _ Mk) as [Dd _].
  assert (forall z, file_name (string_of_list_ascii (str_of_int z))) as FN.
  { intros z. pose proof (str_of_int_char z) as C. pose proof (str_of_int_nonempty z) as NE.
    assert (X : forall t, str_of_int z = list_ascii_of_string t -> t <> ""%string /\ t <> "."%string /\ t <> ".."%string).
    { intros t Et. rewrite Et in *. repeat split; intros ->; cbn in *; [congruence| |].
      - destruct (C "."%char (or_introl eq_refl)) as [Q|[Q|[v Q]]]; try discriminate; inversion Q.
      - destruct (C "."%char (or_introl eq_refl)) as [Q|[Q|[v Q]]]; try discriminate; inversion Q. }
    destruct (X (string_of_list_ascii (str_of_int z))) as [X1 [X2 X3]];
      [rewrite list_ascii_of_string_of_list_ascii; reflexivity|].
    unfold file_name. rewrite list_ascii_of_string_of_list_ascii. repeat split; auto.
    apply plain_no_slash, str_of_int_plain. }
  split; [|split].
  - exists logs. split; [exists pubs, (Some name), None; auto|].
    apply Forall_forall. intros l _. apply Forall_forall. intros r _. apply PB.
  - rewrite Dd. apply Forall_forall. intros p I. apply In_nth_error in I. destruct I as [i I].
    rewrite (Nm i p I). apply FN.
  - rewrite Dd. apply (NoDup_nth_error (map pd_name pubs)). intros i j Hi Hij.
    rewrite map_length in Hi. rewrite !nth_error_map in Hij.
    destruct (nth_error pubs i) as [p|] eqn:Ei; [|apply nth_error_None in Ei; lia]. cbn [option_map] in Hij.
    destruct (nth_error pubs j) as [q|] eqn:Ej; [|discriminate]. cbn [option_map] in Hij. inversion Hij as [E].
    rewrite (Nm i p Ei), (Nm j q Ej) in E. apply (f_equal list_ascii_of_string) in E.
    rewrite !list_ascii_of_string_of_list_ascii in E. apply str_of_int_inj in E. lia.
Qed.

Lemma set_ok {St} (rng : numpy_rng St) x F p st : environment rng x F -> feasible p -> show_set F p <> [] ->
  exists d st', generate_set rng x F p st = Ok (d, st') /\ as_planned F (sx_pow x) p d /\ storable F d.
Proof.
  intros [Ev1 Ev2 Ev3 Ev4 Ev5 Ev6] Fe NE.
  pose proof (fun i => feasible_sizes (sx_pow x) p i Ev3 Fe) as Sz.
  pose proof Fe as [H1 [H2 [H3 [H4 [U1 [U2 U3]]]]]].
  destruct (make_impressions_ok _ U2) as [imp [EI LI]]. destruct (make_pricing_ok _ U1) as [cpi EC].
  destruct (make_overlap_ok _ _ _ U3) as [o [EO FO]].
  unfold generate_set. assert ((1 <=? fp_num_publishers p) = true) as -> by lia.
  rewrite EI. cbn [bind]. rewrite EC. cbn [bind]. rewrite EO.
  set (params := {| dp_num_publishers := fp_num_publishers p; dp_largest := fp_largest p;
                     dp_ratio := number_Q (fp_ratio p); dp_cpi := cpi; dp_impressions := imp; dp_overlap := o |}).
  assert (Hrate : decay_rate (sx_pow x) params = shrink (sx_pow x) p).
  { unfold decay_rate, shrink. cbn [params dp_num_publishers dp_ratio].
    destruct (Z.eqb_spec (fp_num_publishers p) 1) as [E|E]; destruct (Z.eq_dec (fp_num_publishers p) 1); congruence. }
  assert (Hs : forall k, sx_str x k <> ""%string).
  { intros k. rewrite Ev5. intros E. apply (str_of_int_nonempty k). apply (f_equal list_ascii_of_string) in E.
    rewrite list_ascii_of_string_of_list_ascii in E. exact E. }
  assert (Hname : str (show_set F p) <> ""%string).
  { intros E. apply NE. apply (f_equal chars) in E. rewrite chars_str in E. exact E. }
  unfold generate_data_set. rewrite Hrate. cbn [params dp_num_publishers dp_largest].
  destruct (publishers_ok rng (sx_str x) (sx_random_name x) params (shrink (sx_pow x) p) Ev1 Ev2 LI
              (py_range 0 (fp_num_publishers p)) (fp_largest p) st) as [ps [st1 EP]].
  { intros i Hi. rewrite range0_len in Hi. apply Sz. exact Hi. }
  rewrite EP. cbn [bind].
  destruct (generate_publishers_ok _ _ _ _ _ Ev1 Hs _ _ _ _ _ EP) as [logs [L1 [L2 L3]]].
  rewrite range0_len in L2.
  assert (Hps : forall i q, nth_error ps i = Some q ->
    pd_name q = string_of_list_ascii (str_of_int (Z.of_nat i + 1)) /\
    pd_max_reach q = planned_size (fp_largest p) (shrink (sx_pow x) p) i /\ (i < Z.to_nat (fp_num_publishers p))%nat).
  { intros i q Hq. assert (Hi : (i < length ps)%nat) by (apply nth_error_Some; congruence).
    destruct (nth_error logs i) as [log|] eqn:El; [|apply nth_error_None in El; apply Forall2_len in L1; lia].
    destruct (L3 i q log Hq El) as [_ [A [_ B]]]. rewrite range0_nth in B by lia. rewrite B, Ev5. repeat split; auto. lia. }
  assert (Fin : forall pubs' logs' d, Forall2 is_publisher_of logs' pubs' -> length pubs' = length ps ->
    (forall i q, nth_error pubs' i = Some q -> exists q0, nth_error ps i = Some q0 /\
       pd_name q = pd_name q0 /\ pd_max_reach q = pd_max_reach q0) ->
    mk_data_set pubs' (Some (str (show_set F p))) None = Ok d ->
    as_planned F (sx_pow x) p d /\ storable F d).
  { intros pubs' logs' d Fo Len Nm Mk. pose proof (data_set_fields _ _ _ _ Mk) as [Dd _]. split.
    - split; [|split].
      + destruct (make_named pubs' _ Hname) as [d' [M1 [_ M2]]]. rewrite Mk in M1. inversion M1; subst. exact M2.
      + rewrite Dd, Len, L2. lia.
      + intros i q Hq. rewrite Dd in Hq. destruct (Nm i q Hq) as [q0 [E0 [E1 E2]]].
        destruct (Hps i q0 E0) as [A [B C]]. rewrite E1, E2, A, B. repeat split; auto. apply Sz. exact C.
    - apply (named_pubs_storable F logs' pubs' (str (show_set F p)) d Ev6 Fo); [|exact Mk].
      intros i q Hq. destruct (Nm i q Hq) as [q0 [E0 [E1 _]]]. rewrite E1. apply (Hps i q0 E0). }
  assert (Hsizes : forall s, In s (map pd_max_reach ps) -> 1 <= s <= fp_largest p).
  { intros s I. apply in_map_iff in I. destruct I as [q [<- I]]. apply In_nth_error in I. destruct I as [i I].
    destruct (Hps i q I) as [_ [-> C]]. apply Sz. exact C. }
  assert (Lab : forall labels, Forall2 labels_for labels (map pd_max_reach ps) ->
    exists d, (new_pubs <- label_ids (sx_set_order x) (sx_random_name x) labels ps ;;
               mk_data_set new_pubs (Some (str (show_set F p))) None) = Ok d /\
      as_planned F (sx_pow x) p d /\ storable F d).
  { intros labels HL.
    assert (HL' : Forall2 (fun L q => NoDup L /\ Z.of_nat (length L) = pd_max_reach q) labels ps).
    { clear -HL. revert labels HL. induction ps; intros labels HL; inversion HL; subst; constructor; auto. }
    destruct (label_ids_ok (sx_set_order x) (sx_random_name x) (sg_order _ Ev4) labels logs ps L1 HL')
      as [logs' [ps' [M1 [M2 [M3 M4]]]]].
    rewrite M1. cbn [bind]. destruct (make_named ps' _ Hname) as [d [D1 _]]. exists d. split; [exact D1|].
    pose proof (Forall2_len _ _ _ L1) as N1. pose proof (Forall2_len _ _ _ HL') as N2. pose proof (Forall2_len _ _ _ M3) as N3.
    apply (Fin ps' logs' d M3); [lia| |exact D1].
    intros i q Hq. assert (Hi : (i < length ps')%nat) by (apply nth_error_Some; congruence).
    destruct (nth_error ps i) as [q0|] eqn:E0; [|apply nth_error_None in E0; lia].
    destruct (nth_error logs i) as [log|] eqn:El; [|apply nth_error_None in El; lia].
    destruct (nth_error labels i) as [L|] eqn:EL; [|apply nth_error_None in EL; lia].
    destruct (M4 i log q0 L El E0 EL) as [log' [q' [Q1 [Q2 Q3]]]].
    assert (q' = q) as -> by congruence. exists q0. split; [reflexivity|]. split; [|apply (rl_max_reach _ _ _ _ _ Q3)].
    apply (rl_name _ _ _ _ _ Q3). destruct (Hps i q0 E0) as [-> _]. rewrite <- Ev5. apply Hs. }
  destruct o as [|u|opt b]; cbn [params dp_overlap fits] in *.
  - destruct (make_named ps _ Hname) as [d [D1 _]]. rewrite D1. cbn [bind]. exists d, st1. split; [reflexivity|].
    apply (Fin ps logs d L1 eq_refl); [|exact D1]. intros i q Hq. exists q. auto.
  - unfold independent_overlap_data_set. destruct (rng_integers rng 100000 st1) as [seed st2].
    unfold overlap_data_set, as_list. cbn [fst snd].
    destruct (sg_independent _ Ev4 (map pd_max_reach ps) u seed) as [labels [E1 E2]].
    { apply Forall_forall. intros s I. apply Hsizes in I. lia. }
    rewrite E1. cbn [bind]. destruct (Lab labels E2) as [d [D1 D2]]. rewrite D1. cbn [bind]. eauto.
  - unfold sequential_overlap_data_set. destruct (if b then _ else _) as [seed st2].
    unfold overlap_data_set, as_list. cbn [fst snd]. destruct FO as [FO1 [FO2 FO3]].
    destruct (sg_sequential _ Ev4 (map pd_max_reach ps) opt seed) as [labels [sizes' [E1 [E2 [E3 E4]]]]].
    { apply Forall_forall. intros s I. apply Hsizes in I. lia. }
    { cbn [In]. destruct FO1 as [->|[[->| ->] _]]; auto. }
    { exact FO2. }
    { exact FO3. }
    rewrite E1. cbn [bind].
    destruct (Lab labels) as [d [D1 D2]]; [|rewrite D1; cbn [bind]; eauto].
    destruct FO1 as [O|[_ Eq]]; [rewrite <- (E3 O); exact E4|].
    apply (Forall2_repeat_perm _ _ _ _ (fp_largest p) E2); [|exact E4].
    apply Forall_forall. intros s I. apply in_map_iff in I. destruct I as [q [<- I]]. apply In_nth_error in I. destruct I as [i I].
    destruct (Hps i q I) as [_ [-> C]]. apply planned_one. unfold shrink.
    destruct (Z.eq_dec (fp_num_publishers p) 1) as [|n]; [reflexivity|].
    destruct Eq as [Eq|Eq]; [congruence|]. apply Ev3; [exact H3|lia|exact Eq].
Qed.
