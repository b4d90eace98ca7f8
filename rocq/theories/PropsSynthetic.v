(** Properties of the synthetic data sets (C47). *)
From Coq Require Import String Qround Permutation Lqa.
From Verif Require Import Prelude ModelReachPoint ModelData SpecData ReachPointLemmas DataLemmas
  DataLemmas2 DataLemmas3 PropsData FilesLemmas ModelGenerators SpecGenerators GeneratorsLemmas GeneratorsLemmas2 PropsGenerators.
Open Scope Z_scope.

(** The publishers that the generator makes before any relabelling. *)
Lemma generate_publishers_ok {St Opt} (rng : numpy_rng St) (str_of : Z -> string) rn
    (params : data_set_params Opt) rate : numpy_behaves rng -> (forall k, str_of k <> ""%string) ->
  forall ids size st ps st',
  generate_publishers rng str_of rn params rate ids size st = Ok (ps, st') ->
  exists logs, Forall2 is_publisher_of logs ps /\ length ps = length ids /\
    forall i p log, nth_error ps i = Some p -> nth_error logs i = Some log ->
      1 <= planned_size size rate i /\ pd_max_reach p = planned_size size rate i /\
      (forall u, is_user log u <-> 0 <= u < planned_size size rate i) /\
      pd_name p = str_of (nth i ids 0 + 1).
Proof.
  intros N Hs. induction ids as [|k ids IH]; intros size st ps st' H; cbn [generate_publishers] in H.
  - inversion H; subst. exists []. split; [constructor|]. split; auto. intros [|i] ? ? E; discriminate.
  - destruct (generate_publisher_data _ _ _ _ st) as [[p st1]|] eqn:E; cbn [bind] in H; [|discriminate].
    destruct (generate_publishers _ _ _ _ _ ids _ st1) as [[ps' st2]|] eqn:F; cbn [bind] in H; [|discriminate].
    inversion H; subst ps st2. apply IH in F. destruct F as [logs [F1 [F2 F3]]].
    pose proof E as E'. apply C15_publisher_reach in E; auto. destruct E as [E1 [E2 [log [E3 E4]]]].
    exists (log :: logs). split; [constructor; auto|]. split; [simpl; auto|].
    intros [|i] q l Hq Hl; cbn [nth_error] in Hq, Hl.
    + inversion Hq; inversion Hl; subst q l. cbn [planned_size nth]. repeat (split; [auto|]).
      unfold generate_publisher_data in E'.
      destruct (impression_call _ _ _ _) as [[imps s]|]; cbn [bind] in E'; [|discriminate].
      destruct (mk_publisher _ _ _) as [q|] eqn:G; cbn [bind] in E'; [|discriminate].
      inversion E'; subst q. unfold mk_publisher in G. destruct (py_maxQ _); cbn [bind] in G; [|discriminate].
      injection G as <-. cbn [pd_name]. specialize (Hs (k + 1)). destruct (str_of (k + 1)); [congruence|reflexivity].
    + cbn [nth]. rewrite <- planned_size_shift. apply (F3 i q l Hq Hl).
Qed.

Lemma range0_len n : length (py_range 0 n) = Z.to_nat n.
Proof. unfold py_range. rewrite map_length, seq_length. f_equal. lia. Qed.

Lemma range0_nth n i : (i < Z.to_nat n)%nat -> nth i (py_range 0 n) 0 = Z.of_nat i.
Proof.
  intros H. unfold py_range. rewrite (nth_indep _ 0 (0 + Z.of_nat 0)) by (rewrite map_length, seq_length; lia).
  rewrite (map_nth (fun i => 0 + Z.of_nat i)), seq_nth by lia. lia.
Qed.

Lemma nth_error_same {A} (l : list A) : forall l', (forall i, nth_error l i = nth_error l' i) -> l = l'.
Proof.
  induction l as [|x l IH]; intros [|y l'] H; auto; try (specialize (H O); discriminate).
  pose proof (H O) as H0. inversion H0. f_equal. apply IH. intros i. apply (H (S i)).
Qed.

(** With full overlap the data set has the requested number of publishers, named 1, 2, ...;
    publisher k has the users 0, ..., size_k - 1. *)
Theorem C47_full_overlap {St Opt} : forall (rng : numpy_rng St) (x : synthetic_externals Opt) params name st d st',
  numpy_behaves rng -> (forall k, sx_str x k <> ""%string) -> dp_overlap params = FullOverlap ->
  generate_data_set rng x params name st = Ok (d, st') ->
  (name <> ""%string -> ds_name d = name) /\
  publisher_count d = Z.to_nat (dp_num_publishers params) /\
  exists logs, is_data_set_of logs d /\
  forall i p log, nth_error (ds_data d) i = Some p -> nth_error logs i = Some log ->
    let size := planned_size (dp_largest params) (decay_rate (sx_pow x) params) i in
    1 <= size /\ pd_max_reach p = size /\ (forall u, is_user log u <-> 0 <= u < size) /\
    pd_name p = sx_str x (Z.of_nat i + 1).
Proof.
  intros rng x params name st d st' N Hs Ho H. unfold generate_data_set in H.
  destruct (generate_publishers _ _ _ _ _ _ _ _) as [[ps st1]|] eqn:E; cbn [bind] in H; [|discriminate].
  rewrite Ho in H. destruct (mk_data_set ps (Some name) None) as [d0|] eqn:F; cbn [bind] in H; [|discriminate].
  inversion H; subst d0 st1. apply generate_publishers_ok in E; auto. destruct E as [logs [E1 [E2 E3]]].
  rewrite range0_len in E2.
  pose proof (data_set_fields _ _ _ _ F) as [D1 _].
  split. { unfold mk_data_set in F. intros Hn. destruct name; [congruence|]. cbn in F. inversion F; reflexivity. }
  split. { unfold publisher_count. rewrite D1, E2. auto. }
  exists logs. split. { exists ps, (Some name), None. auto. }
  intros i p log Hp Hl. rewrite D1 in Hp. specialize (E3 i p log Hp Hl).
  assert (i < length ps)%nat as Hi by (apply nth_error_Some; congruence).
  rewrite range0_nth in E3 by lia. exact E3.
Qed.
Print Assumptions C47_full_overlap.

(** The sizes never increase, and are within [k] people of the geometric sequence
    largest * rate^k. *)
Theorem C47_sizes : forall largest rate k, 0 <= largest -> (0 <= rate)%Q -> (rate <= 1)%Q ->
  let size := planned_size largest rate in
  size O = largest /\ size (S k) <= size k /\
  (inject_Z largest * Qpow rate k - inject_Z (Z.of_nat k) <= inject_Z (size k))%Q /\
  (inject_Z (size k) <= inject_Z largest * Qpow rate k)%Q.
Proof.
  intros largest rate k H0 H1 H2 size. destruct (planned_size_bounds largest rate k H1 H2 H0) as [_ [A [B C]]].
  split; [reflexivity|]. auto.
Qed.
Print Assumptions C47_sizes.

(** So the last of several publishers is the documented share of the largest one, up to one
    person for each publisher, if raising the rate to the power P - 1 gives back the ratio. *)
Theorem C47_smallest_publisher {Opt} : forall pow (params : data_set_params Opt),
  let n := Z.to_nat (dp_num_publishers params - 1) in
  let rate := decay_rate pow params in
  let smallest := planned_size (dp_largest params) rate n in
  2 <= dp_num_publishers params -> 0 <= dp_largest params -> (0 <= rate)%Q -> (rate <= 1)%Q ->
  (Qpow (pow (dp_ratio params) (dp_num_publishers params - 1)%Z) n == dp_ratio params)%Q ->
  (inject_Z (dp_largest params) * dp_ratio params - inject_Z (dp_num_publishers params - 1)%Z
     <= inject_Z smallest)%Q /\
  (inject_Z smallest <= inject_Z (dp_largest params) * dp_ratio params)%Q.
Proof.
  intros pow params n rate smallest Hn HL H0 H1 Hp.
  assert (rate = pow (dp_ratio params) (dp_num_publishers params - 1)) as Er.
  { unfold rate, decay_rate. destruct (Z.eqb_spec (dp_num_publishers params) 1); [lia|auto]. }
  destruct (C47_sizes (dp_largest params) rate n HL H0 H1) as [_ [_ [A B]]].
  fold smallest in A, B. rewrite <- Er in Hp. rewrite Hp in A, B. split; [|exact B].
  unfold n in A. rewrite Z2Nat.id in A by lia. exact A.
Qed.
Print Assumptions C47_smallest_publisher.

(** The whole data set reaches exactly as many people as its first publisher. *)
Theorem C47_maximum_reach {St Opt} : forall (rng : numpy_rng St) (x : synthetic_externals Opt) params name st d st',
  numpy_behaves rng -> (forall k, sx_str x k <> ""%string) -> dp_overlap params = FullOverlap ->
  1 <= dp_num_publishers params -> 0 <= dp_largest params ->
  (0 <= decay_rate (sx_pow x) params)%Q -> (decay_rate (sx_pow x) params <= 1)%Q ->
  generate_data_set rng x params name st = Ok (d, st') ->
  ds_maximum_reach d = dp_largest params /\ ds_universe d = 2 * dp_largest params.
Proof.
  intros rng x params name st d st' N Hs Ho Hn HL Hr0 Hr1 H.
  assert (exists ps, mk_data_set ps (Some name) None = Ok d) as [ps Mk].
  { unfold generate_data_set in H. destruct (generate_publishers _ _ _ _ _ _ _ _) as [[ps st1]|]; cbn [bind] in H; [|discriminate].
    rewrite Ho in H. destruct (mk_data_set ps (Some name) None) as [d0|] eqn:F; cbn [bind] in H; [|discriminate].
    inversion H; subst. eauto. }
  destruct (C47_full_overlap rng x params name st d st' N Hs Ho H) as [_ [Hc [logs [HD HE]]]].
  assert (ds_maximum_reach d = dp_largest params) as R.
  2:{ split; auto. apply data_set_fields in Mk. destruct Mk as [_ [_ ->]]. rewrite R. auto. }
  apply (card_is_unique (fun u => exists log q, In log logs /\ In (u, q) log)).
  { apply maximum_reach_card; auto. }
  assert (length logs = publisher_count d) as Ll.
  { destruct HD as [pp [? [? [G M2]]]]. apply data_set_fields in M2. destruct M2 as [M2 _].
    unfold publisher_count. rewrite M2. eapply Forall2_len; eauto. }
  assert (forall i log, nth_error logs i = Some log -> forall u, is_user log u <->
    0 <= u < planned_size (dp_largest params) (decay_rate (sx_pow x) params) i) as HU.
  { intros i log Hi. assert (i < length logs)%nat as Hlt by (apply nth_error_Some; congruence).
    destruct (nth_error (ds_data d) i) as [p|] eqn:Ep.
    - apply (HE i p log Ep Hi).
    - apply nth_error_None in Ep. unfold publisher_count in Ll. lia. }
  assert (forall i, planned_size (dp_largest params) (decay_rate (sx_pow x) params) i <= dp_largest params) as Le.
  { induction i as [|i IH]; [cbn; lia|].
    destruct (planned_size_bounds (dp_largest params) _ i Hr0 Hr1 HL) as [_ [_ [_ C]]]. lia. }
  apply (card_is_ext (fun u => 0 <= u < dp_largest params)).
  - intros u. split.
    + intros Hu. destruct logs as [|log logs]; [cbn in Ll; lia|].
      destruct (proj2 (HU O log eq_refl u)) as [q Hq]; [exact Hu|]. exists log, q. split; [left; auto|auto].
    + intros [log [q [Hin Hq]]]. apply In_nth_error in Hin. destruct Hin as [i Hi].
      assert (is_user log u) as Hu by (exists q; auto). apply (HU i log Hi) in Hu. specialize (Le i). lia.
  - exists (map Z.of_nat (seq 0 (Z.to_nat (dp_largest params)))). split; [|split].
    + apply FinFun.Injective_map_NoDup; [|apply seq_NoDup]. intros a b; lia.
    + intros u. rewrite in_map_iff. split.
      * intros [i [<- Hi]]. apply in_seq in Hi. lia.
      * intros Hu. exists (Z.to_nat u). split; [lia|]. apply in_seq. lia.
    + rewrite map_length, seq_length. lia.
Qed.
Print Assumptions C47_maximum_reach.

(** The documented ratio between the largest and the smallest publisher is not kept exactly:
    the size is rounded down once for each publisher, so the last publisher can be smaller
    than the rounded share. *)
Theorem C47_smallest_size_refuted : exists largest rate (n : nat),
  (0 <= rate)%Q /\ (rate <= 1)%Q /\ 0 <= largest /\
  planned_size largest rate n < Qfloor (inject_Z largest * Qpow rate n).
Proof. exists 7, (2#3)%Q, 2%nat. repeat split; vm_compute; congruence. Qed.
Print Assumptions C47_smallest_size_refuted.

(** When a planned size falls to zero, no data set is generated at all. *)
Theorem C47_empty_publisher_fails {St Opt} : forall (rng : numpy_rng St) (x : synthetic_externals Opt) params name st k,
  numpy_behaves rng -> (forall k, sx_str x k <> ""%string) ->
  (k < Z.to_nat (dp_num_publishers params))%nat ->
  planned_size (dp_largest params) (decay_rate (sx_pow x) params) k <= 0 ->
  exists e, generate_data_set rng x params name st = Err e.
Proof.
  intros rng x params name st k N Hs Hk Hz. unfold generate_data_set.
  destruct (generate_publishers _ _ _ _ _ _ _ _) as [[ps st1]|e] eqn:E; cbn [bind]; [|eauto].
  exfalso. apply generate_publishers_ok in E; auto. destruct E as [logs [E1 [E2 E3]]].
  rewrite range0_len in E2.
  destruct (nth_error ps k) as [p|] eqn:Ep; [|apply nth_error_None in Ep; lia].
  destruct (nth_error logs k) as [log|] eqn:El; [|apply nth_error_None in El; apply Forall2_len in E1; lia].
  destruct (E3 k p log Ep El) as [H _]. lia.
Qed.
Print Assumptions C47_empty_publisher_fails.

(** With an overlap generator the publishers keep their planned sizes and their names, and
    their users are the labels; so two publishers share exactly the people in both label
    sets. [draws] is what the set generator of the chosen overlap class returns for the sizes. *)
Definition overlap_labels {Opt} (x : synthetic_externals Opt) (o : overlap_params Opt)
    (sizes : list Z) (seed : Z) : result (list (list Z)) :=
  match o with
  | FullOverlap => Err OtherError
  | Independent u => sx_independent x sizes u seed
  | Sequential opt _ => sx_sequential x sizes opt seed
  end.

Theorem C47_overlap {St Opt} : forall (rng : numpy_rng St) (x : synthetic_externals Opt) params name st d st',
  numpy_behaves rng -> (forall k, sx_str x k <> ""%string) -> visits_each_once (sx_set_order x) ->
  dp_overlap params <> FullOverlap ->
  (forall sizes seed labels, (forall s, In s sizes -> 1 <= s) ->
     overlap_labels x (dp_overlap params) sizes seed = Ok labels ->
     Forall2 (fun L size => NoDup L /\ Z.of_nat (length L) = size) labels sizes) ->
  generate_data_set rng x params name st = Ok (d, st') ->
  let size := planned_size (dp_largest params) (decay_rate (sx_pow x) params) in
  let n := Z.to_nat (dp_num_publishers params) in
  (name <> ""%string -> ds_name d = name) /\
  publisher_count d = n /\
  exists logs labels seed, is_data_set_of logs d /\
    overlap_labels x (dp_overlap params) (map size (seq 0 n)) seed = Ok labels /\
    (forall b o, dp_overlap params = Sequential o b -> b = false -> seed = 1) /\
    forall i p, nth_error (ds_data d) i = Some p ->
      pd_max_reach p = size i /\ pd_name p = sx_str x (Z.of_nat i + 1) /\
      exists log L, nth_error logs i = Some log /\ nth_error labels i = Some L /\
        forall v, is_user log v <-> In v L.
Proof.
  intros rng x params name st d st' N Hs Hso Ho Hg H size n. unfold generate_data_set in H.
  destruct (generate_publishers _ _ _ _ _ _ _ _) as [[ps st1]|] eqn:E; cbn [bind] in H; [|discriminate].
  apply generate_publishers_ok in E; auto. destruct E as [logs [E1 [E2 E3]]].
  rewrite range0_len in E2.
  assert (exists seed st2, overlap_data_set (sx_set_order x) (sx_random_name x)
            (fun sizes => overlap_labels x (dp_overlap params) sizes seed) (as_list ps) (Some name) = Ok d /\
            (forall b o, dp_overlap params = Sequential o b -> b = false -> seed = 1) /\ st' = st2)
    as [seed [st2 [H' [Hseed _]]]].
  { destruct (dp_overlap params) as [|u|o b]; [congruence| |].
    - unfold independent_overlap_data_set in H. destruct (rng_integers rng 100000 st1) as [seed st2].
      destruct (overlap_data_set _ _ _ _ _) as [d0|] eqn:F in H; cbn [bind] in H; [|discriminate].
      inversion H; subst. exists seed, st'. split; [exact F|]. split; [discriminate|auto].
    - unfold sequential_overlap_data_set in H.
      destruct (if b then _ else _) as [seed st2] eqn:Eb.
      destruct (overlap_data_set _ _ _ _ _) as [d0|] eqn:F in H; cbn [bind] in H; [|discriminate].
      inversion H; subst. exists seed, st'. split; [exact F|]. split; auto.
      intros b' o' Q Q'. inversion Q; subst. inversion Eb; auto. }
  clear H. unfold overlap_data_set, as_list in H'. cbn [fst snd] in H'.
  destruct (overlap_labels x _ (map pd_max_reach ps) seed) as [labels|] eqn:Eg; cbn [bind] in H'; [|discriminate].
  assert (map pd_max_reach ps = map size (seq 0 n)) as Hsz.
  { apply nth_error_same. intros i. rewrite !nth_error_map.
    destruct (nth_error ps i) as [p|] eqn:Ep.
    - assert (i < length ps)%nat as Hi by (apply nth_error_Some; congruence).
      destruct (nth_error logs i) as [log|] eqn:El; [|apply nth_error_None in El; apply Forall2_len in E1; lia].
      destruct (E3 i p log Ep El) as [_ [K _]]. cbn [option_map]. rewrite K.
      rewrite (nth_error_nth' _ O) by (rewrite seq_length; unfold n; lia). rewrite seq_nth by (unfold n; lia). reflexivity.
    - apply nth_error_None in Ep. rewrite (proj2 (nth_error_None (seq 0 n) i)); [reflexivity|].
      rewrite seq_length. unfold n. lia. }
  assert (forall s, In s (map pd_max_reach ps) -> 1 <= s) as Hpos.
  { intros s Hin. apply in_map_iff in Hin. destruct Hin as [p [<- Hin]]. apply In_nth_error in Hin. destruct Hin as [i Hi].
    destruct (nth_error logs i) as [log|] eqn:El.
    - destruct (E3 i p log Hi El) as [K1 [K2 _]]. lia.
    - apply nth_error_None in El. apply Forall2_len in E1. assert (i < length ps)%nat by (apply nth_error_Some; congruence). lia. }
  pose proof (Hg _ _ _ Hpos Eg) as HF.
  assert (Forall2 (fun L p => NoDup L /\ Z.of_nat (length L) = pd_max_reach p) labels ps) as HL.
  { clear -HF. revert labels HF. induction ps; intros labels HF; inversion HF; subst; constructor; auto. }
  destruct (label_ids_ok (sx_set_order x) (sx_random_name x) Hso labels logs ps E1 HL) as [logs' [ps' [F1 [F2 [F3 F4]]]]].
  rewrite F1 in H'. cbn [bind] in H'.
  pose proof (data_set_fields _ _ _ _ H') as [Mk _].
  pose proof (Forall2_len _ _ _ E1) as L1. pose proof (Forall2_len _ _ _ HL) as L2. pose proof (Forall2_len _ _ _ F3) as L3.
  split. { unfold mk_data_set in H'. intros Hn. destruct name; [congruence|]. cbn in H'. inversion H'; reflexivity. }
  split. { unfold publisher_count. rewrite Mk. unfold n. lia. }
  exists logs', labels, seed. split. { exists ps', (Some name), None. auto. }
  rewrite Hsz in Eg. split; [exact Eg|]. split; [exact Hseed|].
  intros i p Hp. rewrite Mk in Hp.
  assert (i < length ps')%nat as Hi by (apply nth_error_Some; congruence).
  destruct (nth_error logs i) as [log|] eqn:N1; [|apply nth_error_None in N1; lia].
  destruct (nth_error ps i) as [p0|] eqn:N2; [|apply nth_error_None in N2; lia].
  destruct (nth_error labels i) as [L|] eqn:N3; [|apply nth_error_None in N3; lia].
  destruct (F4 i log p0 L N1 N2 N3) as [log' [p' [G1 [G2 G3]]]]. rewrite Hp in G2. inversion G2; subst p'.
  destruct (E3 i p0 log N2 N1) as [_ [K1 [_ K2]]]. rewrite range0_nth in K2 by lia.
  split; [|split].
  - rewrite (rl_max_reach _ _ _ _ _ G3). exact K1.
  - rewrite (rl_name _ _ _ _ _ G3); [exact K2|]. rewrite K2. apply Hs.
  - exists log', L. split; [auto|]. split; [auto|]. apply (rl_users _ _ _ _ _ G3).
Qed.
Print Assumptions C47_overlap.

Definition ex_synthetic : synthetic_externals unit := {|
  sx_pow := fun r k => r; sx_str := fun k => if k =? 1 then "1"%string else "2"%string;
  sx_random_name := "r"; sx_set_order := ex_order;
  sx_independent := fun sizes u seed => Ok (map (fun n => py_range seed (seed + n)) sizes);
  sx_sequential := fun sizes o seed => Err OtherError |}.
Definition ex_params (o : overlap_params unit) : data_set_params unit := {|
  dp_num_publishers := 2; dp_largest := 4; dp_ratio := 1#2; dp_cpi := 1#10;
  dp_impressions := HeavyTailed 2; dp_overlap := o |}.

Example C47_example : exists d st, generate_data_set ex_rng ex_synthetic (ex_params FullOverlap) "n" 0 = Ok (d, st) /\
  map (fun p => map fst (pd_data p)) (ds_data d) = [[3; 3; 2; 1; 1; 0]; [1; 0; 0]] /\
  ds_maximum_reach d = 4.
Proof. eexists; eexists. split; [vm_compute; reflexivity|]. split; reflexivity. Qed.

Example C47_example_independent : exists d st,
  generate_data_set ex_rng ex_synthetic (ex_params (Independent 9)) "n" 0 = Ok (d, st) /\
  map pd_max_reach (ds_data d) = [4; 2] /\ ds_maximum_reach d = 4.
Proof. eexists; eexists. split; [vm_compute; reflexivity|]. split; reflexivity. Qed.

Example C47_example_hypotheses : visits_each_once (sx_set_order ex_synthetic) /\
  (forall k, sx_str ex_synthetic k <> ""%string) /\
  forall sizes seed labels, (forall s, In s sizes -> 1 <= s) ->
    overlap_labels ex_synthetic (Independent 9) sizes seed = Ok labels ->
    Forall2 (fun L size => NoDup L /\ Z.of_nat (length L) = size) labels sizes.
Proof.
  split; [apply ex_order_visits|]. split; [intros k; cbn; destruct (k =? 1); discriminate|].
  intros sizes seed labels Hs H. cbn in H. inversion H; subst; clear H.
  induction sizes as [|n sizes IH]; cbn [map]; constructor; [|apply IH; intros; apply Hs; right; auto].
  specialize (Hs n (or_introl eq_refl)). unfold py_range. split.
  - apply FinFun.Injective_map_NoDup; [|apply seq_NoDup]. intros a b; lia.
  - rewrite map_length, seq_length. lia.
Qed.
