(** Lemmas about relabelled publishers and planned sizes. *)
From Coq Require Import String Qround Permutation Sorting.Sorted Lqa.
From Verif Require Import Prelude ModelReachPoint ModelData SpecData ReachPointLemmas
  DataLemmas DataLemmas2 DataLemmas3 FilesLemmas ModelGenerators SpecGenerators GeneratorsLemmas.
Open Scope Z_scope.

Lemma card_is_image_on (f : Z -> Z) (P R : Z -> Prop) n :
  (forall x y, P x -> P y -> f x = f y -> x = y) ->
  (forall v, R v <-> exists u, v = f u /\ P u) -> card_is P n -> card_is R n.
Proof.
  intros Hinj HQ [l [HS [HP <-]]]. exists (map f l). rewrite map_length.
  split; [|split; auto].
  - assert (forall x, In x l -> P x) as HI by (intros; apply HP; auto). clear HP.
    induction HS as [|x l Hx HS IH]; simpl; constructor.
    + rewrite in_map_iff. intros [y [Hy Hin]]. apply Hinj in Hy; [congruence| |];
        apply HI; simpl; auto.
    + apply IH. intros; apply HI; simpl; auto.
  - intros v. rewrite HQ, in_map_iff. split.
    + intros [u [<- Hu]]. exists u. split; auto. apply HP; auto.
    + intros [u [-> Hu]]. exists u. split; auto. apply HP; auto.
Qed.

Definition relabel (f : Z -> Z) (l : list row) : list row := map (fun r => (f (fst r), snd r)) l.

Lemma filter_relabel f u (g : Q -> bool) (l : list row) :
  (forall r, In r l -> f (fst r) = f u -> fst r = u) ->
  length (filter (fun r => (fst r =? f u) && g (snd r)) (relabel f l)) =
  length (filter (fun r => (fst r =? u) && g (snd r)) l).
Proof.
  intros Hinj. unfold relabel. induction l as [|[a q] l IH]; simpl; auto.
  assert ((f a =? f u) = (a =? u)) as ->.
  { destruct (Z.eqb_spec a u); destruct (Z.eqb_spec (f a) (f u)); auto.
    - subst; congruence.
    - exfalso. apply n. apply (Hinj (a, q)); simpl; auto. }
  assert (length (filter (fun r => (fst r =? f u) && g (snd r)) (map (fun r : row => (f (fst r), snd r)) l)) =
    length (filter (fun r : row => (fst r =? u) && g (snd r)) l)) as IH'
    by (apply IH; intros; apply Hinj; simpl; auto).
  destruct ((a =? u) && g q); cbn [length]; auto.
Qed.

Lemma in_relabel f l v : is_user (relabel f l) v <-> exists u, is_user l u /\ v = f u.
Proof.
  unfold is_user, relabel. split.
  - intros [q H]. apply in_map_iff in H. destruct H as [[u q'] [E H]]. inversion E; subst.
    exists u. split; eauto.
  - intros [u [[q H] ->]]. exists q. apply in_map_iff. exists (u, q). auto.
Qed.

Lemma relabel_sorted f l : StronglySorted row_le l -> StronglySorted row_le (relabel f l).
Proof.
  induction 1 as [|x l H IH F]; simpl; constructor; auto.
  apply Forall_forall. intros y Hy. apply in_map_iff in Hy. destruct Hy as [z [<- Hz]].
  rewrite Forall_forall in F. apply (F z Hz).
Qed.

Lemma relabel_snd f l : map snd (relabel f l) = map snd l.
Proof. unfold relabel. rewrite map_map. reflexivity. Qed.

Lemma sorted_bought_filter log s :
  Z.of_nat (length (filter (fun r : row => Qle_bool (snd r) s) (sort_rows log))) = bought_at_spend log s.
Proof.
  unfold bought_at_spend. f_equal. apply Permutation_length, filter_perm, sort_rows_perm.
Qed.

Lemma is_user_perm l l' u : Permutation l l' -> is_user l u -> is_user l' u.
Proof. intros H [q Hq]. exists q. eapply Permutation_in; eauto. Qed.

Lemma is_user_map l u : is_user l u <-> In u (map fst l).
Proof.
  unfold is_user. rewrite in_map_iff. split.
  - intros [q H]. exists (u, q). auto.
  - intros [[a q] [<- H]]. eauto.
Qed.

Lemma same_elements_length l l' : NoDup l -> NoDup l' -> (forall u : Z, In u l <-> In u l') ->
  length l = length l'.
Proof.
  intros H H' E. apply Permutation_length, NoDup_Permutation; auto.
Qed.

Lemma seen_spend_user u log s k : 1 <= k -> k <= seen_at_spend u log s -> is_user log u.
Proof.
  intros Hk H. assert (1 <= seen_at_spend u log s) as H1 by lia.
  apply seen_at_spend_in in H1. destruct H1 as [q [H1 _]]. exists q. auto.
Qed.

Lemma seen_impressions_user u log n k : 1 <= k -> k <= seen_at_impressions u log n -> is_user log u.
Proof.
  intros Hk H. assert (1 <= seen_at_impressions u log n) as H1 by lia.
  apply seen_at_impressions_in in H1. exact H1.
Qed.

(** Publisher [p'] made from the sorted rows of [p] with new names. *)
Lemma relabel_publisher f rn log p labels p' :
  is_publisher_of log p ->
  (forall u u', is_user log u -> is_user log u' -> f u = f u' -> u = u') ->
  (forall v, In v labels <-> exists u, is_user log u /\ v = f u) ->
  mk_publisher rn (relabel f (pd_data p)) (Some (pd_name p)) = Ok p' ->
  relabelled log p labels (relabel f (pd_data p)) p'.
Proof.
  intros Hp Hinj Hlab Hp'. assert (is_publisher_of (relabel f (pd_data p)) p') as HP by (eexists; eexists; eauto).
  pose proof Hp as [rn0 [nm0 Hm]]. apply publisher_fields in Hm. destruct Hm as [Hd [Hs [Hx Hr]]].
  pose proof (publisher_fields _ _ _ _ Hp') as [Hd' [Hs' [Hx' Hr']]].
  assert (StronglySorted row_le (pd_data p)) as SS by (rewrite Hd; apply sort_rows_sorted).
  assert (sort_rows (relabel f (pd_data p)) = relabel f (pd_data p)) as Sid
    by (apply sort_rows_id, increasing_sorted, relabel_sorted; auto).
  assert (Permutation (pd_data p) log) as PL by (rewrite Hd; apply sort_rows_perm).
  assert (forall u, is_user (pd_data p) u <-> is_user log u) as HU.
  { intros u. split; apply is_user_perm; auto. symmetry; auto. }
  assert (forall v, is_user (relabel f (pd_data p)) v <-> In v labels) as HL.
  { intros v. rewrite in_relabel, Hlab. split; intros [u [Hu ->]]; exists u; split; auto; apply HU; auto. }
  split; auto.
  - intros s k n Hk. apply (card_is_image_on f).
    + intros x y Hx1 Hy1. apply Hinj; eapply seen_spend_user; eauto.
    + intros v. split.
      * intros Hv. assert (is_user (relabel f (pd_data p)) v) as Hu
          by (eapply seen_spend_user; eauto).
        apply in_relabel in Hu. destruct Hu as [u [Hu ->]]. exists u. split; auto.
        rewrite (seen_at_spend_perm u log (pd_data p) s) by (symmetry; auto).
        unfold seen_at_spend in *. rewrite <- (filter_relabel f u (fun q => Qle_bool q s)); auto.
        intros r Hr1 E. apply Hinj; auto; [|apply HU; auto]. apply HU. exists (snd r). rewrite <- surjective_pairing; auto.
      * intros [u [-> Hu]]. assert (is_user (pd_data p) u) as Hu'.
        { apply HU. eapply seen_spend_user; eauto. }
        rewrite (seen_at_spend_perm u log (pd_data p) s) in Hu by (symmetry; auto).
        unfold seen_at_spend in *. rewrite (filter_relabel f u (fun q => Qle_bool q s)); auto.
        intros r Hr1 E. apply Hinj; auto; [|apply HU; auto]. apply HU. exists (snd r). rewrite <- surjective_pairing; auto.
  - intros j k n Hj Hk. apply (card_is_image_on f).
    + intros x y Hx1 Hy1. apply Hinj; eapply seen_impressions_user; eauto.
    + assert (forall l (u : Z), length (filter (fun r : row => fst r =? u) l) =
               length (filter (fun r : row => (fst r =? u) && true) l)) as Ft.
      { intros l u. f_equal. apply filter_ext. intros. rewrite andb_true_r. auto. }
      assert (forall u, is_user log u -> seen_at_impressions (f u) (relabel f (pd_data p)) j = seen_at_impressions u log j) as Hseen.
      { intros u Hu. rewrite !seen_at_impressions_sorted by auto. f_equal. rewrite Sid, <- Hd. unfold relabel.
        rewrite firstn_map. fold (relabel f (firstn (Z.to_nat j) (pd_data p))).
        rewrite !Ft. apply (filter_relabel f u (fun _ => true)).
        intros r Hr1 E. apply Hinj; auto. apply HU. exists (snd r). rewrite <- surjective_pairing.
        rewrite <- (firstn_skipn (Z.to_nat j) (pd_data p)). apply in_or_app. auto. }
      intros v. split.
      * intros Hv. assert (is_user (relabel f (pd_data p)) v) as Hu
          by (eapply seen_impressions_user; eauto).
        apply in_relabel in Hu. destruct Hu as [u [Hu ->]]. exists u. split; auto.
        rewrite <- Hseen by (apply HU; auto). auto.
      * intros [u [-> Hu]]. rewrite Hseen; auto. eapply seen_impressions_user; eauto.
  - intros n. unfold spend_by_impressions, max_impressions. rewrite Hd', Sid. unfold relabel. rewrite map_length.
    destruct (n =? 0); auto. unfold py_index. rewrite map_length.
    destruct (_ && _); auto. rewrite nth_error_map. destruct (nth_error (pd_data p) _); reflexivity.
  - intros s. rewrite (impressions_by_spend_sorted _ _ s HP) by (apply increasing_sorted, relabel_sorted; auto).
    unfold bought_at_spend. rewrite <- (filter_map_length (fun q => Qle_bool q s) snd), relabel_snd.
    rewrite (filter_map_length (fun q => Qle_bool q s) snd). f_equal. apply Permutation_length, filter_perm; auto.
  - assert (forall l l' m m', Permutation l l' -> py_maxQ l = Ok m -> py_maxQ l' = Ok m' -> (m == m')%Q) as G.
    { intros l l' m m' P1 E1 E2. apply Qle_antisym.
      - eapply py_maxQ_ge; [exact E2|]. eapply Permutation_in; [exact P1|]. eapply py_maxQ_in; eauto.
      - eapply py_maxQ_ge; [exact E1|]. eapply Permutation_in; [symmetry; exact P1|]. eapply py_maxQ_in; eauto. }
    rewrite relabel_snd in Hx'. eapply G; [|exact Hx'|exact Hx]. apply Permutation_map; auto.
  - unfold max_impressions. rewrite Hd', Sid. unfold relabel. rewrite map_length. auto.
  - rewrite Hr', Hr. f_equal. apply Nat2Z.inj. symmetry.
    eapply card_is_unique; [|apply count_distinct_card].
    apply (card_is_image_on f (fun u => In u (map fst log))).
    + intros x y Hx1 Hy1. rewrite <- is_user_map in Hx1, Hy1. auto.
    + intros v. rewrite <- is_user_map, in_relabel. split; intros [u [H1 H2]]; exists u.
      * split; auto. rewrite <- is_user_map. apply HU; auto.
      * split; auto. apply HU. apply is_user_map; auto.
    + apply count_distinct_card.
  - intros Hn. unfold mk_publisher in Hp'. destruct (py_maxQ _); cbn [bind] in Hp'; [|discriminate].
    injection Hp' as <-. cbn [pd_name]. destruct (pd_name p) eqn:E; [congruence|]. reflexivity.
Qed.

Lemma label_one_ok so rn labels log p :
  visits_each_once so -> is_publisher_of log p -> NoDup labels ->
  Z.of_nat (length labels) = pd_max_reach p ->
  exists log' p', label_one so rn labels p = Ok p' /\ relabelled log p labels log' p'.
Proof.
  intros Hso Hp Nl Hl. unfold label_one. rewrite Hl, Z.eqb_refl.
  pose proof Hp as [rn0 [nm0 Hm]]. assert (log <> []) as Hne by (intros ->; discriminate).
  apply publisher_fields in Hm. destruct Hm as [Hd [Hs [Hx Hr]]].
  destruct (Hso (map fst (pd_data p))) as [Nso Hin].
  assert (Permutation (pd_data p) log) as PL by (rewrite Hd; apply sort_rows_perm).
  assert (length (so (map fst (pd_data p))) = length labels) as Hlen.
  { apply Nat2Z.inj. rewrite Hl, Hr. f_equal. unfold count_distinct.
    apply same_elements_length; auto; [apply NoDup_nodup|].
    intros u. rewrite Hin, nodup_In. split; apply Permutation_in; [|symmetry]; apply Permutation_map; auto. }
  destruct (zip_dict_bijection _ _ Nso Nl Hlen) as [f [F1 [F2 F3]]].
  assert (forall u, In u (so (map fst (pd_data p))) <-> is_user log u) as HU.
  { intros u. rewrite Hin, is_user_map. split; apply Permutation_in; [|symmetry]; apply Permutation_map; auto. }
  rewrite (relabel_log f).
  2:{ intros r Hr1. apply F1, Hin. apply in_map; auto. }
  cbn [bind]. fold (relabel f (pd_data p)).
  destruct (mk_publisher rn (relabel f (pd_data p)) (Some (pd_name p))) as [p'|] eqn:E.
  - exists (relabel f (pd_data p)), p'. split; auto. eapply relabel_publisher; eauto.
    + intros u u' Hu Hu'. apply F2; apply HU; auto.
    + intros v. rewrite F3. split; intros [u [H1 H2]]; exists u; split; auto; apply HU; auto.
  - exfalso. unfold mk_publisher in E. rewrite relabel_snd in E.
    destruct (map snd (pd_data p)) eqn:Em; [|discriminate].
    apply map_eq_nil in Em. rewrite Em in PL. apply Permutation_nil in PL. auto.
Qed.

Lemma label_ids_ok so rn : visits_each_once so -> forall labels logs pubs,
  Forall2 is_publisher_of logs pubs ->
  Forall2 (fun L p => NoDup L /\ Z.of_nat (length L) = pd_max_reach p) labels pubs ->
  exists logs' pubs', label_ids so rn labels pubs = Ok pubs' /\ length logs' = length logs /\
    Forall2 is_publisher_of logs' pubs' /\
    forall i log p L, nth_error logs i = Some log -> nth_error pubs i = Some p ->
      nth_error labels i = Some L ->
      exists log' p', nth_error logs' i = Some log' /\ nth_error pubs' i = Some p' /\
        relabelled log p L log' p'.
Proof.
  intros Hso labels logs pubs H. revert labels. induction H as [|log p logs pubs Hp H IH]; intros labels HL.
  - inversion HL; subst. exists [], []. split; [reflexivity|]. split; auto. split; auto. intros [|i] ? ? ? E; discriminate.
  - inversion HL as [|L p0 labels' pubs0 [N1 N2] HL']; subst.
    destruct (IH _ HL') as [logs' [pubs' [E1 [E2 [E3 E4]]]]].
    destruct (label_one_ok so rn L log p Hso Hp N1 N2) as [log' [p' [F1 F2]]].
    exists (log' :: logs'), (p' :: pubs'). unfold label_ids in *. cbn [combine mapM fst snd].
    rewrite F1. cbn [bind]. rewrite E1. cbn [bind]. split; auto. split; [simpl; auto|].
    split; [constructor; auto; apply (rl_publisher _ _ _ _ _ F2)|].
    intros [|i] l q M H1 H2 H3; cbn in *.
    + inversion H1; inversion H2; inversion H3; subst. eauto.
    + eauto.
Qed.

(** ** Planned sizes *)

Lemma planned_size_bounds N r k : (0 <= r)%Q -> (r <= 1)%Q -> 0 <= N ->
  0 <= planned_size N r k /\
  (inject_Z (planned_size N r k) <= inject_Z N * Qpow r k)%Q /\
  (inject_Z N * Qpow r k - inject_Z (Z.of_nat k) <= inject_Z (planned_size N r k))%Q /\
  planned_size N r (S k) <= planned_size N r k.
Proof.
  intros Hr0 Hr1 HN.
  assert (forall k, 0 <= planned_size N r k) as Pos.
  { induction k0 as [|k0 IH]; cbn [planned_size]; auto.
    change 0 with (Qfloor (inject_Z 0)). apply Qfloor_resp_le.
    assert (0 <= inject_Z (planned_size N r k0))%Q by (change 0%Q with (inject_Z 0); rewrite <- Zle_Qle; auto).
    change (inject_Z 0) with 0%Q. nra. }
  split; [apply Pos|]. split; [|split].
  - induction k as [|k IH]; cbn [planned_size Qpow]; [lra|].
    eapply Qle_trans; [apply Qfloor_le|].
    setoid_replace (inject_Z N * (r * Qpow r k))%Q with ((inject_Z N * Qpow r k) * r)%Q by ring.
    apply Qmult_le_compat_r; auto.
  - induction k as [|k IH]; cbn [planned_size Qpow]; [change (inject_Z (Z.of_nat 0)) with 0%Q; lra|].
    pose proof (Qlt_floor (inject_Z (planned_size N r k) * r)) as Hf.
    set (a := planned_size N r k) in *. rewrite inject_Z_plus in Hf.
    rewrite Nat2Z.inj_succ, <- Z.add_1_r, inject_Z_plus. change (inject_Z 1) with 1%Q in *.
    assert ((inject_Z N * Qpow r k - inject_Z (Z.of_nat k)) * r <= inject_Z a * r)%Q as H1
      by (apply Qmult_le_compat_r; auto).
    assert (0 <= inject_Z (Z.of_nat k))%Q by (change 0%Q with (inject_Z 0); rewrite <- Zle_Qle; lia).
    assert (inject_Z (Z.of_nat k) * r <= inject_Z (Z.of_nat k))%Q by nra.
    assert (inject_Z N * (r * Qpow r k) == (inject_Z N * Qpow r k) * r)%Q as -> by ring.
    lra.
  - cbn [planned_size]. rewrite <- (Qfloor_Z (planned_size N r k)) at 2. apply Qfloor_resp_le.
    specialize (Pos k). assert (0 <= inject_Z (planned_size N r k))%Q by (change 0%Q with (inject_Z 0); rewrite <- Zle_Qle; auto).
    nra.
Qed.

Lemma planned_size_shift N r k :
  planned_size (Qfloor (inject_Z N * r)) r k = planned_size N r (S k).
Proof. induction k; auto. cbn [planned_size] in *. rewrite IHk. auto. Qed.
