From Coq Require Import String Permutation Sorted Lqa.
From Verif Require Import Prelude ModelReachPoint ModelData SpecData ReachPointLemmas
  DataLemmas DataLemmas2 DataLemmas3 ModelPrivacy ModelHalo SpecVenn.
Notation length := List.length.
Open Scope Z_scope.

(** ** Halo construction *)

Lemma mapM_Forall2 {A B} (f : A -> result B) l r :
  mapM f l = Ok r -> Forall2 (fun x y => f x = Ok y) l r.
Proof.
  revert r. induction l as [|x l IH]; intros r H; simpl in H.
  - inversion H. constructor.
  - destruct (f x) as [y|] eqn:E; [|discriminate]. simpl in H.
    destruct (mapM f l) as [ys|] eqn:E2; [|discriminate]. inversion H. constructor; auto.
Qed.

Lemma halo_fields logs h : is_halo_of logs h ->
  is_data_set_of logs (h_data_set h) /\
  Forall2 (fun log p => is_publisher_of log (pub_data p)) logs (h_publishers h) /\
  map pub_data (h_publishers h) = ds_data (h_data_set h).
Proof.
  intros [d [fr [ll [Hd H]]]]. unfold mk_halo in H.
  destruct (mapM _ _) as [pubs|] eqn:E; [|discriminate]. inversion H; subst; simpl. clear H.
  split; auto. apply mapM_Forall2 in E.
  assert (map pub_data pubs = ds_data d) as Hm.
  { unfold publisher_count in E. revert pubs E. generalize 0%nat at 1. clear.
    induction (ds_data d) as [|p l IH]; intros n pubs E; simpl in E; inversion E; subst; auto.
    simpl in H1. destruct (py_index fr (Z.of_nat n)); [|discriminate]. inversion H1; subst. simpl.
    f_equal. eapply IH; eauto. }
  split; auto.
  destruct Hd as [ps [nm [un [HP Hds]]]]. apply data_set_fields in Hds.
  destruct Hds as [Hdata _]. rewrite Hdata in Hm. clear -HP Hm. subst ps.
  revert logs HP. induction pubs; intros logs HP; inversion HP; subst; constructor; auto.
Qed.

(** ** Dictionaries *)

Lemma lookup0_get d k : lookup0 d k = dict_get d k.
Proof.
  unfold lookup0. induction d as [|[a b] d IH]; simpl; auto. destruct (k =? a); auto.
Qed.

Lemma dict_get_modify f d k k' :
  dict_get (dict_modify f d k) k' = if k' =? k then f (dict_get d k) else dict_get d k'.
Proof.
  induction d as [|[a b] d IH]; simpl.
  - destruct (k' =? k); auto.
  - destruct (Z.eqb_spec k a); simpl.
    + subst. destruct (Z.eqb_spec k' a); auto.
    + rewrite IH. destruct (Z.eqb_spec k' a), (Z.eqb_spec k' k); subst; auto. congruence.
Qed.

Lemma dict_modify_keys f d k k' :
  In k' (dict_keys (dict_modify f d k)) <-> k' = k \/ In k' (dict_keys d).
Proof.
  unfold dict_keys. induction d as [|[a b] d IH]; simpl.
  - intuition.
  - destruct (Z.eqb_spec k a); simpl; intuition congruence.
Qed.

Lemma dict_modify_nodup f d k : NoDup (dict_keys d) -> NoDup (dict_keys (dict_modify f d k)).
Proof.
  intros H. induction d as [|[a b] d IH]; simpl in *.
  - constructor; auto.
  - destruct (Z.eqb_spec k a); simpl; auto.
    inversion H; subst. constructor; auto.
    fold (dict_keys (dict_modify f d k)). rewrite dict_modify_keys. intuition.
Qed.

(** ** Locating users *)

Definition mem (u : Z) (d : zdict) : bool := existsb (Z.eqb u) (dict_keys d).
Lemma mem_in u d : mem u d = true <-> In u (dict_keys d).
Proof.
  unfold mem. rewrite existsb_exists. split.
  - intros [x [Hx E]]. apply Z.eqb_eq in E. subst; auto.
  - intros H. exists u. split; auto. apply Z.eqb_refl.
Qed.

Lemma shiftl_testbit i j : 0 <= i -> 0 <= j -> Z.testbit (Z.shiftl 1 i) j = (j =? i).
Proof.
  intros Hi Hj. rewrite Z.shiftl_1_l, Z.pow2_bits_eqb by auto. apply Z.eqb_sym.
Qed.

Lemma locate_users_spec i uc R I : 0 <= i -> NoDup (dict_keys R) -> dict_wf I ->
  (forall v, In v (dict_values uc) -> 1 <= v) -> NoDup (dict_keys uc) ->
  let st := locate_users (R, I) (i, uc) in
  NoDup (dict_keys (fst st)) /\ dict_wf (snd st) /\
  (forall u, In u (dict_keys (fst st)) <-> In u (dict_keys R) \/ In u (dict_keys uc)) /\
  (forall u j, 0 <= j -> Z.testbit (dict_get (fst st) u) j =
     Z.testbit (dict_get R u) j || (mem u uc && (j =? i))) /\
  (forall u, dict_get (snd st) u = dict_get I u + dict_get uc u).
Proof.
  intros Hi HR HI Hv Hn. unfold locate_users. cbv zeta. cbn [fst snd].
  revert R I HR HI. induction uc as [|[u0 c] uc IH]; intros R I HR HI.
  - simpl. split; auto. split; auto. split; [tauto|]. split.
    + intros u j Hj. rewrite orb_false_r. auto.
    + intros; lia.
  - cbn [fold_left fst snd]. assert (1 <= c) as Hc by (apply Hv; left; auto).
    inversion Hn; subst.
    destruct (IH (fun v Hx => Hv v (or_intror Hx)) H2
      (dict_modify (fun r => Z.lor r (Z.shiftl 1 i)) R u0) (dict_incr I u0 c)
      (dict_modify_nodup _ _ _ HR) (dict_incr_wf _ _ _ HI Hc)) as [A [B [C [D E]]]].
    split; auto. split; auto. split; [|split].
    + intros u. rewrite C, dict_modify_keys. simpl. intuition.
    + intros u j Hj. rewrite D by auto. rewrite dict_get_modify.
      unfold mem. simpl. destruct (Z.eqb_spec u u0).
      * subst. rewrite Z.lor_spec, shiftl_testbit by auto.
        destruct (Z.testbit (dict_get R u0) j), (j =? i), (existsb (Z.eqb u0) (dict_keys uc)); reflexivity.
      * reflexivity.
    + intros u. rewrite E, dict_get_incr. simpl. destruct (Z.eqb_spec u u0); [|lia].
      subst. rewrite (dict_get_notin uc u0) by auto. lia.
Qed.

Definition counts_ok (pc : Z * zdict) : Prop :=
  0 <= fst pc /\ (forall v, In v (dict_values (snd pc)) -> 1 <= v) /\ NoDup (dict_keys (snd pc)).

Lemma locate_all_spec active : Forall counts_ok active -> forall R I, NoDup (dict_keys R) -> dict_wf I ->
  let st := fold_left locate_users active (R, I) in
  NoDup (dict_keys (fst st)) /\ dict_wf (snd st) /\
  (forall u, In u (dict_keys (fst st)) <->
     In u (dict_keys R) \/ exists pc, In pc active /\ In u (dict_keys (snd pc))) /\
  (forall u j, 0 <= j -> Z.testbit (dict_get (fst st) u) j =
     Z.testbit (dict_get R u) j || existsb (fun pc => mem u (snd pc) && (j =? fst pc)) active) /\
  (forall u, dict_get (snd st) u = dict_get I u + Zsum (map (fun pc => dict_get (snd pc) u) active)).
Proof.
  intros HF. induction HF as [|[i uc] active [Hi [Hv Hn]] HF IH]; intros R I HR HI; cbv zeta.
  - simpl. split; auto. split; auto. split.
    { intros u. split; auto. intros [H|[pc [[] _]]]; auto. }
    split; [intros; rewrite orb_false_r; auto|intros; lia].
  - cbn [fold_left]. destruct (locate_users_spec i uc R I Hi HR HI Hv Hn) as [A [B [C [D E]]]].
    destruct (locate_users (R, I) (i, uc)) as [R1 I1]. cbn [fst snd] in *.
    destruct (IH R1 I1 A B) as [A1 [B1 [C1 [D1 E1]]]].
    split; auto. split; auto. split; [|split].
    + intros u. rewrite C1, C. split.
      * intros [[H|H]|[pc [H1 H2]]]; auto.
        -- right. exists (i, uc). simpl. auto.
        -- right. exists pc. simpl. auto.
      * intros [H|[pc [[<-|H1] H2]]]; auto. right. eauto.
    + intros u j Hj. rewrite D1, D by auto. simpl. rewrite orb_assoc. reflexivity.
    + intros u. rewrite E1, E. simpl. lia.
Qed.

(** ** Active publishers *)

Lemma active_counts_spec pubs spends i act : 0 <= i ->
  active_counts_from pubs i spends = Ok act ->
  NoDup (map fst act) /\ StronglySorted Z.lt (map fst act) /\
  (forall j uc, In (j, uc) act <-> exists s p, i <= j /\
     nth_error spends (Z.to_nat (j - i)) = Some s /\ ~ (s == 0)%Q /\
     nth_error pubs (Z.to_nat j) = Some p /\ uc = user_counts_by_spend (pub_data p) s).
Proof.
  revert i act. induction spends as [|s spends IH]; intros i act Hi H; simpl in H.
  - inversion H; subst. split; [constructor|]. split; [constructor|].
    intros j uc. split; [intros []|]. intros [s [p [_ [E _]]]]. destruct (Z.to_nat (j - i)); discriminate.
  - destruct (Qeqb s 0) eqn:Es.
    + apply Qeq_bool_iff in Es. destruct (IH (i + 1) act ltac:(lia) H) as [H1 [H2 H3]].
      split; auto. split; auto. intros j uc. rewrite H3. split.
      * intros [s' [p [Hj [E R]]]]. exists s', p. split; [lia|]. split; auto.
        replace (Z.to_nat (j - i)) with (S (Z.to_nat (j - (i + 1)))) by lia. auto.
      * intros [s' [p [Hj [E [Hs R]]]]]. exists s', p.
        destruct (Z.eq_dec j i) as [->|].
        { rewrite Z.sub_diag in E. simpl in E. inversion E; subst. contradiction. }
        split; [lia|]. split; auto.
        replace (Z.to_nat (j - i)) with (S (Z.to_nat (j - (i + 1)))) in E by lia. auto.
    + apply Qeq_bool_neq in Es.
      rewrite py_index_nonneg in H by lia. destruct (nth_error pubs (Z.to_nat i)) as [p|] eqn:Ep; [|discriminate].
      simpl in H. destruct (active_counts_from pubs (i + 1) spends) as [rest|] eqn:Er; [|discriminate].
      inversion H; subst. clear H. destruct (IH (i + 1) rest ltac:(lia) Er) as [H1 [H2 H3]].
      assert (Forall (Z.lt i) (map fst rest)) as Hlt.
      { apply Forall_forall. intros j Hj. apply in_map_iff in Hj. destruct Hj as [[j' uc] [<- Hin]].
        apply H3 in Hin. destruct Hin as [? [? [? _]]]. simpl. lia. }
      split; [|split].
      * simpl. constructor; auto. intros C. rewrite Forall_forall in Hlt. specialize (Hlt i C). lia.
      * simpl. constructor; auto.
      * intros j uc. simpl. split.
        -- intros [E|Hin].
           ++ inversion E; subst. exists s, p. rewrite Z.sub_diag. simpl. repeat split; auto; lia.
           ++ apply H3 in Hin. destruct Hin as [s' [p' [Hj [E [Hs R]]]]]. exists s', p'.
              split; [lia|]. split; auto.
              replace (Z.to_nat (j - i)) with (S (Z.to_nat (j - (i + 1)))) by lia. auto.
        -- intros [s' [p' [Hj [E [Hs [Hp' ->]]]]]]. destruct (Z.eq_dec j i) as [->|].
           ++ rewrite Z.sub_diag in E. simpl in E. inversion E; subst. rewrite Ep in Hp'.
              inversion Hp'; subst. auto.
           ++ right. apply H3. exists s', p'. split; [lia|].
              replace (Z.to_nat (j - i)) with (S (Z.to_nat (j - (i + 1)))) in E by lia. auto.
Qed.

Lemma active_counts_ok pubs spends : (length spends <= length pubs)%nat ->
  exists act, active_counts_from pubs 0 spends = Ok act.
Proof.
  intros H.
  assert (forall sp i, 0 <= i -> i + Z.of_nat (length sp) <= Z.of_nat (length pubs) ->
    exists act, active_counts_from pubs i sp = Ok act) as HG; [|apply HG; lia].
  induction sp as [|s sp IH]; intros i Hi Hl; simpl; [eauto|].
  cbn [length] in Hl. destruct (IH (i + 1) ltac:(lia) ltac:(lia)) as [act E].
  destruct (Qeqb s 0); [eauto|]. rewrite py_index_nonneg by lia.
  destruct (nth_error pubs (Z.to_nat i)) eqn:Ep.
  - simpl. rewrite E. simpl. eauto.
  - apply nth_error_None in Ep. lia.
Qed.

(** ** Subsets and their binary representation *)

Lemma combinations_sublist {A} r (l : list A) c : In c (combinations r l) ->
  length c = r /\ (forall x, In x c -> In x l) /\ (NoDup l -> NoDup c).
Proof.
  revert r c. induction l as [|x l IH]; intros r c H.
  - destruct r; simpl in H; [|destruct H]. destruct H as [<-|[]]. simpl.
    split; [auto|split; [auto|intros; constructor]].
  - destruct r; simpl in H.
    + destruct H as [<-|[]]. split; [auto|split; [intros y []|intros; constructor]].
    + apply in_app_iff in H. destruct H as [H|H].
      * apply in_map_iff in H. destruct H as [c' [<- H]]. destruct (IH _ _ H) as [H1 [H2 H3]].
        split; [simpl; lia|]. split.
        -- intros y [<-|Hy]; [left|right]; auto.
        -- intros Hn. inversion Hn; subst. constructor; auto.
      * destruct (IH _ _ H) as [H1 [H2 H3]]. split; auto. split; [intros y Hy; right; auto|].
        intros Hn. inversion Hn; subst. auto.
Qed.

Lemma combinations_filter {A} (f : A -> bool) (l : list A) :
  In (filter f l) (combinations (length (filter f l)) l).
Proof.
  induction l as [|x l IH]; simpl; auto.
  destruct (f x); simpl.
  - apply in_app_iff. left. apply in_map; auto.
  - destruct (length (filter f l)) eqn:E.
    + apply length_zero_iff_nil in E. rewrite E. left; auto.
    + apply in_app_iff. right. auto.
Qed.

Lemma nonempty_subsets_in {A} (l : list A) c : In c (nonempty_subsets l) ->
  c <> [] /\ (forall x, In x c -> In x l) /\ (NoDup l -> NoDup c).
Proof.
  unfold nonempty_subsets. intros H. apply in_flat_map in H. destruct H as [r [Hr H]].
  apply in_seq in Hr. destruct (combinations_sublist _ _ _ H) as [H1 H2]. split; auto.
  intros ->. simpl in H1. lia.
Qed.

Lemma filter_len {A} (f : A -> bool) l : (length (filter f l) <= length l)%nat.
Proof. induction l; simpl; auto. destruct (f a); simpl; lia. Qed.

Lemma nonempty_subsets_filter {A} (f : A -> bool) (l : list A) :
  filter f l <> [] -> In (filter f l) (nonempty_subsets l).
Proof.
  intros H. unfold nonempty_subsets. apply in_flat_map. exists (length (filter f l)). split.
  - apply in_seq. pose proof (filter_len f l). destruct (filter f l); [congruence|]. simpl in *. lia.
  - apply combinations_filter.
Qed.

Lemma region_repr_bits ids : NoDup ids -> (forall i, In i ids -> 0 <= i) ->
  0 <= region_repr ids /\
  forall j, 0 <= j -> (Z.testbit (region_repr ids) j = true <-> In j ids).
Proof.
  unfold region_repr. induction ids as [|i ids IH]; intros Hn Hp; simpl.
  - split; [lia|]. intros j Hj. rewrite Z.bits_0. split; [discriminate|intros []].
  - inversion Hn; subst. destruct (IH H2 (fun x Hx => Hp x (or_intror Hx))) as [H3 H4].
    assert (0 <= i) as Hi by (apply Hp; left; auto).
    assert (Z.land (Z.shiftl 1 i) (Zsum (map (fun i => Z.shiftl 1 i) ids)) = 0) as Hl.
    { apply Z.bits_inj'. intros j Hj. rewrite Z.land_spec, Z.bits_0, shiftl_testbit by auto.
      destruct (Z.eqb_spec j i); auto. subst. simpl.
      destruct (Z.testbit _ i) eqn:E; auto. apply H4 in E; auto. contradiction. }
    assert (Z.shiftl 1 i + Zsum (map (fun i => Z.shiftl 1 i) ids) =
            Z.lor (Z.shiftl 1 i) (Zsum (map (fun i => Z.shiftl 1 i) ids))) as E.
    { rewrite Z.add_nocarry_lxor by auto. apply Z.lxor_lor; auto. }
    split.
    + rewrite Z.shiftl_1_l. pose proof (Z.pow_nonneg 2 i). lia.
    + intros j Hj. rewrite E, Z.lor_spec, orb_true_iff, shiftl_testbit, Z.eqb_eq, H4 by auto.
      intuition.
Qed.

Lemma testbit_ext a b : 0 <= a -> 0 <= b ->
  (forall j, 0 <= j -> (Z.testbit a j = true <-> Z.testbit b j = true)) -> a = b.
Proof.
  intros Ha Hb H. apply Z.bits_inj'. intros j Hj. specialize (H j Hj).
  destruct (Z.testbit a j), (Z.testbit b j); intuition.
Qed.

Lemma combinations_nodup {A} r (l : list A) : NoDup l -> NoDup (combinations r l).
Proof.
  revert r. induction l as [|x l IH]; intros r Hn; destruct r; simpl; try (repeat constructor; auto; fail).
  inversion Hn; subst.
  assert (forall l1 l2 : list (list A), NoDup l1 -> NoDup l2 -> (forall a, In a l1 -> ~ In a l2) -> NoDup (l1 ++ l2)) as Happ.
  { induction l1; intros l2 Hl1 Hl2 Hd; simpl; auto. inversion Hl1; subst. constructor.
    - rewrite in_app_iff. intros [?|?]; auto. eapply Hd; [left; reflexivity|auto].
    - apply IHl1; auto. intros b Hb. apply Hd. right; auto. }
  apply Happ; auto.
  - apply FinFun.Injective_map_NoDup; auto. intros a b E. inversion E; auto.
  - intros c Hc. apply in_map_iff in Hc. destruct Hc as [c' [<- _]]. intros C.
    apply combinations_sublist in C. destruct C as [_ [C _]]. apply H1, C. left; auto.
Qed.

Lemma nonempty_subsets_nodup {A} (l : list A) : NoDup l -> NoDup (nonempty_subsets l).
Proof.
  intros Hn. unfold nonempty_subsets. generalize (seq_NoDup (length l) 1).
  generalize (seq 1 (length l)). intros rs Hrs. induction rs as [|r rs IH]; simpl; [constructor|].
  inversion Hrs; subst.
  assert (forall l1 l2 : list (list A), NoDup l1 -> NoDup l2 -> (forall a, In a l1 -> ~ In a l2) -> NoDup (l1 ++ l2)) as Happ.
  { induction l1; intros l2 Hl1 Hl2 Hd; simpl; auto. inversion Hl1; subst. constructor.
    - rewrite in_app_iff. intros [?|?]; auto. eapply Hd; [left; reflexivity|auto].
    - apply IHl1; auto. intros b Hb. apply Hd. right; auto. }
  apply Happ; auto.
  - apply combinations_nodup; auto.
  - intros c Hc C. apply in_flat_map in C. destruct C as [r' [Hr' C]].
    apply combinations_sublist in Hc. apply combinations_sublist in C.
    destruct Hc as [Hc _], C as [C _]. subst. contradiction.
Qed.

(** Subsets listed by combinations are sublists, so equal when they have equal members. *)
Lemma combinations_sorted r l c : StronglySorted Z.lt l -> In c (combinations r l) ->
  StronglySorted Z.lt c.
Proof.
  revert r c. induction l as [|x l IH]; intros r c Hs H; destruct r; simpl in H.
  - destruct H as [<-|[]]. constructor.
  - destruct H.
  - destruct H as [<-|[]]. constructor.
  - inversion Hs; subst. apply in_app_iff in H. destruct H as [H|H]; [|eauto].
    apply in_map_iff in H. destruct H as [c' [<- H]]. constructor; eauto.
    apply combinations_sublist in H. destruct H as [_ [H _]].
    rewrite Forall_forall in *. auto.
Qed.

Lemma sorted_lt_ext a b : StronglySorted Z.lt a -> StronglySorted Z.lt b ->
  (forall x, In x a <-> In x b) -> a = b.
Proof.
  revert b. induction a as [|x a IH]; intros b Ha Hb H.
  - destruct b as [|y b]; auto. exfalso. apply (proj2 (H y)). left; auto.
  - destruct b as [|y b]; [exfalso; apply (proj1 (H x)); left; auto|].
    inversion Ha; inversion Hb; subst. rewrite Forall_forall in *.
    assert (x = y).
    { destruct (proj1 (H x) (or_introl eq_refl)) as [|H1]; auto.
      destruct (proj2 (H y) (or_introl eq_refl)) as [|H4]; auto.
      specialize (H3 y H4). specialize (H7 x H1). lia. }
    subst y. f_equal. apply IH; auto. intros z. split; intros Hz.
    + destruct (proj1 (H z) (or_intror Hz)) as [<-|]; auto. specialize (H3 x Hz). lia.
    + destruct (proj2 (H z) (or_intror Hz)) as [<-|]; auto. specialize (H7 x Hz). lia.
Qed.

Lemma region_keys ids : StronglySorted Z.lt ids -> NoDup ids -> (forall i, In i ids -> 0 <= i) ->
  NoDup (map region_repr (nonempty_subsets ids)) /\
  (forall r, In r (map region_repr (nonempty_subsets ids)) <->
     0 < r /\ forall j, 0 <= j -> Z.testbit r j = true -> In j ids).
Proof.
  intros Hs Hn Hp.
  assert (forall c, In c (nonempty_subsets ids) -> StronglySorted Z.lt c /\ NoDup c /\
     (forall i, In i c -> 0 <= i) /\ c <> []) as Hc.
  { intros c Hc. destruct (nonempty_subsets_in _ _ Hc) as [H1 [H2 H3]].
    split; [|auto]. unfold nonempty_subsets in Hc. apply in_flat_map in Hc.
    destruct Hc as [r [_ Hc]]. eapply combinations_sorted; eauto. }
  split.
  - assert (NoDup (nonempty_subsets ids)) as Hnd by (apply nonempty_subsets_nodup; auto).
    revert Hnd Hc. generalize (nonempty_subsets ids) as ss. induction ss as [|c ss IH]; intros Hnd Hc; simpl; [constructor|].
    inversion Hnd; subst. constructor; [|apply IH; auto; intros; apply Hc; right; auto].
    intros C. apply in_map_iff in C. destruct C as [c' [E Hc']].
    destruct (Hc c (or_introl eq_refl)) as [S1 [N1 [P1 _]]].
    destruct (Hc c' (or_intror Hc')) as [S2 [N2 [P2 _]]].
    assert (c' = c); [|subst; contradiction].
    apply sorted_lt_ext; auto. intros x.
    destruct (region_repr_bits c N1 P1) as [_ B1]. destruct (region_repr_bits c' N2 P2) as [_ B2].
    split; intros Hx.
    + apply B1; auto. rewrite <- E. apply B2; auto.
    + apply B2; auto. rewrite E. apply B1; auto.
  - intros r. rewrite in_map_iff. split.
    + intros [c [<- Hcin]]. destruct (Hc c Hcin) as [S1 [N1 [P1 Ne]]].
      destruct (region_repr_bits c N1 P1) as [B0 B1]. split.
      * destruct c as [|x c]; [congruence|].
        destruct (Z.eq_dec (region_repr (x :: c)) 0) as [E|]; [|lia].
        assert (Z.testbit (region_repr (x :: c)) x = true) as T by (apply B1; [apply P1|]; left; auto).
        rewrite E, Z.bits_0 in T. discriminate.
      * intros j Hj T. apply B1 in T; auto. destruct (nonempty_subsets_in _ _ Hcin) as [_ [H _]]. auto.
    + intros [Hr Hb]. exists (filter (fun j => Z.testbit r j) ids).
      assert (forall j, In j (filter (fun j => Z.testbit r j) ids) <-> 0 <= j /\ Z.testbit r j = true) as Hf.
      { intros j. rewrite filter_In. split; [intros [? ?]; auto|intros [? ?]; auto]. }
      assert (region_repr (filter (fun j => Z.testbit r j) ids) = r) as E.
      { destruct (region_repr_bits (filter (fun j => Z.testbit r j) ids)) as [B0 B1].
        - apply NoDup_filter; auto.
        - intros i Hi. apply Hf in Hi. tauto.
        - apply testbit_ext; auto; [lia|]. intros j Hj. rewrite B1, Hf by auto. tauto. }
      split; auto. apply nonempty_subsets_filter. intros C. rewrite C in E. unfold region_repr in E; simpl in E. lia.
Qed.

(** ** Counting users per region *)

Definition in_reg (I : zdict) (r k : Z) (ur : Z * Z) : bool :=
  (snd ur =? r) && (k <=? lookup0 I (fst ur)).

Lemma bump_region_ok d k i m : In k (map fst d) -> 1 <= m ->
  (forall r l, In (r, l) d -> length l = Z.to_nat (m + 1)) -> 0 <= i <= m ->
  exists d', bump_region d k i = Ok d' /\ map fst d' = map fst d /\
    (forall r l, In (r, l) d' -> length l = Z.to_nat (m + 1)) /\
    (forall r l, lookup d r = Ok l -> exists l', lookup d' r = Ok l' /\
       (r <> k -> l' = l) /\
       forall j, (j <= Z.to_nat m)%nat -> Zsum (skipn j l') = Zsum (skipn j l) +
         (if (r =? k) && (Z.of_nat j <=? i) then 1 else 0)).
Proof.
  intros Hk Hm Hl Hi. induction d as [|[k' l0] d IH]; [destruct Hk|].
  cbn [bump_region]. destruct (Z.eqb_spec k k') as [<-|Hne].
  - pose proof (Hl k l0 (or_introl eq_refl)) as Hl0.
    rewrite py_index_nonneg by lia.
    destruct (nth_error l0 (Z.to_nat i)) as [x|] eqn:Ex; [|apply nth_error_None in Ex; lia].
    cbn [bind]. unfold py_set. destruct (Z.ltb_spec i 0); [lia|].
    destruct (Z.leb_spec 0 i); [|lia]. destruct (Z.ltb_spec i (Z.of_nat (length l0))); [|lia].
    cbn [andb bind]. eexists. split; [reflexivity|]. split; [reflexivity|]. split.
    + intros r l [E|Hin]; [|eapply Hl; right; eauto]. inversion E; subst. rewrite set_nth_length. auto.
    + intros r l HH. cbn [lookup] in *. destruct (Z.eqb_spec r k).
      * inversion HH; subst. eexists. split; [reflexivity|]. split; [congruence|].
        intros j Hj. rewrite (Zsum_skipn_set_nth _ _ _ x) by auto. cbn [andb].
        destruct (Nat.leb_spec j (Z.to_nat i)), (Z.leb_spec (Z.of_nat j) i); lia.
      * exists l. split; auto. split; auto. intros j Hj. simpl. lia.
  - destruct IH as [d' [E [Ek [Hl' HL]]]].
    { destruct Hk as [Hk|Hk]; auto. simpl in Hk. congruence. }
    { intros r l Hin. eapply Hl; right; eauto. }
    rewrite E. cbn [bind]. eexists. split; [reflexivity|]. split; [simpl; congruence|]. split.
    + intros r l [E'|Hin]; [|eapply Hl'; eauto]. inversion E'; subst. eapply Hl; left; eauto.
    + intros r l H. cbn [lookup] in *. destruct (Z.eqb_spec r k').
      * inversion H; subst. exists l. split; auto. split; auto. intros j Hj.
        destruct (Z.eqb_spec k' k); [congruence|]. simpl. lia.
      * apply HL. auto.
Qed.

Lemma bump_regions_ok m I users d : 1 <= m ->
  (forall u r, In (u, r) users -> In r (map fst d) /\ 1 <= lookup0 I u) ->
  (forall r l, In (r, l) d -> length l = Z.to_nat (m + 1)) ->
  exists d', bump_regions m I users d = Ok d' /\ map fst d' = map fst d /\
    (forall r l, In (r, l) d' -> length l = Z.to_nat (m + 1)) /\
    (forall r l, lookup d r = Ok l -> exists l', lookup d' r = Ok l' /\
       (~ In r (map snd users) -> l' = l) /\
       forall j, (j <= Z.to_nat m)%nat -> Zsum (skipn j l') = Zsum (skipn j l) +
         Z.of_nat (length (filter (in_reg I r (Z.of_nat j)) users))).
Proof.
  intros Hm. revert d. induction users as [|[u r0] users IH]; intros d Hu Hl.
  - exists d. simpl. split; auto. split; auto. split; auto. intros r l H. exists l.
    split; auto. split; auto. intros; lia.
  - cbn [bump_regions]. destruct (Hu u r0 (or_introl eq_refl)) as [Hr0 Hi0].
    destruct (bump_region_ok d r0 (Z.min m (lookup0 I u)) m Hr0 Hm Hl ltac:(lia))
      as [d1 [E1 [K1 [L1 P1]]]].
    rewrite E1. cbn [bind].
    destruct (IH d1) as [d2 [E2 [K2 [L2 P2]]]]; auto.
    { intros u' r' H. rewrite K1. apply Hu. right; auto. }
    exists d2. split; auto. split; [congruence|]. split; auto.
    intros r l H. destruct (P1 r l H) as [l1 [Q1 [R1 S1]]]. destruct (P2 r l1 Q1) as [l2 [Q2 [R2 S2]]].
    exists l2. split; auto. split.
    + intros Hn. simpl in Hn. rewrite R2 by tauto. apply R1. intros ->. tauto.
    + intros j Hj. rewrite S2, S1 by auto. cbn [filter]. unfold in_reg at 2. cbn [fst snd].
      assert ((Z.of_nat j <=? Z.min m (lookup0 I u)) = (Z.of_nat j <=? lookup0 I u)) as Ej.
      { destruct (Z.leb_spec (Z.of_nat j) (Z.min m (lookup0 I u))), (Z.leb_spec (Z.of_nat j) (lookup0 I u)); auto; lia. }
      rewrite Ej, (Z.eqb_sym r r0). destruct ((r0 =? r) && (Z.of_nat j <=? lookup0 I u)); cbn [length]; lia.
Qed.

(** ** The regions *)

Lemma lookup_in {V} (d : list (Z * V)) r v : NoDup (map fst d) ->
  (lookup d r = Ok v <-> In (r, v) d).
Proof.
  induction d as [|[k w] d IH]; intros Hn; simpl.
  - split; [discriminate|intros []].
  - inversion Hn; subst. destruct (Z.eqb_spec r k).
    + subst. split.
      * intros E. inversion E. auto.
      * intros [E|Hin]; [inversion E; auto|]. exfalso. apply H1. change k with (fst (k, v)). apply in_map; auto.
    + rewrite IH by auto. split; auto. intros [E|]; auto. inversion E. congruence.
Qed.

Lemma lookup_map_const {V} (v : V) keys r : In r keys -> lookup (map (fun k => (k, v)) keys) r = Ok v.
Proof.
  induction keys as [|k keys IH]; intros H; [destruct H|]. simpl.
  destruct (Z.eqb_spec r k); auto. apply IH. destruct H; auto. congruence.
Qed.

Lemma skipn_tl {A} (l : list A) k : skipn k (tl l) = skipn (S k) l.
Proof. destruct l; simpl; auto. destruct k; auto. Qed.
Lemma tl_repeat {A} (x : A) n : tl (repeat x n) = repeat x (n - 1).
Proof. destruct n; simpl; auto. rewrite Nat.sub_0_r. auto. Qed.
Lemma nth_error_repeat' {A} (x : A) n k : (k < n)%nat -> nth_error (repeat x n) k = Some x.
Proof. revert k. induction n; intros k H; [lia|]. destruct k; simpl; auto. apply IHn; lia. Qed.

(** Facts about the active publishers of a halo over [logs]. *)
Lemma active_of_logs logs h spends act : is_halo_of logs h ->
  active_counts_from (h_publishers h) 0 spends = Ok act ->
  Forall counts_ok act /\ NoDup (map fst act) /\ StronglySorted Z.lt (map fst act) /\
  (length spends = length logs ->
   forall j, In j (map fst act) <-> active spends j) /\
  (forall u j uc, In (j, uc) act -> (In u (dict_keys uc) <-> reached_by logs spends u j)) /\
  (forall u j, reached_by logs spends u j -> exists uc, In (j, uc) act /\ In u (dict_keys uc)) /\
  (length spends = length logs ->
   forall u, Zsum (map (fun pc => dict_get (snd pc) u) act) = total_seen (active_seen u) logs spends).
Proof.
  intros Hh Ha. destruct (halo_fields logs h Hh) as [Hd [HP _]].
  pose proof (active_counts_spec _ _ _ _ (Z.le_refl 0) Ha) as [N [S HI]].
  assert (forall i log p, nth_error logs i = Some log -> nth_error (h_publishers h) i = Some p ->
    is_publisher_of log (pub_data p)) as Hnth.
  { clear -HP. induction HP; intros i log p H1 H2; destruct i; simpl in *; try discriminate; eauto.
    inversion H1; inversion H2; subst; auto. }
  assert (forall i p, nth_error (h_publishers h) i = Some p -> exists log, nth_error logs i = Some log) as Hex.
  { intros i p E. assert (i < length (h_publishers h))%nat by (apply nth_error_Some; congruence).
    destruct (nth_error logs i) eqn:El; [eauto|]. apply nth_error_None in El.
    rewrite (Forall2_len _ _ _ HP) in El. lia. }
  assert (forall p s, dict_wf (user_counts_by_spend p s)) as Hwf by (intros; apply counter_wf).
  assert (forall p s u log, is_publisher_of log p ->
     (In u (dict_keys (user_counts_by_spend p s)) <-> 1 <= seen_at_spend u log s)) as Hkey.
  { intros p s u log Hp. destruct (Hwf p s) as [W1 W2]. rewrite <- (user_counts_by_spend_get log p u s Hp).
    split.
    - intros H. apply in_keys_get in H. apply W2. unfold dict_values. apply in_map_iff.
      eexists; split; [|exact H]. reflexivity.
    - intros H. destruct (in_dec Z.eq_dec u (dict_keys (user_counts_by_spend p s))); auto.
      rewrite dict_get_notin in H by auto. lia. }
  split.
  { apply Forall_forall. intros [j uc] Hin. apply HI in Hin.
    destruct Hin as [s [p [Hj [_ [_ [_ ->]]]]]]. destruct (Hwf (pub_data p) s).
    repeat split; auto. }
  split; auto. split; auto. split; [|split; [|split]].
  - intros Hlen j. rewrite in_map_iff. split.
    + intros [[j' uc] [<- Hin]]. apply HI in Hin. destruct Hin as [s [p [Hj [E [Hs _]]]]].
      rewrite Z.sub_0_r in E. exists s. auto.
    + intros [s [Hj [E Hs]]].
      assert (Z.to_nat j < length spends)%nat by (apply nth_error_Some; congruence).
      destruct (nth_error (h_publishers h) (Z.to_nat j)) as [p|] eqn:Ep.
      2:{ apply nth_error_None in Ep. rewrite <- (Forall2_len _ _ _ HP) in Ep. lia. }
      exists (j, user_counts_by_spend (pub_data p) s). split; auto. apply HI.
      exists s, p. rewrite Z.sub_0_r. auto.
  - intros u j uc Hin. apply HI in Hin. destruct Hin as [s [p [Hj [E [Hs [Ep ->]]]]]].
    rewrite Z.sub_0_r in E. destruct (Hex _ _ Ep) as [log El].
    rewrite (Hkey _ _ _ log (Hnth _ _ _ El Ep)). split.
    + intros H. exists log, s. auto.
    + intros [log' [s' [_ [El' [E' [_ H]]]]]]. congruence.
  - intros u j [log [s [Hj [El [E [Hs H]]]]]].
    destruct (nth_error (h_publishers h) (Z.to_nat j)) as [p|] eqn:Ep.
    2:{ apply nth_error_None in Ep. rewrite <- (Forall2_len _ _ _ HP) in Ep.
        assert (Z.to_nat j < length logs)%nat by (apply nth_error_Some; congruence). lia. }
    exists (user_counts_by_spend (pub_data p) s). split.
    + apply HI. exists s, p. rewrite Z.sub_0_r. auto.
    + apply (Hkey _ _ _ log); eauto.
  - intros Hlen u. clear -HP Ha Hlen.
    assert (forall pre pubs spends act i logs, Forall2 (fun log p => is_publisher_of log (pub_data p)) logs pubs ->
      length spends = length logs -> i = Z.of_nat (length pre) ->
      active_counts_from (pre ++ pubs) i spends = Ok act ->
      Zsum (map (fun pc => dict_get (snd pc) u) act) = total_seen (active_seen u) logs spends) as HG.
    2:{ eapply (HG [] (h_publishers h) spends act 0 logs); eauto. }
    clear. intros pre pubs spends. revert pre pubs.
    induction spends as [|s spends IH]; intros pre pubs act i logs HP Hl Hi Ha.
    + destruct logs; [|discriminate]. simpl in Ha. inversion Ha; subst. reflexivity.
    + destruct logs as [|log logs]; [discriminate|]. inversion HP; subst. rename H1 into Hp. rename H3 into HPs.
      simpl in Ha. simpl total_seen. unfold active_seen at 1.
      assert (pre ++ y :: l' = (pre ++ [y]) ++ l') as Eapp by (rewrite <- app_assoc; auto).
      assert (Z.of_nat (length pre) + 1 = Z.of_nat (length (pre ++ [y]))) as El
        by (rewrite app_length; simpl; lia).
      unfold Qeqb in Ha. destruct (Qeq_bool s 0).
      * rewrite Eapp in Ha. apply (IH (pre ++ [y]) l' act (Z.of_nat (length pre) + 1) logs); auto.
      * rewrite py_index_nonneg in Ha by lia. rewrite Nat2Z.id in Ha.
        rewrite nth_error_app2, Nat.sub_diag in Ha by lia. simpl in Ha.
        destruct (active_counts_from (pre ++ y :: l') (Z.of_nat (length pre) + 1) spends) as [rest|] eqn:Er; [|discriminate].
        simpl in Ha. inversion Ha; subst. simpl. rewrite (user_counts_by_spend_get log _ u s Hp).
        f_equal. rewrite Eapp in Er. eapply IH; eauto.
Qed.

Lemma form_regions_spec logs h spends m act : is_halo_of logs h -> length spends = length logs ->
  1 <= m -> active_counts_from (h_publishers h) 0 spends = Ok act -> (length act <= 20)%nat ->
  exists regions R,
    form_venn_diagram_regions h spends m = Ok regions /\
    map fst regions = map region_repr (nonempty_subsets (map fst act)) /\
    NoDup (dict_keys R) /\
    (forall u, In u (dict_keys R) <-> exists i, reached_by logs spends u i) /\
    (forall u j, 0 <= j -> (Z.testbit (dict_get R u) j = true <-> reached_by logs spends u j)) /\
    (forall u, In u (dict_keys R) -> In (dict_get R u) (map fst regions)) /\
    (forall r kp, In (r, kp) regions -> length kp = Z.to_nat m /\
      forall k, (k < Z.to_nat m)%nat -> nth_error kp k =
        Some (Z.of_nat (length (filter (fun u => (dict_get R u =? r) &&
           (Z.of_nat k + 1 <=? total_seen (active_seen u) logs spends)) (dict_keys R))))).
Proof.
  intros Hh Hlen Hm Ha Hmax.
  destruct (active_of_logs logs h spends act Hh Ha) as [Hc [Hn [Hs [Hact [Hin [Hreach Htot]]]]]].
  specialize (Htot Hlen). specialize (Hact Hlen).
  unfold form_venn_diagram_regions. rewrite Ha. cbn [bind].
  assert ((max_active_publishers <? length act)%nat = false) as -> by (apply Nat.ltb_ge; auto).
  cbv zeta.
  pose proof (locate_all_spec act Hc [] [] ltac:(constructor) dict_nil_wf) as HL. cbv zeta in HL.
  destruct (fold_left locate_users act ([], [])) as [R I] eqn:EL.
  unfold zdict in *. rewrite EL in HL. cbn [fst snd] in HL. fold zdict in *.
  destruct HL as [HR [HI [HK [HB HS]]]].
  assert (forall u, In u (dict_keys R) <-> exists i, reached_by logs spends u i) as HK'.
  { intros u. rewrite HK. split.
    - intros [[]|[[j uc] [H1 H2]]]. exists j. apply (Hin u j uc H1). auto.
    - intros [i H]. right. destruct (Hreach u i H) as [uc [H1 H2]]. exists (i, uc). auto. }
  assert (forall u j, 0 <= j -> (Z.testbit (dict_get R u) j = true <-> reached_by logs spends u j)) as HB'.
  { intros u j Hj. rewrite HB by auto. simpl dict_get. rewrite Z.bits_0. simpl orb.
    rewrite existsb_exists. split.
    - intros [[i uc] [H1 H2]]. apply andb_true_iff in H2. destruct H2 as [H2 H3].
      apply mem_in in H2. apply Z.eqb_eq in H3. simpl in *. subst i. apply (Hin u j uc H1). auto.
    - intros H. destruct (Hreach u j H) as [uc [H1 H2]]. exists (j, uc). split; auto.
      simpl. apply mem_in in H2. rewrite H2, Z.eqb_refl. auto. }
  assert (forall i, In i (map fst act) -> 0 <= i) as Hpos.
  { intros i Hi. apply in_map_iff in Hi. destruct Hi as [pc [<- Hi]].
    rewrite Forall_forall in Hc. apply Hc in Hi. apply Hi. }
  destruct (region_keys (map fst act) Hs Hn Hpos) as [KN KI].
  assert (forall u, In u (dict_keys R) -> In (dict_get R u) (map region_repr (nonempty_subsets (map fst act)))) as HRk.
  { intros u Hu. apply KI. split.
    - apply HK' in Hu. destruct Hu as [i Hi]. assert (0 <= i) by (destruct Hi as [? [? [? _]]]; auto).
      apply HB' in Hi; auto. 
      assert (0 <= dict_get R u).
      { destruct (Z.le_gt_cases 0 (dict_get R u)) as [|Hneg]; auto. exfalso.
        (* a negative number has all high bits set, but bits are bounded by the publishers *)
        set (j := Z.max (Z.log2 (Z.pred (- dict_get R u)) + 1) (Z.of_nat (length spends))).
        assert (Z.testbit (dict_get R u) j = true) as T.
        { apply Z.bits_above_log2_neg; auto. lia. }
        apply HB' in T; [|lia]. destruct T as [? [? [_ [_ [E _]]]]].
        assert (Z.to_nat j < length spends)%nat by (apply nth_error_Some; congruence). lia. }
      destruct (Z.eq_dec (dict_get R u) 0) as [E|]; [|lia]. rewrite E, Z.bits_0 in Hi. discriminate.
    - intros j Hj T. apply HB' in T; auto. apply Hact. destruct T as [log [s [? [? [? [? ?]]]]]].
      exists s. auto. }
  assert (forall u v, In (u, v) R -> v = dict_get R u /\ In u (dict_keys R)) as HRget.
  { intros u v H. split; [symmetry; apply dict_get_in; auto|].
    change u with (fst (u, v)). apply in_map; auto. }
  destruct (bump_regions_ok m I R
    (map (fun r => (r, repeat 0 (Z.to_nat (m + 1)))) (map region_repr (nonempty_subsets (map fst act)))) Hm)
    as [d [Ed [Kd [Ld Pd]]]].
  { intros u r H. destruct (HRget u r H) as [-> Hu]. split.
    - rewrite map_map. simpl. rewrite map_id. auto.
    - rewrite lookup0_get, HS. simpl dict_get.
      apply HK' in Hu. destruct Hu as [i Hi]. rewrite Htot.
      destruct Hi as [log [s [Hi0 [E1 [E2 [Hs0 Hseen]]]]]].
      assert (In (log, s) (combine logs spends)) as Hcomb.
      { clear -E1 E2. revert logs spends E1 E2. induction (Z.to_nat i); intros logs spends E1 E2;
          destruct logs, spends; simpl in *; try discriminate.
        - inversion E1; inversion E2; auto.
        - right; auto. }
      pose proof (total_seen_component (active_seen u) logs spends log s) as Hcomp.
      assert (active_seen u log s = seen_at_spend u log s) as Ea.
      { unfold active_seen. destruct (Qeq_bool s 0) eqn:Eq; auto. apply Qeq_bool_iff in Eq. contradiction. }
      rewrite Ea in Hcomp. etransitivity; [exact Hseen|]. simpl. apply Hcomp; auto.
      intros l0 b0. unfold active_seen. destruct (Qeq_bool b0 0); [lia|apply seen_at_spend_nonneg]. }
  { intros r l H. apply in_map_iff in H. destruct H as [k [E _]]. inversion E. apply repeat_length. }
  rewrite Ed. cbn [bind]. rewrite map_map in Kd. simpl in Kd. rewrite map_id in Kd.
  eexists. exists R. split; [reflexivity|].
  assert (map fst (map (fun rf => (fst rf,
          if existsb (fun o => o =? fst rf) (map snd R)
          then frequencies_to_kplus_reaches Zops (tl (snd rf)) else tl (snd rf))) d) =
          map region_repr (nonempty_subsets (map fst act))) as Ekeys.
  { rewrite map_map. simpl. exact Kd. }
  split; auto. split; auto. split; auto. split; auto. split; [rewrite Ekeys; auto|].
  intros r kp Hkp. apply in_map_iff in Hkp. destruct Hkp as [[r' l] [E Hl]].
  cbn [fst snd] in E. injection E as -> Ekp.
  assert (In r (map region_repr (nonempty_subsets (map fst act)))) as Hr.
  { rewrite <- Kd. change r with (fst (r, l)). apply in_map; auto. }
  destruct (Pd r (repeat 0 (Z.to_nat (m + 1)))) as [l' [El' [Hsame Hsum]]].
  { apply lookup_map_const; auto. }
  apply lookup_in in El'; [|rewrite Kd; auto].
  assert (l' = l) as ->.
  { apply (lookup_in d r l') in El'; [|rewrite Kd; auto].
    apply (lookup_in d r l) in Hl; [|rewrite Kd; auto]. congruence. }
  pose proof (Ld r l Hl) as Ll.
  assert (forall k, (k < Z.to_nat m)%nat ->
    Z.of_nat (length (filter (in_reg I r (Z.of_nat (S k))) R)) =
    Z.of_nat (length (filter (fun u => (dict_get R u =? r) &&
           (Z.of_nat k + 1 <=? total_seen (active_seen u) logs spends)) (dict_keys R)))) as Hcount.
  { intros k Hk. f_equal. unfold dict_keys. rewrite filter_map_length. apply filter_ext_len.
    intros [u v] Hu. destruct (HRget u v Hu) as [-> _]. unfold in_reg. cbn [fst snd].
    rewrite lookup0_get, HS, Htot. simpl dict_get.
    replace (Z.of_nat (S k)) with (Z.of_nat k + 1) by lia. rewrite Z.add_0_l. reflexivity. }
  assert (length (tl l) = Z.to_nat m) as Lt by (destruct l; simpl in *; lia).
  destruct (existsb (fun o => o =? r) (map snd R)) eqn:Eocc.
  - rewrite <- Ekp. unfold frequencies_to_kplus_reaches. rewrite fold_accumulate.
    split; [rewrite suffix_acc_length; auto|].
    intros k Hk. rewrite suffix_acc_nth by lia. f_equal.
    rewrite skipn_tl, Hsum by lia. rewrite skipn_repeat, Zsum_repeat0, Hcount by auto. lia.
  - assert (~ In r (map snd R)) as Hno.
    { intros C. rewrite <- not_true_iff_false in Eocc. apply Eocc, existsb_exists. exists r.
      split; auto. apply Z.eqb_refl. }
    specialize (Hsame Hno). rewrite <- Ekp; subst l. rewrite tl_repeat, repeat_length. split; [lia|].
    intros k Hk. rewrite nth_error_repeat' by lia. f_equal.
    rewrite <- Hcount by auto.
    assert (filter (in_reg I r (Z.of_nat (S k))) R = []) as ->; [|reflexivity].
    destruct (filter _ R) as [|[u v] t] eqn:Ef; auto. exfalso.
    assert (In (u, v) (filter (in_reg I r (Z.of_nat (S k))) R)) as Hf by (rewrite Ef; left; auto).
    apply filter_In in Hf. destruct Hf as [Hf1 Hf2]. unfold in_reg in Hf2.
    apply andb_true_iff in Hf2. destruct Hf2 as [Hf2 _]. apply Z.eqb_eq in Hf2. simpl in Hf2.
    apply Hno. rewrite <- Hf2. change v with (snd (u, v)). apply in_map; auto.
Qed.
