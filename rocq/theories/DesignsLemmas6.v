(** Designs that stop: names that are taken, and sets in another order. *)
From Coq Require Import String Ascii Qround Permutation Lqa.
From Verif Require Import Prelude ModelReachPoint ModelData SpecData ReachPointLemmas DataLemmas
  ModelFiles SpecFiles FilesLemmas FilesLemmas2 FilesLemmas3 PropsFiles ModelGenerators SpecGenerators
  GeneratorsLemmas GeneratorsLemmas2 PropsGenerators PropsSynthetic
  ModelDriver SpecDriver DriverLemmas4 DriverLemmas5
  ModelDesigns SpecDesigns DesignsLemmas DesignsLemmas2 DesignsLemmas3 DesignsLemmas4 DesignsLemmas5.
Open Scope Z_scope.

Lemma dir_above k dir q : disk_ok k -> stat k dir = Some Dir -> on_the_way dir q -> stat k q = Some Dir.
Proof.
  intros Hk HD OW. apply on_the_way_prefix in OW. destruct OW as [n [Hn ->]].
  assert (forall j, (j <= length (snd dir))%nat -> stat k (prefix dir (length (snd dir) - j)) = Some Dir) as G.
  { induction j as [|j IH]; intros Hj.
    - rewrite Nat.sub_0_r, prefix_all. auto.
    - specialize (IH ltac:(lia)). replace (length (snd dir) - j)%nat with (S (length (snd dir) - S j)) in IH by lia.
      destruct Hk as [_ [_ H3]]. rewrite <- (parent_prefix dir (length (snd dir) - S j)) by lia.
      apply H3. rewrite IH. discriminate. }
  specialize (G (length (snd dir) - n)%nat ltac:(lia)).
  replace (length (snd dir) - (length (snd dir) - n))%nat with n in G by lia. exact G.
Qed.

(** Opening a design that is there changes nothing. *)
Lemma open_again fs dir : disk_ok (st_disk fs) -> stat (st_disk fs) (to_path dir) = Some Dir ->
  exists d fs', mk_design fs dir = (Ok d, fs') /\ design_ok fs' d /\ de_dirpath d = dir /\
    st_cache fs' = st_cache fs /\ forall q, stat (st_disk fs') q = stat (st_disk fs) q.
Proof.
  intros K D. destruct (open_design_ok fs dir K (dir_no_file _ _ K D)) as [d [fs' [E [O [Ed [Ec Fr]]]]]].
  exists d, fs'. repeat (split; [assumption|]). intros q.
  pose proof O as [K' [D' _]]. rewrite Ed in D'.
  assert (Dec : on_the_way (to_path dir) q \/ ~ on_the_way (to_path dir) q).
  { destruct q as [r q], (to_path dir) as [r' q']. unfold on_the_way, within. cbn [fst snd].
    destruct q as [|a q]; [right; intros [X _]; congruence|].
    assert (G : forall a b : list string, (exists rest, b = a ++ rest) \/ ~ (exists rest, b = a ++ rest)).
    { clear. induction a as [|x a IH]; intros b; [left; exists b; reflexivity|].
      destruct b as [|y b]; [right; intros [rest X]; discriminate|].
      destruct (string_dec x y) as [<-|N]; [|right; intros [rest X]; inversion X; congruence].
      destruct (IH b) as [[rest ->]|N]; [left; exists rest; reflexivity|].
      right. intros [rest X]. inversion X. apply N. eauto. }
    assert (Er : {r = r'} + {r <> r'}) by decide equality.
    destruct Er as [<-|N]; [|right; intros [_ [rest X]]; inversion X; congruence].
    destruct (G (a :: q) q') as [[rest X]|N]; [left|right].
    - split; [discriminate|]. exists rest. congruence.
    - intros [_ [rest X]]. apply N. exists rest. inversion X. reflexivity. }
  destruct Dec as [OW|NO]; [|apply Fr; exact NO].
  rewrite (dir_above _ _ _ K' D' OW), (dir_above _ _ _ K D OW). reflexivity.
Qed.

(** ** Another order *)

Lemma mapM_label_mismatch so rn : visits_each_once so -> forall labels sizes' logs pubs,
  Forall2 is_publisher_of logs pubs -> Forall2 labels_for labels sizes' ->
  length sizes' = length pubs -> sizes' <> map pd_max_reach pubs ->
  label_ids so rn labels pubs = Err AssertionError.
Proof.
  intros Hso labels sizes' logs pubs Hp. revert labels sizes'.
  induction Hp as [|log p logs pubs Hp H IH]; intros labels sizes' HL Len NE.
  - destruct sizes'; [|discriminate]. exfalso. apply NE. reflexivity.
  - inversion HL as [|lab sz labels' szs [N1 N2] HL']; subst; [discriminate|].
    unfold label_ids. cbn [combine mapM fst snd].
    destruct (Z.eq_dec (Z.of_nat (length lab)) (pd_max_reach p)) as [E|E].
    + destruct (label_one_ok so rn lab log p Hso Hp N1 E) as [log' [p' [F1 _]]]. rewrite F1. cbn [bind].
      cbn [map] in NE. cbn [length] in Len. specialize (IH labels' szs HL' ltac:(lia) ltac:(congruence)).
      unfold label_ids in IH. rewrite IH. reflexivity.
    + unfold label_one. destruct (Z.eqb_spec (Z.of_nat (length lab)) (pd_max_reach p)); [congruence|reflexivity].
Qed.

Lemma make_sequence g o : asks_for_sequence g o -> exists b, make_overlap g = Ok (Sequential o b).
Proof.
  intros [C [A [O [Cs G]]]]. unfold make_overlap. rewrite C, (only_keys_ok _ _ A).
  rewrite (kw_get_in _ _ _ (proj1 A) O), (kw_get_in _ _ _ (proj1 A) Cs). cbn [need bind as_str].
  destruct (given_get _ _ _ _ A G) as [v [-> Ev]]. cbn [need bind]. rewrite Ev. cbn [bind].
  destruct o. eexists. reflexivity.
Qed.

Lemma set_shuffled {St} (rng : numpy_rng St) x F p st : environment rng x F ->
  feasible (with_overlap p full_overlap) -> shuffles_sizes x p ->
  generate_set rng x F p st = Err AssertionError.
Proof.
  intros [Ev1 Ev2 Ev3 Ev4 Ev5 Ev6] Fe [o [As Sh]].
  assert (Sz : forall i, (i < Z.to_nat (fp_num_publishers p))%nat ->
    1 <= planned_size (fp_largest p) (shrink (sx_pow x) p) i <= fp_largest p).
  { intros i. exact (feasible_sizes (sx_pow x) _ i Ev3 Fe). }
  destruct Fe as [H1 [H2 [H3 [H4 [U1 [U2 _]]]]]]. unfold with_overlap in *.
  cbn [fp_num_publishers fp_largest fp_ratio fp_pricing fp_impressions fp_overlap] in *.
  destruct (make_impressions_ok _ U2) as [imp [EI LI]]. destruct (make_pricing_ok _ U1) as [cpi EC].
  destruct (make_sequence _ _ As) as [b EO].
  unfold generate_set. assert ((1 <=? fp_num_publishers p) = true) as -> by lia.
  rewrite EI. cbn [bind]. rewrite EC. cbn [bind]. rewrite EO.
  set (params := {| dp_num_publishers := fp_num_publishers p; dp_largest := fp_largest p;
                     dp_ratio := number_Q (fp_ratio p); dp_cpi := cpi; dp_impressions := imp; dp_overlap := Sequential o b |}).
  assert (Hrate : decay_rate (sx_pow x) params = shrink (sx_pow x) p).
  { unfold decay_rate, shrink. cbn [params dp_num_publishers dp_ratio].
    destruct (Z.eqb_spec (fp_num_publishers p) 1) as [E|E]; destruct (Z.eq_dec (fp_num_publishers p) 1); congruence. }
  assert (Hs : forall k, sx_str x k <> ""%string).
  { intros k. rewrite Ev5. intros E. apply (str_of_int_nonempty k). apply (f_equal list_ascii_of_string) in E.
    rewrite list_ascii_of_string_of_list_ascii in E. exact E. }
  unfold generate_data_set. rewrite Hrate. cbn [params dp_num_publishers dp_largest].
  destruct (publishers_ok rng (sx_str x) (sx_random_name x) params (shrink (sx_pow x) p) Ev1 Ev2 LI
              (py_range 0 (fp_num_publishers p)) (fp_largest p) st) as [ps [st1 EP]].
  { intros i Hi. rewrite range0_len in Hi. apply Sz. exact Hi. }
  rewrite EP. cbn [bind].
  destruct (generate_publishers_ok _ _ _ _ _ Ev1 Hs _ _ _ _ _ EP) as [logs [L1 [L2 L3]]].
  rewrite range0_len in L2.
  assert (Hsz : map pd_max_reach ps = sizes_of (sx_pow x) p).
  { unfold sizes_of. apply nth_error_same. intros i. rewrite !nth_error_map.
    destruct (nth_error ps i) as [q|] eqn:Eq.
    - assert (Hi : (i < length ps)%nat) by (apply nth_error_Some; congruence).
      destruct (nth_error logs i) as [log|] eqn:El; [|apply nth_error_None in El; apply Forall2_len in L1; lia].
      destruct (L3 i q log Eq El) as [_ [A _]]. cbn [option_map]. rewrite A.
      assert (nth_error (seq 0 (Z.to_nat (fp_num_publishers p))) i = Some i) as ->; [|reflexivity].
      rewrite (nth_error_nth' _ 0%nat) by (rewrite seq_length; lia). rewrite seq_nth by lia. reflexivity.
    - apply nth_error_None in Eq. cbn [option_map].
      assert (nth_error (seq 0 (Z.to_nat (fp_num_publishers p))) i = None) as ->; [|reflexivity].
      apply nth_error_None. rewrite seq_length. lia. }
  cbn [params dp_overlap]. unfold sequential_overlap_data_set. destruct (if b then _ else _) as [seed st2].
  unfold overlap_data_set, as_list. cbn [fst snd]. rewrite Hsz.
  destruct (Sh seed) as [labels [sizes' [E1 [E2 [E3 E4]]]]]. rewrite E1. cbn [bind].
  rewrite (mapM_label_mismatch _ _ (sg_order _ Ev4) labels sizes' logs ps L1 E2); [reflexivity| |congruence].
  apply Permutation_length in E3. rewrite E3, <- Hsz, map_length. reflexivity.
Qed.
