(** C51: data designs: names of data sets, Latin hypercube and cartesian designs, and the
    generation of a whole design. *)
From Coq Require Import String Ascii Qround Permutation Lqa.
From Verif Require Import Prelude ModelReachPoint ModelData SpecData ReachPointLemmas DataLemmas
  ModelFiles SpecFiles FilesLemmas FilesLemmas2 FilesLemmas3 PropsFiles ModelGenerators SpecGenerators
  GeneratorsLemmas GeneratorsLemmas2 PropsGenerators PropsSynthetic
  ModelDriver SpecDriver DriverLemmas2 DriverLemmas4 DriverLemmas5 ModelDesigns SpecDesigns
  DesignsLemmas DesignsLemmas2 DesignsLemmas3 DesignsLemmas4 DesignsLemmas5 DesignsLemmas6
  DesignsLemmas7 DesignsLemmas8 ExampleDesigns.
Open Scope Z_scope.

(** ** Names *)

(** Settings without a name of their own get the same name exactly if they are the same. *)
Theorem C51_names_identify : forall F a b, prints_floats F -> plain_set F a -> plain_set F b ->
  (set_name_of F a = set_name_of F b <-> same_set a b).
Proof.
  intros F a b PF Pa Pb. assert (T : tells_floats_apart F).
  { destruct PF as [F1 [F2 [F3 F4]]]. split; [exact F1|]. split; [intros q q'; apply F2|]. split; assumption. }
  split.
  - intros E. apply str_inj in E. apply (set_apart F); assumption.
  - intros Sm. unfold set_name_of. f_equal. apply set_same; [|apply Pa|apply Pb|exact Sm].
    intros q q' E. apply PF. exact E.
Qed.
Print Assumptions C51_names_identify.

(** The name of a data set can be used as the name of a directory. *)
Theorem C51_names_usable : forall F p, tells_floats_apart F -> plain_set F p -> file_name (set_name_of F p).
Proof. intros F p. apply set_file_name. Qed.
Print Assumptions C51_names_usable.

(** A name that is given is used as it is. *)
Theorem C51_given_name : forall F p, fp_name p <> ""%string -> set_name_of F p = fp_name p.
Proof.
  intros F p H. unfold set_name_of, show_set. destruct (fp_name p) as [|c s]; [congruence|]. cbn [truthy].
  unfold chars. apply string_of_list_ascii_of_string.
Qed.
Print Assumptions C51_given_name.

(** ** Latin hypercube designs *)

(** Every point of the sample gives the levels in whose part of the unit interval it falls,
    and no two data sets of the design have the same name. *)
Theorem C51_lhs_levels : forall L samples, has_levels L -> Forall point samples ->
  exists ps, lhs_config L samples = map Ok ps /\ length ps = length samples /\
    (forall i s p, nth_error samples i = Some s -> nth_error ps i = Some p -> from_levels L i s p) /\
    forall F, NoDup (map (set_name_of F) ps).
Proof.
  intros L samples HL Pt. destruct (lhs_config_ok L samples HL Pt) as [ps [E [Len H]]].
  exists ps. split; [exact E|]. split; [exact Len|]. split; [intros i s p Hs Hp; apply (H i s p Hs Hp)|].
  intros F. apply ids_distinct. intros k p Hp.
  destruct (nth_error samples k) as [s|] eqn:Es.
  2:{ apply nth_error_None in Es. assert (nth_error ps k <> None) as X by congruence. apply nth_error_Some in X. lia. }
  destruct (H k s p Es Hp) as [[A [B _]] _]. split; assumption.
Qed.
Print Assumptions C51_lhs_levels.

(** In a Latin sample each level is used by an even share of the data sets. *)
Theorem C51_lhs_balanced : forall L samples, has_levels L -> latin samples ->
  exists ps, lhs_config L samples = map Ok ps /\
    balanced (lv_num_publishers L) fp_num_publishers ps /\ balanced (lv_largest L) fp_largest ps /\
    balanced (lv_ratio L) fp_ratio ps /\ balanced (lv_pricing L) fp_pricing ps /\
    balanced (lv_impressions L) fp_impressions ps /\ balanced (lv_overlap L) fp_overlap ps.
Proof.
  intros L samples HL La. destruct (lhs_config_ok L samples HL (proj1 La)) as [ps [E [Len H]]].
  exists ps. split; [exact E|].
  split; [apply (balanced_at _ _ 0 samples); auto; try lia; intros k s p Hs Hp; apply (H k s p Hs Hp)|].
  split; [apply (balanced_at _ _ 1 samples); auto; try lia; intros k s p Hs Hp; apply (H k s p Hs Hp)|].
  split; [apply (balanced_at _ _ 2 samples); auto; try lia; intros k s p Hs Hp; apply (H k s p Hs Hp)|].
  split; [apply (balanced_at _ _ 3 samples); auto; try lia; intros k s p Hs Hp; apply (H k s p Hs Hp)|].
  split; [apply (balanced_at _ _ 4 samples); auto; try lia; intros k s p Hs Hp; apply (H k s p Hs Hp)|].
  apply (balanced_at _ _ 5 samples); auto; try lia; intros k s p Hs Hp; apply (H k s p Hs Hp).
Qed.
Print Assumptions C51_lhs_balanced.

(** The M3 design is the Latin hypercube design in which the universes of the independent
    overlaps are scaled with the largest publisher. *)
Theorem C51_m3_universe : forall L samples, has_levels L -> Forall point samples ->
  Forall has_universe_ratio (lv_overlap L) -> Forall (fun n => 0 <= n) (lv_largest L) ->
  exists ps0 ps, lhs_config L samples = map Ok ps0 /\ m3_config L samples = map Ok ps /\
    Forall2 with_universe ps0 ps /\ forall F, NoDup (map (set_name_of F) ps).
Proof.
  intros L samples HL Pt HU HN. destruct (m3_config_ok L samples HL Pt HU HN) as [ps0 [ps [E0 [E [Len W]]]]].
  exists ps0, ps. split; [exact E0|]. split; [exact E|]. split; [exact W|].
  intros F. apply ids_distinct. intros k p Hp.
  destruct (lhs_config_ok L samples HL Pt) as [ps1 [E1 [Len1 H]]].
  assert (ps1 = ps0) as ->.
  { rewrite E0 in E1. clear -E1. revert ps0 E1. induction ps1 as [|a l IH]; intros [|b l'] E; try discriminate; [reflexivity|].
    cbn [map] in E. f_equal; [congruence|]. apply IH. congruence. }
  assert (Hk : (k < length ps)%nat) by (apply nth_error_Some; congruence). pose proof (Forall2_len _ _ _ W) as LW.
  destruct (nth_error ps0 k) as [p0|] eqn:E2; [|apply nth_error_None in E2; lia].
  destruct (nth_error samples k) as [s|] eqn:Es; [|apply nth_error_None in Es; lia].
  destruct (H k s p0 Es E2) as [[A [B _]] _].
  assert (W' : with_universe p0 p).
  { clear -W Hp E2. revert k Hp E2. induction W as [|x y l l' Hxy W IH]; intros [|k] Hp E2; try discriminate.
    - cbn in *. congruence.
    - apply (IH k); assumption. }
  destruct W' as [W1 [W2 _]]. split; congruence.
Qed.
Print Assumptions C51_m3_universe.

(** ** Cartesian designs *)

(** Each combination of the levels occurs, exactly once if the levels are different. *)
Theorem C51_cartesian : forall L, exists ps, cartesian_config L = map Ok ps /\
  (forall p, In p ps <-> combination L p) /\
  length ps = (length (lv_num_publishers L) * (length (lv_largest L) * (length (lv_ratio L) *
    (length (lv_pricing L) * (length (lv_impressions L) * length (lv_overlap L))))))%nat /\
  (different_levels L -> pairwise_different same_set ps /\
     forall F, tells_floats_apart F -> plain_levels F L -> NoDup (map (set_name_of F) ps)).
Proof.
  intros L. exists (cart6 L). split; [apply cartesian_cart6|]. split; [intros p; apply cart6_in|].
  split; [apply cart6_length|]. intros D. split; [apply cart6_different; exact D|].
  intros F T [P1 [P2 P3]]. rewrite Forall_forall in P1, P2, P3.
  apply different_names; [exact T| |apply cart6_different; exact D].
  apply Forall_forall. intros p I. apply cart6_in in I. destruct I as [A [B [_ [_ [_ [I4 [I5 I6]]]]]]].
  split; [exact A|]. split; [rewrite B; apply plain_checked; reflexivity|]. auto.
Qed.
Print Assumptions C51_cartesian.

(** ** Generating a design *)

Section Generate.
Context {St : Type} (rng : numpy_rng St) (x : synthetic_externals seq_options) (F : float_format).

(** Settings that can be carried out, with different names that are not taken, are all
    carried out; nothing else on the disk changes. *)
Theorem C51_generate : forall fs dir ps st, environment rng x F ->
  disk_ok (st_disk fs) -> no_file_on_the_way (st_disk fs) (to_path dir) ->
  Forall (writable F) ps -> NoDup (map (set_name_of F) ps) ->
  (forall p, In p ps -> stat (st_disk fs) (entry (to_path dir) (set_name_of F p)) = None) ->
  exists fs' d, generate_design rng x F fs dir (map Ok ps) st = (Ok d, fs') /\
    filled F (sx_pow x) fs dir ps fs' d.
Proof.
  intros fs dir ps st env K NF W ND Fresh.
  destruct (design_ok_prefix rng x F env fs dir ps st K NF W ND Fresh) as [fs' [d [st' [E H]]]].
  exists fs', d. split; [|exact H]. specialize (E []). rewrite app_nil_r in E. rewrite E. reflexivity.
Qed.

(** If the configuration or a data set raises an exception, the design stops with it; the
    data sets before it are complete. *)
Theorem C51_stops : forall fs dir ps bad rest e st, environment rng x F ->
  disk_ok (st_disk fs) -> no_file_on_the_way (st_disk fs) (to_path dir) ->
  Forall (writable F) ps -> NoDup (map (set_name_of F) ps) ->
  (forall p, In p ps -> stat (st_disk fs) (entry (to_path dir) (set_name_of F p)) = None) ->
  (bad = Err e \/ exists p, bad = Ok p /\ forall s, generate_set rng x F p s = Err e) ->
  exists fs' d, generate_design rng x F fs dir (map Ok ps ++ bad :: rest) st = (Err e, fs') /\
    filled F (sx_pow x) fs dir ps fs' d.
Proof.
  intros fs dir ps bad rest e st env K NF W ND Fresh Bad.
  destruct (design_ok_prefix rng x F env fs dir ps st K NF W ND Fresh) as [fs' [d [st' [E H]]]].
  exists fs', d. split; [|exact H]. rewrite E. cbn [fill].
  destruct Bad as [->|[p [-> G]]]; [reflexivity|]. rewrite G. reflexivity.
Qed.

(** A name that is taken, by the design or by something else in the directory, stops the
    design with a ValueError. *)
Theorem C51_name_taken : forall fs dir ps p rest st, environment rng x F ->
  disk_ok (st_disk fs) -> no_file_on_the_way (st_disk fs) (to_path dir) ->
  Forall (writable F) ps -> NoDup (map (set_name_of F) ps) ->
  (forall p', In p' ps -> stat (st_disk fs) (entry (to_path dir) (set_name_of F p')) = None) ->
  writable F p ->
  (In (set_name_of F p) (map (set_name_of F) ps) \/
   stat (st_disk fs) (entry (to_path dir) (set_name_of F p)) <> None) ->
  exists fs' d, generate_design rng x F fs dir (map Ok ps ++ Ok p :: rest) st = (Err ValueError, fs') /\
    filled F (sx_pow x) fs dir ps fs' d.
Proof.
  intros fs dir ps p rest st env K NF W ND Fresh Wp Taken.
  destruct (design_ok_prefix rng x F env fs dir ps st K NF W ND Fresh) as [fs' [d [st' [E H]]]].
  exists fs', d. split; [|exact H]. rewrite E. cbn [fill].
  destruct (set_ok rng x F p st' env (proj1 Wp) (writable_shown F p Wp)) as [ds [st1 [G1 [G2 _]]]].
  rewrite G1. assert (En : ds_name ds = set_name_of F p) by apply G2.
  rewrite add_taken; [reflexivity|rewrite En; apply Wp|].
  rewrite En. destruct H as [O [Ed [_ [Nm [_ [_ Fr]]]]]]. rewrite Ed.
  destruct (in_dec string_dec (set_name_of F p) (map (set_name_of F) ps)) as [I|N].
  - assert (In (set_name_of F p) (sorted_names d)) as I' by (apply Nm; right; exact I).
    apply (Permutation_in _ (sorted_names_perm d)) in I'. destruct O as [_ [_ [_ O]]]. apply O in I'. rewrite Ed in I'. congruence.
  - destruct Taken as [I|T]; [contradiction|]. rewrite Fr; [exact T| |].
    + apply FilesLemmas2.entry_not_on_the_way.
    + intros p' I. apply entry_apart. intros X. apply N. rewrite <- X. apply in_map. exact I.
Qed.

(** Starting the same design again stops with a ValueError and changes nothing. *)
Theorem C51_rerun : forall fs dir p rest fs' d c st, environment rng x F ->
  filled F (sx_pow x) fs dir (p :: rest) fs' d -> writable F p ->
  exists fs'', generate_design rng x F fs' dir (Ok p :: c) st = (Err ValueError, fs'') /\
    st_cache fs'' = st_cache fs' /\ forall q, stat (st_disk fs'') q = stat (st_disk fs') q.
Proof.
  intros fs dir p rest fs' d c st env [O [Ed [_ [Nm _]]]] Wp. pose proof O as [K [D _]]. rewrite Ed in D.
  destruct (open_again fs' dir K D) as [d2 [fs2 [E2 [O2 [Ed2 [Ec2 Fr2]]]]]].
  exists fs2. split; [|split; assumption]. unfold generate_design. rewrite E2. cbn [fill].
  destruct (set_ok rng x F p st env (proj1 Wp) (writable_shown F p Wp)) as [ds [st1 [G1 [G2 _]]]].
  rewrite G1. assert (En : ds_name ds = set_name_of F p) by apply G2.
  rewrite add_taken; [reflexivity|rewrite En; apply Wp|]. rewrite En, Ed2, Fr2.
  assert (In (set_name_of F p) (sorted_names d)) as I' by (apply Nm; right; left; reflexivity).
  apply (Permutation_in _ (sorted_names_perm d)) in I'. destruct O as [_ [_ [_ O]]]. apply O in I'. rewrite Ed in I'. congruence.
Qed.

(** If the set generator returns the sets in another order, so that the sizes do not fit the
    publishers any more, the design stops with an AssertionError. *)
Theorem C51_order_changed : forall fs dir ps p rest st, environment rng x F ->
  disk_ok (st_disk fs) -> no_file_on_the_way (st_disk fs) (to_path dir) ->
  Forall (writable F) ps -> NoDup (map (set_name_of F) ps) ->
  (forall p', In p' ps -> stat (st_disk fs) (entry (to_path dir) (set_name_of F p')) = None) ->
  feasible (with_overlap p full_overlap) -> shuffles_sizes x p ->
  exists fs' d, generate_design rng x F fs dir (map Ok ps ++ Ok p :: rest) st = (Err AssertionError, fs') /\
    filled F (sx_pow x) fs dir ps fs' d.
Proof.
  intros fs dir ps p rest st env K NF W ND Fresh Fe Sh. apply C51_stops; auto.
  right. exists p. split; [reflexivity|]. intros s. apply set_shuffled; assumption.
Qed.

(** The number of data sets in a new design. *)
Lemma filled_count fs dir ps fs' d : (forall n, stat (st_disk fs) (entry (to_path dir) n) = None) ->
  NoDup (map (set_name_of F) ps) -> filled F (sx_pow x) fs dir ps fs' d -> de_count d = Z.of_nat (length ps).
Proof.
  intros Fr ND [O [_ [_ [Nm _]]]]. unfold de_count. f_equal. rewrite <- (map_length (set_name_of F) ps).
  apply Permutation_length. apply NoDup_Permutation; [apply O|exact ND|].
  intros n. assert (In n (de_names d) <-> In n (sorted_names d)) as ->.
  { split; apply Permutation_in; [symmetry|]; apply sorted_names_perm. }
  rewrite Nm, (Fr n). split; [intros [X|X]; [discriminate|exact X]|auto].
Qed.

Lemma new_ok fs dir ps st : environment rng x F ->
  disk_ok (st_disk fs) -> no_file_on_the_way (st_disk fs) (to_path dir) ->
  (forall n, stat (st_disk fs) (entry (to_path dir) n) = None) ->
  Forall (writable F) ps -> NoDup (map (set_name_of F) ps) ->
  exists fs' d, generate_design rng x F fs dir (map Ok ps) st = (Ok d, fs') /\
    filled F (sx_pow x) fs dir ps fs' d /\ de_count d = Z.of_nat (length ps).
Proof.
  intros env K NF Fr W ND.
  destruct (C51_generate fs dir ps st env K NF W ND (fun p _ => Fr _)) as [fs' [d [E H]]].
  exists fs', d. split; [exact E|]. split; [exact H|]. apply (filled_count fs dir ps fs' d); assumption.
Qed.

(** A Latin hypercube design over levels that can be carried out succeeds whatever the
    sample is. *)
Theorem C51_lhs_generate : forall L samples fs dir st, environment rng x F -> tells_floats_apart F ->
  has_levels L -> workable F L -> Forall point samples ->
  disk_ok (st_disk fs) -> no_file_on_the_way (st_disk fs) (to_path dir) ->
  (forall n, stat (st_disk fs) (entry (to_path dir) n) = None) ->
  exists ps fs' d, lhs_config L samples = map Ok ps /\
    generate_design rng x F fs dir (lhs_config L samples) st = (Ok d, fs') /\
    filled F (sx_pow x) fs dir ps fs' d /\ de_count d = Z.of_nat (length samples).
Proof.
  intros L samples fs dir st env T HL [[P1 [P2 P3]] Fe] Pt K NF Fr.
  destruct (C51_lhs_levels L samples HL Pt) as [ps [E [Len [H ND]]]].
  rewrite Forall_forall in P1, P2, P3.
  assert (W : Forall (writable F) ps).
  { apply Forall_forall. intros p I. apply In_nth_error in I. destruct I as [k Ek].
    assert (Hk : (k < length ps)%nat) by (apply nth_error_Some; congruence).
    destruct (nth_error samples k) as [s|] eqn:Es; [|apply nth_error_None in Es; lia].
    destruct (H k s p Es Ek) as [N0 [Ni [C1 [C2 [C3 [C4 [C5 C6]]]]]]].
    assert (chosen_in : forall A (l : list A) q v, chosen l q v -> In v l).
    { intros A l q v [j [X _]]. eapply nth_error_In. exact X. }
    apply chosen_in in C1, C2, C3, C4, C5, C6. split.
    - assert (X : feasible {| fp_name := ""; fp_num_publishers := fp_num_publishers p; fp_largest := fp_largest p;
         fp_ratio := fp_ratio p; fp_pricing := fp_pricing p; fp_impressions := fp_impressions p;
         fp_overlap := fp_overlap p; fp_id := "" |}) by (apply Fe; repeat (split; [solve [reflexivity|assumption]|]); assumption).
      exact X.
    - apply set_file_name; [exact T|]. split; [exact N0|]. split; [rewrite Ni; apply plain_id|]. auto. }
  destruct (new_ok fs dir ps st env K NF Fr W (ND F)) as [fs' [d [G1 [G2 G3]]]].
  exists ps, fs', d. split; [exact E|]. split; [rewrite E; exact G1|]. split; [exact G2|]. rewrite <- Len. exact G3.
Qed.

(** A cartesian design over different levels that can be carried out succeeds. *)
Theorem C51_cartesian_generate : forall L fs dir st, environment rng x F -> tells_floats_apart F ->
  workable F L -> different_levels L ->
  disk_ok (st_disk fs) -> no_file_on_the_way (st_disk fs) (to_path dir) ->
  (forall n, stat (st_disk fs) (entry (to_path dir) n) = None) ->
  exists ps fs' d, cartesian_config L = map Ok ps /\
    generate_design rng x F fs dir (cartesian_config L) st = (Ok d, fs') /\
    filled F (sx_pow x) fs dir ps fs' d /\ de_count d = Z.of_nat (length ps).
Proof.
  intros L fs dir st env T [Pl Fe] Df K NF Fr.
  destruct (C51_cartesian L) as [ps [E [In_ [_ ND]]]]. destruct (ND Df) as [_ ND']. specialize (ND' F T Pl).
  assert (W : Forall (writable F) ps).
  { apply Forall_forall. intros p I. apply In_ in I. split; [apply Fe; exact I|].
    destruct I as [N0 [Ni [_ [_ [_ [C4 [C5 C6]]]]]]]. destruct Pl as [P1 [P2 P3]]. rewrite Forall_forall in P1, P2, P3.
    apply set_file_name; [exact T|]. split; [exact N0|]. split; [rewrite Ni; apply plain_checked; reflexivity|]. auto. }
  destruct (new_ok fs dir ps st env K NF Fr W ND') as [fs' [d [G1 [G2 G3]]]].
  exists ps, fs', d. split; [exact E|]. split; [rewrite E; exact G1|]. split; assumption.
Qed.

(** ** The shipped designs *)

(** In a directory without entries, simple_data_design_example makes 27 data sets,
    analysis_example_data_design 72, single_publisher_design 80, and lhs_data_design_example
    one for each point of the sample. *)
Theorem C51_shipped : forall fs dir st, environment rng x F -> tells_floats_apart F -> words_are_words F ->
  disk_ok (st_disk fs) -> no_file_on_the_way (st_disk fs) (to_path dir) ->
  (forall n, stat (st_disk fs) (entry (to_path dir) n) = None) ->
  let makes c n := exists ps fs' d, c = map Ok ps /\ generate_design rng x F fs dir c st = (Ok d, fs') /\
    filled F (sx_pow x) fs dir ps fs' d /\ de_count d = n in
  makes simple_config 27 /\ makes analysis_config 72 /\ makes single_publisher_config 80 /\
  forall samples, Forall point samples -> length samples = lhs_example_samples ->
    makes (lhs_config lhs_example_levels samples) 10.
Proof.
  intros fs dir st env T Wd K NF Fr makes.
  assert (Cart : forall L n, workable F L -> levels_apart L = true ->
    Z.of_nat (length (lv_num_publishers L) * (length (lv_largest L) * (length (lv_ratio L) *
      (length (lv_pricing L) * (length (lv_impressions L) * length (lv_overlap L))))))%nat = n ->
    makes (cartesian_config L) n).
  { intros L n Wk Ap Hn. destruct (C51_cartesian_generate L fs dir st env T Wk (levels_apart_different L Ap) K NF Fr)
      as [ps [fs' [d [E [G1 [G2 G3]]]]]].
    exists ps, fs', d. repeat (split; [assumption|]). rewrite G3, <- Hn. f_equal.
    destruct (C51_cartesian L) as [ps' [E' [_ [Hl _]]]]. rewrite <- Hl. rewrite <- (map_length Ok ps), <- (map_length Ok ps').
    congruence. }
  split; [apply (Cart _ _ (simple_workable F Wd)); reflexivity|].
  split; [apply (Cart _ _ (analysis_workable F Wd)); reflexivity|].
  split; [apply (Cart _ _ (single_publisher_workable F Wd)); reflexivity|].
  intros samples Pt Len.
  destruct (C51_lhs_generate lhs_example_levels samples fs dir st env T ltac:(repeat split; discriminate)
    (lhs_example_workable F Wd) Pt K NF Fr) as [ps [fs' [d [E [G1 [G2 G3]]]]]].
  exists ps, fs', d. repeat (split; [assumption|]). rewrite G3, Len. reflexivity.
Qed.

(** The M3 design succeeds if no point of the sample asks for another order of publishers of
    different sizes. *)
Theorem C51_m3 : forall samples fs dir st, environment rng x F -> tells_floats_apart F -> words_are_words F ->
  Forall point samples ->
  disk_ok (st_disk fs) -> no_file_on_the_way (st_disk fs) (to_path dir) ->
  (forall n, stat (st_disk fs) (entry (to_path dir) n) = None) ->
  exists ps, m3_config m3_levels samples = map Ok ps /\
    (Forall order_is_kept ps ->
     exists fs' d, generate_design rng x F fs dir (m3_config m3_levels samples) st = (Ok d, fs') /\
       filled F (sx_pow x) fs dir ps fs' d /\ de_count d = Z.of_nat (length samples)) /\
    (forall k p, nth_error ps k = Some p -> Forall order_is_kept (firstn k ps) -> shuffles_sizes x p ->
     exists fs' d, generate_design rng x F fs dir (m3_config m3_levels samples) st = (Err AssertionError, fs') /\
       filled F (sx_pow x) fs dir (firstn k ps) fs' d).
Proof.
  intros samples fs dir st env T Wd Pt K NF Fr.
  destruct (C51_m3_universe m3_levels samples m3_has_levels Pt m3_ratios m3_largest) as [ps0 [ps [E0 [E [W ND]]]]].
  destruct (lhs_config_ok m3_levels samples m3_has_levels Pt) as [ps1 [E1 [Len1 H]]].
  assert (ps1 = ps0) as ->.
  { rewrite E0 in E1. clear -E1. revert ps0 E1. induction ps1 as [|a l IH]; intros [|b l'] E; try discriminate; [reflexivity|].
    cbn [map] in E. f_equal; [congruence|]. apply IH. congruence. }
  pose proof (Forall2_len _ _ _ W) as LW. rewrite Forall_forall in Pt.
  assert (Fe : forall k p, nth_error ps k = Some p ->
    plain_set F p /\ (order_is_kept p -> feasible p) /\ feasible (with_overlap p full_overlap)).
  { intros k p Hp. assert (Hk : (k < length ps)%nat) by (apply nth_error_Some; congruence).
    destruct (nth_error ps0 k) as [p0|] eqn:E2; [|apply nth_error_None in E2; lia].
    destruct (nth_error samples k) as [s|] eqn:Es; [|apply nth_error_None in Es; lia].
    destruct (H k s p0 Es E2) as [A B]. apply (m3_feasible F s p0 p k Wd (Pt s (nth_error_In _ _ Es)) A B).
    clear -W Hp E2. revert k Hp E2. induction W as [|y z l l' Hyz W IH]; intros [|k] Hp E2; try discriminate.
    - cbn in *. congruence.
    - apply (IH k); assumption. }
  assert (Wr : forall k, Forall order_is_kept (firstn k ps) -> Forall (writable F) (firstn k ps)).
  { intros k Or. rewrite Forall_forall in Or. apply Forall_forall. intros p I. specialize (Or p I).
    assert (I' : In p ps) by (rewrite <- (firstn_skipn k ps); apply in_app_iff; left; exact I).
    apply In_nth_error in I'. destruct I' as [j Ej]. destruct (Fe j p Ej) as [A [B _]].
    split; [auto|apply set_file_name; assumption]. }
  exists ps. split; [exact E|]. split.
  - intros Or. rewrite <- (firstn_all ps) in Or. apply Wr in Or. rewrite firstn_all in Or. rewrite E.
    destruct (new_ok fs dir ps st env K NF Fr Or (ND F)) as [fs' [d [G1 [G2 G3]]]].
    exists fs', d. split; [exact G1|]. split; [exact G2|]. rewrite G3. f_equal. congruence.
  - intros k p Hp Or Sh. rewrite E.
    assert (Es : map Ok ps = map (@Ok set_parameters) (firstn k ps) ++ Ok p :: map Ok (skipn (S k) ps)).
    { clear -Hp. revert k Hp. induction ps as [|a l IH]; intros [|k] Hp; try discriminate.
      - cbn in Hp. inversion Hp; subst. reflexivity.
      - cbn [map firstn skipn app]. f_equal. apply IH. exact Hp. }
    rewrite Es. apply C51_order_changed; auto; [|apply (Fe k p Hp)].
    rewrite <- firstn_map. specialize (ND F). rewrite <- (firstn_skipn k (map (set_name_of F) ps)) in ND.
    apply Verif.DriverLemmas2.NoDup_app_l in ND. exact ND.
Qed.

End Generate.
Print Assumptions C51_generate.
Print Assumptions C51_stops.
Print Assumptions C51_name_taken.
Print Assumptions C51_rerun.
Print Assumptions C51_order_changed.
Print Assumptions C51_lhs_generate.
Print Assumptions C51_cartesian_generate.
Print Assumptions C51_shipped.
Print Assumptions C51_m3.

(** ** The order of sequentially correlated sets *)

(** A Latin sample of 100 points. *)
Definition shifted (c i : nat) : Q := Qred ((inject_Z (Z.of_nat ((i + c) mod 100)) + (1 # 2)) / 100).
Definition ex_samples : list (list Q) :=
  map (fun i => map (fun c => shifted c i) [20; 0; 30; 0; 0; 60]%nat) (seq 0 100).

Lemma covers_permutation l n : length l = n ->
  forallb (fun k => existsb (Z.eqb k) l) (map Z.of_nat (seq 0 n)) = true ->
  Permutation l (map Z.of_nat (seq 0 n)).
Proof.
  intros Len H. symmetry. apply NoDup_Permutation_bis.
  - apply FinFun.Injective_map_NoDup; [intros a b; lia|apply seq_NoDup].
  - rewrite map_length, seq_length. lia.
  - intros k I. rewrite forallb_forall in H. specialize (H k I). apply existsb_exists in H.
    destruct H as [k' [I' E]]. apply Z.eqb_eq in E. subst. exact I'.
Qed.

Definition point_check (s : list Q) : bool :=
  (length s =? 6)%nat && forallb (fun q => Qle_bool 0 q && negb (Qle_bool 1 q)) s.
Lemma points_checked l : forallb point_check l = true -> Forall point l.
Proof.
  intros H. rewrite forallb_forall in H. apply Forall_forall. intros s I. specialize (H s I).
  apply andb_true_iff in H. destruct H as [H1 H2]. apply Nat.eqb_eq in H1. split; [exact H1|].
  rewrite forallb_forall in H2. apply Forall_forall. intros q Iq. specialize (H2 q Iq). apply andb_true_iff in H2.
  destruct H2 as [A B]. split; [apply Qle_bool_iff; exact A|apply neg_le; exact B].
Qed.

Lemma ex_samples_latin : latin ex_samples.
Proof.
  split; [apply points_checked; vm_compute; reflexivity|].
  change (length ex_samples) with 100%nat.
  intros j Hj. apply covers_permutation; [rewrite map_length; reflexivity|].
  do 6 (destruct j as [|j]; [vm_compute; reflexivity|]). lia.
Qed.

Definition nothing : store := {| st_disk := []; st_cache := [] |}.
Lemma nothing_ok dir : disk_ok (st_disk nothing) /\ no_file_on_the_way (st_disk nothing) (to_path dir) /\
  forall n, stat (st_disk nothing) (entry (to_path dir) n) = None.
Proof.
  assert (G : forall q, snd q <> [] -> stat (st_disk nothing) q = None).
  { intros [r [|a q]] H; [cbn in H; congruence|]. reflexivity. }
  split; [apply empty_disk_ok|]. split.
  - intros q c [H _]. rewrite (G q H). discriminate.
  - intros n. apply G. unfold entry. cbn [snd]. destruct (snd (to_path dir)); discriminate.
Qed.

(** The claim that the M3 design always succeeds is refuted: with set generators that behave
    as they are supposed to, a Latin sample of 100 points makes it stop with an AssertionError
    before the first data set, because it asks for an order other than the original one. *)
Theorem C51_m3_random_order_refuted : exists (rng : numpy_rng Z) x F samples,
  environment rng x F /\ tells_floats_apart F /\ words_are_words F /\
  latin samples /\ length samples = m3_samples /\
  forall st, fst (generate_design rng x F nothing "design" (m3_config m3_levels samples) st) = Err AssertionError.
Proof.
  exists ex_rng, ex_sets, bar_format, ex_samples.
  split; [apply ex_environment|]. split; [apply bar_tells_apart|]. split; [apply bar_words|].
  split; [apply ex_samples_latin|]. split; [reflexivity|]. intros st.
  destruct (nothing_ok "design") as [K [NF Fr]].
  destruct (C51_m3 ex_rng ex_sets bar_format ex_samples nothing "design" st ex_environment bar_tells_apart
    bar_words (proj1 ex_samples_latin) K NF Fr) as [ps [E [_ H]]].
  set (p0 := {| fp_name := ""; fp_num_publishers := 2; fp_largest := 10000; fp_ratio := PFloat (5 # 10);
    fp_pricing := fixed_price; fp_impressions := homogeneous 2;
    fp_overlap := sequential "Sequential" "random" "all" (25 # 100) 5; fp_id := "0" |}).
  assert (Hp : nth_error ps 0 = Some p0).
  { assert (A : nth_error (m3_config m3_levels ex_samples) 0 = Some (Ok p0)) by (vm_compute; reflexivity).
    rewrite E, nth_error_map in A. destruct (nth_error ps 0); [|discriminate]. cbn [option_map] in A. congruence. }
  destruct (H 0%nat p0 Hp (Forall_nil _)) as [fs' [d [-> _]]]; [|reflexivity].
  exists {| so_order := "random"; so_correlated := "all"; so_shared := (25 # 100) |}. split.
  - split; [reflexivity|]. split; [args|]. split; [left; reflexivity|]. split; [right; left; reflexivity|].
    exists (PFloat (25 # 100)). split; [right; right; left; reflexivity|reflexivity].
  - intros seed. assert (Sz : sizes_of (sx_pow ex_sets) p0 = [10000; 5000]) by (vm_compute; reflexivity).
    rewrite Sz. exists (ranges [5000; 10000]), [5000; 10000]. split; [reflexivity|].
    split; [apply ranges_ok; repeat constructor; lia|]. split; [apply perm_swap|discriminate].
Qed.
Print Assumptions C51_m3_random_order_refuted.

(** ** Examples *)

(** All hypotheses about the environment hold of the example. *)
Example C51_example_environment : environment ex_rng ex_sets bar_format /\ tells_floats_apart bar_format /\
  words_are_words bar_format /\ disk_ok (st_disk nothing) /\ no_file_on_the_way (st_disk nothing) (to_path "design") /\
  forall n, stat (st_disk nothing) (entry (to_path "design") n) = None.
Proof.
  split; [apply ex_environment|]. split; [apply bar_tells_apart|]. split; [apply bar_words|]. apply nothing_ok.
Qed.

Example C51_example_name : show_set bar_format
  {| fp_name := ""; fp_num_publishers := 2; fp_largest := 10000; fp_ratio := PFloat (5 # 10);
     fp_pricing := fixed_price; fp_impressions := homogeneous 2; fp_overlap := independent 20000 1; fp_id := "7" |} =
  chars ("P=2,N=10000,pub_ratio=5|10,pricing=FixedPrice(cost_per_impression=1|10)," ++
    "impressions=Homogeneous(poisson_lambda=2|1),overlaps=Independent(universe_size=20000,random_generator=1),id=7").
Proof. vm_compute. reflexivity. Qed.

(** A Latin sample of two points, and what it stands for. *)
Definition ex_two : list (list Q) := [[1#4; 3#4; 1#4; 3#4; 1#4; 3#4]; [3#4; 1#4; 3#4; 1#4; 3#4; 1#4]]%Q.
Example C51_example_latin : latin ex_two /\ has_levels lhs_example_levels /\
  map (fun r => match r with Ok p => (fp_num_publishers p, fp_largest p, fp_id p) | Err _ => (0, 0, ""%string) end)
    (lhs_config lhs_example_levels ex_two) = [(1, 400, "0"%string); (5, 200, "1"%string)].
Proof.
  split; [|split; [repeat split; discriminate|vm_compute; reflexivity]].
  split; [apply points_checked; reflexivity|]. intros j Hj. apply covers_permutation; [rewrite map_length; reflexivity|].
  do 6 (destruct j as [|j]; [vm_compute; reflexivity|]). lia.
Qed.

(** A sample of the M3 design that keeps the order. *)
Example C51_example_m3 : exists p, m3_config m3_levels [[1#4; 3#4; 1#4; 3#4; 1#4; 1#4]]%Q = [Ok p] /\
  order_is_kept p /\ gn_params (fp_overlap p) = [("universe_size", int 13333333); ("random_generator", int 2)]%string.
Proof. eexists. split; [vm_compute; reflexivity|]. split; [intros E; discriminate|reflexivity]. Qed.
