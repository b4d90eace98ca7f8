(** The names of data sets can be told apart. *)
From Coq Require Import String Ascii.
From Verif Require Import Prelude ModelReachPoint ModelData ModelAggregator ModelFiles SpecFiles FilesLemmas
  FilesLemmas2 FilesLemmas3 ModelGenerators ModelDriver SpecDriver DriverLemmas4 DriverLemmas5 ModelDesigns SpecDesigns.
Open Scope Z_scope.

Definition id_part (id : string) : text := if truthy id then chars ",id=" ++ chars id else [].

Lemma show_set_unnamed F p : fp_name p = ""%string ->
  show_set F p =
    chars "P=" ++ str_of_int (fp_num_publishers p) ++
    chars ",N=" ++ str_of_int (fp_largest p) ++
    chars ",pub_ratio=" ++ show_number F (fp_ratio p) ++
    chars ",pricing=" ++ show_generator F (fp_pricing p) ++
    chars ",impressions=" ++ show_generator F (fp_impressions p) ++
    chars ",overlaps=" ++ show_generator F (fp_overlap p) ++ id_part (fp_id p).
Proof. intros E. unfold show_set. rewrite E. reflexivity. Qed.

Lemma id_part_cut a b : id_part a ++ [comma] = id_part b ++ [comma] -> a = b.
Proof.
  intros E. apply app_inv_tail in E. unfold id_part, truthy in E.
  destruct a as [|ca a], b as [|cb b]; cbn [app] in E; try discriminate; [reflexivity|].
  apply app_inv_head in E. apply chars_inj. exact E.
Qed.
Lemma id_part_comma a r : exists s, id_part a ++ comma :: r = comma :: s /\
  (id_part a ++ comma :: r = comma :: s).
Proof.
  unfold id_part, truthy. destruct a as [|c a]; cbn [app]; [exists r; auto|].
  change (chars ",id=") with (comma :: chars "id="). cbn [app]. eexists. split; reflexivity.
Qed.

Lemma generator_cut F g g' p r r' : tells_floats_apart F -> plain_generator F g -> plain_generator F g' ->
  show_generator F g ++ (comma :: p) ++ r = show_generator F g' ++ (comma :: p) ++ r' ->
  same_generator g g' /\ r = r'.
Proof.
  intros PF [P1 P2] [P1' P2'] E. unfold show_generator in E. rewrite <- !app_assoc in E. cbn [app] in E.
  destruct (named_kwargs_cut F PF _ _ _ _ _ _ P1 P1' P2 P2' E) as [S1 [S2 E1]].
  split; [split; assumption|]. apply app_inv_head in E1. exact E1.
Qed.

Lemma set_apart F a b : tells_floats_apart F -> plain_set F a -> plain_set F b ->
  show_set F a = show_set F b -> same_set a b.
Proof.
  intros PF [A0 [A1 [A2 [A3 A4]]]] [B0 [B1 [B2 [B3 B4]]]] E.
  rewrite !show_set_unnamed in E by assumption. apply app_inv_head in E.
  change (chars ",N=") with (comma :: chars "N=") in E.
  destruct (int_field _ _ _ _ _ E) as [S1 E1]. clear E.
  change (chars ",pub_ratio=") with (comma :: chars "pub_ratio=") in E1.
  destruct (int_field _ _ _ _ _ E1) as [S2 E2]. clear E1.
  change (chars ",pricing=") with (comma :: chars "pricing=") in E2.
  destruct (number_field F PF _ _ _ _ _ E2) as [S3 E3]. clear E2.
  change (chars ",impressions=") with (comma :: chars "impressions=") in E3.
  destruct (generator_cut F _ _ _ _ _ PF A2 B2 E3) as [S4 E4]. clear E3.
  change (chars ",overlaps=") with (comma :: chars "overlaps=") in E4.
  destruct (generator_cut F _ _ _ _ _ PF A3 B3 E4) as [S5 E5]. clear E4.
  apply (f_equal (fun t => t ++ [comma])) in E5. rewrite <- !app_assoc in E5.
  destruct (id_part_comma (fp_id a) []) as [s [Ea _]]. destruct (id_part_comma (fp_id b) []) as [s' [Eb _]].
  pose proof E5 as E6. rewrite Ea, Eb in E6.
  change (comma :: s) with ((comma :: []) ++ s) in E6. change (comma :: s') with ((comma :: []) ++ s') in E6.
  destruct (generator_cut F _ _ _ _ _ PF A4 B4 E6) as [S6 E7].
  repeat split; try assumption; try apply S4; try apply S5; try apply S6.
  apply id_part_cut. rewrite Ea, Eb, E7. reflexivity.
Qed.

Lemma generator_same F g g' : (forall q q', (q == q')%Q -> show_float F q = show_float F q') ->
  same_generator g g' -> show_generator F g = show_generator F g'.
Proof.
  intros PA [S1 S2]. unfold show_generator. rewrite S1, (show_kwargs_same F PA _ _ S2). reflexivity.
Qed.
Lemma set_same F a b : (forall q q', (q == q')%Q -> show_float F q = show_float F q') ->
  fp_name a = ""%string -> fp_name b = ""%string -> same_set a b -> show_set F a = show_set F b.
Proof.
  intros PA Ha Hb [S1 [S2 [S3 [S4 [S5 [S6 S7]]]]]]. rewrite !show_set_unnamed by assumption.
  rewrite S1, S2, S7, (number_same F PA _ _ S3), (generator_same F _ _ PA S4), (generator_same F _ _ PA S5),
    (generator_same F _ _ PA S6). reflexivity.
Qed.

(** ** Identifiers *)

Lemma last_eq_cut a : forall a' s s', ~ In "="%char s -> ~ In "="%char s' ->
  a ++ "="%char :: s = a' ++ "="%char :: s' -> s = s'.
Proof.
  induction a as [|c a IH]; intros a' s s' H H' E; destruct a' as [|c' a']; cbn [app] in E.
  - congruence.
  - exfalso. inversion E; subst. apply H. apply in_app_iff. right. left. reflexivity.
  - exfalso. inversion E; subst. apply H'. apply in_app_iff. right. left. reflexivity.
  - inversion E. eapply IH; eauto.
Qed.

Lemma str_of_int_no_eq z : ~ In "="%char (str_of_int z).
Proof. intros H. exact (str_of_int_plain z _ H special_eq). Qed.

Lemma chars_str t : chars (str t) = t.
Proof. unfold chars, str. apply list_ascii_of_string_of_list_ascii. Qed.

Lemma id_str_part z : id_part (str (str_of_int z)) = chars ",id" ++ "="%char :: str_of_int z.
Proof.
  unfold id_part. assert (truthy (str (str_of_int z)) = true) as ->.
  { destruct (str (str_of_int z)) eqn:E; [|reflexivity]. exfalso. apply (str_of_int_nonempty z).
    apply (f_equal chars) in E. rewrite chars_str in E. exact E. }
  rewrite chars_str. reflexivity.
Qed.

Lemma id_decides F a b i j : fp_name a = ""%string -> fp_name b = ""%string ->
  fp_id a = str (str_of_int i) -> fp_id b = str (str_of_int j) -> show_set F a = show_set F b -> i = j.
Proof.
  intros Ha Hb Ia Ib E. rewrite !show_set_unnamed in E by assumption. rewrite Ia, Ib, !id_str_part in E.
  rewrite !app_assoc in E. apply last_eq_cut in E; try apply str_of_int_no_eq. apply str_of_int_inj. exact E.
Qed.

(** ** Names of files *)

Lemma generator_no_slash F g : tells_floats_apart F -> plain_generator F g -> ~ In slash (show_generator F g).
Proof.
  intros PF [P1 P2]. unfold show_generator. apply no_slash_app; [apply plain_no_slash; exact P1|].
  apply show_kwargs_no_slash; assumption.
Qed.
Lemma set_no_slash F p : tells_floats_apart F -> plain_set F p -> ~ In slash (show_set F p).
Proof.
  intros PF [A0 [A1 [A2 [A3 A4]]]]. rewrite show_set_unnamed by assumption.
  assert (G : forall z, ~ In slash (str_of_int z)) by (intros z; apply plain_no_slash, str_of_int_plain).
  repeat (apply no_slash_app; [first [apply G | apply generator_no_slash; assumption
     | apply plain_no_slash, number_plain; exact PF
     | intros X; cbn in X; repeat (destruct X as [X|X]; [discriminate|]); exact X]|]).
  unfold id_part. destruct (truthy (fp_id p)); [|intros []].
  apply no_slash_app; [intros X; cbn in X; repeat (destruct X as [X|X]; [discriminate|]); exact X|].
  apply plain_no_slash. exact A1.
Qed.

Lemma set_file_name F p : tells_floats_apart F -> plain_set F p -> file_name (set_name_of F p).
Proof.
  intros PF P. pose proof (set_no_slash F p PF P) as S. unfold set_name_of.
  assert (exists t, show_set F p = "P"%char :: "="%char :: t) as [t Et].
  { rewrite show_set_unnamed by apply P. eexists. cbn [chars list_ascii_of_string app]. reflexivity. }
  unfold file_name. rewrite list_ascii_of_string_of_list_ascii. rewrite Et in *. cbn [string_of_list_ascii].
  repeat split; try discriminate. exact S.
Qed.
