(** Filling a design, data set by data set. *)
From Coq Require Import String Ascii Qround Permutation Lqa.
From Verif Require Import Prelude ModelReachPoint ModelData SpecData ReachPointLemmas DataLemmas
  ModelFiles SpecFiles FilesLemmas FilesLemmas2 FilesLemmas3 PropsFiles ModelGenerators SpecGenerators
  ModelDriver SpecDriver DriverLemmas4 DriverLemmas5
  ModelDesigns SpecDesigns DesignsLemmas DesignsLemmas2.
Open Scope Z_scope.

Lemma entry_apart dir m n : m <> n -> ~ within (entry dir m) (entry dir n).
Proof.
  intros H W. assert (S : within (entry dir n) (entry dir n)) by (exists []; rewrite app_nil_r; reflexivity).
  exact (proj1 (other_entry dir n m _ (not_eq_sym H) S) W).
Qed.

Section Fill.
Context {St : Type} (rng : numpy_rng St) (x : synthetic_externals seq_options) (F : float_format).
Hypothesis env : environment rng x F.

Lemma writable_shown p : writable F p -> show_set F p <> [].
Proof. intros [_ [H _]] E. apply H. unfold set_name_of. rewrite E. reflexivity. Qed.

Lemma fill_ok ps : forall fs d st, design_ok fs d -> Forall (writable F) ps ->
  NoDup (map (set_name_of F) ps) ->
  (forall p, In p ps -> stat (st_disk fs) (entry (to_path (de_dirpath d)) (set_name_of F p)) = None) ->
  exists fs' d' st', (forall rest, fill rng x F fs d (map Ok ps ++ rest) st = fill rng x F fs' d' rest st') /\
    design_ok fs' d' /\ de_dirpath d' = de_dirpath d /\ st_cache fs' = st_cache fs /\
    de_names d' = de_names d ++ map (set_name_of F) ps /\
    (forall p, In p ps -> holds F (sx_pow x) (st_disk fs') (de_dirpath d) p) /\
    (forall n, file_name n -> ~ In n (map (set_name_of F) ps) ->
       read_data_set F (st_disk fs') (os_join (de_dirpath d) n) = read_data_set F (st_disk fs) (os_join (de_dirpath d) n)) /\
    (forall q, (forall p, In p ps -> ~ within (entry (to_path (de_dirpath d)) (set_name_of F p)) q) ->
       stat (st_disk fs') q = stat (st_disk fs) q).
Proof.
  induction ps as [|p ps IH]; intros fs d st Ok_ W ND Fresh.
  - exists fs, d, st. cbn [map app]. rewrite app_nil_r. repeat (split; [solve [auto | intros ? []]|]). auto.
  - inversion W as [|? ? Wp Wps]; subst. cbn [map] in ND. inversion ND as [|? ? N1 N2]; subst.
    destruct (set_ok rng x F p st env (proj1 Wp) (writable_shown p Wp)) as [ds [st1 [G1 [G2 G3]]]].
    assert (En : ds_name ds = set_name_of F p) by apply G2.
    destruct (add_new_ok F fs d ds Ok_ G3) as [d1 [fs1 [x' [A1 [A2 [A3 [A4 [A5 [A6 [A7 [A8 [A9 [A10 [A11 A12]]]]]]]]]]]]]].
    { rewrite En. apply Wp. }
    { rewrite En. apply Fresh. left. reflexivity. }
    rewrite En in *.
    destruct (IH fs1 d1 st1 A2 Wps N2) as [fs2 [d2 [st2 [B1 [B2 [B3 [B4 [B5 [B6 [B7 B8]]]]]]]]]].
    { intros p' I. rewrite A3. rewrite A12; [apply Fresh; right; exact I|].
      apply entry_apart. intros E. apply N1. rewrite E. apply in_map. exact I. }
    rewrite A3 in *.
    exists fs2, d2, st2. split; [|split; [exact B2|split; [congruence|split; [congruence|split; [|split; [|split]]]]]].
    + intros rest. cbn [map app fill]. rewrite G1, A1. apply B1.
    + rewrite B5, A4. cbn [map]. rewrite <- app_assoc. reflexivity.
    + intros p' [<-|I]; [|apply B6; exact I].
      exists ds, x'. split; [exact G2|]. split.
      { rewrite B7; [exact A6|apply Wp|exact N1]. }
      repeat (split; [assumption|]). assumption.
    + intros n Hn NI. rewrite B7; [|exact Hn|intros X; apply NI; right; exact X].
      apply read_depends; [apply Ok_|apply A2|].
      intros q Wq. apply A12. rewrite to_path_os_join in Wq by auto.
      apply (proj1 (other_entry _ n (set_name_of F p) q (fun E => NI (or_introl (eq_sym E))) Wq)).
    + intros q Hq. rewrite B8; [|intros p' I; apply Hq; right; exact I]. apply A12. apply Hq. left. reflexivity.
Qed.

Lemma entry_not_on_the_way dir n q : within (entry dir n) q -> ~ on_the_way dir q.
Proof.
  intros [r1 E1] [_ [r2 E2]]. rewrite E1 in E2. unfold entry in E2. cbn [fst snd] in E2.
  apply (f_equal (fun p : path => length (snd p))) in E2. cbn [snd] in E2. rewrite !app_length in E2. cbn [length] in E2. lia.
Qed.

Lemma design_ok_prefix fs dir ps st : disk_ok (st_disk fs) -> no_file_on_the_way (st_disk fs) (to_path dir) ->
  Forall (writable F) ps -> NoDup (map (set_name_of F) ps) ->
  (forall p, In p ps -> stat (st_disk fs) (entry (to_path dir) (set_name_of F p)) = None) ->
  exists fs' d st', (forall rest, generate_design rng x F fs dir (map Ok ps ++ rest) st = fill rng x F fs' d rest st') /\
    filled F (sx_pow x) fs dir ps fs' d.
Proof.
  intros K NF W ND Fresh.
  destruct (open_design_ok fs dir K NF) as [d0 [fs0 [E [O0 [Ed [Ec Fr]]]]]].
  assert (Sub : forall n q, within (entry (to_path dir) n) q -> stat (st_disk fs0) q = stat (st_disk fs) q).
  { intros n q Wq. apply Fr. eapply entry_not_on_the_way. exact Wq. }
  assert (Self : forall n, within (entry (to_path dir) n) (entry (to_path dir) n)).
  { intros n. exists []. rewrite app_nil_r. reflexivity. }
  destruct (fill_ok ps fs0 d0 st O0 W ND) as [fs' [d [st' [B1 [B2 [B3 [B4 [B5 [B6 [B7 B8]]]]]]]]]].
  { intros p I. rewrite Ed, (Sub _ _ (Self _)). apply Fresh. exact I. }
  rewrite Ed in *. exists fs', d, st'. split.
  - intros rest. unfold generate_design. rewrite E. apply B1.
  - split; [exact B2|]. split; [congruence|]. split; [congruence|]. split; [|split; [exact B6|split]].
    + intros n. assert (In n (sorted_names d) <-> In n (de_names d)) as ->.
      { split; apply Permutation_in; [|symmetry]; apply sorted_names_perm. }
      rewrite B5, in_app_iff. destruct O0 as [_ [_ [_ O0]]]. rewrite (O0 n), Ed, (Sub n _ (Self n)). tauto.
    + intros n Hn NI. rewrite B7 by assumption. apply read_depends; [exact K|apply O0|].
      intros q Wq. rewrite to_path_os_join in Wq by auto. apply (Sub n). exact Wq.
    + intros q NO Hq. rewrite B8 by exact Hq. apply Fr. exact NO.
Qed.

End Fill.
