(** Addresses, and data designs on cloud storage compared with data designs on a disk. *)
From Coq Require Import String Ascii Permutation Sorted.
From Verif Require Import Prelude ModelReachPoint ModelData ModelAggregator ModelFiles SpecData SpecFiles
  FilesLemmas FilesLemmas2 FilesLemmas3 ModelDriver SpecDriver DriverLemmas4 ModelCloud SpecCloud CloudLemmas.
Open Scope Z_scope.

(** ** Addresses *)

Lemma cut_scheme_some t : forall before b a, cut_scheme before t = Some (b, a) ->
  rev before ++ t = b ++ [":"; "/"; "/"]%char ++ a.
Proof.
  induction t as [|c t IH]; intros before b a; [discriminate|].
  assert (D : cut_scheme before (c :: t) = Some (rev before, skipn 2 t) /\ c = ":"%char /\ firstn 2 t = ["/"; "/"]%char \/
              cut_scheme before (c :: t) = cut_scheme (c :: before) t).
  { cbn [cut_scheme]. destruct c as [[] [] [] [] [] [] [] []]; auto. destruct t as [|c1 t]; auto.
    destruct c1 as [[] [] [] [] [] [] [] []]; auto. destruct t as [|c2 t]; auto.
    destruct c2 as [[] [] [] [] [] [] [] []]; auto. }
  destruct D as [[-> [-> E]] | ->].
  - intros X. injection X as <- <-. destruct t as [|c1 [|c2 t]]; try discriminate. cbn in E. injection E as -> ->. reflexivity.
  - intros X. apply IH in X. cbn [rev] in X. rewrite <- app_assoc in X. exact X.
Qed.
Lemma cut_scheme_none t : forall before, cut_scheme before t = None -> forall b a, t <> b ++ [":"; "/"; "/"]%char ++ a.
Proof.
  induction t as [|c t IH]; intros before E b a X.
  - destruct b; discriminate.
  - destruct b as [|c' b].
    + cbn [app] in X. injection X as -> ->. cbn in E. discriminate.
    + cbn [app] in X. injection X as <- X.
      assert (cut_scheme (c :: before) t = None) as E'.
      { cbn [cut_scheme] in E.
        destruct c as [[] [] [] [] [] [] [] []]; try exact E. destruct t as [|c1 t1]; try exact E.
        destruct c1 as [[] [] [] [] [] [] [] []]; try exact E. destruct t1 as [|c2 t2]; try exact E.
        destruct c2 as [[] [] [] [] [] [] [] []]; try exact E. discriminate. }
      exact (IH _ E' b a X).
Qed.

Lemma cut_gs r : cut_scheme [] (list_ascii_of_string (String.append "gs:/" (String "/" r))) =
  Some (["g"; "s"]%char, list_ascii_of_string r).
Proof. reflexivity. Qed.
Lemma to_path_slash r : to_path (String "/" r) = (true, snd (to_path r)).
Proof.
  rewrite to_path_kept. unfold to_path. cbn [list_ascii_of_string]. f_equal.
  change ("/"%char :: list_ascii_of_string r) with ([] ++ slash :: list_ascii_of_string r). apply kept_app.
Qed.
Lemma cloud_path_address local : (exists r, local = String "/" r) -> cloud_path (cloud_address local) = Ok (to_path local).
Proof.
  intros [r ->]. unfold cloud_path, cloud_address. rewrite cut_gs. cbn [string_of_list_ascii String.eqb Ascii.eqb Bool.eqb].
  rewrite string_of_list_ascii_of_string, to_path_slash. reflexivity.
Qed.
Lemma cloud_path_url p : fst p = true -> Forall component (snd p) -> cloud_path (url p) = Ok p.
Proof.
  intros H C. destruct p as [a l]. cbn [fst snd] in *. subst a. unfold url.
  change (cloud_path (cloud_address (path_str (true, l))) = Ok (true, l)).
  rewrite cloud_path_address by (exists (String.concat "/" l); reflexivity). f_equal.
  change (path_str (true, l)) with (String "/" (String.concat "/" l)).
  rewrite to_path_slash, to_path_kept, kept_concat by exact C. reflexivity.
Qed.

Lemma no_second_scheme r : (forall a b, String "/" r <> String.append a (String.append "://" b)) ->
  cut_scheme [] (list_ascii_of_string r) = None.
Proof.
  intros H. destruct (cut_scheme [] (list_ascii_of_string r)) as [[b a]|] eqn:E; [|reflexivity].
  exfalso. apply cut_scheme_some in E. cbn [rev app] in E.
  apply (H (String "/" (string_of_list_ascii b)) (string_of_list_ascii a)).
  cbn [String.append]. f_equal. apply chars_inj. unfold chars. rewrite E, list_ascii_app, list_ascii_of_string_of_list_ascii.
  f_equal. cbn [String.append list_ascii_of_string app]. rewrite list_ascii_of_string_of_list_ascii. reflexivity.
Qed.
Lemma join_address local n : has_address local -> file_name n ->
  cloud_joinpath [cloud_address local; n] = Ok (url (entry (to_path local) n)).
Proof.
  intros [[r ->] [_ NS]] Hn. unfold cloud_joinpath, cloud_address. rewrite cut_gs, no_second_scheme by exact NS.
  cbn [string_of_list_ascii String.eqb Ascii.eqb Bool.eqb map fold_left].
  rewrite string_of_list_ascii_of_string, join_file_name by exact Hn. rewrite to_path_slash. reflexivity.
Qed.
Lemma file_name_component n : file_name n -> component n.
Proof. intros [A [B [_ D]]]. split; [exact A|]. split; assumption. Qed.
Lemma address_absolute local : has_address local -> fst (to_path local) = true.
Proof. intros [[r ->] _]. reflexivity. Qed.
Lemma join_entry local n : has_address local -> file_name n ->
  (s <- cloud_joinpath [cloud_address local; n] ;; cloud_path s) = Ok (entry (to_path local) n).
Proof.
  intros H Hn. rewrite join_address by assumption. cbn [bind]. apply cloud_path_url.
  - unfold entry. cbn [fst]. apply address_absolute. exact H.
  - unfold entry. cbn [snd]. apply Forall_app. split; [rewrite to_path_kept; apply kept_components|].
    constructor; [apply file_name_component; exact Hn|constructor].
Qed.
Lemma os_join_address local n : has_address local -> os_join (cloud_address local) n = cloud_address (os_join local n) \/
  (exists r, n = String "/" r).
Proof.
  intros [[r ->] _]. unfold cloud_address. destruct n as [|c n].
  - left. unfold os_join. cbn [String.append list_ascii_of_string].
    set (l := list_ascii_of_string r). assert (E : last ("g" :: "s" :: ":" :: "/" :: "/" :: l)%char slash = last ("/"%char :: l) slash) by reflexivity.
    rewrite E. destruct (Ascii.eqb (last ("/"%char :: l) slash) slash); reflexivity.
  - unfold os_join. destruct (Ascii.eqb c slash) eqn:Ec.
    + right. apply Ascii.eqb_eq in Ec. subst c. exists n. reflexivity.
    + left. cbn [String.append list_ascii_of_string]. set (l := list_ascii_of_string r).
      assert (E : last ("g" :: "s" :: ":" :: "/" :: "/" :: l)%char slash = last ("/"%char :: l) slash) by reflexivity.
      rewrite E. destruct (Ascii.eqb (last ("/"%char :: l) slash) slash); reflexivity.
Qed.
Lemma os_join_file local n : has_address local -> file_name n -> os_join (cloud_address local) n = cloud_address (os_join local n).
Proof.
  intros H Hn. destruct (os_join_address local n H) as [E|[r ->]]; [exact E|]. exfalso.
  destruct Hn as [_ [_ [_ X]]]. apply X. left. reflexivity.
Qed.
Lemma os_join_slash local n : has_address local -> file_name n -> exists r, os_join local n = String "/" r.
Proof.
  intros [[r ->] _] Hn. unfold os_join. destruct n as [|c n].
  - destruct Hn as [X _]. contradiction.
  - destruct (Ascii.eqb c slash) eqn:E.
    + apply Ascii.eqb_eq in E. subst c. exists n. reflexivity.
    + destruct (Ascii.eqb (last (list_ascii_of_string (String "/" r)) slash) slash); eexists; reflexivity.
Qed.

(** ** Opening a design *)

Lemma cloud_open o local : has_address local ->
  exists d, cloud_mk_design o (cloud_address local) = Ok d /\ de_dirpath d = cloud_address local /\
    NoDup (de_names d) /\
    (forall n, In n (de_names d) <-> cloud_stat o (entry (to_path local) n) = Some Dir).
Proof.
  intros H. pose proof H as [H1 [H2 _]]. unfold cloud_mk_design. rewrite cloud_path_address by exact H1. cbn [bind].
  eexists. split; [reflexivity|]. cbn [de_dirpath de_names]. split; [reflexivity|].
  set (found := filter _ _). destruct (fold_name_add (map path_name found) [] ltac:(constructor)) as [ND Hin].
  split; [exact ND|]. intros n. rewrite Hin. split.
  - intros [[]|I]. apply in_map_iff in I. destruct I as [p [E I]]. apply filter_In in I. destruct I as [I X].
    apply (Permutation_in _ (sort_paths_perm _)) in I. apply cloud_glob_in in I. destruct I as [m [rest [c [-> I]]]].
    unfold path_name, entry in E. cbn [snd] in E. rewrite last_last in E. subst m.
    destruct (cloud_stat o (entry (to_path local) n)) as [[|]|]; [reflexivity|discriminate|discriminate].
  - intros X. right. apply in_map_iff. exists (entry (to_path local) n). split.
    + unfold path_name, entry. cbn [snd]. apply last_last.
    + apply filter_In. rewrite X. split; [|reflexivity]. apply (Permutation_in _ (Permutation_sym (sort_paths_perm _))).
      assert (D : (2 <= length (snd (entry (to_path local) n)))%nat).
      { rewrite entry_length. destruct (snd (to_path local)); [contradiction|cbn [length]; lia]. }
      apply cloud_stat_dir in X; [|exact D]. destruct X as [_ [q [c [I [W N]]]]]. apply cloud_glob_in.
      destruct W as [rest E]. exists n, rest, c. split; [reflexivity|]. rewrite E in I. unfold entry in I. cbn [fst snd] in I.
      rewrite <- app_assoc in I. exact I.
Qed.

Lemma names_equal d d' : NoDup (de_names d) -> NoDup (de_names d') ->
  (forall n, In n (de_names d) <-> In n (de_names d')) -> sorted_names d' = sorted_names d.
Proof.
  intros N N' H. apply (sorted_unique (fun x y => String.ltb x y = true)).
  - intros x X. rewrite ltb_irrefl in X. discriminate.
  - apply ltb_trans.
  - apply sorted_names_sorted. exact N'.
  - apply sorted_names_sorted. exact N.
  - intros n. split; intros I.
    + apply (Permutation_in _ (sorted_names_perm d')) in I. apply H in I. apply (Permutation_in _ (Permutation_sym (sorted_names_perm d))). exact I.
    + apply (Permutation_in _ (sorted_names_perm d)) in I. apply H in I. apply (Permutation_in _ (Permutation_sym (sorted_names_perm d'))). exact I.
Qed.

(** ** Uploads *)

Lemma pair_eq {A B} (a a' : A) (b b' : B) : (a, b) = (a', b') -> a = a' /\ b = b'.
Proof. intros E. injection E as -> ->. split; reflexivity. Qed.

(** Uploading several files into a directory. *)
Lemma run_writes_ok dir ws : forall o,
  objects_ok o -> fst dir = true -> snd dir <> [] -> Forall (fun w => exists n, fst w = entry dir n) ws -> NoDup (map fst ws) ->
  (forall n c, In n (map fst ws) -> forall q, In (q, c) o -> ~ within n q) ->
  (forall p c, In (p, c) o -> ~ within p dir) ->
  exists o', run_writes o ws = (Ok tt, o') /\ objects_ok o' /\
    (forall p c, In (p, c) o' <-> In (p, c) ws \/ In (p, c) o).
Proof.
  induction ws as [|[w c] ws IH]; intros o Ok Ha Hd E N Fr Up.
  - exists o. split; [reflexivity|]. split; [exact Ok|]. intros p c. split; [right; assumption|intros [[]|X]; exact X].
  - cbn [run_writes map fst] in *. inversion E as [|? ? [n En] E2]; subst. cbn [fst] in En. subst w.
    inversion N as [|? ? N1 N2]; subst.
    assert (D : (2 <= length (snd (entry dir n)))%nat).
    { rewrite entry_length. destruct (snd dir); [contradiction|cbn [length]; lia]. }
    assert (X : cloud_stat o (entry dir n) = None).
    { apply cloud_stat_none; [exact D|]. intros q c' I. apply (Fr (entry dir n) c' (or_introl eq_refl) q I). }
    unfold cloud_write. rewrite X. pose proof Ok as [NO [Ab Sep]].
    assert (Ok' : objects_ok (obj_put o (entry dir n) c)).
    { split; [apply obj_put_nodup; exact NO|]. split.
      - intros p c' I. apply obj_put_in in I; [|exact NO]. destruct I as [[-> _]|[_ I]]; [split; [exact Ha|exact D]|exact (Ab _ _ I)].
      - intros p q c1 c2 I J W. apply obj_put_in in I; [|exact NO]. apply obj_put_in in J; [|exact NO].
        destruct I as [[-> _]|[Np I]], J as [[-> _]|[Nq J]].
        + reflexivity.
        + exfalso. exact (Fr _ _ (or_introl eq_refl) q J W).
        + exfalso. destruct W as [rest W]. destruct (rev rest) as [|x r] eqn:Er.
          * apply Np. assert (rest = []) as -> by (rewrite <- (rev_involutive rest), Er; reflexivity).
            rewrite app_nil_r in W. rewrite W. destruct p; reflexivity.
          * apply (Up p c1 I). exists (rev r). assert (Ere : rest = rev r ++ [x]) by (rewrite <- (rev_involutive rest), Er; reflexivity).
            rewrite Ere in W. unfold entry in W. injection W as W1 W2. rewrite app_assoc in W2. apply app_inj_tail in W2.
            destruct W2 as [W2 _]. destruct dir as [a l]. cbn [fst snd] in *. congruence.
        + exact (Sep p q c1 c2 I J W). }
    destruct (IH (obj_put o (entry dir n) c) Ok' Ha Hd E2 N2) as [o' [R [Ok2 H]]].
    { intros m c' Hm q I. apply obj_put_in in I; [|exact NO]. destruct I as [[-> _]|[_ I]].
      - intros W. apply N1. rewrite Forall_forall in E2. apply in_map_iff in Hm. destruct Hm as [[w' c''] [Em Im]].
        destruct (E2 _ Im) as [n' En']. cbn [fst] in *. subst m w'. destruct W as [rest W].
        apply (f_equal (fun z => length (snd z))) in W as L. cbn [snd] in L. rewrite app_length, !entry_length in L.
        assert (rest = []) as -> by (destruct rest; [reflexivity|cbn [length] in L; lia]). rewrite app_nil_r in W.
        assert (entry dir n = entry dir n') as En by (rewrite W; destruct (entry dir n'); reflexivity).
        rewrite En. apply in_map_iff. exists (entry dir n', c''). split; [reflexivity|exact Im].
      - exact (Fr m c' (or_intror Hm) q I). }
    { intros p c' I. apply obj_put_in in I; [|exact NO]. destruct I as [[-> _]|[_ I]]; [|exact (Up p c' I)].
      intros W. apply within_length in W. rewrite entry_length in W. lia. }
    exists o'. split; [exact R|]. split; [exact Ok2|]. intros p c'. rewrite H, obj_put_in by exact NO. cbn [In]. split.
    + intros [I|[[-> ->]|[_ I]]]; [left; right; exact I|left; left; reflexivity|right; exact I].
    + intros [[I|I]|I].
      * injection I as <- <-. right. left. split; reflexivity.
      * left. exact I.
      * right. right. split; [|exact I]. intros ->. apply (Fr (entry dir n) c' (or_introl eq_refl) _ I). apply within_refl.
Qed.

Lemma cloud_writes_files F dir d : Forall (fun p => file_name (pd_name p)) (ds_data d) ->
  cloud_writes F dir d = map (fun p => (entry dir (pd_name p), write_publisher_data F p)) (ds_data d).
Proof.
  intros H. unfold cloud_writes. apply map_ext_in. intros p I. rewrite Forall_forall in H. rewrite join_file_name by (apply H; exact I).
  reflexivity.
Qed.

(** Adding a data set whose name is free: its files are uploaded, nothing else changes. *)
Lemma cloud_add_ok F st d x local :
  objects_ok (cs_objects st) -> has_address local -> de_dirpath d = cloud_address local ->
  file_name (ds_name x) -> Forall (fun p => file_name (pd_name p)) (ds_data x) -> NoDup (map pd_name (ds_data x)) ->
  (forall p c, In (p, c) (cs_objects st) -> ~ within p (to_path local)) ->
  cloud_stat (cs_objects st) (entry (to_path local) (ds_name x)) = None ->
  exists o', cloud_add F st d x = (Ok {| de_dirpath := de_dirpath d; de_names := name_add (de_names d) (ds_name x) |},
                                   {| cs_objects := o'; cs_cache := cs_cache st |}) /\
    objects_ok o' /\
    (forall p c, In (p, c) o' <->
       (exists y, In y (ds_data x) /\ p = entry (entry (to_path local) (ds_name x)) (pd_name y) /\ c = write_publisher_data F y) \/
       In (p, c) (cs_objects st)).
Proof.
  intros Ok Ha Ed Hn Hp Hd Up E. unfold cloud_add, cloud_write_data_set. rewrite Ed, join_entry by assumption. rewrite E.
  set (dir := entry (to_path local) (ds_name x)) in *.
  assert (Dd : (2 <= length (snd dir))%nat).
  { unfold dir. rewrite entry_length. destruct Ha as [_ [Ha _]]. destruct (snd (to_path local)); [contradiction|cbn [length]; lia]. }
  rewrite cloud_writes_files by exact Hp.
  destruct (run_writes_ok dir (map (fun p => (entry dir (pd_name p), write_publisher_data F p)) (ds_data x)) (cs_objects st))
    as [o' [R [Ok' H]]].
  - exact Ok.
  - unfold dir, entry. cbn [fst]. apply address_absolute. exact Ha.
  - unfold dir. apply entry_nonroot.
  - apply Forall_forall. intros w I. apply in_map_iff in I. destruct I as [p [<- _]]. cbn [fst]. exists (pd_name p). reflexivity.
  - rewrite map_map. cbn [fst]. rewrite <- map_map. apply FinFun.Injective_map_NoDup; [|exact Hd]. intros a b. apply entry_inj.
  - intros n c I q J W. rewrite map_map in I. cbn [fst] in I. apply in_map_iff in I. destruct I as [p [<- _]].
    apply (proj1 (cloud_stat_none (cs_objects st) dir Dd) E q c J). apply (within_trans _ (entry dir (pd_name p))); [exists [pd_name p]; reflexivity|exact W].
  - intros p c I W. destruct (path_dec p dir) as [->|Np].
    + apply (proj1 (cloud_stat_none (cs_objects st) dir Dd) E dir c I). apply within_refl.
    + apply (Up p c I). destruct W as [rest W]. destruct (rev rest) as [|y r] eqn:Er.
      * exfalso. apply Np. assert (rest = []) as -> by (rewrite <- (rev_involutive rest), Er; reflexivity).
        rewrite app_nil_r in W. rewrite W. destruct p; reflexivity.
      * exists (rev r). assert (Ere : rest = rev r ++ [y]) by (rewrite <- (rev_involutive rest), Er; reflexivity).
        rewrite Ere in W. unfold dir, entry in W. apply pair_eq in W. destruct W as [W1 W2]. rewrite app_assoc in W2. apply app_inj_tail in W2.
        destruct W2 as [W2 _]. rewrite (surjective_pairing (to_path local)), W1, W2. reflexivity.
  - rewrite R. exists o'. split; [reflexivity|]. split; [exact Ok'|]. intros p c. rewrite H. split.
    + intros [I|I]; [left|right; exact I]. apply in_map_iff in I. destruct I as [y [X I]]. injection X as <- <-. exists y. repeat split. exact I.
    + intros [[y [I [-> ->]]]|I]; [left|right; exact I]. apply in_map_iff. exists y. split; [reflexivity|exact I].
Qed.
Lemma cloud_add_taken F st d x local : has_address local -> de_dirpath d = cloud_address local -> file_name (ds_name x) ->
  cloud_stat (cs_objects st) (entry (to_path local) (ds_name x)) <> None -> cloud_add F st d x = (Err ValueError, st).
Proof.
  intros Ha Ed Hn E. unfold cloud_add. rewrite Ed, join_entry by assumption.
  destruct (cloud_stat (cs_objects st) (entry (to_path local) (ds_name x))); [reflexivity|contradiction].
Qed.

(** ** Requests *)

(** Caches with the same data sets. *)
Definition same_entry (a b : string * data_set) : Prop := fst b = cloud_address (fst a) /\ same_data_set (snd a) (snd b).
Definition same_cache (c c' : cache) : Prop := Forall2 same_entry c c'.

Lemma address_eqb a b : String.eqb (cloud_address a) (cloud_address b) = String.eqb a b.
Proof. reflexivity. Qed.
Lemma same_cache_find c c' x : same_cache c c' ->
  match cache_find c x, cache_find c' (cloud_address x) with
  | Some d, Some d' => same_data_set d d'
  | None, None => True
  | _, _ => False
  end.
Proof.
  induction 1 as [|[ka d] [kb d'] c c' [E S] _ IH]; [exact I|]. cbn [fst snd] in *. subst kb. cbn [cache_find].
  rewrite address_eqb. destruct (String.eqb x ka); [exact S|exact IH].
Qed.
Lemma same_cache_drop c c' x : same_cache c c' -> same_cache (cache_drop c x) (cache_drop c' (cloud_address x)).
Proof.
  induction 1 as [|[ka d] [kb d'] c c' [E S] H IH]; [constructor|]. cbn [fst snd] in *. subst kb. cbn [cache_drop].
  rewrite address_eqb. destruct (String.eqb x ka); [exact H|]. constructor; [split; [reflexivity|exact S]|exact IH].
Qed.
Lemma same_cache_firstn n c c' : same_cache c c' -> same_cache (firstn n c) (firstn n c').
Proof.
  intros H. revert n. induction H as [|a b c c' S H IH]; intros n; destruct n; cbn [firstn]; constructor; [exact S|apply IH].
Qed.

Definition related (local : string) (st : store) (d : design) (cst : cloud_store) (cd : design) : Prop :=
  design_ok st d /\ de_dirpath d = local /\ no_empty_data_set (st_disk st) (to_path local) /\
  NoDup (map fst (cs_objects cst)) /\ same_files (st_disk st) (cs_objects cst) /\
  same_cache (st_cache st) (cs_cache cst) /\
  de_dirpath cd = cloud_address local /\ NoDup (de_names cd) /\
  (forall n, In n (de_names d) <-> In n (de_names cd)).

Lemma on_the_way_dec dir q : {on_the_way dir q} + {~ on_the_way dir q}.
Proof.
  destruct (in_dec path_dec q (map (prefix dir) (seq 1 (length (snd dir))))) as [I|NI]; [left|right].
  - apply on_the_way_prefix. apply in_map_iff in I. destruct I as [j [<- I]]. apply in_seq in I. exists j. split; [lia|reflexivity].
  - intros OW. apply NI. apply on_the_way_prefix in OW. destruct OW as [j [Hj ->]].
    apply in_map_iff. exists j. split; [reflexivity|]. apply in_seq. lia.
Qed.
Lemma same_after_open st o local d st' : disk_ok (st_disk st) -> no_file_on_the_way (st_disk st) (to_path local) ->
  mk_design st local = (Ok d, st') -> same_files (st_disk st) o -> same_files (st_disk st') o.
Proof.
  intros Hk NF E S p c. rewrite (S p c).
  destruct (open_design_ok st local Hk NF) as [d1 [st1 [E1 [Hok [Ed [_ Fr]]]]]]. rewrite E1 in E. injection E as <- <-.
  assert (forall q c, stat (st_disk st1) q = Some (File c) <-> stat (st_disk st) q = Some (File c)) as G.
  { intros q c'. destruct (on_the_way_dec (to_path local) q) as [OW|NO].
    -       split; intros X; exfalso.
      + rewrite (on_the_way_stat (st_disk st1) (to_path local) q) in X; [discriminate|apply Hok| |exact OW].
        destruct Hok as [_ [HD _]]. rewrite Ed in HD. exact HD.
      + exact (NF q c' OW X).
    - rewrite Fr; [tauto|exact NO]. }
  rewrite G. tauto.
Qed.

Lemma holds_same k k' dir : (forall q, within dir q -> stat k' q = stat k q) -> holds_file k dir -> holds_file k' dir.
Proof. intros H [q [c [W E]]]. exists q, c. split; [exact W|]. rewrite H by exact W. exact E. Qed.

Lemma serve_same F local st d cst cd rq a st' d' a' cst' cd' : has_address local ->
  related local st d cst cd -> sensible rq ->
  serve F st d rq = (a, st', d') -> cloud_serve F cst cd rq = (a', cst', cd') ->
  same_reply a a' /\ related local st' d' cst' cd'.
Proof.
  intros Ha [Hok [Ed [NE [N [S [C [Ec [Nc Hn]]]]]]]] Hr E E'. subst local.
  pose proof Hok as [Hk [HD [ND HN]]]. pose proof (address_absolute _ Ha) as Hab. pose proof (proj1 (proj2 Ha)) as Hsn.
  set (dir := to_path (de_dirpath d)) in *.
  destruct rq as [| |x|n]; cbn [serve cloud_serve sensible] in *.
  - (* reopen *)
    pose proof (dir_no_file _ _ Hk HD) as NF.
    destruct (open_design_ok st (de_dirpath d) Hk NF) as [d1 [st1 [E1 [Hok1 [Ed1 [Ec1 Fr]]]]]]. rewrite E1 in E.
    destruct (cloud_open (cs_objects cst) (de_dirpath d) Ha) as [cd1 [E2 [Ed2 [N2 H2]]]]. rewrite Ec, E2 in E'.
    injection E as <- <- <-. injection E' as <- <- <-.
    pose proof (same_after_open st (cs_objects cst) (de_dirpath d) d1 st1 Hk NF E1 S) as S1.
    assert (Same : forall q, stat (st_disk st1) q = stat (st_disk st) q).
    { intros q. destruct (on_the_way_dec dir q) as [OW|NO].
      -         rewrite (on_the_way_stat (st_disk st) dir q Hk HD OW).
        destruct Hok1 as [Hk1 [HD1 _]]. rewrite Ed1 in HD1. exact (on_the_way_stat (st_disk st1) dir q Hk1 HD1 OW).
      - apply Fr. exact NO. }
    assert (NE1 : no_empty_data_set (st_disk st1) dir).
    { intros n Hdn. rewrite Same in Hdn. apply (holds_same (st_disk st)); [intros q _; apply Same|exact (NE n Hdn)]. }
    assert (Hn1 : forall n, In n (de_names d1) <-> In n (de_names cd1)).
    { intros n. rewrite H2. destruct Hok1 as [Hk1 [_ [_ HN1]]]. rewrite HN1, Ed1.
      pose proof (same_dir (st_disk st1) (cs_objects cst) dir Hk1 S1 Hab Hsn n) as X. fold dir. rewrite X. split.
      - intros Y. split; [exact Y|exact (NE1 n Y)].
      - intros [Y _]. exact Y. }
    split.
    + cbn [same_reply]. f_equal. apply names_equal; [apply Hok1|exact N2|exact Hn1].
    + split; [exact Hok1|]. split; [exact Ed1|]. split; [exact NE1|]. split; [exact N|]. split; [exact S1|].
      split; [rewrite Ec1; exact C|]. split; [exact Ed2|]. split; [exact N2|exact Hn1].
  - (* names *)
    injection E as <- <- <-. injection E' as <- <- <-. split.
    + cbn [same_reply]. f_equal. apply names_equal; assumption.
    + repeat (split; [assumption || reflexivity|]). exact Hn.
  - (* add *)
    destruct Hr as [Hx [Hp [Hd Ne]]].
    destruct (stat (st_disk st) (entry dir (ds_name x))) as [nd|] eqn:St.
    + rewrite (add_taken F st d x Hx) in E by (fold dir; rewrite St; discriminate).
      assert (Ct : cloud_stat (cs_objects cst) (entry dir (ds_name x)) <> None).
      { destruct nd as [|c].
        - rewrite (proj2 (same_dir (st_disk st) (cs_objects cst) dir Hk S Hab Hsn (ds_name x)) (conj St (NE _ St))). discriminate.
        - rewrite (proj2 (same_file (st_disk st) (cs_objects cst) dir N S Hab Hsn (ds_name x) c) St). discriminate. }
      rewrite (cloud_add_taken F cst cd x (de_dirpath d) Ha Ec Hx Ct) in E'. injection E as <- <- <-. injection E' as <- <- <-.
      split; [reflexivity|]. repeat (split; [assumption || reflexivity|]). exact Hn.
    + pose proof (same_none (st_disk st) (cs_objects cst) dir Hk N S Hab Hsn (ds_name x) St) as Ct.
      pose proof (same_files_ok _ _ Hk N S) as Oko.
      destruct (cloud_add_ok F cst cd x (de_dirpath d) Oko Ha Ec Hx Hp Hd) as [o' [Ea [Ok' Ho]]]; [|exact Ct|].
      { intros p c I W. apply S in I. destruct I as [_ [_ I]]. destruct (path_dec p dir) as [->|Np]; [congruence|].
        assert (stat (st_disk st) p = Some Dir); [|congruence]. apply (above_is_dir _ p dir Hk); [rewrite HD; discriminate|exact W|exact Np]. }
      rewrite Ea in E'. injection E' as <- <- <-.
      unfold add in E. fold dir in E. rewrite join_file_name in E by exact Hx. rewrite St in E.
      unfold write_data_set, data_set_dir in E. fold dir in E. rewrite join_file_name in E by exact Hx.
      pose proof (entry_no_file _ _ _ Hk HD St) as NF.
      destruct (write_ops_ok F (entry dir (ds_name x)) x (st_disk st) Hk NF Hp Hd) as [k' [R [Hk' [D' [Wr [Ow Fr]]]]]].
      { intros p I X. assert (stat (st_disk st) (entry dir (ds_name x)) = Some Dir); [|congruence].
        rewrite <- (parent_entry (entry dir (ds_name x)) (pd_name p)). apply (proj2 (proj2 Hk)). rewrite X. discriminate. }
      rewrite R in E. injection E as <- <- <-. cbn [st_disk st_cache de_dirpath de_names cs_objects cs_cache].
      set (nd := entry dir (ds_name x)) in *.
      assert (Keep : forall q, ~ within nd q -> ~ on_the_way dir q -> stat k' q = stat (st_disk st) q).
      { intros q W O. apply Fr.
        - intros p I ->. apply W. exists [pd_name p]. reflexivity.
        - intros X. apply on_the_way_entry in X. destruct X as [->|X]; [apply W; apply within_refl|exact (O X)]. }
      assert (Inside : forall q, within nd q -> stat (st_disk st) q = None).
      { intros q W. destruct (path_dec q nd) as [->|Nq]; [exact St|].
        destruct (stat (st_disk st) q) eqn:X; [|reflexivity]. assert (stat (st_disk st) nd = Some Dir); [|congruence].
        apply (above_is_dir _ nd q Hk); [rewrite X; discriminate|exact W|]. intros Y. apply Nq. symmetry. exact Y. }
      assert (Files : forall q c, stat k' q = Some (File c) <->
        (exists y, In y (ds_data x) /\ q = entry nd (pd_name y) /\ c = write_publisher_data F y) \/ stat (st_disk st) q = Some (File c)).
      { intros q c. split.
        - intros X. destruct (in_dec path_dec q (map (fun y => entry nd (pd_name y)) (ds_data x))) as [I|NI].
          + left. apply in_map_iff in I. destruct I as [y [<- I]]. exists y. split; [exact I|]. split; [reflexivity|]. rewrite (Wr y I) in X. congruence.
          + right. rewrite <- X. symmetry. apply Fr.
            * intros p I ->. apply NI. apply in_map_iff. exists p. split; [reflexivity|exact I].
            * intros O. rewrite (Ow q O) in X. discriminate.
        - intros [[y [I [-> ->]]]|X]; [exact (Wr y I)|]. rewrite <- X. apply Fr.
          + intros p I ->. rewrite Inside in X; [discriminate|]. exists [pd_name p]. reflexivity.
          + intros O. exact (NF q c O X). }
      split; [reflexivity|]. split; [|split; [reflexivity|split; [|split; [apply Ok'|split; [|split; [exact C|split; [exact Ec|split]]]]]]].
      * split; [exact Hk'|]. cbn [st_disk de_dirpath]. fold dir. split; [apply (on_the_way_stat k' nd); [exact Hk'|exact D'|]|].
        { split; [exact Hsn|]. exists [ds_name x]. reflexivity. }
        split; [apply name_add_nodup; exact ND|]. intros n. cbn [de_names]. rewrite name_add_in, HN. fold dir.
        destruct (string_dec n (ds_name x)) as [->|Nn].
        -- split; [intros _; exact D'|]. intros _. left. reflexivity.
        -- rewrite <- (Keep (entry dir n)); [split; [intros [X|X]; [contradiction|exact X]|intros X; right; exact X]| |].
           ++ apply (proj1 (other_entry dir n (ds_name x) (entry dir n) Nn (within_refl _))).
           ++ apply entry_not_on_the_way.
      * intros n Hdn. destruct (string_dec n (ds_name x)) as [->|Nn].
        -- destruct (ds_data x) as [|y l] eqn:Ey; [contradiction|]. exists (entry nd (pd_name y)), (write_publisher_data F y).
           split; [exists [pd_name y]; reflexivity|]. apply Wr. left. reflexivity.
        -- assert (Hin : forall q, within (entry dir n) q -> stat k' q = stat (st_disk st) q).
           { intros q W. destruct (other_entry dir n (ds_name x) q Nn W) as [W1 W2]. apply Keep; [exact W1|].
             intros O. apply W2. destruct O as [O1 O2]. split; [exact O1|]. apply (within_trans _ dir); [exact O2|]. exists [ds_name x]. reflexivity. }
           apply (holds_same (st_disk st)); [exact Hin|]. apply NE. rewrite <- Hin; [exact Hdn|apply within_refl].
      * intros p c. rewrite Ho, Files, (S p c). fold nd. split.
        -- intros [[y [I [-> ->]]]|[A [B X]]].
           ++ split; [unfold nd, entry; cbn [fst]; exact Hab|]. split.
              ** rewrite entry_length. unfold nd. rewrite entry_length. lia.
              ** left. exists y. repeat split. exact I.
           ++ split; [exact A|]. split; [exact B|]. right. exact X.
        -- intros [A [B [X|X]]]; [left; exact X|right; repeat split; assumption].
      * apply name_add_nodup. exact Nc.
      * intros n. cbn [de_names]. rewrite !name_add_in, Hn. tauto.
  - (* by name *)
    assert (C1 : has_address (de_dirpath d)) by exact Ha.
    unfold by_name, cloud_by_name in E, E'. rewrite Ec, (os_join_file (de_dirpath d) n Ha Hr) in E'.
    unfold cached_read in E. unfold cloud_cached_read in E'.
    pose proof (same_cache_find _ _ (os_join (de_dirpath d) n) C) as CF.
    assert (CP : cloud_path (cloud_address (os_join (de_dirpath d) n)) = Ok (entry dir n)).
    { rewrite cloud_path_address by (apply os_join_slash; assumption). rewrite to_path_os_join by exact Hr. reflexivity. }
    assert (RD : same_reading (read_data_set F (st_disk st) (os_join (de_dirpath d) n))
                              (cloud_read_data_set F (cs_objects cst) (cloud_address (os_join (de_dirpath d) n)))).
    { apply (same_reading_of (st_disk st) (cs_objects cst) (entry dir n) Hk N S).
      - exact Hab.
      - apply entry_nonroot.
      - apply to_path_os_join. exact Hr.
      - exact CP. }
    destruct (cache_find (st_cache st) (os_join (de_dirpath d) n)) as [e|] eqn:CE.
    + destruct (cache_find (cs_cache cst) _) as [e'|]; [|contradiction].
      cbn [reply_of] in *. injection E as <- <- <-. injection E' as <- <- <-. split; [exact CF|].
      repeat (split; [assumption || reflexivity|]). cbn [st_cache cs_cache]. split; [|repeat (split; [assumption || reflexivity|]); exact Hn].
      constructor; [split; [reflexivity|exact CF]|apply same_cache_drop; exact C].
    + destruct (cache_find (cs_cache cst) _) as [e'|]; [contradiction|].
      destruct (read_data_set F (st_disk st) (os_join (de_dirpath d) n)) as [y|e],
               (cloud_read_data_set F (cs_objects cst) (cloud_address (os_join (de_dirpath d) n))) as [y'|e'];
        cbn [same_reading] in RD; try contradiction.
      * cbn [reply_of] in *. injection E as <- <- <-. injection E' as <- <- <-. split; [exact RD|].
        repeat (split; [assumption || reflexivity|]). cbn [st_cache cs_cache]. split; [|repeat (split; [assumption || reflexivity|]); exact Hn].
        change (same_cache (firstn 128 ((os_join (de_dirpath d) n, y) :: st_cache st))
          (firstn 128 ((cloud_address (os_join (de_dirpath d) n), y') :: cs_cache cst))).
        apply same_cache_firstn. constructor; [split; [reflexivity|exact RD]|exact C].
      * subst e'. cbn [reply_of] in *. injection E as <- <- <-. injection E' as <- <- <-. split; [reflexivity|].
        repeat (split; [assumption || reflexivity|]). exact Hn.
Qed.

Lemma serve_all_same F local rqs : has_address local -> forall st d cst cd,
  related local st d cst cd -> Forall sensible rqs ->
  Forall2 same_reply (serve_all F st d rqs) (cloud_serve_all F cst cd rqs).
Proof.
  intros Ha. induction rqs as [|rq rqs IH]; intros st d cst cd R H; [constructor|].
  inversion H as [|? ? H1 H2]; subst. cbn [serve_all cloud_serve_all].
  destruct (serve F st d rq) as [[a st'] d'] eqn:E. destruct (cloud_serve F cst cd rq) as [[a' cst'] cd'] eqn:E'.
  destruct (serve_same F local st d cst cd rq a st' d' a' cst' cd' Ha R H1 E E') as [X Y].
  constructor; [exact X|]. apply IH; assumption.
Qed.
