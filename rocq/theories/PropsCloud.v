(** C56: data designs and trials on cloud storage. *)
From Coq Require Import String Ascii Permutation Sorted.
From Verif Require Import Prelude ModelReachPoint ModelData ModelAggregator ModelFiles SpecData SpecFiles
  FilesLemmas FilesLemmas2 FilesLemmas3 ModelHalo ModelDriver SpecDriver DriverLemmas4 ModelCloud SpecCloud
  CloudLemmas CloudLemmas2 CloudLemmas3 CloudLemmas4 CloudLemmas5 ExampleDriver PropsDriver PropsFiles.
Open Scope Z_scope.

(** ** Data designs *)

Lemma cut_step before c t : (forall a, c :: t <> [":"; "/"; "/"]%char ++ a) ->
  cut_scheme before (c :: t) = cut_scheme (c :: before) t.
Proof.
  intros H. destruct (ascii_dec c ":") as [->|N].
  - destruct t as [|c1 t]; [reflexivity|]. destruct (ascii_dec c1 "/") as [->|N].
    + destruct t as [|c2 t]; [reflexivity|]. destruct (ascii_dec c2 "/") as [->|N]; [exfalso; exact (H t eq_refl)|].
      assert (G : forall X : option (text * text), X = cut_scheme (":"%char :: before) ("/"%char :: c2 :: t) ->
        match c2 with "/"%char => Some (rev before, t) | _ => X end = X).
      { intros X _. destruct c2 as [[] [] [] [] [] [] [] []]; try reflexivity. congruence. }
      exact (G _ eq_refl).
    + assert (G : forall X Y : option (text * text), match c1 with "/"%char => X | _ => Y end = Y).
      { intros X Y. destruct c1 as [[] [] [] [] [] [] [] []]; try reflexivity. congruence. }
      exact (G _ _).
  - assert (G : forall X Y : option (text * text), match c with ":"%char => X | _ => Y end = Y).
    { intros X Y. destruct c as [[] [] [] [] [] [] [] []]; try reflexivity. congruence. }
    exact (G _ _).
Qed.
Lemma cut_at_first l : forall before b,
  (forall x y, l <> x ++ [":"; "/"; "/"]%char ++ y) ->
  cut_scheme before (l ++ [":"; "/"; "/"]%char ++ b) = Some (rev before ++ l, b).
Proof.
  induction l as [|c l IH]; intros before b H.
  - cbn. rewrite app_nil_r. reflexivity.
  - cbn [app]. rewrite cut_step.
    + change (cut_scheme (c :: before) (l ++ [":"; "/"; "/"]%char ++ b) = Some (rev before ++ c :: l, b)). rewrite IH.
      * cbn [rev]. rewrite <- app_assoc. reflexivity.
      * intros x y E. apply (H (c :: x) y). rewrite E. reflexivity.
    + intros a E. destruct l as [|c1 [|c2 l]]; cbn [app] in E; [discriminate E|discriminate E|].
      injection E as -> -> -> _. exact (H [] l eq_refl).
Qed.
Lemma cut_scheme_first a b :
  (forall x y, a <> String.append x (String.append "://" y)) ->
  cut_scheme [] (list_ascii_of_string (String.append a (String.append "://" b))) =
  Some (list_ascii_of_string a, list_ascii_of_string b).
Proof.
  intros H. rewrite list_ascii_app.
  change (list_ascii_of_string (String.append "://" b)) with ([":"; "/"; "/"]%char ++ list_ascii_of_string b).
  rewrite cut_at_first; [reflexivity|].
  intros u v X. apply (H (string_of_list_ascii u) (string_of_list_ascii v)). apply chars_inj. unfold chars.
  rewrite !list_ascii_app, !list_ascii_of_string_of_list_ascii. exact X.
Qed.

(** Joining: without arguments the answer is empty; a first argument without "://" is an
    IndexError; what follows a second "://" in it is dropped; otherwise the name comes below
    the directory, and taking the name and the parent gives both back. *)
Theorem C56_joinpath :
  cloud_joinpath [] = Ok ""%string /\
  (forall a rest, (forall x y, a <> String.append x (String.append "://" y)) -> cloud_joinpath (a :: rest) = Err IndexError) /\
  (forall a b rest, (forall x y, a <> String.append x (String.append "://" y)) ->
     cloud_joinpath (String.append "gs://" (String.append a (String.append "://" b)) :: rest) =
     cloud_joinpath (String.append "gs://" a :: rest)) /\
  (forall local n, has_address local -> file_name n ->
     exists s, cloud_joinpath [cloud_address local; n] = Ok s /\
       cloud_path s = Ok (entry (to_path local) n) /\
       cloud_name s = Ok n /\ cloud_parent s = Ok (url (to_path local))).
Proof.
  split; [reflexivity|]. split; [|split].
  - intros a rest H. unfold cloud_joinpath.
    destruct (cut_scheme [] (list_ascii_of_string a)) as [[x y]|] eqn:E; [|reflexivity]. exfalso.
    apply cut_scheme_some in E. cbn [rev app] in E.
    apply (H (string_of_list_ascii x) (string_of_list_ascii y)). apply chars_inj. unfold chars.
    rewrite E, list_ascii_app, list_ascii_of_string_of_list_ascii. f_equal. cbn [String.append list_ascii_of_string].
    rewrite list_ascii_of_string_of_list_ascii. reflexivity.
  - intros a b rest H. unfold cloud_joinpath.
    change (String.append "gs://" (String.append a (String.append "://" b))) with
      (String.append "gs:/" (String "/" (String.append a (String.append "://" b)))).
    change (String.append "gs://" a) with (String.append "gs:/" (String "/" a)). rewrite !cut_gs.
    assert (C : cut_scheme [] (list_ascii_of_string a) = None).
    { destruct (cut_scheme [] (list_ascii_of_string a)) as [[x y]|] eqn:E; [|reflexivity]. exfalso.
      apply cut_scheme_some in E. cbn [rev app] in E.
      apply (H (string_of_list_ascii x) (string_of_list_ascii y)). apply chars_inj. unfold chars.
      rewrite E, list_ascii_app, list_ascii_of_string_of_list_ascii. f_equal. cbn [String.append list_ascii_of_string].
      rewrite list_ascii_of_string_of_list_ascii. reflexivity. }
    rewrite C.
    rewrite (cut_scheme_first a b H). reflexivity.
  - intros local n Ha Hn. exists (url (entry (to_path local) n)). split; [exact (join_address local n Ha Hn)|].
    assert (P : cloud_path (url (entry (to_path local) n)) = Ok (entry (to_path local) n)).
    { pose proof (join_entry local n Ha Hn) as J. rewrite join_address in J by assumption. exact J. }
    split; [exact P|]. unfold cloud_name, cloud_parent. rewrite P. cbn [bind]. unfold entry, path_name, parent. cbn [fst snd].
    split; [rewrite last_last; reflexivity|]. rewrite removelast_last. destruct (to_path local); reflexivity.
Qed.

(** A design on cloud storage lists the directories that hold at least one object. *)
Theorem C56_open : forall o local, has_address local ->
  exists d, cloud_mk_design o (cloud_address local) = Ok d /\ de_dirpath d = cloud_address local /\
    StronglySorted (fun x y => String.ltb x y = true) (sorted_names d) /\
    (forall n, In n (sorted_names d) <->
       (forall c, ~ In (entry (to_path local) n, c) o) /\
       exists m rest c, In ((fst (to_path local), snd (to_path local) ++ n :: m :: rest), c) o).
Proof.
  intros o local H. destruct (cloud_open o local H) as [d [E [Ed [N Hn]]]]. exists d. split; [exact E|]. split; [exact Ed|].
  split; [apply sorted_names_sorted; exact N|]. intros n.
  assert (In n (sorted_names d) <-> In n (de_names d)) as ->.
  { split; apply Permutation_in; [apply sorted_names_perm|apply Permutation_sym, sorted_names_perm]. }
  assert (D : (2 <= length (snd (entry (to_path local) n)))%nat).
  { rewrite entry_length. destruct H as [_ [H _]]. destruct (snd (to_path local)); [contradiction|cbn [length]; lia]. }
  rewrite Hn, cloud_stat_dir by exact D. split.
  - intros [X [q [c [I [[rest W] Nq]]]]]. split.
    + intros c' J. apply obj_find_none in X. apply X. apply in_map_iff. exists (entry (to_path local) n, c'). split; [reflexivity|exact J].
    + destruct rest as [|m rest]; [exfalso; apply Nq; rewrite W, app_nil_r; reflexivity|]. exists m, rest, c.
      rewrite W in I. unfold entry in I. cbn [fst snd] in I. rewrite <- app_assoc in I. exact I.
  - intros [X [m [rest [c I]]]]. split.
    + apply obj_find_none. intros J. apply in_map_iff in J. destruct J as [[q c'] [E' J]]. cbn [fst] in E'. subst q. exact (X c' J).
    + exists (fst (to_path local), snd (to_path local) ++ n :: m :: rest), c. split; [exact I|]. split.
      * exists (m :: rest). unfold entry. cbn [fst snd]. rewrite <- app_assoc. reflexivity.
      * intros Y. apply (f_equal (fun z => length (snd z))) in Y. unfold entry in Y. cbn [snd] in Y. rewrite !app_length in Y. cbn [length] in Y. lia.
Qed.

(** Reading a data set from cloud storage gives the same data set, or the same error, as
    reading it from a disk with the same files. *)
Theorem C56_read : forall F k o local n, disk_ok k -> NoDup (map fst o) -> same_files k o ->
  has_address local -> file_name n ->
  same_reading (read_data_set F k (os_join local n))
               (cloud_read_data_set F o (os_join (cloud_address local) n)).
Proof.
  intros F k o local n Hk N S Ha Hn. rewrite os_join_file by assumption.
  apply (same_reading_of k o (entry (to_path local) n) Hk N S).
  - apply address_absolute. exact Ha.
  - apply entry_nonroot.
  - apply to_path_os_join. exact Hn.
  - rewrite cloud_path_address by (apply os_join_slash; assumption). rewrite to_path_os_join by exact Hn. reflexivity.
Qed.

(** Two programs that open a data design, one on a disk and one on cloud storage with the same
    files, and make the same requests, get the same answers for ever: the same names, the same
    data sets (except for the places of the logs), the same refusals. *)
Theorem C56_history : forall F k o local rqs, has_address local ->
  disk_ok k -> no_file_on_the_way k (to_path local) -> no_empty_data_set k (to_path local) ->
  NoDup (map fst o) -> same_files k o -> Forall sensible rqs ->
  exists d st cd,
    mk_design {| st_disk := k; st_cache := [] |} local = (Ok d, st) /\
    cloud_mk_design o (cloud_address local) = Ok cd /\
    sorted_names cd = sorted_names d /\
    Forall2 same_reply (serve_all F st d rqs)
                       (cloud_serve_all F {| cs_objects := o; cs_cache := [] |} cd rqs).
Proof.
  intros F k o local rqs Ha Hk NF NE N S H.
  destruct (open_design_ok {| st_disk := k; st_cache := [] |} local Hk NF) as [d [st [E [Hok [Ed [Ec Fr]]]]]].
  destruct (cloud_open o local Ha) as [cd [E' [Ed' [N' H']]]]. cbn [st_disk st_cache] in *.
  pose proof (same_after_open {| st_disk := k; st_cache := [] |} o local d st Hk NF E S) as S1.
  assert (Hold : forall n q, within (entry (to_path local) n) q -> stat (st_disk st) q = stat k q).
  { intros n q W. apply Fr. intros O. destruct O as [_ O]. apply within_length in O. apply within_length in W. rewrite entry_length in W. lia. }
  assert (NE1 : no_empty_data_set (st_disk st) (to_path local)).
  { intros n X. rewrite (Hold n) in X by apply within_refl. apply (holds_same k); [|exact (NE n X)].
    intros q W. exact (Hold n q W). }
  assert (Hn : forall n, In n (de_names d) <-> In n (de_names cd)).
  { intros n. rewrite H'. destruct Hok as [Hk1 [_ [_ HN]]]. rewrite HN, Ed.
    rewrite (same_dir (st_disk st) o (to_path local) Hk1 S1 (address_absolute _ Ha) (proj1 (proj2 Ha)) n). split.
    - intros Y. split; [exact Y|exact (NE1 n Y)].
    - intros [Y _]. exact Y. }
  exists d, st, cd. split; [exact E|]. split; [exact E'|].
  split; [apply names_equal; [apply Hok|exact N'|exact Hn]|].
  apply (serve_all_same F local rqs Ha); [|exact H].
  split; [exact Hok|]. split; [exact Ed|]. split; [exact NE1|]. split; [exact N|]. split; [exact S1|].
  split; [rewrite Ec; constructor|]. split; [exact Ed'|]. split; [exact N'|exact Hn].
Qed.

(** Every bucket in which no object is above the design's directory is like some disk, so
    that this says something about all of them. *)
Theorem C56_every_bucket : forall o local, objects_ok o -> (forall p c, In (p, c) o -> ~ within p (to_path local)) ->
  exists k, disk_ok k /\ same_files k o /\ no_file_on_the_way k (to_path local) /\ no_empty_data_set k (to_path local).
Proof. exact bucket_like_disk. Qed.

(** Adding a data set that is interrupted after [n] uploads leaves the complete logs of the
    first [n] publishers and changes nothing else; if there is one at all, the data set cannot
    be added again. *)
Theorem C56_interrupted_add : forall F o c d x local n,
  objects_ok o -> has_address local -> de_dirpath d = cloud_address local ->
  file_name (ds_name x) -> Forall (fun p => file_name (pd_name p)) (ds_data x) -> NoDup (map pd_name (ds_data x)) ->
  (forall p c, In (p, c) o -> ~ within p (to_path local)) ->
  let target := entry (to_path local) (ds_name x) in
  cloud_stat o target = None ->
  exists o', run_writes o (firstn n (cloud_writes F target x)) = (Ok tt, o') /\ objects_ok o' /\
    (forall p c, In (p, c) o' <->
       (exists y, In y (firstn n (ds_data x)) /\ p = entry target (pd_name y) /\ c = write_publisher_data F y) \/ In (p, c) o) /\
    (firstn n (ds_data x) <> [] -> cloud_add F {| cs_objects := o'; cs_cache := c |} d x =
                                   (Err ValueError, {| cs_objects := o'; cs_cache := c |})).
Proof. exact interrupted_add. Qed.

(** A data set without publishers can be added on a disk once and is listed from then on. On
    cloud storage adding it succeeds and stores nothing, so that another program does not see
    it. *)
Theorem C56_empty_lost_refuted : forall F o c local x cd,
  has_address local -> file_name (ds_name x) -> ds_data x = [] ->
  cloud_mk_design o (cloud_address local) = Ok cd -> cloud_stat o (entry (to_path local) (ds_name x)) = None ->
  (exists cd', cloud_add F {| cs_objects := o; cs_cache := c |} cd x = (Ok cd', {| cs_objects := o; cs_cache := c |}) /\
               In (ds_name x) (sorted_names cd')) /\
  ~ In (ds_name x) (sorted_names cd) /\
  forall k st d, disk_ok k -> mk_design {| st_disk := k; st_cache := [] |} local = (Ok d, st) ->
    no_file_on_the_way k (to_path local) -> stat k (entry (to_path local) (ds_name x)) = None ->
    exists d' st', add F st d x = (Ok d', st') /\ In (ds_name x) (sorted_names d') /\
      exists d2 st2, mk_design st' local = (Ok d2, st2) /\ In (ds_name x) (sorted_names d2).
Proof.
  intros F o c local x cd Ha Hn Hx E Hs.
  destruct (cloud_open o local Ha) as [cd0 [E0 [Ed [N H]]]]. assert (cd0 = cd) as -> by congruence. split; [|split].
  - exists {| de_dirpath := de_dirpath cd; de_names := name_add (de_names cd) (ds_name x) |}. split.
    + unfold cloud_add. rewrite Ed, join_entry by assumption. cbn [cs_objects]. rewrite Hs.
      unfold cloud_write_data_set. rewrite join_entry by assumption. unfold cloud_writes. rewrite Hx. reflexivity.
    + apply (Permutation_in _ (Permutation_sym (sorted_names_perm _))). cbn [de_names]. apply name_add_in. left. reflexivity.
  - intros X. apply (Permutation_in _ (sorted_names_perm _)) in X. apply H in X. congruence.
  - intros k st d Hk Em NF Hk2.
    destruct (open_design_ok {| st_disk := k; st_cache := [] |} local Hk NF) as [d1 [st1 [E1 [Hok [Ed1 [Ec Fr]]]]]].
    rewrite E1 in Em. injection Em as <- <-. cbn [st_disk] in Fr. pose proof Hok as [Hk1 [HD _]]. rewrite Ed1 in HD.
    assert (St : stat (st_disk st1) (entry (to_path local) (ds_name x)) = None).
    { rewrite Fr; [exact Hk2|]. apply entry_not_on_the_way. }
    unfold add. rewrite Ed1. rewrite join_file_name by exact Hn. rewrite St.
    unfold write_data_set, data_set_dir. rewrite join_file_name by exact Hn.
    assert (NF1 : no_file_on_the_way (st_disk st1) (entry (to_path local) (ds_name x))) by (apply entry_no_file; assumption).
    destruct (write_ops_ok F (entry (to_path local) (ds_name x)) x (st_disk st1) Hk1 NF1) as [k' [R [Hk' [D' _]]]];
      [rewrite Hx; constructor|rewrite Hx; constructor|rewrite Hx; intros p []|].
    rewrite R. eexists. eexists. split; [reflexivity|]. split.
    + apply (Permutation_in _ (Permutation_sym (sorted_names_perm _))). cbn [de_names]. apply name_add_in. left. reflexivity.
    + destruct (open_design_ok {| st_disk := k'; st_cache := st_cache st1 |} local Hk') as [d2 [st2 [E2 [Hok2 [Ed2 [_ Fr2]]]]]].
      * cbn [st_disk]. apply dir_no_file; [exact Hk'|]. apply (on_the_way_stat k' (entry (to_path local) (ds_name x))); [exact Hk'|exact D'|].
        split; [apply Ha|]. exists [ds_name x]. reflexivity.
      * exists d2, st2. split; [exact E2|]. apply (Permutation_in _ (Permutation_sym (sorted_names_perm _))).
        destruct Hok2 as [_ [_ [_ HN2]]]. apply HN2. rewrite Ed2. rewrite Fr2 by apply entry_not_on_the_way. exact D'.
Qed.

(** A publisher whose name contains "/" can be added on cloud storage; reading the data set
    back gives one without this publisher, and no error. On a disk adding it fails. *)
Definition ex_slashed : data_set := ex_set "x" [ex_pub "a/b" [(1, (1#100)%Q)]] None.
Theorem C56_slash_name_refuted : exists cd cd' st',
  cloud_mk_design [] "gs://x/dd" = Ok cd /\
  cloud_add frac_format {| cs_objects := []; cs_cache := [] |} cd ex_slashed = (Ok cd', st') /\
  (exists y, fst (cloud_by_name frac_format st' cd' "x") = Ok y /\ ds_data y = []) /\ length (ds_data ex_slashed) = 1%nat /\
  exists d st k, mk_design {| st_disk := []; st_cache := [] |} "/x/dd" = (Ok d, st) /\
    add frac_format st d ex_slashed = (Err FileNotFoundError, k).
Proof.
  do 3 eexists. split; [vm_compute; reflexivity|]. split; [vm_compute; reflexivity|]. split; [eexists; split; [vm_compute; reflexivity|reflexivity]|].
  split; [reflexivity|]. do 3 eexists. split; vm_compute; reflexivity.
Qed.

Lemma xdd_address : has_address "/x/dd".
Proof.
  split; [eexists; reflexivity|]. split; [vm_compute; discriminate|]. intros a b E.
  assert (forall n s, String.length s = n -> forall u, s = String.append u (String.append "://" b) -> In ":"%char (list_ascii_of_string s)) as G.
  { intros n s _ u ->. rewrite list_ascii_app. apply in_or_app. right. left. reflexivity. }
  specialize (G _ "/x/dd"%string eq_refl a E). cbn in G. repeat (destruct G as [G|G]; [discriminate|]). exact G.
Qed.
Lemma ex_d_sensible : sensible (AddSet ex_d).
Proof.
  split; [repeat split; try discriminate; simpl; intuition discriminate|]. split; [|split; [|discriminate]].
  - repeat constructor; try discriminate; simpl; intuition discriminate.
  - repeat constructor; simpl; intuition discriminate.
Qed.
(** A program that adds a data set, reopens, adds it again, reads it: what the bucket answers. *)
Example C56_history_example : exists d st cd x x',
  let rqs := [ListNames; AddSet ex_d; Reopen; AddSet ex_d; FindSet "x"%string] in
  Forall sensible rqs /\
  mk_design {| st_disk := []; st_cache := [] |} "/x/dd" = (Ok d, st) /\
  cloud_mk_design [] "gs://x/dd" = Ok cd /\
  Forall2 same_reply (serve_all frac_format st d rqs) (cloud_serve_all frac_format {| cs_objects := []; cs_cache := [] |} cd rqs) /\
  serve_all frac_format st d rqs = [Listed []; Accepted; Listed ["x"%string]; Raised ValueError; Got x] /\
  cloud_serve_all frac_format {| cs_objects := []; cs_cache := [] |} cd rqs =
    [Listed []; Accepted; Listed ["x"%string]; Raised ValueError; Got x'] /\
  map pd_name (ds_data x) = ["/x/dd/x/a"; "/x/dd/x/b"]%string /\
  map pd_name (ds_data x') = ["gs://x/dd/x/a"; "gs://x/dd/x/b"]%string.
Proof.
  set (rqs := [ListNames; AddSet ex_d; Reopen; AddSet ex_d; FindSet "x"%string]).
  assert (Se : Forall sensible rqs).
  { constructor; [exact I|]. constructor; [exact ex_d_sensible|]. constructor; [exact I|]. constructor; [exact ex_d_sensible|].
    constructor; [|constructor]. repeat split; try discriminate; simpl; intuition discriminate. }
  assert (NF : no_file_on_the_way [] (to_path "/x/dd")).
  { intros p c [Hp _]. unfold stat. simpl. destruct (snd p); [contradiction|discriminate]. }
  assert (NE : no_empty_data_set [] (to_path "/x/dd")) by (intros n X; vm_compute in X; discriminate X).
  assert (SF : same_files [] []).
  { intros p c. split; [intros []|]. intros [_ [L X]]. unfold stat in X. destruct (snd p); [cbn in L; lia|discriminate X]. }
  destruct (C56_history frac_format [] [] "/x/dd" rqs xdd_address empty_disk_ok NF NE (NoDup_nil _) SF Se)
    as [d [st [cd [E1 [E2 [_ H]]]]]].
  exists d, st, cd. vm_compute in E1. injection E1 as <- <-. vm_compute in E2. injection E2 as <-.
  do 2 eexists. cbv zeta. split; [exact Se|]. split; [vm_compute; reflexivity|]. split; [vm_compute; reflexivity|]. split; [exact H|].
  split; [vm_compute; reflexivity|]. split; [vm_compute; reflexivity|]. split; reflexivity.
Qed.

(** A bucket that already has an object of another data set. *)
Definition ex_bucket : objects := [((true, ["x"; "dd"; "y"; "a"]%string), chars "1,1/2")].
Lemma ex_bucket_ok : objects_ok ex_bucket /\ forall p c, In (p, c) ex_bucket -> ~ within p (to_path "/x/dd").
Proof.
  split; [split; [repeat constructor; intros []|split]|].
  - intros p c [E|[]]. injection E as <- <-. split; [reflexivity|cbn; lia].
  - intros p q c c' [E|[]] [E'|[]] _. injection E as <- <-. injection E' as <- <-. reflexivity.
  - intros p c [E|[]] W. injection E as <- <-. apply within_length in W. vm_compute in W. lia.
Qed.
Example C56_every_bucket_example : exists k d st cd, disk_ok k /\ same_files k ex_bucket /\
  mk_design {| st_disk := k; st_cache := [] |} "/x/dd" = (Ok d, st) /\
  cloud_mk_design ex_bucket "gs://x/dd" = Ok cd /\ sorted_names d = ["y"%string] /\ sorted_names cd = ["y"%string].
Proof.
  destruct ex_bucket_ok as [H1 H2]. destruct (C56_every_bucket ex_bucket "/x/dd" H1 H2) as [k [K1 [K2 [K3 K4]]]].
  destruct (C56_history frac_format k ex_bucket "/x/dd" [] xdd_address K1 K3 K4 (proj1 H1) K2 (Forall_nil _)) as [d [st [cd [E1 [E2 [E3 _]]]]]].
  exists k, d, st, cd. split; [exact K1|]. split; [exact K2|]. split; [exact E1|]. split; [exact E2|].
  assert (sorted_names cd = ["y"%string]) as E by (vm_compute in E2; injection E2 as <-; vm_compute; reflexivity).
  split; [rewrite <- E3; exact E|exact E].
Qed.
Example C56_interrupted_add_example : exists cd o', cloud_mk_design ex_bucket "gs://x/dd" = Ok cd /\
  run_writes ex_bucket (firstn 1 (cloud_writes frac_format (entry (to_path "/x/dd") "x") ex_d)) = (Ok tt, o') /\
  length o' = 2%nat /\
  cloud_add frac_format {| cs_objects := o'; cs_cache := [] |} cd ex_d =
    (Err ValueError, {| cs_objects := o'; cs_cache := [] |}).
Proof.
  destruct ex_bucket_ok as [H1 H2]. destruct ex_d_sensible as [S1 [S2 [S3 _]]].
  destruct (C56_open ex_bucket "/x/dd" xdd_address) as [cd [E [Ed _]]].
  destruct (C56_interrupted_add frac_format ex_bucket [] cd ex_d "/x/dd" 1 H1 xdd_address Ed S1 S2 S3 H2 eq_refl) as [o' [R [_ [_ A]]]].
  exists cd, o'. split; [exact E|]. split; [exact R|]. split; [vm_compute in R; injection R as <-; reflexivity|]. apply A. discriminate.
Qed.

(** ** Trials *)

(** Evaluating a trial with a readable results object gives what is in it and changes nothing. *)
Theorem C56_read_back : forall L local ts t seed now g o c tb,
  cloud_trials L local ts -> In t ts -> cloud_usable L (to_path local) ts o ->
  obj_find o (results_object L (to_path local) t) = Some c -> lab_parse L c = Ok tb ->
  cloud_finish (cloud_evaluate L t seed now g) o = ((Ok tb, g), o).
Proof. intros L local ts t seed now g o c tb S I U E P. exact (finish_read L local ts S t seed now g o c tb I U E P). Qed.

(** Otherwise, with no results object or one that cannot be read, the row is computed; then it
    is the results object, the marker is gone and all other objects are as before. If it
    cannot be computed, the error is raised, the marker stays and there is no results object. *)
Theorem C56_computed : forall L local ts t seed now g o,
  cloud_trials L local ts -> In t ts -> cloud_usable L (to_path local) ts o ->
  (forall c tb, obj_find o (results_object L (to_path local) t) = Some c -> lab_parse L c <> Ok tb) ->
  exists o', cloud_usable L (to_path local) ts o' /\
    (forall q, q <> results_object L (to_path local) t -> q <> marker_object L (to_path local) t ->
       obj_find o' q = obj_find o q) /\
    match compute_row L t seed g with
    | (Ok row, g') =>
        cloud_finish (cloud_evaluate L t seed now g) o = ((Ok [row], g'), o') /\
        obj_find o' (results_object L (to_path local) t) = Some (lab_print L [row]) /\
        obj_find o' (marker_object L (to_path local) t) = None
    | (Err e, g') =>
        cloud_finish (cloud_evaluate L t seed now g) o = ((Err e, g'), o') /\
        obj_find o' (results_object L (to_path local) t) = None /\
        obj_find o' (marker_object L (to_path local) t) = Some (pending_text L t now)
    end.
Proof.
  intros L local ts t seed now g o S I U N. pose proof (finish_evaluate L local ts S t seed now g o I U N) as H. cbv zeta in H.
  destruct (cloud_finish (cloud_evaluate L t seed now g) o) as [a o']. cbn [fst snd] in H. exists o'.
  destruct H as [H1 [H2 H3]]. split; [exact H1|]. split; [exact H2|].
  destruct (compute_row L t seed g) as [[row|e] g']; destruct H3 as [-> H3]; (split; [reflexivity|exact H3]).
Qed.

(** Runs that were stopped after any number of requests, and then a complete run: the answer
    and the results object are those of one uninterrupted run, whatever files the reader
    accepts beside complete ones. *)
Theorem C56_crash_safe : forall L local ts t seed now g o row g' (l : list (job L * nat)),
  cloud_trials L local ts -> In t ts -> cloud_usable L (to_path local) ts o ->
  (forall c tb, obj_find o (results_object L (to_path local) t) = Some c -> lab_parse L c <> Ok tb) ->
  compute_row L t seed g = (Ok row, g') -> lab_parse L (lab_print L [row]) = Ok [row] ->
  (forall a, In a l -> jb_trial (fst a) = t /\ fst (compute_row L t seed (jb_generators (fst a))) = Ok row) ->
  let o1 := fold_left (cloud_stopped seed) l o in
  exists g2 o2, cloud_finish (cloud_evaluate L t seed now g) o1 = ((Ok [row], g2), o2) /\
    obj_find o2 (results_object L (to_path local) t) = Some (lab_print L [row]) /\
    (obj_find o2 (marker_object L (to_path local) t) = None \/
     (o2 = o1 /\ obj_find o1 (results_object L (to_path local) t) = Some (lab_print L [row]))) /\
    (forall q, q <> results_object L (to_path local) t -> q <> marker_object L (to_path local) t ->
       obj_find o2 q = obj_find o q).
Proof.
  intros L local ts t seed now g o row g' l S I U N E B Hl o1.
  assert (K : kept_so_far L local ts t row o o1).
  { apply (stopped_kept L local ts S t I seed row o l); [exact Hl|]. split; [exact U|]. split; [intros q _ _; reflexivity|left; reflexivity]. }
  destruct K as [U1 [O1 R1]].
  assert (C : obj_find o1 (results_object L (to_path local) t) = Some (lab_print L [row]) \/
              forall c tb, obj_find o1 (results_object L (to_path local) t) = Some c -> lab_parse L c <> Ok tb).
  { destruct R1 as [R1|[R1|R1]]; [right|right|left; exact R1]; rewrite R1; [exact N|discriminate]. }
  destruct C as [C|C].
  - exists g, o1. split; [exact (finish_read L local ts S t seed now g o1 _ _ I U1 C B)|]. split; [exact C|].
    split; [right; split; [reflexivity|exact C]|exact O1].
  - pose proof (finish_evaluate L local ts S t seed now g o1 I U1 C) as H. cbv zeta in H. rewrite E in H.
    destruct (cloud_finish (cloud_evaluate L t seed now g) o1) as [a o2]. cbn [fst snd] in H. destruct H as [H1 [H2 [-> [H4 H5]]]].
    exists g', o2. split; [reflexivity|]. split; [exact H4|]. split; [left; exact H5|].
    intros q Q1 Q2. rewrite (H2 q Q1 Q2). exact (O1 q Q1 Q2).
Qed.

(** Any number of processes evaluate trials, several of them possibly the same trial; their
    requests are served in any order, and any of them may never be continued. Provided that
    there is no results object at the start that cannot be read:
    results objects that are there are never changed, a new one is the complete row;
    markers of trials that had a result, and all objects that belong to no trial, stay as they
    are; every process that ends gives the result of its trial, and then the results object is
    there; a process ends after at most eight requests; and when all have ended, the markers
    of the new results are gone. *)
Theorem C56_attempts : forall L local ts o seed outcome (jobs : list (job L)) schedule,
  cloud_trials L local ts -> cloud_usable L (to_path local) ts o ->
  (forall t c, In t ts -> obj_find o (results_object L (to_path local) t) = Some c -> exists tb, lab_parse L c = Ok tb) ->
  (forall t row, In t ts -> outcome t = Ok row -> lab_parse L (lab_print L [row]) = Ok [row]) ->
  (forall j, In j jobs -> In (jb_trial j) ts /\
     fst (compute_row L (jb_trial j) seed (jb_generators j)) = outcome (jb_trial j)) ->
  exists o' ps, cloud_interleave schedule o (map (start seed) jobs) = (o', ps) /\
  (forall t, In t ts ->
     match obj_find o (results_object L (to_path local) t) with
     | Some c => obj_find o' (results_object L (to_path local) t) = Some c /\
                 obj_find o' (marker_object L (to_path local) t) = obj_find o (marker_object L (to_path local) t)
     | None => obj_find o' (results_object L (to_path local) t) = None \/
               exists row, outcome t = Ok row /\
                 obj_find o' (results_object L (to_path local) t) = Some (lab_print L [row])
     end) /\
  (forall q, (forall t, In t ts -> q <> results_object L (to_path local) t /\ q <> marker_object L (to_path local) t) ->
     obj_find o' q = obj_find o q) /\
  (forall i j r g', nth_error jobs i = Some j -> nth_error ps i = Some (CRet (r, g')) ->
     r = expected L (to_path local) o outcome (jb_trial j) /\
     (forall tb, r = Ok tb -> exists c, obj_find o' (results_object L (to_path local) (jb_trial j)) = Some c /\
                                        lab_parse L c = Ok tb)) /\
  (forall i, (i < length jobs)%nat -> (8 <= count_occ Nat.eq_dec schedule i)%nat ->
     exists a, nth_error ps i = Some (CRet a)) /\
  ((forall i, (i < length jobs)%nat -> exists a, nth_error ps i = Some (CRet a)) ->
   forall t c, In t ts -> obj_find o (results_object L (to_path local) t) = None ->
     obj_find o' (results_object L (to_path local) t) = Some c ->
     obj_find o' (marker_object L (to_path local) t) = None).
Proof.
  intros L local ts o seed outcome jobs schedule S U Rd B J.
  pose proof (attempts_safe L local ts S seed outcome o Rd B jobs J U schedule) as H.
  destruct (cloud_interleave schedule o (map (start seed) jobs)) as [o' ps]. exists o', ps. split; [reflexivity|].
  destruct H as [H1 [H2 [_ [H4 [H5 [H6 H7]]]]]]. split; [|split; [|split; [exact H5|split; [exact H6|exact H7]]]].
  - intros t I. destruct (obj_find o (results_object L (to_path local) t)) as [c|] eqn:E.
    + split; [exact (H2 t c I E)|]. apply H4. intros t' I'. split.
      * intros X. exact (R_not_M L local ts S t' t (eq_sym X)).
      * intros N X. apply (M_inj L local ts S) in X; [|exact I|exact I']. subst t'. congruence.
    + destruct (obj_find o' (results_object L (to_path local) t)) as [c|] eqn:E'; [right|left; reflexivity].
      specialize (H1 t c I E'). unfold final in H1. rewrite E in H1. destruct H1 as [row [X ->]]. exists row. split; [exact X|reflexivity].
  - intros q Hq. apply H4. intros t I. destruct (Hq t I) as [Q1 Q2]. split; [exact Q1|intros _; exact Q2].
Qed.

(** ** Examples *)

Definition cloud_toy (r : Z) : trial :=
  {| tr_experiment_dir := "gs://x/exp"; tr_design := toy_design; tr_data_set := "ds";
     tr_descriptor := toy_descriptor 0 r; tr_analysis := "" |}.

Lemma cloud_toy_sane : cloud_trials toy "/x/exp" [cloud_toy 1; cloud_toy 0].
Proof.
  split; [eexists; reflexivity|]. split; [vm_compute; lia|]. split; [vm_compute; discriminate|]. split; [|split].
  - intros t I. assert (exists r, (r = 0 \/ r = 1) /\ t = cloud_toy r) as [r [Hr ->]].
    { destruct I as [<-|[<-|[]]]; [exists 1|exists 0]; auto. }
    split; [reflexivity|]. split; [|split].
    + split; [discriminate|]. split; [discriminate|]. split; [discriminate|].
      cbn. intros X. repeat (destruct X as [X|X]; [discriminate|]). exact X.
    + apply (no_slash_toy 0 r Hr).
    + apply toy_md5_name.
  - intros t t' [<-|[<-|[]]] [<-|[<-|[]]] E; try reflexivity; vm_compute in E; discriminate.
  - intros t t' [<-|[<-|[]]] [<-|[<-|[]]] _ E; try reflexivity; vm_compute in E; discriminate.
Qed.
Lemma cloud_toy_usable : cloud_usable toy (to_path "/x/exp") [cloud_toy 1; cloud_toy 0] [].
Proof. split; [constructor|]. intros t q c _ []. Qed.
Definition cloud_outcome (t : trial) : result (list (string * cell)) := fst (compute_row toy t 1 toy_start).
Lemma cloud_toy_reads t row : In t [cloud_toy 1; cloud_toy 0] -> cloud_outcome t = Ok row ->
  lab_parse toy (lab_print toy [row]) = Ok [row].
Proof.
  intros [<-|[<-|[]]] E; vm_compute in E; injection E as <-; vm_compute; reflexivity.
Qed.

(** Three processes, two of them for the same trial, in any order on an empty bucket, with a
    reader that accepts incomplete files. *)
Example C56_attempts_example : forall schedule,
  let jobs := map (fun r => {| jb_trial := cloud_toy r; jb_now := []; jb_generators := toy_start |}) [1; 0; 1] in
  exists o' ps, cloud_interleave schedule [] (map (start 1) jobs) = (o', ps) /\
    (forall i r g', nth_error ps i = Some (CRet (r, g')) -> i <> 1%nat -> r = Ok [toy_row 1 0]).
Proof.
  intros schedule jobs.
  destruct (C56_attempts toy "/x/exp" [cloud_toy 1; cloud_toy 0] [] 1 cloud_outcome jobs schedule cloud_toy_sane cloud_toy_usable)
    as [o' [ps [E [_ [_ [H _]]]]]].
  - discriminate.
  - exact cloud_toy_reads.
  - intros j [<-|[<-|[<-|[]]]]; (split; [cbn; auto|reflexivity]).
  - exists o', ps. split; [exact E|]. intros i r g' Ei Ni.
    assert (L : (i < 3)%nat).
    { assert (length ps = 3%nat) as <-.
      { clear -E. assert (G : forall s o qs, length (snd (cloud_interleave (A:=result table * generators toy) s o qs)) = length qs).
        { induction s as [|k s IH]; intros o qs; [reflexivity|]. cbn [cloud_interleave]. destruct (nth_error qs k); [|apply IH].
          destruct (cloud_advance o c). rewrite IH. apply set_nth_length'. }
        pose proof (G schedule [] (map (start 1) jobs)) as X. rewrite E in X. exact X. }
      apply nth_error_Some. congruence. }
    assert (Y : forall j, nth_error jobs i = Some j -> jb_trial j = cloud_toy 1).
    { intros j. destruct i as [|[|[|i]]]; [|congruence| |lia]; intros X; injection X as <-; reflexivity. }
    destruct (nth_error jobs i) as [j|] eqn:Ej; [|apply nth_error_None in Ej; cbn in Ej; lia].
    destruct (H i j r g' Ej Ei) as [-> _]. rewrite (Y j eq_refl). vm_compute. reflexivity.
Qed.
Example C56_crash_safe_example : forall n m,
  let j := {| jb_trial := cloud_toy 1; jb_now := []; jb_generators := toy_start |} in
  fst (fst (cloud_finish (cloud_evaluate toy (cloud_toy 1) 1 [] toy_start) (fold_left (cloud_stopped 1) [(j, n); (j, m)] []))) =
  Ok [toy_row 1 0].
Proof.
  intros n m j. assert (Er : exists g', compute_row toy (cloud_toy 1) 1 toy_start = (Ok (toy_row 1 0), g')).
  { eexists. vm_compute. reflexivity. }
  destruct Er as [g' Er].
  destruct (C56_crash_safe toy "/x/exp" [cloud_toy 1; cloud_toy 0] (cloud_toy 1) 1 [] toy_start [] (toy_row 1 0) g' [(j, n); (j, m)]
              cloud_toy_sane (or_introl eq_refl) cloud_toy_usable) as [g2 [o2 [E _]]].
  - discriminate.
  - exact Er.
  - vm_compute. reflexivity.
  - intros a I. assert (fst a = j) as -> by (destruct I as [<-|[<-|[]]]; reflexivity). split; [reflexivity|].
    change (jb_generators j) with toy_start. rewrite Er. reflexivity.
  - rewrite E. reflexivity.
Qed.

(** An unreadable results object, and another object beside it. *)
Definition cloud_damaged : objects :=
  [(results_object toy (to_path "/x/exp") (cloud_toy 1), []); ((true, ["x"; "other"]%string), chars "z")].
Example C56_computed_example : exists g' o',
  cloud_finish (cloud_evaluate toy (cloud_toy 1) 1 [] toy_start) cloud_damaged = ((Ok [toy_row 1 0], g'), o') /\
  length o' = 2%nat /\ obj_find o' (true, ["x"; "other"]%string) = Some (chars "z") /\
  cloud_finish (cloud_evaluate toy (cloud_toy 1) 1 [] toy_start) o' = ((Ok [toy_row 1 0], toy_start), o').
Proof. do 2 eexists. split; [lazy; reflexivity|]. split; [reflexivity|]. split; [reflexivity|lazy; reflexivity]. Qed.

(** Two processes that both find a results object that cannot be read: when the second one
    removes it, it is gone, and the second process fails. *)
Theorem C56_two_unreadable_refuted : exists (L : lab) local t seed o row g (j : job L) schedule,
  cloud_trials L local [t] /\ cloud_usable L (to_path local) [t] o /\ jb_trial j = t /\
  compute_row L t seed (jb_generators j) = (Ok row, g) /\ lab_parse L (lab_print L [row]) = Ok [row] /\
  exists o' p, cloud_interleave schedule o (map (start seed) [j; j]) =
    (o', [p; CRet (Err FileNotFoundError, jb_generators j)]).
Proof.
  exists toy, "/x/exp"%string, (cloud_toy 1), 1, [(results_object toy (to_path "/x/exp") (cloud_toy 1), [])], (toy_row 1 0),
    (snd (compute_row toy (cloud_toy 1) 1 toy_start)), {| jb_trial := cloud_toy 1; jb_now := []; jb_generators := toy_start |}, [0; 1; 0; 1; 0; 0; 0; 1]%nat.
  split; [|split; [|split; [reflexivity|split; [vm_compute; reflexivity|split; [vm_compute; reflexivity|]]]]].
  - destruct cloud_toy_sane as [A [B [C [D [E G]]]]]. split; [exact A|]. split; [exact B|]. split; [exact C|].
    split; [intros t I; apply D; destruct I as [<-|[]]; left; reflexivity|]. split.
    + intros t t' [<-|[]] [<-|[]] _. reflexivity.
    + intros t t' [<-|[]] [<-|[]] _ _. reflexivity.
  - split; [repeat constructor; intros []|]. intros t q c [<-|[]] [X|[]]. injection X as <- <-. split; [reflexivity|].
    intros W. exfalso.
    exact (M_R toy "/x/exp" [cloud_toy 1; cloud_toy 0] cloud_toy_sane (cloud_toy 1) (cloud_toy 1) W).
  - eexists. eexists. lazy. reflexivity.
Qed.

Print Assumptions C56_joinpath.
Print Assumptions C56_open.
Print Assumptions C56_read.
Print Assumptions C56_history.
Print Assumptions C56_every_bucket.
Print Assumptions C56_interrupted_add.
Print Assumptions C56_empty_lost_refuted.
Print Assumptions C56_slash_name_refuted.
Print Assumptions C56_read_back.
Print Assumptions C56_computed.
Print Assumptions C56_crash_safe.
Print Assumptions C56_attempts.
Print Assumptions C56_two_unreadable_refuted.
