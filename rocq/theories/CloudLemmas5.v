(** Every bucket is like some disk; adding a data set that is interrupted. *)
From Coq Require Import String Ascii Permutation Sorted.
From Verif Require Import Prelude ModelReachPoint ModelData ModelAggregator ModelFiles SpecData SpecFiles
  FilesLemmas FilesLemmas2 FilesLemmas3 ModelHalo ModelDriver SpecDriver DriverLemmas4 ModelCloud SpecCloud
  CloudLemmas CloudLemmas2.
Open Scope Z_scope.

Lemma objects_ok_tail x o : objects_ok (x :: o) -> objects_ok o.
Proof.
  intros [N [A S]]. split; [inversion N; assumption|]. split.
  - intros p c I. exact (A p c (or_intror I)).
  - intros p q c c' I J. exact (S p q c c' (or_intror I) (or_intror J)).
Qed.

Lemma within_parent q p : on_the_way (parent p) q -> within q p /\ q <> p.
Proof.
  intros [Hq [rest E]]. destruct p as [a l]. unfold parent in E. cbn [fst snd] in E. apply pair_eq in E. destruct E as [E1 E2].
  destruct (list_eq_dec string_dec l []) as [->|Nl].
  - cbn in E2. destruct (snd q); [contradiction|discriminate].
  - rewrite (app_removelast_last ""%string Nl). rewrite E2. split.
    + exists (rest ++ [last l ""%string]). rewrite <- E1, <- app_assoc. reflexivity.
    + intros X. apply (f_equal (fun z => length (snd z))) in X. cbn [snd] in X. rewrite !app_length in X. cbn [length] in X. lia.
Qed.
Lemma within_antisym p q : within p q -> within q p -> p = q.
Proof.
  intros W V. apply within_length in V as L1. destruct W as [r E]. assert (L : length (snd q) = (length (snd p) + length r)%nat) by (rewrite E; cbn [snd]; apply app_length).
  assert (r = []) as -> by (destruct r; [reflexivity|cbn [length] in L; lia]). rewrite app_nil_r in E. rewrite E. destruct p; reflexivity.
Qed.

Lemma bucket_disk o : objects_ok o -> exists k, disk_ok k /\
  (forall q c, stat k q = Some (File c) <-> In (q, c) o) /\
  (forall q, stat k q = Some Dir -> snd q = [] \/ exists p c, In (p, c) o /\ within q p /\ q <> p).
Proof.
  induction o as [|[p c] o IH]; intros Ok.
  - exists []. split; [split; [constructor|split; [intros ? ? []|]]|].
    { intros q Hq. unfold parent. destruct q as [a [|x l]]; [reflexivity|]. exfalso. apply Hq. reflexivity. }
    split.
    + intros q c. destruct q as [a [|x l]]; cbn; split; intros X; try discriminate X; destruct X.
    + intros q. destruct q as [a [|x l]]; [left; reflexivity|discriminate].
  - destruct (IH (objects_ok_tail _ _ Ok)) as [k [Hk [Fi Di]]]. destruct Ok as [N [A S]].
    destruct (A p c (or_introl eq_refl)) as [Ha Hl].
    assert (Np : snd p <> []) by (destruct (snd p); [cbn in Hl; lia|discriminate]).
    assert (NF : no_file_on_the_way k (parent p)).
    { intros q c' O X. apply Fi in X. apply within_parent in O. destruct O as [W D]. apply D.
      exact (S q p c' c (or_intror X) (or_introl eq_refl) W). }
    destruct (mkdir_ok k (parent p) Hk NF) as [k1 [_ [Hk1 [D1 [W1 F1]]]]].
    assert (P1 : stat k1 p <> Some Dir).
    { intros X. rewrite F1 in X.
      - apply Di in X. destruct X as [X|[q [c' [I [W D]]]]]; [contradiction|]. apply D.
        exact (S p q c c' (or_introl eq_refl) (or_intror I) W).
      - intros O. apply within_parent in O. destruct O as [_ O]. exact (O eq_refl). }
    destruct (write_file_ok k1 p c Hk1 Np D1 P1) as [k2 [_ [Hk2 [E2 F2]]]].
    exists k2. split; [exact Hk2|]. split.
    + intros q c'. destruct (path_dec q p) as [->|Nq].
      * rewrite E2. split; [intros X; injection X as <-; left; reflexivity|]. intros [X|X]; [congruence|].
        exfalso. inversion N as [|? ? N1 _]; subst. apply N1. apply in_map_iff. exists (p, c'). split; [reflexivity|exact X].
      * rewrite F2 by exact Nq. cbn [In]. destruct (on_the_way_dec (parent p) q) as [O|O].
        -- rewrite (W1 q O). split; [discriminate|]. intros [X|X]; [congruence|]. exfalso.
           apply Fi in X. exact (NF q c' O X).
        -- rewrite (F1 q O), Fi. split; [right; assumption|]. intros [X|X]; [congruence|exact X].
    + intros q X. destruct (path_dec q p) as [->|Nq]; [congruence|]. rewrite F2 in X by exact Nq.
      destruct (on_the_way_dec (parent p) q) as [O|O].
      * right. exists p, c. apply within_parent in O. destruct O as [W D]. split; [left; reflexivity|]. split; assumption.
      * rewrite (F1 q O) in X. apply Di in X. destruct X as [X|[p' [c' [I [W D]]]]]; [left; exact X|right].
        exists p', c'. split; [right; exact I|]. split; assumption.
Qed.

Lemma bucket_like_disk o local : objects_ok o -> (forall p c, In (p, c) o -> ~ within p (to_path local)) ->
  exists k, disk_ok k /\ same_files k o /\ no_file_on_the_way k (to_path local) /\ no_empty_data_set k (to_path local).
Proof.
  intros Ok Up. destruct (bucket_disk o Ok) as [k [Hk [Fi Di]]]. exists k. split; [exact Hk|]. split; [|split].
  - intros p c. rewrite Fi. split; [|intros X; apply X]. intros I. destruct Ok as [_ [A _]]. destruct (A p c I). repeat split; assumption.
  - intros q c [_ W] X. apply Fi in X. exact (Up q c X W).
  - intros n X. apply Di in X. destruct X as [X|[p [c [I [W _]]]]]; [exfalso; exact (entry_nonroot _ _ X)|].
    exists p, c. split; [exact W|]. apply Fi. exact I.
Qed.

(** ** Interrupted uploads *)

Lemma firstn_map_in {A B} (f : A -> B) n l x : In x (firstn n (map f l)) <-> exists y, In y (firstn n l) /\ x = f y.
Proof.
  rewrite firstn_map, in_map_iff. split; intros [y [H1 H2]]; exists y; split; auto.
Qed.
Lemma firstn_in {A} n (l : list A) x : In x (firstn n l) -> In x l.
Proof. intros I. rewrite <- (firstn_skipn n l). apply in_app_iff. left. exact I. Qed.
Lemma firstn_nodup {A} n (l : list A) : NoDup l -> NoDup (firstn n l).
Proof.
  revert n. induction l as [|a l IH]; intros [|n] N; cbn [firstn]; try constructor.
  - inversion N as [|? ? N1 _]; subst. intros X. apply N1. exact (firstn_in _ _ _ X).
  - inversion N; subst. apply IH. assumption.
Qed.

Lemma interrupted_add F o c d x local n :
  objects_ok o -> has_address local -> de_dirpath d = cloud_address local ->
  file_name (ds_name x) -> Forall (fun p => file_name (pd_name p)) (ds_data x) -> NoDup (map pd_name (ds_data x)) ->
  (forall p c, In (p, c) o -> ~ within p (to_path local)) ->
  let target := entry (to_path local) (ds_name x) in
  cloud_stat o target = None ->
  exists o', run_writes o (firstn n (cloud_writes F target x)) = (Ok tt, o') /\ objects_ok o' /\
    (forall p c, In (p, c) o' <->
       (exists y, In y (firstn n (ds_data x)) /\ p = entry target (pd_name y) /\ c = write_publisher_data F y) \/ In (p, c) o) /\
    (firstn n (ds_data x) <> [] -> cloud_add F {| cs_objects := o'; cs_cache := c |} d x =
                                   (Err ValueError, {| cs_objects := o'; cs_cache := c |})).
Proof.
  intros Ok Ha Ed Hn Hp Hd Up target E.
  assert (Dd : (2 <= length (snd target))%nat).
  { unfold target. rewrite entry_length. destruct Ha as [_ [Ha _]]. destruct (snd (to_path local)); [contradiction|cbn [length]; lia]. }
  rewrite cloud_writes_files by exact Hp. rewrite firstn_map.
  assert (Hd' : NoDup (map pd_name (firstn n (ds_data x)))) by (rewrite <- firstn_map; apply firstn_nodup; exact Hd).
  destruct (run_writes_ok target (map (fun p => (entry target (pd_name p), write_publisher_data F p)) (firstn n (ds_data x))) o)
    as [o' [R [Ok' H]]].
  - exact Ok.
  - unfold target, entry. cbn [fst]. apply address_absolute. exact Ha.
  - unfold target. apply entry_nonroot.
  - apply Forall_forall. intros w I. apply in_map_iff in I. destruct I as [p [<- _]]. cbn [fst]. exists (pd_name p). reflexivity.
  - rewrite map_map. cbn [fst]. rewrite <- map_map. apply FinFun.Injective_map_NoDup; [|exact Hd']. intros a b. apply entry_inj.
  - intros m c' I q J W. rewrite map_map in I. cbn [fst] in I. apply in_map_iff in I. destruct I as [p [<- _]].
    apply (proj1 (cloud_stat_none o target Dd) E q c' J). apply (within_trans _ (entry target (pd_name p))); [exists [pd_name p]; reflexivity|exact W].
  - intros p c' I W. destruct (path_dec p target) as [->|Np].
    + apply (proj1 (cloud_stat_none o target Dd) E target c' I). apply within_refl.
    + apply (Up p c' I). destruct W as [rest W]. destruct (rev rest) as [|y r] eqn:Er.
      * exfalso. apply Np. assert (rest = []) as -> by (rewrite <- (rev_involutive rest), Er; reflexivity).
        rewrite app_nil_r in W. rewrite W. destruct p; reflexivity.
      * exists (rev r). assert (Ere : rest = rev r ++ [y]) by (rewrite <- (rev_involutive rest), Er; reflexivity).
        rewrite Ere in W. unfold target, entry in W. apply pair_eq in W. destruct W as [W1 W2]. rewrite app_assoc in W2. apply app_inj_tail in W2.
        destruct W2 as [W2 _]. rewrite (surjective_pairing (to_path local)), W1, W2. reflexivity.
  - assert (Hin : forall p c', In (p, c') o' <->
       (exists y, In y (firstn n (ds_data x)) /\ p = entry target (pd_name y) /\ c' = write_publisher_data F y) \/ In (p, c') o).
    { intros p c'. rewrite H. split.
      + intros [I|I]; [left|right; exact I]. apply in_map_iff in I. destruct I as [y [X I]]. injection X as <- <-. exists y. repeat split. exact I.
      + intros [[y [I [-> ->]]]|I]; [left|right; exact I]. apply in_map_iff. exists y. split; [reflexivity|exact I]. }
    exists o'. split; [exact R|]. split; [exact Ok'|]. split; [exact Hin|]. intros Ne.
    apply (cloud_add_taken F _ d x local Ha Ed Hn). cbn [cs_objects]. fold target. intros X.
    destruct (firstn n (ds_data x)) as [|y l] eqn:Ey; [contradiction|].
    apply (proj1 (cloud_stat_none o' target Dd) X (entry target (pd_name y)) (write_publisher_data F y)).
    + apply Hin. left. exists y. split; [left; reflexivity|]. split; reflexivity.
    + exists [pd_name y]. reflexivity.
Qed.
