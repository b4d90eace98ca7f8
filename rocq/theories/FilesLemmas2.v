(** Proofs about paths, the disk, and writing and reading directories. *)
From Coq Require Import String Ascii Permutation Sorted.
From Verif Require Import Prelude ModelReachPoint ModelData ModelFiles SpecData SpecFiles
  DataLemmas FilesLemmas.
Open Scope Z_scope.

(** ** Paths *)

Lemma parts_eqb_spec a b : parts_eqb a b = true <-> a = b.
Proof.
  revert b. induction a as [|x a IH]; destruct b as [|y b]; simpl; try (split; [discriminate|discriminate]).
  - tauto.
  - rewrite andb_true_iff, IH, String.eqb_eq. split; [intros [-> ->]; auto|intros E; inversion E; auto].
Qed.
Lemma path_eqb_spec a b : path_eqb a b = true <-> a = b.
Proof.
  destruct a as [x a], b as [y b]. unfold path_eqb. simpl.
  rewrite andb_true_iff, parts_eqb_spec, Bool.eqb_true_iff.
  split; [intros [-> ->]; auto|intros E; inversion E; auto].
Qed.
Lemma path_eqb_refl p : path_eqb p p = true.
Proof. apply path_eqb_spec; auto. Qed.
Lemma path_eqb_neq a b : path_eqb a b = false <-> a <> b.
Proof. rewrite <- path_eqb_spec. destruct (path_eqb a b); split; congruence. Qed.
Lemma path_dec (a b : path) : {a = b} + {a <> b}.
Proof. destruct (path_eqb a b) eqn:E; [left; apply path_eqb_spec|right; apply path_eqb_neq]; auto. Qed.

Lemma parent_entry dir name : parent (entry dir name) = dir.
Proof. destruct dir. unfold parent, entry. simpl. rewrite removelast_last. auto. Qed.
Lemma entry_nonroot dir name : snd (entry dir name) <> [].
Proof. unfold entry. simpl. destruct (snd dir); discriminate. Qed.
Lemma entry_inj dir a b : entry dir a = entry dir b -> a = b.
Proof. unfold entry. intros E. inversion E as [E1]. apply app_inj_tail in E1. tauto. Qed.
Lemma entry_of_parent p : snd p <> [] -> p = entry (parent p) (last (snd p) ""%string).
Proof. destruct p as [a l]. unfold entry, parent. simpl. intros H. rewrite <- app_removelast_last; auto. Qed.
Lemma parent_neq p : snd p <> [] -> parent p <> p.
Proof.
  intros H E. assert (length (snd (parent p)) = length (snd p)) as L by (rewrite E; auto).
  rewrite (entry_of_parent p H) in L at 2. unfold entry in L. cbn [snd] in L. rewrite app_length in L.
  simpl length in L. lia.
Qed.

Lemma to_path_file_name s : file_name s -> to_path s = (false, [s]).
Proof.
  intros [H1 [H2 [_ H3]]]. unfold to_path. rewrite split_on_none by auto.
  simpl map. rewrite string_of_list_ascii_of_string. simpl filter.
  apply String.eqb_neq in H1, H2. rewrite H1, H2. simpl.
  destruct (list_ascii_of_string s) as [|c r]; auto.
  destruct (Ascii.eqb c slash) eqn:E; auto. apply Ascii.eqb_eq in E. exfalso. apply H3. left; auto.
Qed.
Lemma join_file_name dir s : file_name s -> path_join dir (to_path s) = entry dir s.
Proof. intros H. rewrite to_path_file_name by auto. reflexivity. Qed.

(** ** The disk *)

Lemma disk_find_put k p n q :
  disk_find (disk_put k p n) q = if path_eqb q p then Some n else disk_find k q.
Proof.
  induction k as [|[r m] k IH]; simpl; auto.
  destruct (path_eqb p r) eqn:E.
  - apply path_eqb_spec in E. subst r. simpl. destruct (path_eqb q p); auto.
  - simpl. rewrite IH. destruct (path_eqb q r) eqn:E2; auto.
    apply path_eqb_spec in E2. subst r.
    destruct (path_eqb q p) eqn:E3; auto. apply path_eqb_spec in E3. subst q.
    rewrite path_eqb_refl in E. discriminate.
Qed.
Lemma stat_put k p n q : snd p <> [] ->
  stat (disk_put k p n) q = if path_eqb q p then Some n else stat k q.
Proof.
  intros H. unfold stat. rewrite disk_find_put. destruct (snd q) eqn:E; auto.
  destruct (path_eqb q p) eqn:E2; auto. apply path_eqb_spec in E2. subst q. contradiction.
Qed.
Lemma stat_put_eq k p n : snd p <> [] -> stat (disk_put k p n) p = Some n.
Proof. intros H. rewrite stat_put, path_eqb_refl; auto. Qed.
Lemma stat_put_neq k p n q : snd p <> [] -> q <> p -> stat (disk_put k p n) q = stat k q.
Proof. intros H N. rewrite stat_put by auto. apply path_eqb_neq in N. rewrite N; auto. Qed.

Lemma disk_put_keys k p n q : In q (map fst (disk_put k p n)) <-> In q (map fst k) \/ q = p.
Proof.
  induction k as [|[r m] k IH]; simpl; [intuition congruence|].
  destruct (path_eqb p r) eqn:E.
  - apply path_eqb_spec in E. subst r. simpl. intuition congruence.
  - simpl. rewrite IH. tauto.
Qed.
Lemma disk_put_nodup k p n : NoDup (map fst k) -> NoDup (map fst (disk_put k p n)).
Proof.
  induction k as [|[r m] k IH]; simpl; intros H; [repeat constructor; auto|].
  inversion H as [|? ? H1 H2]; subst.
  destruct (path_eqb p r) eqn:E; simpl; constructor; auto.
  rewrite disk_put_keys. apply path_eqb_neq in E. intros [I|I]; congruence.
Qed.
Lemma disk_find_in k p n : NoDup (map fst k) -> (disk_find k p = Some n <-> In (p, n) k).
Proof.
  induction k as [|[r m] k IH]; simpl; intros H; [split; [discriminate|tauto]|].
  inversion H as [|? ? H1 H2]; subst.
  destruct (path_eqb p r) eqn:E.
  - apply path_eqb_spec in E. subst r. split.
    + intros X; inversion X; auto.
    + intros [X|X]; [inversion X; auto|]. exfalso. apply H1. apply in_map_iff. exists (p, n). auto.
  - apply path_eqb_neq in E. rewrite IH by auto. split; [auto|].
    intros [X|X]; [inversion X; congruence|auto].
Qed.
Lemma disk_find_none k p : disk_find k p = None <-> ~ In p (map fst k).
Proof.
  induction k as [|[r m] k IH]; simpl; [tauto|].
  destruct (path_eqb p r) eqn:E.
  - apply path_eqb_spec in E. subst r. split; [discriminate|]. intros H; exfalso; auto.
  - apply path_eqb_neq in E. rewrite IH. intuition congruence.
Qed.

Lemma disk_put_in k p n q m : In (q, m) (disk_put k p n) -> In (q, m) k \/ (q = p).
Proof.
  induction k as [|[r x] k IH]; simpl.
  - intros [E|[]]. inversion E; auto.
  - destruct (path_eqb p r) eqn:E.
    + apply path_eqb_spec in E. subst r. intros [X|X]; [inversion X; auto|auto].
    + intros [X|X]; [auto|]. destruct (IH X); auto.
Qed.

Lemma disk_ok_put k p n : disk_ok k -> snd p <> [] -> stat k (parent p) = Some Dir ->
  (n = Dir \/ stat k p <> Some Dir) -> disk_ok (disk_put k p n).
Proof.
  intros [H1 [H2 H3]] Hp Hpar Hn. split; [apply disk_put_nodup; auto|]. split.
  - intros q m I. apply disk_put_in in I. destruct I as [I|E0]; [eauto|subst q; auto].
  - intros q Hq. destruct (path_dec q p) as [->|N].
    + rewrite stat_put_neq; auto. apply parent_neq; auto.
    + rewrite stat_put_neq in Hq by auto. specialize (H3 q Hq).
      destruct (path_dec (parent q) p) as [E|N2].
      * rewrite E in *. rewrite stat_put_eq by auto. destruct Hn as [->|Hn]; [auto|contradiction].
      * rewrite stat_put_neq; auto.
Qed.

Definition op_path (o : op) : path :=
  match o with MkDir p => p | Truncate p => p | Append p _ => p end.

Lemma stat_root k p : snd p = [] -> stat k p = Some Dir.
Proof. intros H. unfold stat. rewrite H. auto. Qed.
Lemma stat_nonroot k p n : stat k p = Some (File n) -> snd p <> [].
Proof. intros H E. rewrite stat_root in H by auto. discriminate. Qed.

Lemma run_op_ok k o k' : disk_ok k -> run_op k o = Ok k' ->
  disk_ok k' /\ forall q, q <> op_path o -> stat k' q = stat k q.
Proof.
  intros Hk. destruct o as [p|p|p c]; simpl.
  - destruct (stat k (parent p)) as [[|]|] eqn:E1; try discriminate.
    destruct (stat k p) as [[|]|] eqn:E2; try discriminate; intros E; inversion E; subst.
    + auto.
    + assert (snd p <> []) by (intros X; rewrite stat_root in E2 by auto; discriminate).
      split; [apply disk_ok_put; auto|]. intros q N. apply stat_put_neq; auto.
  - destruct (stat k (parent p)) as [[|]|] eqn:E1; try discriminate.
    assert (stat k p = Some Dir \/ stat k p <> Some Dir) as [E2|E2]
      by (destruct (stat k p) as [[|]|]; auto; right; discriminate).
    { rewrite E2. discriminate. }
    assert (snd p <> []) by (intros X; rewrite stat_root in E2 by auto; contradiction).
    assert (Ok (disk_put k p (File [])) = Ok k' -> disk_ok k' /\ (forall q, q <> p -> stat k' q = stat k q)) as G.
    { intros E; inversion E; subst.
      split; [apply disk_ok_put; auto|]. intros q N. apply stat_put_neq; auto. }
    destruct (stat k p) as [[|]|]; auto. discriminate.
  - destruct (stat k p) as [[|t]|] eqn:E2; try discriminate. intros E; inversion E; subst.
    pose proof (stat_nonroot _ _ _ E2) as Hp.
    split.
    + apply disk_ok_put; auto; [|right; rewrite E2; discriminate].
      destruct Hk as [_ [_ H3]]. apply H3. rewrite E2. discriminate.
    + intros q N. apply stat_put_neq; auto.
Qed.

Lemma run_ops_frame os : forall k r k', disk_ok k -> run_ops k os = (r, k') ->
  disk_ok k' /\ forall q, (forall o, In o os -> op_path o <> q) -> stat k' q = stat k q.
Proof.
  induction os as [|o os IH]; intros k r k' Hk; simpl.
  - intros E; inversion E; subst. auto.
  - destruct (run_op k o) as [k1|e] eqn:E1.
    + intros E. destruct (run_op_ok _ _ _ Hk E1) as [Hk1 F1].
      destruct (IH _ _ _ Hk1 E) as [Hk' F]. split; auto.
      intros q Hq. rewrite F by auto. apply F1. intros X; apply (Hq o); auto.
    + intros E; inversion E; subst. auto.
Qed.

Lemma run_ops_app os1 os2 k k1 : run_ops k os1 = (Ok tt, k1) -> run_ops k (os1 ++ os2) = run_ops k1 os2.
Proof.
  revert k. induction os1 as [|o os IH]; intros k; simpl.
  - intros E; inversion E; auto.
  - destruct (run_op k o); [apply IH|discriminate].
Qed.

(** ** Directories *)

Definition prefix (dir : path) (n : nat) : path := (fst dir, firstn n (snd dir)).

Lemma prefix_all dir : prefix dir (length (snd dir)) = dir.
Proof. destruct dir. unfold prefix. simpl. rewrite firstn_all. auto. Qed.
Lemma removelast_firstn_lt {A} n (l : list A) : (n < length l)%nat -> removelast (firstn (S n) l) = firstn n l.
Proof. intros. apply removelast_firstn; auto. Qed.
Lemma parent_prefix dir n : (n < length (snd dir))%nat -> parent (prefix dir (S n)) = prefix dir n.
Proof. intros H. unfold parent, prefix. cbn [fst snd]. rewrite removelast_firstn_lt; auto. Qed.
Lemma prefix_nonroot dir n : (1 <= n <= length (snd dir))%nat -> snd (prefix dir n) <> [].
Proof.
  intros H. unfold prefix. simpl. destruct n; [lia|]. destruct (snd dir); simpl in *; [lia|discriminate].
Qed.
Lemma prefix_inj dir n m : (n <= length (snd dir))%nat -> (m <= length (snd dir))%nat ->
  prefix dir n = prefix dir m -> n = m.
Proof.
  intros Hn Hm E. unfold prefix in E. inversion E as [E1].
  apply (f_equal (@length string)) in E1. rewrite !firstn_length in E1. lia.
Qed.

Lemma on_the_way_prefix dir p : on_the_way dir p <->
  exists n, (1 <= n <= length (snd dir))%nat /\ p = prefix dir n.
Proof.
  unfold on_the_way, within, prefix. split.
  - intros [H [rest E]]. exists (length (snd p)). rewrite E. simpl.
    rewrite app_length, firstn_app, firstn_all, Nat.sub_diag, firstn_O, app_nil_r.
    split; [|destruct p; auto]. destruct (snd p); [contradiction|simpl; lia].
  - intros [n [H ->]]. split; [apply prefix_nonroot; auto|].
    exists (skipn n (snd dir)). simpl. rewrite firstn_skipn. destruct dir; auto.
Qed.

Lemma mkdir_upto k dir m : disk_ok k -> (m <= length (snd dir))%nat -> no_file_on_the_way k dir ->
  exists k', run_ops k (map (fun n => MkDir (fst dir, firstn n (snd dir))) (seq 1 m)) = (Ok tt, k') /\
    disk_ok k' /\ (forall n, (n <= m)%nat -> stat k' (prefix dir n) = Some Dir) /\
    (forall p, (forall n, (1 <= n <= m)%nat -> p <> prefix dir n) -> stat k' p = stat k p).
Proof.
  intros Hk Hm HF. induction m as [|m IH].
  - exists k. split; auto. split; auto. split.
    + intros n Hn. apply stat_root. replace n with O by lia. auto.
    + auto.
  - destruct IH as [k1 [R [Hk1 [D1 F1]]]]; [lia|].
    rewrite seq_S, map_app. rewrite (run_ops_app _ _ _ _ R). cbn [map run_ops run_op Nat.add].
    change (fst dir, firstn (S m) (snd dir)) with (prefix dir (S m)).
    rewrite parent_prefix by lia. rewrite (D1 m) by lia.
    assert (forall n, (1 <= n <= m)%nat -> prefix dir (S m) <> prefix dir n) as Hdif.
    { intros n Hn E. apply prefix_inj in E; lia. }
    rewrite (F1 (prefix dir (S m)) Hdif).
    assert (on_the_way dir (prefix dir (S m))) as OW.
    { apply on_the_way_prefix. exists (S m). split; [lia|auto]. }
    destruct (stat k (prefix dir (S m))) as [[|c]|] eqn:E.
    + exists k1. split; auto. split; auto. split.
      * intros n Hn. destruct (Nat.eq_dec n (S m)) as [->|]; [|apply D1; lia].
        rewrite F1; auto.
      * intros p Hp. apply F1. intros n Hn. apply Hp. lia.
    + exfalso. eapply HF; eauto.
    + assert (snd (prefix dir (S m)) <> []) as NR by (apply prefix_nonroot; lia).
      exists (disk_put k1 (prefix dir (S m)) Dir). split; auto. split.
      { apply disk_ok_put; auto. rewrite parent_prefix by lia. apply D1; lia. }
      split.
      * intros n Hn. destruct (Nat.eq_dec n (S m)) as [->|]; [apply stat_put_eq; auto|].
        rewrite stat_put_neq; auto; [apply D1; lia|]. intros X. apply prefix_inj in X; lia.
      * intros p Hp. rewrite stat_put_neq; [|auto|apply Hp; lia]. apply F1. intros n Hn. apply Hp. lia.
Qed.

Lemma mkdir_ok k dir : disk_ok k -> no_file_on_the_way k dir ->
  exists k', run_ops k (mkdir_ops dir) = (Ok tt, k') /\
    disk_ok k' /\ stat k' dir = Some Dir /\
    (forall p, on_the_way dir p -> stat k' p = Some Dir) /\
    (forall p, ~ on_the_way dir p -> stat k' p = stat k p).
Proof.
  intros Hk HF. destruct (mkdir_upto k dir (length (snd dir)) Hk ltac:(lia) HF) as [k' [R [Hk' [D F]]]].
  exists k'. split; auto. split; auto. split; [|split].
  - rewrite <- (prefix_all dir). apply D. lia.
  - intros p H. apply on_the_way_prefix in H. destruct H as [n [Hn ->]]. apply D; lia.
  - intros p H. apply F. intros n Hn ->. apply H. apply on_the_way_prefix. eauto.
Qed.

Lemma mkdir_ops_paths dir o : In o (mkdir_ops dir) -> on_the_way dir (op_path o).
Proof.
  unfold mkdir_ops. intros H. apply in_map_iff in H. destruct H as [n [<- H]]. apply in_seq in H.
  apply on_the_way_prefix. exists n. split; [lia|auto].
Qed.

(** ** Writing files *)

Lemma append_all k p t c : disk_ok k -> stat k p = Some (File t) ->
  exists k', run_ops k (map (Append p) c) = (Ok tt, k') /\ disk_ok k' /\
    stat k' p = Some (File (t ++ c)) /\ (forall q, q <> p -> stat k' q = stat k q).
Proof.
  revert k t. induction c as [|x c IH]; intros k t Hk E; simpl.
  - exists k. rewrite app_nil_r. auto.
  - rewrite E. pose proof (stat_nonroot _ _ _ E) as NR.
    assert (run_op k (Append p x) = Ok (disk_put k p (File (t ++ [x])))) as R.
    { simpl. rewrite E. auto. }
    destruct (run_op_ok _ _ _ Hk R) as [Hk1 F1].
    destruct (IH _ (t ++ [x]) Hk1 (stat_put_eq _ _ _ NR)) as [k' [R' [Hk' [E' F']]]].
    exists k'. split; auto. split; auto. split.
    + rewrite E', <- app_assoc. auto.
    + intros q N. rewrite F', F1; auto.
Qed.

Lemma write_file_ok k p c : disk_ok k -> snd p <> [] -> stat k (parent p) = Some Dir ->
  stat k p <> Some Dir ->
  exists k', run_ops k (write_file_ops p c) = (Ok tt, k') /\ disk_ok k' /\
    stat k' p = Some (File c) /\ (forall q, q <> p -> stat k' q = stat k q).
Proof.
  intros Hk NR Hp Hd. unfold write_file_ops.
  assert (run_op k (Truncate p) = Ok (disk_put k p (File []))) as R.
  { simpl. rewrite Hp. destruct (stat k p) as [[|]|]; auto. contradiction. }
  destruct (run_op_ok _ _ _ Hk R) as [Hk1 F1].
  destruct (append_all _ p [] c Hk1 (stat_put_eq _ _ _ NR)) as [k' [R' [Hk' [E' F']]]].
  exists k'. cbn [run_ops]. rewrite R. split; auto. split; auto. split; auto.
  intros q N. rewrite F', F1; auto.
Qed.

(** ** Writing a data set *)

Lemma entry_not_on_the_way dir name : ~ on_the_way dir (entry dir name).
Proof.
  intros [_ [rest E]]. unfold entry in E. destruct dir as [a l]. simpl in E. inversion E as [E1].
  apply (f_equal (@length string)) in E1. rewrite !app_length in E1. simpl in E1. lia.
Qed.

Lemma write_pubs_ok F dir pubs : forall k,
  disk_ok k -> stat k dir = Some Dir ->
  Forall (fun p => file_name (pd_name p)) pubs -> NoDup (map pd_name pubs) ->
  (forall p, In p pubs -> stat k (entry dir (pd_name p)) <> Some Dir) ->
  exists k', run_ops k (flat_map (fun pdf => write_file_ops (path_join dir (to_path (pd_name pdf)))
                                     (write_publisher_data F pdf)) pubs) = (Ok tt, k') /\
    disk_ok k' /\
    (forall p, In p pubs -> stat k' (entry dir (pd_name p)) = Some (File (write_publisher_data F p))) /\
    (forall q, (forall p, In p pubs -> q <> entry dir (pd_name p)) -> stat k' q = stat k q).
Proof.
  induction pubs as [|p pubs IH]; intros k Hk Hdir HN ND HD.
  - exists k. simpl. split; auto. split; auto. split; [intros ? []|auto].
  - inversion HN as [|? ? HN1 HN2]; subst. inversion ND as [|? ? ND1 ND2]; subst.
    cbn [flat_map]. rewrite join_file_name by auto.
    destruct (write_file_ok k (entry dir (pd_name p)) (write_publisher_data F p) Hk)
      as [k1 [R1 [Hk1 [E1 F1]]]].
    { apply entry_nonroot. }
    { rewrite parent_entry. auto. }
    { apply HD. left; auto. }
    assert (forall q, In q pubs -> entry dir (pd_name q) <> entry dir (pd_name p)) as Hdif.
    { intros q Hq X. apply entry_inj in X. apply ND1. rewrite <- X. apply in_map; auto. }
    destruct (IH k1 Hk1) as [k2 [R2 [Hk2 [E2 F2]]]]; auto.
    { rewrite F1; auto. intros X. symmetry in X.
      apply (f_equal (fun z => length (snd z))) in X. unfold entry in X. cbn [snd] in X.
      rewrite app_length in X. simpl in X. lia. }
    { intros q Hq. rewrite F1 by auto. apply HD. right; auto. }
    exists k2. rewrite (run_ops_app _ _ _ _ R1). split; auto. split; auto. split.
    + intros q [<-|Hq]; [|auto]. rewrite F2, E1; auto.
      intros r Hr X. apply (Hdif r Hr). auto.
    + intros q Hq. rewrite F2 by (intros r Hr; apply Hq; right; auto).
      apply F1. apply Hq. left; auto.
Qed.

Lemma write_ops_ok F dir d k :
  disk_ok k -> no_file_on_the_way k dir ->
  Forall (fun p => file_name (pd_name p)) (ds_data d) -> NoDup (map pd_name (ds_data d)) ->
  (forall p, In p (ds_data d) -> stat k (entry dir (pd_name p)) <> Some Dir) ->
  exists k', run_ops k (write_ops F dir d) = (Ok tt, k') /\ disk_ok k' /\
    stat k' dir = Some Dir /\
    (forall p, In p (ds_data d) ->
       stat k' (entry dir (pd_name p)) = Some (File (write_publisher_data F p))) /\
    (forall q, on_the_way dir q -> stat k' q = Some Dir) /\
    (forall q, (forall p, In p (ds_data d) -> q <> entry dir (pd_name p)) -> ~ on_the_way dir q ->
       stat k' q = stat k q).
Proof.
  intros Hk HF HN ND HD. destruct (mkdir_ok k dir Hk HF) as [k1 [R1 [Hk1 [D1 [W1 F1]]]]].
  destruct (write_pubs_ok F dir (ds_data d) k1 Hk1 D1 HN ND) as [k2 [R2 [Hk2 [E2 F2]]]].
  { intros p Hp. rewrite F1; auto. apply entry_not_on_the_way. }
  exists k2. unfold write_ops. rewrite (run_ops_app _ _ _ _ R1). split; auto. split; auto.
  assert (forall q, on_the_way dir q \/ q = dir -> forall p : publisher_data, In p (ds_data d) -> q <> entry dir (pd_name p)) as G.
  { intros q [Hq| ->] p Hp X.
    - subst q. eapply entry_not_on_the_way; eauto.
    - symmetry in X. apply (f_equal (fun z => length (snd z))) in X. unfold entry in X. cbn [snd] in X.
      rewrite app_length in X. simpl in X. lia. }
  split; [|split; [auto|split]].
  - rewrite F2; auto.
  - intros q Hq. rewrite F2; auto.
  - intros q Hq1 Hq2. rewrite F2; auto.
Qed.

(** Every effect of writing a data set is inside its directory, or makes a directory on the
    way to it. *)
Lemma write_ops_paths F dir d o : Forall (fun p => file_name (pd_name p)) (ds_data d) ->
  In o (write_ops F dir d) -> on_the_way dir (op_path o) \/ within dir (op_path o).
Proof.
  intros HN H. unfold write_ops in H. apply in_app_iff in H. destruct H as [H|H].
  - left. apply mkdir_ops_paths; auto.
  - right. apply in_flat_map in H. destruct H as [p [Hp H]].
    rewrite Forall_forall in HN. specialize (HN p Hp). rewrite join_file_name in H by auto.
    exists [pd_name p]. unfold write_file_ops in H. destruct H as [<-|H]; auto.
    apply in_map_iff in H. destruct H as [c [<- _]]. auto.
Qed.

(** ** Order of names *)

Lemma ascii_compare_trans a b c o : Ascii.compare a b = o -> Ascii.compare b c = o -> Ascii.compare a c = o.
Proof.
  unfold Ascii.compare. destruct o.
  - rewrite !N.compare_eq_iff. congruence.
  - rewrite !N.compare_lt_iff. lia.
  - rewrite !N.compare_gt_iff. lia.
Qed.
Lemma ascii_compare_eq a b : Ascii.compare a b = Eq <-> a = b.
Proof.
  unfold Ascii.compare. rewrite N.compare_eq_iff. split; [|congruence].
  intros E. rewrite <- (ascii_N_embedding a), <- (ascii_N_embedding b), E. auto.
Qed.
Lemma string_lt_trans a : forall b c, String.compare a b = Lt -> String.compare b c = Lt -> String.compare a c = Lt.
Proof.
  induction a as [|x a IH]; intros b c; destruct b as [|y b], c as [|z c]; simpl; try discriminate; auto.
  destruct (Ascii.compare x y) eqn:E1; try discriminate; destruct (Ascii.compare y z) eqn:E2; try discriminate.
  - apply ascii_compare_eq in E1, E2. subst. assert (Ascii.compare z z = Eq) as -> by (apply ascii_compare_eq; auto). eauto.
  - apply ascii_compare_eq in E1. subst. rewrite E2. auto.
  - apply ascii_compare_eq in E2. subst. rewrite E1. auto.
  - rewrite (ascii_compare_trans _ _ _ _ E1 E2). auto.
Qed.
Lemma ltb_lt a b : String.ltb a b = true <-> String.compare a b = Lt.
Proof. unfold String.ltb. destruct (String.compare a b); split; congruence. Qed.
Lemma string_compare_refl a : String.compare a a = Eq.
Proof.
  induction a as [|x a IH]; simpl; auto.
  assert (Ascii.compare x x = Eq) as -> by (apply ascii_compare_eq; auto). auto.
Qed.
Lemma ltb_irrefl a : String.ltb a a = false.
Proof.
  unfold String.ltb. rewrite string_compare_refl. auto.
Qed.
Lemma ltb_trans a b c : String.ltb a b = true -> String.ltb b c = true -> String.ltb a c = true.
Proof. rewrite !ltb_lt. apply string_lt_trans. Qed.
Lemma leb_ltb a b : String.leb a b = true -> a <> b -> String.ltb a b = true.
Proof.
  unfold String.leb, String.ltb. destruct (String.compare a b) eqn:E; auto.
  apply String.compare_eq_iff in E. contradiction.
Qed.
Lemma leb_false a b : String.leb a b = false -> String.ltb b a = true.
Proof.
  unfold String.leb, String.ltb. rewrite String.compare_antisym.
  destruct (String.compare b a); simpl; congruence.
Qed.
Lemma ltb_leb a b : String.ltb a b = true -> String.leb a b = true.
Proof. unfold String.leb, String.ltb. destruct (String.compare a b); congruence. Qed.
Lemma leb_trans a b c : String.leb a b = true -> String.leb b c = true -> String.leb a c = true.
Proof.
  intros H1 H2. destruct (string_dec a b) as [->|N1]; auto. destruct (string_dec b c) as [->|N2]; auto.
  apply ltb_leb. eapply ltb_trans; apply leb_ltb; eauto.
Qed.
Lemma leb_refl a : String.leb a a = true.
Proof. unfold String.leb. rewrite string_compare_refl. auto. Qed.

Lemma compare_app_l p a b : String.compare (p ++ a)%string (p ++ b)%string = String.compare a b.
Proof.
  induction p as [|c p IH]; simpl; auto.
  assert (Ascii.compare c c = Eq) as -> by (apply ascii_compare_eq; auto). auto.
Qed.
Lemma append_inj_l p a b : (p ++ a)%string = (p ++ b)%string -> a = b.
Proof. induction p as [|c p IH]; simpl; auto. intros E; inversion E; auto. Qed.

Lemma string_app_assoc (a b c : string) : (a ++ (b ++ c))%string = ((a ++ b) ++ c)%string.
Proof. induction a; simpl; congruence. Qed.

Lemma concat_snoc l : exists pre, forall x, String.concat "/" (l ++ [x]) = (pre ++ x)%string.
Proof.
  induction l as [|y l [pre H]].
  - exists ""%string. intros x. auto.
  - exists (y ++ "/" ++ pre)%string. intros x. simpl app.
    assert (String.concat "/" (y :: l ++ [x]) = (y ++ "/" ++ String.concat "/" (l ++ [x]))%string) as ->.
    { destruct (l ++ [x]) eqn:E; [destruct l; discriminate|]. reflexivity. }
    rewrite H, <- !string_app_assoc. auto.
Qed.
Lemma path_str_entry dir : exists pre, forall name, path_str (entry dir name) = (pre ++ name)%string.
Proof.
  destruct dir as [a l]. destruct (concat_snoc l) as [pre H]. unfold path_str, entry. cbn [fst snd].
  destruct a.
  - exists ("/" ++ pre)%string. intros x. rewrite H. auto.
  - exists pre. intros x. rewrite H. destruct l; auto.
Qed.
Lemma path_str_leb dir a b :
  String.leb (path_str (entry dir a)) (path_str (entry dir b)) = String.leb a b.
Proof.
  destruct (path_str_entry dir) as [pre H]. rewrite !H. unfold String.leb. rewrite compare_app_l. auto.
Qed.

Lemma sorted_unique {A} (R : A -> A -> Prop) :
  (forall x, ~ R x x) -> (forall x y z, R x y -> R y z -> R x z) ->
  forall l l', StronglySorted R l -> StronglySorted R l' -> (forall x, In x l <-> In x l') -> l = l'.
Proof.
  intros Irr Tr l. induction l as [|x l IH]; intros l' S1 S2 H.
  - destruct l' as [|y l']; auto. exfalso. apply (proj2 (H y)). left; auto.
  - destruct l' as [|y l']. { exfalso. apply (proj1 (H x)). left; auto. }
    inversion S1 as [|? ? S1' F1]; subst. inversion S2 as [|? ? S2' F2]; subst.
    rewrite Forall_forall in F1, F2.
    assert (x = y) as <-.
    { destruct (proj1 (H x) (or_introl eq_refl)) as [E|I1]; auto.
      destruct (proj2 (H y) (or_introl eq_refl)) as [E|I2]; auto.
      exfalso. apply (Irr x). eapply Tr; [apply F1; eauto|apply F2; auto]. }
    f_equal. apply IH; auto. intros z. split; intros I.
    + destruct (proj1 (H z) (or_intror I)) as [<-|]; auto. exfalso. apply (Irr x). auto.
    + destruct (proj2 (H z) (or_intror I)) as [<-|]; auto. exfalso. apply (Irr x). auto.
Qed.

(** ** Reading a directory *)

Lemma insert_path_perm x l : Permutation (insert_path x l) (x :: l).
Proof.
  induction l as [|y l IH]; simpl; auto. destruct (String.leb _ _); auto.
  rewrite IH. apply perm_swap.
Qed.
Lemma sort_paths_perm l : Permutation (sort_paths l) l.
Proof. induction l as [|x l IH]; simpl; auto. rewrite insert_path_perm, IH. auto. Qed.

Definition str_le (x y : path) : Prop := String.leb (path_str x) (path_str y) = true.
Lemma insert_path_sorted x l : StronglySorted str_le l -> StronglySorted str_le (insert_path x l).
Proof.
  induction 1 as [|y l H IH F]; simpl; [repeat constructor|].
  destruct (String.leb (path_str x) (path_str y)) eqn:E.
  - constructor; [constructor; auto|]. constructor; auto.
    eapply Forall_impl; [|exact F]. intros z Hz. eapply leb_trans; eauto.
  - constructor; auto. rewrite Forall_forall in F |- *. intros z I.
    apply (Permutation_in _ (insert_path_perm x l)) in I. destruct I as [<-|I]; auto.
    apply ltb_leb, leb_false; auto.
Qed.
Lemma sort_paths_sorted l : StronglySorted str_le (sort_paths l).
Proof. induction l; simpl; [constructor|]. apply insert_path_sorted; auto. Qed.

Lemma NoDup_filter_paths (f : path -> bool) l : NoDup l -> NoDup (filter f l).
Proof. apply NoDup_filter. Qed.

Lemma glob_in k dir p : disk_ok k -> stat k dir = Some Dir ->
  (In p (glob k dir) <-> exists name, p = entry dir name /\ stat k p <> None).
Proof.
  intros [H1 [H2 H3]] Hd. unfold glob. rewrite Hd, filter_In. split.
  - intros [I E]. destruct (snd p) eqn:Ep; [discriminate|]. apply path_eqb_spec in E.
    exists (last (snd p) ""%string). split.
    + rewrite <- E. apply entry_of_parent. rewrite Ep. discriminate.
    + unfold stat. rewrite Ep. rewrite disk_find_none. tauto.
  - intros [name [-> Hs]]. split.
    + destruct (in_dec path_dec (entry dir name) (map fst k)) as [I|N]; auto.
      apply disk_find_none in N. unfold stat in Hs. rewrite N in Hs.
      pose proof (entry_nonroot dir name). destruct (snd (entry dir name)); contradiction.
    + rewrite parent_entry, path_eqb_refl. pose proof (entry_nonroot dir name).
      destruct (snd (entry dir name)); [contradiction|auto].
Qed.
Lemma glob_nodup k dir : disk_ok k -> NoDup (glob k dir).
Proof.
  intros [H1 _]. unfold glob. destruct (stat k dir) as [[|]|]; try constructor. apply NoDup_filter; auto.
Qed.

Definition is_file_at (k : disk) (p : path) : bool :=
  match stat k p with Some (File _) => true | _ => false end.

Lemma read_files_filter F k ps : read_files F k ps = read_files F k (filter (is_file_at k) ps).
Proof.
  induction ps as [|p ps IH]; simpl; auto. unfold is_file_at at 1.
  destruct (stat k p) as [[|c]|] eqn:E; auto. simpl. rewrite E. destruct (read_file F p c); auto.
  simpl. rewrite IH. auto.
Qed.

Lemma StronglySorted_filter {A} (R : A -> A -> Prop) f l : StronglySorted R l -> StronglySorted R (filter f l).
Proof.
  induction 1 as [|x l H IH F]; simpl; [constructor|]. destruct (f x); auto. constructor; auto.
  rewrite Forall_forall in *. intros y I. apply filter_In in I. apply F; tauto.
Qed.

Lemma sorted_files k dir l : disk_ok k -> stat k dir = Some Dir -> listing k dir l ->
  filter (is_file_at k) (sort_paths (glob k dir)) = map (fun x => entry dir (fst x)) l.
Proof.
  intros Hk Hd [SL HL].
  set (R := fun x y : path => exists a b, x = entry dir a /\ y = entry dir b /\ String.ltb a b = true).
  apply (sorted_unique R).
  - intros x [a [b [-> [E L]]]]. apply entry_inj in E. subst b. rewrite ltb_irrefl in L. discriminate.
  - intros x y z [a [b [-> [-> L]]]] [b' [c [E [-> L']]]]. apply entry_inj in E. subst b'.
    exists a, c. split; auto. split; auto. eapply ltb_trans; eauto.
  - assert (StronglySorted str_le (filter (is_file_at k) (sort_paths (glob k dir)))) as S1
      by apply StronglySorted_filter, sort_paths_sorted.
    assert (NoDup (filter (is_file_at k) (sort_paths (glob k dir)))) as N1.
    { apply NoDup_filter. eapply Permutation_NoDup; [symmetry; apply sort_paths_perm|]. apply glob_nodup; auto. }
    assert (forall p, In p (filter (is_file_at k) (sort_paths (glob k dir))) -> exists a, p = entry dir a) as I1.
    { intros p I. apply filter_In in I. destruct I as [I _].
      apply (Permutation_in _ (sort_paths_perm _)) in I. apply glob_in in I; auto.
      destruct I as [a [-> _]]. eauto. }
    revert S1 N1 I1. generalize (filter (is_file_at k) (sort_paths (glob k dir))). intros ps S1.
    induction S1 as [|x ps S1 IH FA]; intros N1 I1; [constructor|].
    inversion N1; subst. constructor.
    + apply IH; auto. intros p I; apply I1; right; auto.
    + rewrite Forall_forall in *. intros y I. destruct (I1 x (or_introl eq_refl)) as [a ->].
      destruct (I1 y (or_intror I)) as [b ->]. exists a, b. split; auto. split; auto.
      apply leb_ltb; [|intros ->; contradiction]. specialize (FA _ I). unfold str_le in FA.
      rewrite path_str_leb in FA. auto.
  - clear HL. induction SL as [|[a c] l SL IH FA]; simpl; constructor; auto.
    rewrite Forall_forall in *. intros y I. apply in_map_iff in I. destruct I as [[b c'] [<- I]].
    exists a, b. split; auto. split; auto. apply (FA _ I).
  - intros p. rewrite filter_In. unfold is_file_at. split.
    + intros [I E]. destruct (stat k p) as [[|c]|] eqn:Es; try discriminate.
      apply (Permutation_in _ (sort_paths_perm _)) in I. apply glob_in in I; auto.
      destruct I as [a [-> _]]. apply in_map_iff. exists (a, c). split; auto. apply HL; auto.
    + intros I. apply in_map_iff in I. destruct I as [[a c] [<- I]]. apply HL in I. cbn [fst].
      rewrite I. split; auto. apply (Permutation_in _ (Permutation_sym (sort_paths_perm _))).
      apply glob_in; auto. exists a. split; auto. rewrite I. discriminate.
Qed.

Lemma read_files_listing F k dir l :
  (forall name c, In (name, c) l -> stat k (entry dir name) = Some (File c)) ->
  read_files F k (map (fun x => entry dir (fst x)) l) =
  mapM (fun x => read_file F (entry dir (fst x)) (snd x)) l.
Proof.
  induction l as [|[a c] l IH]; intros H; simpl; auto.
  rewrite (H a c) by (left; auto). rewrite IH; auto. intros; apply H; right; auto.
Qed.

Lemma read_data_set_listing F k dirpath l :
  disk_ok k -> stat k (to_path dirpath) = Some Dir -> listing k (to_path dirpath) l ->
  read_data_set F k dirpath =
  (pubs <- mapM (fun x => read_file F (entry (to_path dirpath) (fst x)) (snd x)) l ;;
   mk_data_set pubs (Some (path_name (to_path dirpath))) None).
Proof.
  intros Hk Hd HL. unfold read_data_set.
  rewrite read_files_filter, (sorted_files k _ l) by auto.
  rewrite read_files_listing; auto. intros name c I. apply (proj2 HL). auto.
Qed.

(** Every directory has a listing. *)
Fixpoint insert_named (x : string * text) (l : list (string * text)) : list (string * text) :=
  match l with
  | [] => [x]
  | y :: r => if String.leb (fst x) (fst y) then x :: y :: r else y :: insert_named x r
  end.
Lemma insert_named_perm x l : Permutation (insert_named x l) (x :: l).
Proof.
  induction l as [|y l IH]; simpl; auto. destruct (String.leb _ _); auto.
  rewrite IH. apply perm_swap.
Qed.
Lemma insert_named_sorted x l :
  StronglySorted (fun x y => String.ltb (fst x) (fst y) = true) l -> ~ In (fst x) (map fst l) ->
  StronglySorted (fun x y => String.ltb (fst x) (fst y) = true) (insert_named x l).
Proof.
  induction 1 as [|y l H IH F]; simpl; intros N; [repeat constructor|].
  destruct (String.leb (fst x) (fst y)) eqn:E.
  - assert (String.ltb (fst x) (fst y) = true) by (apply leb_ltb; auto).
    constructor; [constructor; auto|]. constructor; auto.
    eapply Forall_impl; [|exact F]. intros z Hz. eapply ltb_trans; eauto.
  - constructor; auto. rewrite Forall_forall in F |- *. intros z I.
    apply (Permutation_in _ (insert_named_perm x l)) in I. destruct I as [<-|I]; auto.
    apply leb_false; auto.
Qed.

Lemma sort_named (l : list (string * text)) : NoDup (map fst l) ->
  exists l', Permutation l' l /\ StronglySorted (fun x y => String.ltb (fst x) (fst y) = true) l'.
Proof.
  induction l as [|x l IH]; simpl; intros N.
  - exists []. split; auto. constructor.
  - inversion N as [|? ? N1 N2]; subst. destruct (IH N2) as [l' [P S1]].
    exists (insert_named x l'). split.
    + rewrite insert_named_perm, P. auto.
    + apply insert_named_sorted; auto. intros I. apply N1.
      eapply Permutation_in; [|exact I]. apply Permutation_map; auto.
Qed.

Lemma listing_exists k dir : disk_ok k -> stat k dir = Some Dir -> exists l, listing k dir l.
Proof.
  intros Hk Hd.
  assert (exists l, NoDup (map fst l) /\
    forall name c, In (name, c) l <-> stat k (entry dir name) = Some (File c)) as [l [N H]].
  { exists (flat_map (fun p => match stat k p with Some (File c) => [(last (snd p) ""%string, c)] | _ => [] end)
                     (glob k dir)). split.
    - assert (forall p, In p (glob k dir) -> exists name, p = entry dir name) as G.
      { intros p I. apply glob_in in I; auto. destruct I as [a [-> _]]; eauto. }
      pose proof (glob_nodup k dir Hk) as N. revert G N. generalize (glob k dir). intros ps G N.
      induction ps as [|p ps IH]; simpl; [constructor|]. inversion N as [|? ? N1 N2]; subst.
      assert (NoDup (map fst (flat_map (fun p => match stat k p with Some (File c) => [(last (snd p) ""%string, c)] | _ => [] end) ps))) as IH'.
      { apply IH; auto. intros q I; apply G; right; auto. }
      destruct (stat k p) as [[|c]|]; auto. simpl. constructor; auto.
      intros I. apply in_map_iff in I. destruct I as [[b c'] [E I]]. apply in_flat_map in I.
      destruct I as [q [Iq I]]. destruct (G p (or_introl eq_refl)) as [a ->].
      destruct (G q (or_intror Iq)) as [b' ->].
      destruct (stat k (entry dir b')) as [[|]|]; try (destruct I; fail).
      destruct I as [I|[]]. inversion I; subst. unfold entry in E. cbn [fst snd] in E.
      rewrite !last_last in E. subst. contradiction.
    - intros name c. rewrite in_flat_map. split.
      + intros [p [I J]]. apply glob_in in I; auto. destruct I as [a [-> _]].
        destruct (stat k (entry dir a)) as [[|c']|] eqn:E; try (destruct J; fail).
        destruct J as [J|[]]. inversion J; subst. unfold entry at 1. cbn [snd]. rewrite last_last. auto.
      + intros E. exists (entry dir name). split.
        * apply glob_in; auto. exists name. split; auto. rewrite E. discriminate.
        * rewrite E. unfold entry. cbn [snd]. rewrite last_last. left; auto. }
  destruct (sort_named l N) as [l' [P S1]]. exists l'. split; auto.
  intros name c. rewrite <- H. split; apply Permutation_in; [|symmetry]; auto.
Qed.
