(** A process on its own: the disk with open files and the disk of ModelDriver.v agree. *)
From Coq Require Import String Ascii.
From Verif Require Import Prelude ModelReachPoint ModelAggregator ModelFiles SpecFiles FilesLemmas FilesLemmas2 ModelDriver SpecDriver
  DriverLemmas DriverLemmas2 ModelTogether SpecTogether TogetherLemmas TogetherLemmas3.
Open Scope nat_scope.

Definition same_disk (s : shared) (d : disk) : Prop :=
  (exists homes, length homes = length (sh_files s) /\ forall p i, sh_names s p = Some (Some i) -> nth_error homes i = Some p) /\
  forall q, seen s q = stat d q.

(** Appending goes to the file that was opened last. *)
Inductive orderly {A} : option path -> prog A -> Prop :=
| or_ret o a : orderly o (Ret a)
| or_look o q k : (forall x, orderly o (k x)) -> orderly o (Look q k)
| or_mkdir o q k : (forall x, orderly None (k x)) -> orderly o (Act (Plain (MkDir q)) k)
| or_unlink o q b k : (forall x, orderly None (k x)) -> orderly o (Act (Unlink q b) k)
| or_open o q k : orderly (Some q) (k (Ok tt)) -> (forall e, orderly None (k (Err e))) -> orderly o (Act (Plain (Truncate q)) k)
| or_append q x k : (forall e, orderly (Some q) (k e)) -> orderly (Some q) (Act (Plain (Append q x)) k).

Definition holds (o : option path) (s : shared) (h : option handle) : Prop :=
  match o with
  | None => True
  | Some q => snd q <> [] /\ exists i, h = Some {| h_path := q; h_file := i; h_offset := length (nth i (sh_files s) []) |} /\ sh_names s q = Some (Some i)
  end.

Lemma rename_dir s d p x n : same_disk s d -> snd p <> [] -> (forall i, x <> Some (Some i)) ->
  n = match x with None => None | Some _ => Some Dir end ->
  (forall d', (forall q, stat d' q = if path_eqb q p then n else stat d q) -> same_disk (rename s p x) d').
Proof.
  intros [[homes [H1 H2]] E] R X N d' D. split.
  - exists homes. split; [exact H1|]. intros q i. unfold rename. cbn [sh_names]. destruct (path_eqb q p); [intros Y; contradiction (X i Y)|apply H2].
  - intros q. rewrite D. destruct (path_eqb q p) eqn:P.
    + apply path_eqb_spec in P. subst q. rewrite (seen_at _ _ R), rename_here, N. destruct x as [[i|]|]; [contradiction (X i eq_refl)|reflexivity|reflexivity].
    + apply path_eqb_neq in P. rewrite rename_seen by exact P. apply E.
Qed.

Lemma refill_file s d p i c : same_disk s d -> snd p <> [] -> sh_names s p = Some (Some i) ->
  same_disk (refill s i c) (disk_put d p (File c)) /\ nth i (sh_files (refill s i c)) [] = c.
Proof.
  intros [[homes [H1 H2]] E] R N.
  assert (Li : i < length (sh_files s)) by (rewrite <- H1; apply nth_error_Some; rewrite (H2 _ _ N); discriminate).
  split; [|apply nth_set_same; exact Li]. split.
  - exists homes. split; [cbn [refill sh_files]; rewrite set_length; exact H1|exact H2].
  - intros q. rewrite stat_put by exact R. destruct (path_eqb q p) eqn:P.
    + apply path_eqb_spec in P. subst q. rewrite (seen_at _ _ R). cbn [refill sh_names sh_files]. rewrite N. do 2 f_equal. apply nth_set_same. exact Li.
    + apply path_eqb_neq in P. rewrite <- E. unfold seen. cbn [refill sh_names sh_files]. destruct (snd q); [reflexivity|].
      destruct (sh_names s q) as [[j|]|] eqn:Nq; try reflexivity. do 2 f_equal. apply nth_set_other. intros <-. apply P.
      pose proof (H2 _ _ N). pose proof (H2 _ _ Nq). congruence.
Qed.

Lemma add_file s d p : same_disk s d -> snd p <> [] -> sh_names s p = None ->
  same_disk (rename {| sh_names := sh_names s; sh_files := sh_files s ++ [[]] |} p (Some (Some (length (sh_files s))))) (disk_put d p (File [])).
Proof.
  intros [[homes [H1 H2]] E] R N.
  assert (Old : forall q i, sh_names s q = Some (Some i) -> i < length (sh_files s)).
  { intros q i H. rewrite <- H1. apply nth_error_Some. rewrite (H2 _ _ H). discriminate. }
  split.
  - exists (homes ++ [p]). split; [cbn [rename sh_files]; rewrite !app_length, H1; reflexivity|].
    intros q i. cbn [rename sh_names]. destruct (path_eqb q p) eqn:P.
    + apply path_eqb_spec in P. subst q. intros Y. injection Y as <-. rewrite <- H1, nth_error_app2, Nat.sub_diag by lia. reflexivity.
    + intros Y. rewrite nth_error_app1 by (rewrite H1; exact (Old _ _ Y)). exact (H2 _ _ Y).
  - intros q. rewrite stat_put by exact R. destruct (path_eqb q p) eqn:P.
    + apply path_eqb_spec in P. subst q. rewrite (seen_at _ _ R), rename_here. cbn [rename sh_files]. rewrite app_nth2, Nat.sub_diag by lia. reflexivity.
    + apply path_eqb_neq in P. rewrite rename_seen by exact P. rewrite <- E. unfold seen. cbn [sh_names sh_files]. destruct (snd q); [reflexivity|].
      destruct (sh_names s q) as [[j|]|] eqn:Nq; try reflexivity. do 2 f_equal. apply app_nth1. exact (Old _ _ Nq).
Qed.

Lemma write_at_end c x : write_at c (length c) x = c ++ [x].
Proof. unfold write_at. rewrite firstn_all, Nat.sub_diag, skipn_all2 by lia. reflexivity. Qed.

Lemma nonroot_none d p : stat d p = None -> snd p <> [].
Proof. intros H E. rewrite stat_root in H by exact E. discriminate H. Qed.

(** One step. *)
Lemma same_step {A} s d h o (p : prog A) : same_disk s d -> holds o s h -> orderly o p ->
  exists s' h' o' p' d', shared_step s (h, p) = (s', (h', p')) /\ advance d p = (d', p') /\ same_disk s' d' /\ holds o' s' h' /\ orderly o' p'.
Proof.
  intros S H O. pose proof S as [_ E]. destruct O as [o a|o q k K|o q k K|o q b k K|o q k K1 K2|q x k K]; unfold shared_step; cbn [snd fst advance].
  - exists s, h, o, (Ret a), d. repeat split; try (apply S); auto. constructor.
  - exists s, h, o, (k (seen s q)), d. rewrite E. repeat split; try (apply S); auto.
  - cbn [shared_effect run_effect run_op]. rewrite !E. destruct (stat d (parent q)) as [[|c]|].
    + destruct (stat d q) as [[|c]|] eqn:Q.
      * exists s, h, None, (k (Ok tt)), d. repeat split; try (apply S); auto; apply K.
      * exists s, h, None, (k (Err OtherError)), d. repeat split; try (apply S); auto; apply K.
      * pose proof (nonroot_none _ _ Q) as R. eexists _, h, None, (k (Ok tt)), _. split; [reflexivity|]. split; [reflexivity|].
        split; [|split; [exact I|apply K]]. apply (rename_dir s d q (Some None) (Some Dir) S R); [discriminate|reflexivity|].
        intros q'. apply stat_put. exact R.
    + exists s, h, None, (k (Err OtherError)), d. repeat split; try (apply S); auto; apply K.
    + exists s, h, None, (k (Err FileNotFoundError)), d. repeat split; try (apply S); auto; apply K.
  - cbn [shared_effect run_effect]. rewrite E. destruct (stat d q) as [[|c]|] eqn:Q.
    + exists s, h, None, (k (Err OtherError)), d. repeat split; try (apply S); auto; apply K.
    + pose proof (stat_nonroot _ _ _ Q) as R. eexists _, h, None, (k (Ok tt)), _. split; [reflexivity|]. split; [reflexivity|].
      split; [|split; [exact I|apply K]]. apply (rename_dir s d q None None S R); [discriminate|reflexivity|].
      intros q'. destruct (path_eqb q' q) eqn:P; [apply path_eqb_spec in P; subst q'; apply stat_remove_eq; exact R|].
      apply path_eqb_neq in P. apply stat_remove_neq. exact P.
    + destruct b; eexists s, h, None, _, d; repeat split; try (apply S); auto; apply K.
  - cbn [shared_effect run_effect run_op]. rewrite !E. destruct (stat d (parent q)) as [[|c]|].
    + destruct (stat d q) as [[|c]|] eqn:Q.
      * exists s, h, None, (k (Err OtherError)), d. repeat split; try (apply S); auto.
      * pose proof (stat_nonroot _ _ _ Q) as R. pose proof (E q) as Eq. rewrite Q, (seen_at _ _ R) in Eq.
        destruct (sh_names s q) as [[i|]|] eqn:N; try discriminate Eq.
        destruct (refill_file s d q i [] S R N) as [X1 X2].
        eexists _, _, (Some q), (k (Ok tt)), _. split; [reflexivity|]. split; [reflexivity|]. split; [exact X1|]. split; [|exact K1].
        split; [exact R|]. exists i. rewrite X2. auto.
      * pose proof (nonroot_none _ _ Q) as R. pose proof (E q) as Eq. rewrite Q in Eq. apply seen_none in Eq; [|exact R]. rewrite Eq.
        eexists _, _, (Some q), (k (Ok tt)), _. split; [reflexivity|]. split; [reflexivity|]. split; [exact (add_file s d q S R Eq)|]. split; [|exact K1].
        split; [exact R|]. exists (length (sh_files s)). cbn [rename sh_files]. rewrite app_nth2, Nat.sub_diag by lia. split; [reflexivity|]. apply rename_here.
    + exists s, h, None, (k (Err OtherError)), d. repeat split; try (apply S); auto.
    + exists s, h, None, (k (Err FileNotFoundError)), d. repeat split; try (apply S); auto.
  - destruct H as [R [i [-> N]]]. cbn [shared_effect run_effect run_op h_path h_file h_offset]. rewrite path_eqb_refl.
    pose proof (E q) as Eq. rewrite (seen_at _ _ R), N in Eq. rewrite <- Eq, write_at_end.
    destruct (refill_file s d q i (nth i (sh_files s) [] ++ [x]) S R N) as [X1 X2].
    eexists _, _, (Some q), (k (Ok tt)), _. split; [reflexivity|]. split; [reflexivity|]. split; [exact X1|]. split; [|apply K].
    split; [exact R|]. exists i. rewrite X2, app_length. cbn [length]. rewrite Nat.add_1_r. auto.
Qed.

Lemma same_run {A} n : forall s d h o (p : prog A), same_disk s d -> holds o s h -> orderly o p ->
  exists s' h' p' d', shared_run (repeat 0 n) s [(h, p)] = (s', [(h', p')]) /\ advances n d p = (d', p') /\ same_disk s' d'.
Proof.
  induction n as [|n IH]; intros s d h o p S H O; cbn [repeat shared_run advances].
  - exists s, h, p, d. auto.
  - cbn [nth_error]. destruct (same_step s d h o p S H O) as [s1 [h1 [o1 [p1 [d1 [E1 [E2 [S1 [H1 O1]]]]]]]]].
    rewrite E1, E2. cbn [set_nth]. exact (IH _ _ _ _ _ S1 H1 O1).
Qed.

(** ** The programs of the trials are orderly *)

Lemma orderly_weaken {A} (p : prog A) : orderly None p -> forall o, orderly o p.
Proof.
  induction p as [a|q k IH|e k IH]; intros H o.
  - constructor.
  - inversion H; subst. constructor. intros x. apply IH; auto.
  - inversion H; subst; constructor; auto.
Qed.
Lemma orderly_appends {A} p c tl (k : result unit -> prog A) : orderly (Some p) (acts tl k) -> (forall e, orderly (Some p) (k (Err e))) ->
  orderly (Some p) (acts (map (fun x => Plain (Append p x)) c ++ tl) k).
Proof.
  intros H K. induction c as [|x c IH]; cbn [map app acts]; [exact H|]. constructor. intros [u|e]; [exact IH|apply K].
Qed.
Lemma orderly_save {A} p c tl (k : result unit -> prog A) : orderly None (acts tl k) -> (forall e, orderly None (k (Err e))) ->
  orderly None (acts (save p c ++ tl) k).
Proof.
  intros H K. unfold save, mkdir_ops, write_file_ops. rewrite map_app, !map_map, <- app_assoc.
  induction (seq 1 (length (snd (parent p)))) as [|n l IH]; cbn [map app acts].
  - constructor; [|exact K]. rewrite map_map. apply orderly_appends; [apply orderly_weaken; exact H|]. intros e. apply orderly_weaken. apply K.
  - constructor. intros [u|e]; [exact IH|apply K].
Qed.
Lemma orderly_evaluate L t seed now g : orderly None (evaluate L t seed now g).
Proof.
  assert (R : orderly None (recompute L t seed now g)).
  { unfold recompute. rewrite <- (app_nil_r (save _ _)). apply orderly_save; [|constructor]. cbn [acts].
    destruct (compute_row L t seed g) as [[row|e] g']; [|constructor]. apply orderly_save; [|constructor]. cbn [acts].
    constructor. intros [u|e]; constructor. }
  unfold evaluate. constructor. intros [[|c]|]; [exact R| |exact R]. constructor. intros x.
  destruct (match x with Some (File c) => lab_parse L c | Some Dir => Err OtherError | None => Err FileNotFoundError end); [constructor|].
  constructor. intros [u|y]; [exact R|constructor].
Qed.
Lemma share_same d : same_disk (share d) d.
Proof.
  split; [|apply share_seen]. exists (map fst d). split; [cbn [share sh_files]; rewrite !map_length; reflexivity|]. intros p i E. cbn [share sh_names] in E.
  pose proof (numbered_find d 0 p) as F. rewrite E in F. destruct F as [_ [c [X _]]]. rewrite Nat.sub_0_r in X. rewrite nth_error_map, X. reflexivity.
Qed.
