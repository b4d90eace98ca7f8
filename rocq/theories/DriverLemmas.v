(** Programs on the disk: what one trial does to it, and what it lets others do meanwhile. *)
From Coq Require Import String Ascii.
From Verif Require Import Prelude ModelFiles SpecFiles FilesLemmas FilesLemmas2 FilesLemmas3 ModelDriver SpecDriver.
Open Scope Z_scope.

(** ** Removing files *)

Lemma disk_find_remove d p q : disk_find (disk_remove d p) q = if path_eqb q p then None else disk_find d q.
Proof.
  induction d as [|[a n] d IH]; cbn [disk_remove disk_find].
  - destruct (path_eqb q p); auto.
  - destruct (path_eqb p a) eqn:E.
    + apply path_eqb_spec in E. subst a. rewrite IH.
      destruct (path_eqb q p); auto.
    + cbn [disk_find]. destruct (path_eqb q a) eqn:E2.
      * apply path_eqb_spec in E2. subst a.
        destruct (path_eqb q p) eqn:E3; auto. apply path_eqb_spec in E3. subst.
        rewrite path_eqb_refl in E. discriminate.
      * apply IH.
Qed.

Lemma stat_remove_eq d p : snd p <> [] -> stat (disk_remove d p) p = None.
Proof.
  intros H. unfold stat. destruct (snd p) eqn:E; [contradiction|].
  rewrite disk_find_remove, path_eqb_refl. reflexivity.
Qed.
Lemma stat_remove_neq d p q : q <> p -> stat (disk_remove d p) q = stat d q.
Proof.
  intros H. unfold stat. destruct (snd q); auto. rewrite disk_find_remove.
  apply path_eqb_neq in H. rewrite H. reflexivity.
Qed.

Lemma disk_remove_in d p q n : In (q, n) (disk_remove d p) -> In (q, n) d.
Proof.
  induction d as [|[a m] d IH]; cbn [disk_remove]; [auto|].
  destruct (path_eqb p a); cbn [In]; intuition.
Qed.
Lemma disk_remove_nodup d p : NoDup (map fst d) -> NoDup (map fst (disk_remove d p)).
Proof.
  induction d as [|[a m] d IH]; cbn [disk_remove map fst]; [auto|].
  intros H. inversion H; subst. destruct (path_eqb p a); [auto|].
  cbn [map fst]. constructor; [|auto]. intros X. apply in_map_iff in X. destruct X as [[b n] [E X]].
  cbn in E. subst b. apply disk_remove_in in X. apply H2. apply in_map_iff. exists (a, n). auto.
Qed.

Lemma disk_ok_remove d p c : disk_ok d -> stat d p = Some (File c) -> disk_ok (disk_remove d p).
Proof.
  intros [H1 [H2 H3]] E. pose proof (stat_nonroot _ _ _ E) as NR. split; [|split].
  - apply disk_remove_nodup; auto.
  - intros q n H. apply disk_remove_in in H. eauto.
  - intros q Hq. destruct (path_dec q p) as [->|N].
    + rewrite stat_remove_eq in Hq by auto. contradiction.
    + rewrite stat_remove_neq in Hq by auto. specialize (H3 q Hq).
      rewrite stat_remove_neq; [auto|]. intros X. rewrite X, E in H3. discriminate.
Qed.

(** ** Rely and guarantee *)

Section Guarantee.
(** The two files of the trial, the places of directories, and what may be in the first file
    after a change. *)
Variables (out pend : path) (place : path -> Prop) (legal : option node -> Prop).

Definition inv (d : disk) : Prop := disk_ok d /\ forall q c, place q -> stat d q <> Some (File c).
Definition keeps_dirs (d d' : disk) : Prop := forall q, stat d q = Some Dir -> stat d' q = Some Dir.
Definition rely (d d' : disk) : Prop :=
  inv d' /\ stat d' out = stat d out /\ stat d' pend = stat d pend /\ keeps_dirs d d'.
Definition guar (d d' : disk) : Prop :=
  inv d' /\ keeps_dirs d d' /\
  (forall q, q <> out -> q <> pend ->
     stat d' q = stat d q \/ (place q /\ stat d q = None /\ stat d' q = Some Dir)) /\
  (stat d' out = stat d out \/ legal (stat d' out)) /\
  (stat d' pend = stat d pend \/ stat d' pend <> Some Dir).

Lemma rely_refl d : inv d -> rely d d.
Proof. intros H. repeat split; try apply H; auto. intros q; auto. Qed.
Lemma rely_trans a b c : rely a b -> rely b c -> rely a c.
Proof.
  intros [A1 [A2 [A3 A4]]] [B1 [B2 [B3 B4]]]. split; [auto|]. split; [congruence|].
  split; [congruence|]. intros q H. auto.
Qed.
Lemma guar_refl d : inv d -> guar d d.
Proof. intros H. split; [auto|]. split; [intros q; auto|]. auto. Qed.
Lemma guar_trans a b c : guar a b -> guar b c -> guar a c.
Proof.
  intros [A1 [A2 [A3 [A4 A5]]]] [B1 [B2 [B3 [B4 B5]]]]. split; [auto|].
  split; [intros q H; auto|]. split; [|split].
  - intros q N1 N2. destruct (A3 q N1 N2) as [E|[P [E1 E2]]]; destruct (B3 q N1 N2) as [E'|[P' [E1' E2']]].
    + left. congruence.
    + right. rewrite <- E. auto.
    + right. split; [auto|]. split; [auto|congruence].
    + congruence.
  - destruct B4 as [->|]; auto.
  - destruct B5 as [->|]; auto.
Qed.

Fixpoint safe {A} (p : prog A) (Post : A -> disk -> Prop) (d : disk) : Prop :=
  match p with
  | Ret a => forall w1, rely d w1 -> Post a w1
  | Look q k => forall w1, rely d w1 -> safe (k (stat w1 q)) Post w1
  | Act e k => forall w1, rely d w1 ->
      match run_effect w1 e with
      | Ok w2 => guar w1 w2 /\ safe (k (Ok tt)) Post w2
      | Err x => safe (k (Err x)) Post w1
      end
  end.

Lemma safe_rely {A} (p : prog A) Post d w1 : safe p Post d -> rely d w1 -> safe p Post w1.
Proof.
  destruct p; cbn [safe]; intros H R w2 R2.
  - apply H. eapply rely_trans; eauto.
  - apply H. eapply rely_trans; eauto.
  - apply H. eapply rely_trans; eauto.
Qed.

Lemma safe_advance {A} (p : prog A) Post d : inv d -> safe p Post d ->
  guar d (fst (advance d p)) /\ safe (snd (advance d p)) Post (fst (advance d p)).
Proof.
  intros I H. destruct p as [a|q k|e k]; cbn [advance].
  - split; [apply guar_refl; auto|exact H].
  - cbn [fst snd]. split; [apply guar_refl; auto|]. apply (H d). apply rely_refl; auto.
  - specialize (H d (rely_refl d I)). destruct (run_effect d e) as [w2|x]; cbn [fst snd].
    + exact H.
    + split; [apply guar_refl; auto|exact H].
Qed.

Lemma safe_advances {A} n : forall (p : prog A) Post d, inv d -> safe p Post d ->
  guar d (fst (advances n d p)) /\ safe (snd (advances n d p)) Post (fst (advances n d p)).
Proof.
  induction n as [|n IH]; intros p Post d I H; cbn [advances].
  - split; [apply guar_refl; auto|exact H].
  - destruct (safe_advance p Post d I H) as [G S]. destruct (advance d p) as [w1 p1]. cbn [fst snd] in *.
    destruct (IH p1 Post w1 (proj1 G) S) as [G2 S2]. split; [|exact S2]. eapply guar_trans; eauto.
Qed.

Lemma safe_finish {A} (p : prog A) Post : forall d, inv d -> safe p Post d ->
  Post (fst (finish p d)) (snd (finish p d)) /\ guar d (snd (finish p d)).
Proof.
  induction p as [a|q k IH|e k IH]; intros d I H; cbn [finish].
  - cbn [fst snd]. split; [apply H; apply rely_refl; auto|apply guar_refl; auto].
  - apply IH; auto. apply (H d). apply rely_refl; auto.
  - specialize (H d (rely_refl d I)). destruct (run_effect d e) as [w2|x].
    + destruct H as [G S]. destruct (IH _ w2 (proj1 G) S) as [P G2]. split; [auto|]. eapply guar_trans; eauto.
    + apply IH; auto.
Qed.

Lemma safe_post {A} (p : prog A) (P P' : A -> disk -> Prop) : forall d,
  (forall a d, P a d -> P' a d) -> safe p P d -> safe p P' d.
Proof.
  induction p as [a|q k IH|e k IH]; intros d HP; cbn [safe]; intros H w1 R; specialize (H w1 R).
  - auto.
  - apply IH; auto.
  - destruct (run_effect w1 e); [|apply IH; auto]. destruct H. split; [auto|]. apply IH; auto.
Qed.

Lemma safe_bind {A B} (p : prog A) (f : A -> prog B) Post : forall d,
  safe p (fun a d' => safe (f a) Post d') d -> inv d -> safe (pbind p f) Post d.
Proof.
  induction p as [a|q k IH|e k IH]; intros d H I; cbn [pbind].
  - apply H. apply rely_refl; auto.
  - cbn [safe] in *. intros w1 R. apply IH; [apply H; auto|apply R].
  - cbn [safe] in *. intros w1 R. specialize (H w1 R). destruct (run_effect w1 e) as [w2|x].
    + destruct H as [G S]. split; [auto|]. apply IH; [auto|apply G].
    + apply IH; [auto|apply R].
Qed.

(** ** The effects of a trial *)

Hypothesis out_nonroot : snd out <> [].
Hypothesis pend_nonroot : snd pend <> [].
Hypothesis different : out <> pend.
Hypothesis out_not_place : ~ place out.
Hypothesis pend_not_place : ~ place pend.

Definition mine (p : path) : Prop := p = out \/ p = pend.
(** Like [rely], but [p] may have changed. *)
Definition but (p : path) (d d' : disk) : Prop :=
  inv d' /\ keeps_dirs d d' /\ forall q, mine q -> q <> p -> stat d' q = stat d q.

Lemma rely_but p d d' : rely d d' -> but p d d'.
Proof. intros [H1 [H2 [H3 H4]]]. split; [auto|]. split; [auto|]. intros q [->| ->]; auto. Qed.
Lemma but_trans p a b c : but p a b -> but p b c -> but p a c.
Proof.
  intros [A1 [A2 A3]] [B1 [B2 B3]]. split; [auto|]. split; [intros q H; auto|].
  intros q M N. rewrite B3, A3; auto.
Qed.

Lemma put_dir d p : inv d -> place p -> snd p <> [] -> stat d (parent p) = Some Dir -> stat d p = None ->
  guar d (disk_put d p Dir) /\ rely d (disk_put d p Dir).
Proof.
  intros [I1 I2] P NR HP E.
  assert (I : inv (disk_put d p Dir)).
  { split; [apply disk_ok_put; auto|]. intros q c Hq. destruct (path_dec q p) as [->|N].
    - rewrite stat_put_eq by auto. discriminate.
    - rewrite stat_put_neq by auto. auto. }
  assert (K : keeps_dirs d (disk_put d p Dir)).
  { intros q H. destruct (path_dec q p) as [->|N]; [congruence|]. rewrite stat_put_neq; auto. }
  assert (O : stat (disk_put d p Dir) out = stat d out)
    by (apply stat_put_neq; [auto|intros X; subst; contradiction]).
  assert (Q : stat (disk_put d p Dir) pend = stat d pend)
    by (apply stat_put_neq; [auto|intros X; subst; contradiction]).
  split.
  - split; [auto|]. split; [auto|]. split; [|auto]. intros q _ _. destruct (path_dec q p) as [->|N].
    + right. rewrite stat_put_eq by auto. auto.
    + left. apply stat_put_neq; auto.
  - split; [auto|]. auto.
Qed.

Lemma safe_mkdir {A} dir rest (k : result unit -> prog A) Post d :
  inv d -> (forall q, on_the_way dir q -> place q) ->
  (forall w1, rely d w1 -> stat w1 dir = Some Dir -> safe (acts rest k) Post w1) ->
  safe (acts (map Plain (mkdir_ops dir) ++ rest) k) Post d.
Proof.
  intros I HP HS. unfold mkdir_ops.
  enough (G : forall r j d, inv d -> (j + r = length (snd dir))%nat -> stat d (prefix dir j) = Some Dir ->
    (forall w1, rely d w1 -> stat w1 dir = Some Dir -> safe (acts rest k) Post w1) ->
    safe (acts (map Plain (map (fun n => MkDir (fst dir, firstn n (snd dir))) (seq (S j) r)) ++ rest) k) Post d).
  { apply (G _ O d I); [reflexivity| |exact HS]. apply stat_root. reflexivity. }
  clear d I HS. intros r. induction r as [|r IH]; intros j d I Hj Hd HS; cbn [seq map app].
  - apply HS; [apply rely_refl; auto|]. rewrite <- Hd. f_equal. rewrite <- (prefix_all dir) at 1. f_equal. lia.
  - cbn [acts safe]. intros w1 R. change (fst dir, firstn (S j) (snd dir)) with (prefix dir (S j)).
    destruct R as [I1 [R2 [R3 R4]]].
    assert (R : rely d w1) by (split; auto).
    assert (NR : snd (prefix dir (S j)) <> []) by (apply prefix_nonroot; lia).
    assert (Pl : place (prefix dir (S j))).
    { apply HP. apply on_the_way_prefix. exists (S j). split; [lia|reflexivity]. }
    cbn [run_effect run_op]. rewrite parent_prefix by lia. rewrite (R4 _ Hd).
    destruct (stat w1 (prefix dir (S j))) as [[|c]|] eqn:E.
    + split; [apply guar_refl; auto|]. apply IH; [auto|lia|auto|].
      intros w2 R2' E2. apply HS; [eapply rely_trans; eauto|auto].
    + exfalso. eapply (proj2 I1); eauto.
    + destruct (put_dir w1 _ I1 Pl NR) as [G R5]; [rewrite parent_prefix by lia; auto|auto|].
      split; [exact G|]. apply IH; [apply R5|lia|rewrite stat_put_eq; auto|].
      intros w2 R2' E2. apply HS; [|auto]. eapply rely_trans; [exact R|]. eapply rely_trans; eauto.
Qed.

Lemma put_file d p c : inv d -> mine p -> stat d (parent p) = Some Dir -> stat d p <> Some Dir ->
  (p = out -> legal (Some (File c))) ->
  guar d (disk_put d p (File c)) /\ but p d (disk_put d p (File c)) /\
  stat (disk_put d p (File c)) p = Some (File c).
Proof.
  intros [I1 I2] M HP ND HL.
  assert (NR : snd p <> []) by (destruct M as [->| ->]; auto).
  assert (NP : ~ place p) by (destruct M as [->| ->]; auto).
  assert (E : stat (disk_put d p (File c)) p = Some (File c)) by (apply stat_put_eq; auto).
  assert (I : inv (disk_put d p (File c))).
  { split; [apply disk_ok_put; auto|]. intros q x Hq. rewrite stat_put_neq; [auto|auto|].
    intros X. subst. contradiction. }
  assert (K : keeps_dirs d (disk_put d p (File c))).
  { intros q H. destruct (path_dec q p) as [->|N]; [contradiction|]. rewrite stat_put_neq; auto. }
  split; [|split; [|exact E]].
  - split; [auto|]. split; [auto|]. split; [|split].
    + intros q N1 N2. left. apply stat_put_neq; [auto|]. destruct M as [->| ->]; auto.
    + destruct (path_dec out p) as [<-|N]; [right; rewrite E; auto|left; apply stat_put_neq; auto].
    + destruct (path_dec pend p) as [<-|N]; [right; rewrite E; discriminate|left; apply stat_put_neq; auto].
  - split; [auto|]. split; [auto|]. intros q _ N. apply stat_put_neq; auto.
Qed.

Lemma parent_dir d p c : disk_ok d -> stat d p = Some (File c) -> stat d (parent p) = Some Dir.
Proof. intros [_ [_ H]] E. apply H. rewrite E. discriminate. Qed.

Lemma rely_mine d d' p : rely d d' -> mine p -> stat d' p = stat d p.
Proof. intros [_ [H1 [H2 _]]] [->| ->]; auto. Qed.

Lemma safe_append {A} p c rest (k : result unit -> prog A) Post : forall t d,
  inv d -> mine p -> stat d p = Some (File t) ->
  (p = out -> forall c', written_part c' (t ++ c) -> legal (Some (File c'))) ->
  (forall w1, but p d w1 -> stat w1 p = Some (File (t ++ c)) -> safe (acts rest k) Post w1) ->
  safe (acts (map Plain (map (Append p) c) ++ rest) k) Post d.
Proof.
  induction c as [|x c IH]; intros t d I M E HL HS; cbn [map app].
  - apply HS; [apply rely_but, rely_refl; auto|]. rewrite app_nil_r. auto.
  - cbn [acts safe]. intros w1 R. pose proof (rely_mine _ _ _ R M) as E1. rewrite E in E1.
    cbn [run_effect run_op]. rewrite E1.
    destruct (put_file w1 p (t ++ [x]) (proj1 R) M) as [G [B E2]].
    { eapply parent_dir; [apply R|eauto]. }
    { rewrite E1. discriminate. }
    { intros ->. apply HL; [auto|]. exists c. rewrite <- app_assoc. reflexivity. }
    split; [exact G|]. apply (IH (t ++ [x])); [apply B|exact M|exact E2| |].
    + intros Hp c' W. apply HL; [auto|]. rewrite <- app_assoc in W. exact W.
    + intros w3 B3 E3. apply HS; [|rewrite <- app_assoc in E3; exact E3].
      eapply but_trans; [apply rely_but; exact R|]. eapply but_trans; eauto.
Qed.

Lemma safe_write {A} p c rest (k : result unit -> prog A) Post d :
  inv d -> mine p -> stat d (parent p) = Some Dir -> stat d p <> Some Dir ->
  (p = out -> forall c', written_part c' c -> legal (Some (File c'))) ->
  (forall w1, but p d w1 -> stat w1 p = Some (File c) -> safe (acts rest k) Post w1) ->
  safe (acts (map Plain (write_file_ops p c) ++ rest) k) Post d.
Proof.
  intros I M HP ND HL HS. unfold write_file_ops. cbn [map app acts safe]. intros w1 R.
  pose proof (rely_mine _ _ _ R M) as E1. destruct R as [R1 [R2 [R3 R4]]].
  assert (R : rely d w1) by (split; auto).
  cbn [run_effect run_op]. rewrite (R4 _ HP).
  assert (N1 : stat w1 p <> Some Dir) by congruence.
  destruct (put_file w1 p [] R1 M (R4 _ HP) N1) as [G [B E2]].
  { intros Hp. apply HL; [auto|]. exists c. reflexivity. }
  assert (E : match stat w1 p with Some Dir => Err OtherError | _ => Ok (disk_put w1 p (File [])) end
              = Ok (disk_put w1 p (File []))).
  { destruct (stat w1 p) as [[|]|]; auto. contradiction. }
  rewrite E. split; [exact G|]. apply (safe_append p c rest k Post []); auto.
  - apply B.
  - intros w3 B3 E3. apply HS; [|exact E3].
    eapply but_trans; [apply rely_but; exact R|]. eapply but_trans; eauto.
Qed.

Lemma remove_mine d p c : inv d -> mine p -> stat d p = Some (File c) ->
  (p = out -> legal None) ->
  guar d (disk_remove d p) /\ but p d (disk_remove d p) /\ stat (disk_remove d p) p = None.
Proof.
  intros [I1 I2] M Ep HL.
  assert (NR : snd p <> []) by (destruct M as [->| ->]; auto).
  assert (E : stat (disk_remove d p) p = None) by (apply stat_remove_eq; auto).
  assert (I : inv (disk_remove d p)).
  { split; [eapply disk_ok_remove; eauto|]. intros q x Hq. destruct (path_dec q p) as [->|N].
    - rewrite E. discriminate.
    - rewrite stat_remove_neq by auto. auto. }
  assert (K : keeps_dirs d (disk_remove d p)).
  { intros q H. rewrite stat_remove_neq; [auto|]. intros X. subst. congruence. }
  split; [|split; [|exact E]].
  - split; [auto|]. split; [auto|]. split; [|split].
    + intros q N1 N2. left. apply stat_remove_neq. destruct M as [->| ->]; auto.
    + destruct (path_dec out p) as [<-|N]; [right; rewrite E; auto|left; apply stat_remove_neq; auto].
    + destruct (path_dec pend p) as [<-|N]; [right; rewrite E; discriminate|left; apply stat_remove_neq; auto].
  - split; [auto|]. split; [auto|]. intros q _ N. apply stat_remove_neq; auto.
Qed.

End Guarantee.
