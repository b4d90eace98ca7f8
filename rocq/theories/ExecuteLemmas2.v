(** Writing one more file; disks in the middle of runs. *)
From Coq Require Import String Ascii Permutation Sorted.
From Verif Require Import Prelude ModelReachPoint ModelData ModelHalo ModelAggregator ModelFiles SpecFiles
  FilesLemmas FilesLemmas2 FilesLemmas3 ModelDriver SpecDriver DriverLemmas DriverLemmas2 DriverLemmas3
  DriverLemmas4 DriverLemmas6 DriverLemmas7 DriverLemmas8 ModelExecute SpecExecute ExecuteLemmas.
Open Scope Z_scope.

(** ** Effects one after the other *)

Lemma finish_acts {A} ops (k : result unit -> prog A) : forall d,
  finish (acts (map Plain ops) k) d = finish (k (fst (run_ops d ops))) (snd (run_ops d ops)).
Proof.
  induction ops as [|o ops IH]; intros d; cbn [map acts finish run_ops run_effect]; [reflexivity|].
  destruct (run_op d o) as [d1|e]; [apply IH|reflexivity].
Qed.

Lemma advances_acts {A} ops (k : result unit -> prog A) : forall n d,
  (exists j, fst (advances n d (acts (map Plain ops) k)) = snd (run_ops d (firstn j ops))) \/
  (exists m, advances n d (acts (map Plain ops) k) =
             advances m (snd (run_ops d ops)) (k (fst (run_ops d ops)))).
Proof.
  induction ops as [|o ops IH]; intros n d; cbn [map acts run_ops].
  - right. exists n. reflexivity.
  - destruct n as [|n]; [left; exists O; reflexivity|]. cbn [advances advance run_effect].
    destruct (run_op d o) as [d1|e] eqn:E.
    + destruct (IH n d1) as [[j H]|[m H]].
      * left. exists (S j). cbn [firstn run_ops]. rewrite E. exact H.
      * right. exists m. exact H.
    + right. exists n. reflexivity.
Qed.

(** A file that has been written in part. *)
Lemma part_written d p c j : disk_ok d -> snd p <> [] -> stat d p <> Some Dir ->
  let d' := snd (run_ops d (firstn j (write_file_ops p c))) in
  disk_ok d' /\ (forall q, q <> p -> stat d' q = stat d q) /\
  (stat d' p = stat d p \/ exists c', stat d' p = Some (File c') /\ written_part c' c).
Proof.
  intros K NR ND. destruct j as [|j]; [cbn; auto|]. unfold write_file_ops. cbn [firstn].
  destruct (stat d (parent p)) as [[|x]|] eqn:Ep.
  - rewrite firstn_map. change (Truncate p :: map (Append p) (firstn j c)) with (write_file_ops p (firstn j c)).
    destruct (write_file_ok d p (firstn j c) K NR Ep ND) as [d' [E [K' [S Fr]]]]. rewrite E. cbn [snd].
    split; [exact K'|]. split; [exact Fr|]. right. exists (firstn j c). split; [exact S|].
    exists (skipn j c). symmetry. apply firstn_skipn.
  - cbn [run_ops run_op]. rewrite Ep. cbn. auto.
  - cbn [run_ops run_op]. rewrite Ep. cbn. auto.
Qed.

Section Middle.
Variables (L : lab) (ts : list trial).
Hypothesis sep : separate L ts.

Lemma touches_refl xs d : touches L ts xs d d.
Proof. intros q H. contradiction. Qed.
Lemma touches_trans xs d d1 d2 : touches L ts xs d d1 -> touches L ts xs d1 d2 -> touches L ts xs d d2.
Proof.
  intros H1 H2 q Hq. destruct (node_dec (stat d1 q) (stat d q)) as [E|N].
  - rewrite <- E in *. apply H2. exact Hq.
  - destruct (H1 q N) as [X|[X|[X1 [X2 X3]]]]; [auto|auto|].
    destruct (node_dec (stat d2 q) (stat d1 q)) as [E|N'].
    + right. right. split; [exact X1|]. split; [congruence|exact X3].
    + destruct (H2 q N') as [Y|[Y|[Y _]]]; [auto|auto|congruence].
Qed.
Lemma only_touches xs d d' : only_adds_directories L ts d d' -> touches L ts xs d d'.
Proof. intros H q Hq. destruct (H q Hq) as [X|X]; auto. Qed.
Lemma touches_more xs ys d d' : (forall x, In x xs -> In x ys) -> touches L ts xs d d' -> touches L ts ys d d'.
Proof. intros S H q Hq. destruct (H q Hq) as [X|[X|X]]; auto. Qed.

Variable dr : driver L.

(** One more file. *)
Definition no_trial_file (p : path) : Prop :=
  forall t, In t ts -> p <> out_of L t /\ p <> pending_path L t /\ ~ directory_of L t p.

Lemma usable_but p d d' : no_trial_file p -> usable L ts d -> disk_ok d' ->
  (forall q, q <> p -> stat d' q = stat d q) -> usable L ts d'.
Proof.
  intros N [_ U] K Fr. split; [exact K|]. intros t Ht. destruct (U t Ht) as [U1 [U2 U3]].
  destruct (N t Ht) as [N1 [N2 N3]]. split; [|split].
  - intros q c D. rewrite Fr by (intros ->; contradiction). apply U1. exact D.
  - rewrite Fr by auto. exact U2.
  - rewrite Fr by auto. exact U3.
Qed.

Variables (W : disk) (xs : list path).
Hypothesis places : Forall (place_for L dr ts W) xs.
Hypothesis UW : usable L ts W.
Variables (seed : Z) (g : generators L) (tb0 : table).

(** What may be on the disk after runs that were stopped: results files as in [halfway], and
    the files [xs] as in the beginning or with parts of tables with the rows of [tb0]. *)
Definition fine (d : disk) : Prop :=
  usable L ts d /\ touches L ts xs W d /\
  (forall t, In t ts ->
    stat d (out_of L t) = stat W (out_of L t) \/
    (no_result L t W /\
     (stat d (out_of L t) = None \/
      exists row c, fst (compute_row L t seed g) = Ok row /\
        stat d (out_of L t) = Some (File c) /\ written_part c (lab_print L [row])))) /\
  (forall x, In x xs -> stat d x = stat W x \/
    exists tb c, Permutation tb tb0 /\ stat d x = Some (File c) /\ written_part c (lab_print L tb)).

Lemma fine_start : fine W.
Proof. split; [exact UW|]. split; [apply touches_refl|]. split; auto. Qed.

Lemma xs_place x : In x xs -> place_for L dr ts W x.
Proof. rewrite Forall_forall in places. auto. Qed.
Lemma fine_not_dir d x : fine d -> In x xs -> stat d x <> Some Dir.
Proof.
  intros [_ [_ [_ H]]] Hx. destruct (xs_place x Hx) as [_ [_ [N _]]].
  destruct (H x Hx) as [E|[tb [c [_ [E _]]]]]; congruence.
Qed.

Lemma fine_half d d' : fine d -> halfway L ts seed g d d' -> fine d'.
Proof.
  intros F [U' [O H']]. pose proof F as [U [T [H X]]]. split; [exact U'|].
  split; [eapply touches_trans; [exact T|apply only_touches; exact O]|]. split.
  - intros t Ht. destruct (H' t Ht) as [E|[N Y]].
    + rewrite E. apply H. exact Ht.
    + right. split; [|exact Y]. destruct (H t Ht) as [E|[N' _]]; [|exact N'].
      apply (no_result_stat L t W d E). exact N.
  - intros x Hx. assert (E : stat d' x = stat d x); [|rewrite E; auto].
    destruct (node_dec (stat d' x) (stat d x)) as [E|N]; [exact E|exfalso].
    destruct (xs_place x Hx) as [_ [_ [_ [Nt _]]]].
    destruct (O x N) as [[t [Ht [E|E]]]|[_ [_ [t [Ht D]]]]]; destruct (Nt t Ht) as [N1 [N2 N3]]; auto.
Qed.

Lemma fine_part d x tb j : fine d -> In x xs -> Permutation tb tb0 ->
  fine (snd (run_ops d (firstn j (write_file_ops x (lab_print L tb))))).
Proof.
  intros F Hx Pm. destruct (xs_place x Hx) as [NR [_ [_ [Nt _]]]].
  destruct (part_written d x (lab_print L tb) j (proj1 (proj1 F)) NR (fine_not_dir d x F Hx)) as [K [Fr S]].
  set (d' := snd _) in *. clearbody d'. destruct F as [U [T [H X]]].
  split; [eapply usable_but; eauto|]. split; [|split].
  - eapply touches_trans; [exact T|]. intros q Hq. right. left.
    destruct (path_dec q x) as [->|N]; [exact Hx|]. exfalso. apply Hq. apply Fr. exact N.
  - intros t Ht. rewrite Fr by (destruct (Nt t Ht); auto). apply H. exact Ht.
  - intros y Hy. destruct (path_dec y x) as [->|N]; [|rewrite Fr by auto; auto].
    destruct S as [E|[c [E Wp]]]; [rewrite E; auto|]. right. exists tb, c. auto.
Qed.

Lemma fine_computable d : computable L seed W g ts -> fine d -> computable L seed d g ts.
Proof.
  intros C [_ [_ [H _]]] t Ht. destruct (result_dec L t d) as [[tb R]|N]; [exists tb; left; exact R|].
  destruct (C t Ht) as [tb [R|[_ [row [E ->]]]]].
  - exfalso. destruct (H t Ht) as [X|[X _]]; [|exact (X _ R)]. apply (N tb). apply (has_result_stat L t W d tb X). exact R.
  - exists [row]. right. split; [exact N|]. exists row. auto.
Qed.

Lemma fine_answers d t tb : fine d -> In t ts ->
  reads_back L seed g ts -> refuses_all_parts L seed g ts ->
  answers L seed d g t tb -> answers L seed W g t tb.
Proof.
  intros [_ [_ [H _]]] Ht RB RP A. destruct (H t Ht) as [E|[N X]].
  - destruct A as [R|[N [row [Er ->]]]].
    + left. apply (has_result_stat L t W d tb E). exact R.
    + right. split; [apply (no_result_stat L t W d E); exact N|]. exists row. auto.
  - right. split; [exact N|]. destruct A as [[c [Ec P]]|[_ A]]; [|exact A].
    destruct X as [X|[row [c' [Er [Ec' Wp]]]]]; [congruence|]. assert (c' = c) by congruence. subst c'.
    exists row. split; [exact Er|]. destruct (list_eq_dec Ascii.ascii_dec c (lab_print L [row])) as [->|Ne].
    + rewrite (RB t row Ht Er) in P. congruence.
    + exfalso. exact (RP t row Ht Er c tb Wp Ne P).
Qed.

(** The place for a file is ready once the results are there. *)
Lemma place_ready d x : touches L ts xs W d -> disk_ok d -> In x xs ->
  (forall t, In t ts -> exists c, stat d (out_of L t) = Some (File c)) ->
  stat d (parent x) = Some Dir.
Proof.
  intros T K Hx R. destruct (xs_place x Hx) as [_ [_ [_ [_ [E|[t [Ht D]]]]]]].
  - destruct (node_dec (stat d (parent x)) (stat W (parent x))) as [Y|Y]; [congruence|exfalso].
    destruct (T _ Y) as [[t [Ht [Z|Z]]]|[Z|[Z _]]].
    + destruct (proj2 UW t Ht) as [_ [U2 _]]. congruence.
    + destruct (proj2 UW t Ht) as [_ [_ U3]]. congruence.
    + destruct (xs_place _ Z) as [_ [_ [N _]]]. contradiction.
    + congruence.
  - destruct (R t Ht) as [c Ec]. eapply on_the_way_stat; [exact K| |exact D].
    apply (proj2 (proj2 K)). congruence.
Qed.

(** Nothing in the directory of the data design changes. *)
Lemma data_kept d : apart L dr ts -> touches L ts xs W d ->
  forall q, within (data_dir L dr) q -> stat d q = stat W q.
Proof.
  intros Ap T q Hq. destruct (node_dec (stat d q) (stat W q)) as [E|N]; [exact E|exfalso].
  assert (Up : forall p, within q (parent p) -> within (data_dir L dr) p).
  { intros p [r2 E]. destruct Hq as [r1 ->]. cbn [fst snd] in E. unfold parent in E.
    destruct p as [a s]. cbn [fst snd] in E. injection E as E1 E2. subst a.
    exists (skipn (length (snd (data_dir L dr))) s). f_equal.
    rewrite <- (firstn_skipn (length (snd (data_dir L dr))) s) at 1. f_equal.
    assert (Es : s = removelast s ++ skipn (length (removelast s)) s).
    { destruct s as [|y s] using rev_ind; [reflexivity|]. rewrite removelast_last.
      rewrite skipn_app, skipn_all, Nat.sub_diag. reflexivity. }
    rewrite Es, E2, <- !app_assoc. rewrite firstn_app, Nat.sub_diag, firstn_all. cbn. rewrite app_nil_r. reflexivity. }
  destruct (T q N) as [[t [Ht [-> | ->]]]|[X|[_ [_ [t [Ht [[_ D]|[_ D]]]]]]]].
  - exact (proj1 (Ap t Ht) Hq).
  - exact (proj2 (Ap t Ht) Hq).
  - destruct (xs_place _ X) as [_ [A _]]. exact (A Hq).
  - exact (proj1 (Ap t Ht) (Up _ D)).
  - exact (proj2 (Ap t Ht) (Up _ D)).
Qed.
End Middle.
