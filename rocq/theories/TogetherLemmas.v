(** The disk with open files: what single effects do. *)
From Coq Require Import String Ascii.
From Verif Require Import Prelude ModelReachPoint ModelAggregator ModelFiles SpecFiles FilesLemmas FilesLemmas2 ModelDriver SpecDriver
  DriverLemmas2 ModelTogether SpecTogether.
Open Scope nat_scope.

Lemma nth_error_set_same {A} i (x : A) l : i < length l -> nth_error (set_nth i x l) i = Some x.
Proof. revert i. induction l as [|a l IH]; intros [|i] H; cbn [length] in H; cbn [set_nth nth_error]; try lia; [reflexivity|]. apply IH. lia. Qed.
Lemma nth_error_set_other {A} i j (x : A) l : i <> j -> nth_error (set_nth i x l) j = nth_error l j.
Proof. revert i j. induction l as [|a l IH]; intros [|i] [|j] H; cbn [set_nth nth_error]; try reflexivity; [lia|]. apply IH. lia. Qed.
Lemma set_length {A} i (x : A) l : length (set_nth i x l) = length l.
Proof. revert i. induction l as [|a l IH]; intros [|i]; cbn [set_nth length]; auto. Qed.
Lemma nth_set_same {A} i (x d : A) l : i < length l -> nth i (set_nth i x l) d = x.
Proof. intros H. rewrite (nth_error_nth _ _ d (nth_error_set_same i x l H)). reflexivity. Qed.
Lemma nth_set_other {A} i j (x d : A) l : i <> j -> nth j (set_nth i x l) d = nth j l d.
Proof.
  intros H. destruct (nth_error l j) as [y|] eqn:E.
  - rewrite (nth_error_nth _ _ d E). apply nth_error_nth. rewrite nth_error_set_other; assumption.
  - rewrite !nth_overflow; [reflexivity|apply nth_error_None; exact E|]. rewrite set_length. apply nth_error_None. exact E.
Qed.

(** ** Writing *)

Lemma write_at_length c o x : length (write_at c o x) = Nat.max (length c) (S o).
Proof.
  unfold write_at. rewrite !app_length, firstn_length, repeat_length. cbn [length]. rewrite skipn_length. lia.
Qed.
Lemma nth_error_firstn_lt {A} (l : list A) n k : k < n -> nth_error (firstn n l) k = nth_error l k.
Proof. revert n k. induction l as [|a l IH]; intros [|n] [|k] H; cbn [firstn nth_error]; try reflexivity; try lia. apply IH. lia. Qed.
Lemma nth_error_skipn {A} (l : list A) n k : nth_error (skipn n l) k = nth_error l (n + k).
Proof. revert n. induction l as [|a l IH]; intros [|n]; cbn [skipn Nat.add]; try reflexivity; [destruct k; reflexivity|]. apply IH. Qed.
Lemma nth_error_repeat {A} (x y : A) n k : nth_error (repeat x n) k = Some y -> y = x.
Proof. intros H. apply nth_error_In in H. exact (repeat_spec _ _ _ H). Qed.

Lemma write_at_here c o x : nth_error (write_at c o x) o = Some x.
Proof.
  unfold write_at. rewrite app_assoc, nth_error_app2; rewrite app_length, firstn_length, repeat_length; [|lia].
  replace (o - _) with 0 by lia. reflexivity.
Qed.
Lemma write_at_other c o x k : k <> o -> k < length c -> nth_error (write_at c o x) k = nth_error c k.
Proof.
  intros N H. unfold write_at. destruct (Nat.lt_ge_cases k o) as [Lt|Ge].
  - rewrite nth_error_app1 by (rewrite firstn_length; lia). apply nth_error_firstn_lt. exact Lt.
  - replace (o - length c) with 0 by lia. cbn [repeat app]. rewrite nth_error_app2 by (rewrite firstn_length; lia).
    rewrite firstn_length. replace (k - Nat.min o (length c)) with (S (k - S o)) by lia. cbn [nth_error].
    rewrite nth_error_skipn. f_equal. lia.
Qed.
Lemma write_at_gap c o x k y : k <> o -> length c <= k -> nth_error (write_at c o x) k = Some y -> y = zero.
Proof.
  intros N H E. unfold write_at in E. rewrite nth_error_app2 in E by (rewrite firstn_length; lia). rewrite firstn_length in E.
  destruct (Nat.lt_ge_cases k o) as [Lt|Ge].
  - rewrite nth_error_app1 in E by (rewrite repeat_length; lia). exact (nth_error_repeat _ _ _ _ E).
  - rewrite nth_error_app2 in E by (rewrite repeat_length; lia). rewrite repeat_length in E.
    replace (k - _ - _) with (S (k - S o)) in E by lia. cbn [nth_error] in E. rewrite nth_error_skipn in E.
    replace (S o + (k - S o)) with k in E by lia. rewrite (proj2 (nth_error_None c k)) in E by lia. discriminate E.
Qed.
Lemma write_at_patchy c w o x : patchy c w -> nth_error w o = Some x -> patchy (write_at c o x) w.
Proof.
  intros [P1 P2] E. assert (o < length w) by (apply nth_error_Some; congruence). split.
  - rewrite write_at_length. lia.
  - intros k y H1. destruct (Nat.eq_dec k o) as [->|N].
    + rewrite write_at_here in H1. left. congruence.
    + destruct (Nat.lt_ge_cases k (length c)) as [Lt|Ge].
      * rewrite write_at_other in H1 by assumption. exact (P2 _ _ H1).
      * right. exact (write_at_gap _ _ _ _ _ N Ge H1).
Qed.
Lemma patchy_nil w : patchy [] w.
Proof. split; [cbn [length]; lia|]. intros [|k] x H; discriminate H. Qed.
Lemma patchy_whole c w : patchy c w -> (forall k, k < length w -> nth_error c k = nth_error w k) -> c = w.
Proof.
  intros [P _] H. assert (length c = length w).
  { destruct (Nat.lt_ge_cases (length c) (length w)) as [Lt|]; [|lia]. exfalso.
    specialize (H _ Lt). rewrite (proj2 (nth_error_None c (length c))) in H by lia. symmetry in H. apply nth_error_None in H. lia. }
  clear P. revert w H H0. induction c as [|a c IH]; intros [|b w] H E; try discriminate E; [reflexivity|].
  f_equal; [specialize (H 0 ltac:(cbn [length]; lia)); cbn [nth_error] in H; congruence|].
  apply IH; [|cbn [length] in E; lia]. intros k Hk. exact (H (S k) ltac:(cbn [length]; lia)).
Qed.

(** ** Looking *)

Lemma seen_root s p : snd p = [] -> seen s p = Some Dir.
Proof. intros H. unfold seen. rewrite H. reflexivity. Qed.
Lemma seen_at s p : snd p <> [] -> seen s p = match sh_names s p with None => None | Some None => Some Dir
  | Some (Some i) => Some (File (nth i (sh_files s) [])) end.
Proof. intros H. unfold seen. destruct (snd p); [contradiction|reflexivity]. Qed.
Lemma seen_none s p : snd p <> [] -> seen s p = None <-> sh_names s p = None.
Proof. intros H. rewrite (seen_at s p H). destruct (sh_names s p) as [[i|]|]; split; try discriminate; reflexivity. Qed.
Lemma seen_file s p c : snd p <> [] -> seen s p = Some (File c) <-> exists i, sh_names s p = Some (Some i) /\ c = nth i (sh_files s) [].
Proof.
  intros H. rewrite (seen_at s p H). destruct (sh_names s p) as [[i|]|]; split; try discriminate; try (intros [i' [X Y]]; discriminate X).
  - intros E. injection E as <-. eauto.
  - intros [i' [X ->]]. injection X as <-. reflexivity.
Qed.

(** ** Changes at one path *)

Section Struct.
Variables (L : lab) (ts : list trial) (s0 : shared).
Hypothesis Sep : separate L ts.
Notation out := (out_of L). Notation pend := (pending_path L).
Definition file_path (p : path) : Prop := exists t, In t ts /\ (p = out t \/ p = pend t).
Definition dir_path (q : path) : Prop := exists t, In t ts /\ directory_of L t q.

Lemma file_nonroot p : file_path p -> snd p <> [].
Proof. intros [t [H E]]. destruct (sep_trial L ts Sep t H) as [A [B _]]. destruct E as [-> | ->]; assumption. Qed.
Lemma file_not_dir p : file_path p -> ~ dir_path p.
Proof. intros [t [H E]]. destruct (sep_trial L ts Sep t H) as [_ [_ [_ [C D]]]]. destruct E as [-> | ->]; [exact C|exact D]. Qed.

(** [tags] says for every file under which name it was made. *)
Record struct (s : shared) (tags : list path) : Prop := {
  st_length : length tags = length (sh_files s);
  st_tags : forall p i, sh_names s p = Some (Some i) -> nth_error tags i = Some p;
  st_parents : forall p, seen s p <> None -> seen s (parent p) = Some Dir;
  st_dirs : forall q c, dir_path q -> seen s q <> Some (File c);
  st_files : forall p, file_path p -> seen s p <> Some Dir;
  st_adds : adds_only_directories L ts s0 s }.

(** Only the path [p] and the files made under it are different. *)
Record changed (p : path) (s : shared) (tags : list path) (s' : shared) (tags' : list path) : Prop := {
  ch_names : forall q, q <> p -> sh_names s' q = sh_names s q;
  ch_seen : forall q, q <> p -> seen s' q = seen s q;
  ch_files : forall i q, q <> p -> snd q <> [] -> nth_error tags' i = Some q ->
    nth_error tags i = Some q /\ nth i (sh_files s') [] = nth i (sh_files s) [];
  ch_dirs : forall q, seen s q = Some Dir -> seen s' q = Some Dir }.

Lemma changed_same p s tags : changed p s tags s tags.
Proof. constructor; auto. Qed.

Lemma adds_change p s s' : adds_only_directories L ts s0 s -> (forall q, q <> p -> seen s' q = seen s q) ->
  (file_path p \/ (dir_path p /\ seen s p = None /\ seen s' p = Some Dir)) -> adds_only_directories L ts s0 s'.
Proof.
  intros A C P q H. destruct (path_eqb q p) eqn:E.
  - apply path_eqb_spec in E. subst q. destruct P as [F|[D [N X]]]; [left; exact F|].
    right. destruct (seen s0 p) eqn:E0; [|destruct D as [t [D1 D2]]; eauto].
    exfalso. assert (Y : seen s p <> seen s0 p) by congruence. destruct (A p Y) as [F|[Z _]]; [|congruence].
    exact (file_not_dir _ F D).
  - apply path_eqb_neq in E. rewrite C in H |- * by exact E. exact (A q H).
Qed.

Lemma rename_seen s p x q : q <> p -> seen (rename s p x) q = seen s q.
Proof. intros H. unfold seen. cbn [rename sh_names sh_files]. rewrite (proj2 (path_eqb_neq q p) H). reflexivity. Qed.
Lemma rename_names s p x q : q <> p -> sh_names (rename s p x) q = sh_names s q.
Proof. intros H. cbn [rename sh_names]. rewrite (proj2 (path_eqb_neq q p) H). reflexivity. Qed.
Lemma rename_here s p x : sh_names (rename s p x) p = x.
Proof. cbn [rename sh_names]. rewrite path_eqb_refl. reflexivity. Qed.

Lemma make_dir s tags q : struct s tags -> dir_path q -> snd q <> [] -> seen s q = None -> seen s (parent q) = Some Dir ->
  struct (rename s q (Some None)) tags /\ changed q s tags (rename s q (Some None)) tags /\ seen (rename s q (Some None)) q = Some Dir.
Proof.
  intros [S1 S2 S3 S4 S5 S6] D R N P.
  assert (X : seen (rename s q (Some None)) q = Some Dir) by (rewrite seen_at by exact R; rewrite rename_here; reflexivity).
  assert (C : changed q s tags (rename s q (Some None)) tags).
  { constructor.
    - intros p H. apply rename_names. exact H.
    - intros p H. apply rename_seen. exact H.
    - intros i p _ _ H. split; [exact H|reflexivity].
    - intros p H. destruct (path_eqb p q) eqn:E; [apply path_eqb_spec in E; subst p; exact X|].
      apply path_eqb_neq in E. rewrite rename_seen by exact E. exact H. }
  split; [|split; assumption]. constructor.
  - exact S1.
  - intros p i H. destruct (path_eqb p q) eqn:E.
    + apply path_eqb_spec in E. subst p. rewrite rename_here in H. discriminate H.
    + apply path_eqb_neq in E. rewrite rename_names in H by exact E. exact (S2 p i H).
  - intros p H. apply (ch_dirs _ _ _ _ _ C). destruct (path_eqb p q) eqn:E.
    + apply path_eqb_spec in E. subst p. exact P.
    + apply path_eqb_neq in E. rewrite rename_seen in H by exact E. exact (S3 p H).
  - intros p c Dp. destruct (path_eqb p q) eqn:E.
    + apply path_eqb_spec in E. subst p. rewrite X. discriminate.
    + apply path_eqb_neq in E. rewrite rename_seen by exact E. exact (S4 p c Dp).
  - intros p F. assert (p <> q) by (intros ->; exact (file_not_dir _ F D)). rewrite rename_seen by assumption. exact (S5 p F).
  - eapply adds_change; [exact S6|apply (ch_seen _ _ _ _ _ C)|]. right. auto.
Qed.

Lemma unlink_file s tags p : struct s tags -> file_path p -> struct (rename s p None) tags /\ changed p s tags (rename s p None) tags.
Proof.
  intros [S1 S2 S3 S4 S5 S6] F. pose proof (file_nonroot _ F) as R.
  assert (X : seen (rename s p None) p = None) by (apply seen_none; [exact R|apply rename_here]).
  assert (C : changed p s tags (rename s p None) tags).
  { constructor.
    - intros q H. apply rename_names. exact H.
    - intros q H. apply rename_seen. exact H.
    - intros i q _ _ H. split; [exact H|reflexivity].
    - intros q H. assert (q <> p) by (intros ->; exact (S5 _ F H)). rewrite rename_seen by assumption. exact H. }
  split; [|exact C]. constructor.
  - exact S1.
  - intros q i H. destruct (path_eqb q p) eqn:E.
    + apply path_eqb_spec in E. subst q. rewrite rename_here in H. discriminate H.
    + apply path_eqb_neq in E. rewrite rename_names in H by exact E. exact (S2 q i H).
  - intros q H. apply (ch_dirs _ _ _ _ _ C). apply S3. destruct (path_eqb q p) eqn:E.
    + apply path_eqb_spec in E. subst q. rewrite X in H. contradiction.
    + apply path_eqb_neq in E. rewrite rename_seen in H by exact E. exact H.
  - intros q c D. assert (q <> p) by (intros ->; exact (file_not_dir _ F D)). rewrite rename_seen by assumption. exact (S4 q c D).
  - intros q Fq. destruct (path_eqb q p) eqn:E.
    + apply path_eqb_spec in E. subst q. rewrite X. discriminate.
    + apply path_eqb_neq in E. rewrite rename_seen by exact E. exact (S5 q Fq).
  - eapply adds_change; [exact S6|apply (ch_seen _ _ _ _ _ C)|]. left. exact F.
Qed.

Lemma fill_file s tags p i c : struct s tags -> file_path p -> nth_error tags i = Some p ->
  struct (refill s i c) tags /\ changed p s tags (refill s i c) tags /\ nth i (sh_files (refill s i c)) [] = c /\
  (forall j, j <> i -> nth j (sh_files (refill s i c)) [] = nth j (sh_files s) []).
Proof.
  intros S F T. pose proof S as [S1 S2 S3 S4 S5 S6]. pose proof (file_nonroot _ F) as R.
  assert (I : i < length (sh_files s)) by (rewrite <- S1; apply nth_error_Some; congruence).
  assert (A : forall q, q <> p -> seen (refill s i c) q = seen s q).
  { intros q H. unfold seen. cbn [refill sh_names sh_files]. destruct (snd q); [reflexivity|].
    destruct (sh_names s q) as [[j|]|] eqn:E; try reflexivity. do 2 f_equal. apply nth_set_other. intros ->.
    apply S2 in E. congruence. }
  assert (B : forall q, (seen (refill s i c) q = None <-> seen s q = None) /\ (seen (refill s i c) q = Some Dir <-> seen s q = Some Dir)).
  { intros q. unfold seen. cbn [refill sh_names sh_files]. destruct (snd q); [tauto|].
    destruct (sh_names s q) as [[j|]|]; split; split; try discriminate; reflexivity. }
  assert (C : changed p s tags (refill s i c) tags).
  { constructor.
    - reflexivity.
    - exact A.
    - intros j q N _ H. split; [exact H|]. cbn [refill sh_files]. apply nth_set_other. intros <-. congruence.
    - intros q H. apply B. exact H. }
  split; [|split; [exact C|split; [cbn [refill sh_files]; apply nth_set_same; exact I|intros j H; cbn [refill sh_files]; apply nth_set_other; congruence]]].
  constructor.
  - cbn [refill sh_files]. rewrite set_length. exact S1.
  - exact S2.
  - intros q H. apply B. apply S3. intros X. apply H. apply B. exact X.
  - intros q c' D. rewrite A; [exact (S4 q c' D)|]. intros ->. exact (file_not_dir _ F D).
  - intros q Fq H. apply B in H. exact (S5 q Fq H).
  - eapply adds_change; [exact S6|exact A|]. left. exact F.
Qed.

Lemma new_file s tags p : struct s tags -> file_path p -> sh_names s p = None -> seen s (parent p) = Some Dir ->
  let s' := rename {| sh_names := sh_names s; sh_files := sh_files s ++ [[]] |} p (Some (Some (length (sh_files s)))) in
  struct s' (tags ++ [p]) /\ changed p s tags s' (tags ++ [p]) /\ nth_error (tags ++ [p]) (length (sh_files s)) = Some p /\
  nth (length (sh_files s)) (sh_files s') [] = [] /\ (forall j, j <> length (sh_files s) -> nth j (sh_files s') [] = nth j (sh_files s) []) /\
  (forall j, j <> length (sh_files s) -> nth_error (tags ++ [p]) j = nth_error tags j).
Proof.
  intros S F N P s'. pose proof S as [S1 S2 S3 S4 S5 S6]. pose proof (file_nonroot _ F) as R.
  assert (I : forall q i, sh_names s q = Some (Some i) -> i < length (sh_files s)).
  { intros q i H. apply S2 in H. rewrite <- S1. apply nth_error_Some. congruence. }
  assert (A : forall q, q <> p -> seen s' q = seen s q).
  { intros q H. unfold s'. rewrite rename_seen by exact H. unfold seen. cbn [sh_names sh_files]. destruct (snd q); [reflexivity|].
    destruct (sh_names s q) as [[j|]|] eqn:E; try reflexivity. do 2 f_equal. apply app_nth1. eapply I. exact E. }
  assert (T1 : nth_error (tags ++ [p]) (length (sh_files s)) = Some p).
  { rewrite nth_error_app2 by lia. replace (_ - _) with 0 by lia. reflexivity. }
  assert (F1 : nth (length (sh_files s)) (sh_files s') [] = []).
  { cbn [s' rename sh_files]. rewrite app_nth2 by lia. rewrite Nat.sub_diag. reflexivity. }
  assert (F2 : forall j, j <> length (sh_files s) -> nth j (sh_files s') [] = nth j (sh_files s) []).
  { intros j H. cbn [s' rename sh_files]. destruct (Nat.lt_ge_cases j (length (sh_files s))).
    - apply app_nth1. assumption.
    - rewrite !nth_overflow; [reflexivity|lia|rewrite app_length; cbn [length]; lia]. }
  assert (T2 : forall j, j <> length (sh_files s) -> nth_error (tags ++ [p]) j = nth_error tags j).
  { intros j H. destruct (Nat.lt_ge_cases j (length (sh_files s))).
    - apply nth_error_app1. lia.
    - rewrite (proj2 (nth_error_None tags j)) by lia. apply nth_error_None. rewrite app_length. cbn [length]. lia. }
  assert (X : exists c, seen s' p = Some (File c)).
  { eexists. apply seen_file; [exact R|]. eexists. split; [unfold s'; apply rename_here|reflexivity]. }
  assert (C : changed p s tags s' (tags ++ [p])).
  { constructor.
    - intros q H. unfold s'. rewrite rename_names by exact H. reflexivity.
    - exact A.
    - intros j q Nq _ H. assert (j <> length (sh_files s)) by (intros ->; congruence). rewrite T2 in H by assumption.
      split; [exact H|apply F2; assumption].
    - intros q H. assert (q <> p) by (intros ->; exact (S5 _ F H)). rewrite A by assumption. exact H. }
  split; [|auto 10]. constructor.
  - cbn [s' rename sh_files]. rewrite !app_length. cbn [length]. lia.
  - intros q i H. destruct (path_eqb q p) eqn:E.
    + apply path_eqb_spec in E. subst q. unfold s' in H. rewrite rename_here in H. injection H as <-. exact T1.
    + apply path_eqb_neq in E. unfold s' in H. rewrite rename_names in H by exact E. cbn [sh_names] in H. pose proof (I _ _ H).
      rewrite T2 by lia. exact (S2 q i H).
  - intros q H. apply (ch_dirs _ _ _ _ _ C). destruct (path_eqb q p) eqn:E.
    + apply path_eqb_spec in E. subst q. exact P.
    + apply path_eqb_neq in E. rewrite A in H by exact E. exact (S3 q H).
  - intros q c D. rewrite A; [exact (S4 q c D)|]. intros ->. exact (file_not_dir _ F D).
  - intros q Fq. destruct (path_eqb q p) eqn:E.
    + apply path_eqb_spec in E. subst q. destruct X as [c ->]. discriminate.
    + apply path_eqb_neq in E. rewrite A by exact E. exact (S5 q Fq).
  - eapply adds_change; [exact S6|exact A|]. left. exact F.
Qed.

(** Forgetting which files were made under a path. *)
Definition forget (p : path) (tags : list path) : list path := map (fun q => if path_eqb q p then (fst p, []) else q) tags.
Lemma forget_nth p tags i q : snd q <> [] -> nth_error (forget p tags) i = Some q <-> (q <> p /\ nth_error tags i = Some q).
Proof.
  intros R. unfold forget. rewrite nth_error_map. destruct (nth_error tags i) as [x|]; cbn [option_map]; [|split; [discriminate|intros [_ C]; discriminate C]].
  destruct (path_eqb x p) eqn:E.
  - apply path_eqb_spec in E. subst x. split; [intros H; injection H as <-; contradiction R; reflexivity|].
    intros [N H]. congruence.
  - apply path_eqb_neq in E. split; [intros H; injection H as <-; auto|]. intros [_ H]. exact H.
Qed.
Lemma forget_keeps p tags i q : q <> p -> nth_error tags i = Some q -> nth_error (forget p tags) i = Some q.
Proof. intros N H. unfold forget. rewrite nth_error_map, H. cbn [option_map]. rewrite (proj2 (path_eqb_neq q p) N). reflexivity. Qed.
Lemma forget_struct s tags p : struct s tags -> sh_names s p = None -> struct s (forget p tags).
Proof.
  intros [S1 S2 S3 S4 S5 S6] N. constructor; try assumption.
  - unfold forget. rewrite map_length. exact S1.
  - intros q i H. apply forget_keeps; [intros ->; congruence|exact (S2 q i H)].
Qed.
End Struct.
