(** Objects, listings and addresses on cloud storage. *)
From Coq Require Import String Ascii Permutation Sorted.
From Verif Require Import Prelude ModelReachPoint ModelData ModelAggregator ModelFiles SpecData SpecFiles
  FilesLemmas FilesLemmas2 FilesLemmas3 ModelDriver ModelCloud SpecCloud.
Open Scope Z_scope.

(** ** Objects *)

Lemma obj_find_put o p c q : obj_find (obj_put o p c) q = if path_eqb q p then Some c else obj_find o q.
Proof.
  induction o as [|[r m] o IH]; cbn [obj_put obj_find]; [reflexivity|].
  destruct (path_eqb p r) eqn:E.
  - apply path_eqb_spec in E. subst r. cbn [obj_find]. destruct (path_eqb q p); reflexivity.
  - cbn [obj_find]. rewrite IH. destruct (path_eqb q r) eqn:E2; [|reflexivity].
    apply path_eqb_spec in E2. subst r. destruct (path_eqb q p) eqn:E3; [|reflexivity].
    apply path_eqb_spec in E3. subst q. rewrite path_eqb_refl in E. discriminate.
Qed.
Lemma obj_find_remove o p q : obj_find (obj_remove o p) q = if path_eqb q p then None else obj_find o q.
Proof.
  induction o as [|[r m] o IH]; cbn [obj_remove obj_find]; [destruct (path_eqb q p); reflexivity|].
  destruct (path_eqb p r) eqn:E.
  - apply path_eqb_spec in E. subst r. rewrite IH. destruct (path_eqb q p); reflexivity.
  - cbn [obj_find]. rewrite IH. destruct (path_eqb q r) eqn:E2; [|reflexivity].
    apply path_eqb_spec in E2. subst r. destruct (path_eqb q p) eqn:E3; [|reflexivity].
    apply path_eqb_spec in E3. subst q. rewrite path_eqb_refl in E. discriminate.
Qed.
Lemma obj_find_in o p c : NoDup (map fst o) -> (obj_find o p = Some c <-> In (p, c) o).
Proof.
  induction o as [|[r m] o IH]; cbn [obj_find map fst]; intros N; [split; [discriminate|intros []]|].
  inversion N as [|? ? N1 N2]; subst. destruct (path_eqb p r) eqn:E.
  - apply path_eqb_spec in E. subst r. split.
    + intros X. injection X as ->. left. reflexivity.
    + intros [X|X]; [congruence|]. exfalso. apply N1. apply in_map_iff. exists (p, c). split; [reflexivity|exact X].
  - apply path_eqb_neq in E. rewrite (IH N2). split; [right; assumption|]. intros [X|X]; [congruence|exact X].
Qed.
Lemma obj_find_some_in o p c : obj_find o p = Some c -> In (p, c) o.
Proof.
  induction o as [|[r m] o IH]; cbn [obj_find]; [discriminate|]. destruct (path_eqb p r) eqn:E.
  - apply path_eqb_spec in E. subst r. intros X. injection X as ->. left. reflexivity.
  - right. auto.
Qed.
Lemma obj_find_none o p : obj_find o p = None <-> ~ In p (map fst o).
Proof.
  induction o as [|[r m] o IH]; cbn [obj_find map fst]; [split; [intros _ []|reflexivity]|].
  destruct (path_eqb p r) eqn:E.
  - apply path_eqb_spec in E. subst r. split; [discriminate|]. intros X. exfalso. apply X. left. reflexivity.
  - apply path_eqb_neq in E. rewrite IH. split; [intros X [Y|Y]; congruence || contradiction|].
    intros X Y. apply X. right. exact Y.
Qed.
Lemma obj_put_keys o p c q : In q (map fst (obj_put o p c)) <-> q = p \/ In q (map fst o).
Proof.
  induction o as [|[r m] o IH]; cbn [obj_put map fst In]; [intuition congruence|].
  destruct (path_eqb p r) eqn:E; cbn [map fst In].
  - apply path_eqb_spec in E. subst r. intuition congruence.
  - rewrite IH. tauto.
Qed.
Lemma obj_put_nodup o p c : NoDup (map fst o) -> NoDup (map fst (obj_put o p c)).
Proof.
  induction o as [|[r m] o IH]; cbn [obj_put map fst]; intros N; [repeat constructor; intros []|].
  inversion N as [|? ? N1 N2]; subst. destruct (path_eqb p r) eqn:E; cbn [map fst]; constructor; auto.
  rewrite obj_put_keys. apply path_eqb_neq in E. intros [X|X]; [congruence|contradiction].
Qed.
Lemma obj_put_in o p c q m : NoDup (map fst o) -> (In (q, m) (obj_put o p c) <->
  (q = p /\ m = c) \/ (q <> p /\ In (q, m) o)).
Proof.
  intros N. rewrite <- (obj_find_in (obj_put o p c)) by (apply obj_put_nodup; exact N).
  rewrite obj_find_put. destruct (path_eqb q p) eqn:E.
  - apply path_eqb_spec in E. split.
    + intros X. injection X as <-. left. split; [exact E|reflexivity].
    + intros [[_ ->]|[X _]]; [reflexivity|contradiction].
  - apply path_eqb_neq in E. rewrite (obj_find_in o q m N). split.
    + intros X. right. split; assumption.
    + intros [[X _]|[_ X]]; [contradiction|exact X].
Qed.

(** ** What is below a directory *)

Lemma after_parts_spec dir q rest : after_parts dir q = Some rest <-> q = dir ++ rest.
Proof.
  revert q. induction dir as [|x dir IH]; intros q; cbn [after_parts app]; [split; congruence|].
  destruct q as [|y q]; [split; discriminate|]. destruct (String.eqb x y) eqn:E.
  - apply String.eqb_eq in E. subst y. rewrite IH. split; [intros ->; reflexivity|congruence].
  - apply String.eqb_neq in E. split; [discriminate|]. intros X. congruence.
Qed.
Lemma after_dir_spec dir q rest : after_dir dir q = Some rest <-> q = (fst dir, snd dir ++ rest).
Proof.
  unfold after_dir. destruct (Bool.eqb (fst dir) (fst q)) eqn:E.
  - apply Bool.eqb_prop in E. rewrite after_parts_spec. destruct q as [a l]. cbn [fst snd] in *. subst a.
    split; [intros ->; reflexivity|congruence].
  - split; [discriminate|]. intros ->. cbn [fst] in E. rewrite Bool.eqb_reflx in E. discriminate.
Qed.
Lemma is_below_spec dir q : is_below dir q = true <-> within dir q /\ q <> dir.
Proof.
  unfold is_below. destruct (after_dir dir q) as [rest|] eqn:E.
  - apply after_dir_spec in E. split.
    + destruct rest as [|x rest]; [discriminate|]. intros _. split; [exists (x :: rest); exact E|].
      intros ->. apply (f_equal (fun z => length (snd z))) in E. cbn [snd] in E. rewrite app_length in E. cbn [length] in E. lia.
    + intros [_ N]. destruct rest as [|x rest]; [|reflexivity]. exfalso. apply N. rewrite E, app_nil_r. destruct dir; reflexivity.
  - split; [discriminate|]. intros [[rest W] _]. apply after_dir_spec in W. congruence.
Qed.

Lemma cloud_stat_deep o p : (2 <= length (snd p))%nat -> cloud_stat o p =
  match obj_find o p with
  | Some c => Some (File c)
  | None => if existsb (fun x => is_below p (fst x)) o then Some Dir else None
  end.
Proof.
  intros H. unfold cloud_stat. destruct (snd p) as [|a [|b l]]; cbn [length] in H; [lia|lia|reflexivity].
Qed.
Lemma cloud_stat_file o p c : (2 <= length (snd p))%nat ->
  (cloud_stat o p = Some (File c) <-> obj_find o p = Some c).
Proof.
  intros H. rewrite cloud_stat_deep by exact H. destruct (obj_find o p); [split; congruence|].
  destruct (existsb _ o); split; discriminate.
Qed.
Lemma cloud_stat_dir o p : (2 <= length (snd p))%nat ->
  (cloud_stat o p = Some Dir <-> obj_find o p = None /\ exists q c, In (q, c) o /\ within p q /\ q <> p).
Proof.
  intros H. rewrite cloud_stat_deep by exact H. destruct (obj_find o p) as [c|] eqn:E.
  - split; [discriminate|]. intros [X _]. discriminate.
  - destruct (existsb (fun x => is_below p (fst x)) o) eqn:X.
    + apply existsb_exists in X. destruct X as [[q c] [I B]]. apply is_below_spec in B.
      split; [intros _|reflexivity]. split; [reflexivity|]. exists q, c. split; [exact I|exact B].
    + split; [discriminate|]. intros [_ [q [c [I B]]]].
      assert (existsb (fun x => is_below p (fst x)) o = true); [|congruence].
      apply existsb_exists. exists (q, c). split; [exact I|]. apply is_below_spec. exact B.
Qed.
Lemma cloud_stat_none o p : (2 <= length (snd p))%nat ->
  (cloud_stat o p = None <-> forall q c, In (q, c) o -> ~ within p q).
Proof.
  intros H. rewrite cloud_stat_deep by exact H. destruct (obj_find o p) as [c|] eqn:E.
  - split; [discriminate|]. intros X. exfalso. apply (X p c (obj_find_some_in _ _ _ E)). exists [].
    rewrite app_nil_r. destruct p; reflexivity.
  - destruct (existsb (fun x => is_below p (fst x)) o) eqn:X.
    + split; [discriminate|]. intros N. apply existsb_exists in X. destruct X as [[q c] [I B]]. apply is_below_spec in B.
      exfalso. apply (N q c I). apply B.
    + split; [|reflexivity]. intros _ q c I W. destruct (path_dec q p) as [->|Nq].
      * apply obj_find_none in E. apply E. apply in_map_iff. exists (p, c). split; [reflexivity|exact I].
      * assert (existsb (fun x => is_below p (fst x)) o = true); [|congruence].
        apply existsb_exists. exists (q, c). split; [exact I|]. apply is_below_spec. split; assumption.
Qed.

(** ** Listings *)

Lemma list_dir_in dir o : forall given p, In p (list_dir dir given o) ->
  exists n rest q c, p = entry dir n /\ In (q, c) o /\ q = (fst dir, snd dir ++ n :: rest).
Proof.
  induction o as [|[r m] o IH]; intros given p; cbn [list_dir]; [intros []|].
  destruct (after_dir dir r) as [[|x [|y rest]]|] eqn:E.
  - intros I. destruct (IH _ _ I) as [n [rest [q [c [A [B C]]]]]]. exists n, rest, q, c. split; [exact A|]. split; [right; exact B|exact C].
  - apply after_dir_spec in E. intros [X|I].
    + exists x, [], r, m. split; [symmetry; exact X|]. split; [left; reflexivity|exact E].
    + destruct (IH _ _ I) as [n [rest [q [c [A [B C]]]]]]. exists n, rest, q, c. split; [exact A|]. split; [right; exact B|exact C].
  - apply after_dir_spec in E. destruct (existsb (String.eqb x) given).
    + intros I. destruct (IH _ _ I) as [n [rest' [q [c [A [B C]]]]]]. exists n, rest', q, c. split; [exact A|]. split; [right; exact B|exact C].
    + intros [X|I].
      * exists x, (y :: rest), r, m. split; [symmetry; exact X|]. split; [left; reflexivity|exact E].
      * destruct (IH _ _ I) as [n [rest' [q [c [A [B C]]]]]]. exists n, rest', q, c. split; [exact A|]. split; [right; exact B|exact C].
  - intros I. destruct (IH _ _ I) as [n [rest [q [c [A [B C]]]]]]. exists n, rest, q, c. split; [exact A|]. split; [right; exact B|exact C].
Qed.
Lemma list_dir_has dir o : forall given n rest c, In ((fst dir, snd dir ++ n :: rest), c) o ->
  In (entry dir n) (list_dir dir given o) \/ (In n given /\ rest <> []).
Proof.
  induction o as [|[r m] o IH]; intros given n rest c; [intros []|]. intros [X|I].
  - injection X as -> ->. cbn [list_dir].
    assert (after_dir dir (fst dir, snd dir ++ n :: rest) = Some (n :: rest)) as -> by (apply after_dir_spec; reflexivity).
    destruct rest as [|y rest].
    + left. left. reflexivity.
    + destruct (existsb (String.eqb n) given) eqn:G.
      * right. apply existsb_exists in G. destruct G as [z [Iz Ez]]. apply String.eqb_eq in Ez. subst z. split; [exact Iz|discriminate].
      * left. left. reflexivity.
  - cbn [list_dir]. destruct (after_dir dir r) as [[|x [|y rest']]|].
    + exact (IH given n rest c I).
    + destruct (IH given n rest c I) as [A|A]; [left; right; exact A|right; exact A].
    + destruct (existsb (String.eqb x) given) eqn:G.
      * exact (IH given n rest c I).
      * destruct (IH (x :: given) n rest c I) as [A|[A B]]; [left; right; exact A|].
        destruct A as [->|A]; [left; left; reflexivity|right; split; assumption].
    + exact (IH given n rest c I).
Qed.
Lemma cloud_glob_in o dir p : In p (cloud_glob o dir) <->
  exists n rest c, p = entry dir n /\ In ((fst dir, snd dir ++ n :: rest), c) o.
Proof.
  unfold cloud_glob. split.
  - intros I. destruct (list_dir_in _ _ _ _ I) as [n [rest [q [c [A [B ->]]]]]]. exists n, rest, c. split; assumption.
  - intros [n [rest [c [-> I]]]]. destruct (list_dir_has dir o [] n rest c I) as [A|[[] _]]. exact A.
Qed.

Lemma list_dir_nodup dir o : forall given,
  NoDup (map fst o) -> (forall p q c c', In (p, c) o -> In (q, c') o -> within p q -> p = q) ->
  NoDup (list_dir dir given o).
Proof.
  induction o as [|[r m] o IH]; intros given N P; [constructor|].
  cbn [map fst] in N. inversion N as [|? ? N1 N2]; subst.
  assert (P' : forall p q c c', In (p, c) o -> In (q, c') o -> within p q -> p = q)
    by (intros p q c c' I J; apply (P p q c c'); right; assumption).
  (* a name that has been given is not given again as a directory *)
  assert (G : forall given n, In n given -> (forall c, ~ In (entry dir n, c) o) -> ~ In (entry dir n) (list_dir dir given o)).
  { clear. induction o as [|[r m] o IH]; intros given n Hn Nf; cbn [list_dir]; [intros []|].
    assert (Nf' : forall c, ~ In (entry dir n, c) o) by (intros c X; apply (Nf c); right; exact X).
    destruct (after_dir dir r) as [[|x [|y rest]]|] eqn:E.
    - apply IH; assumption.
    - intros [X|X]; [|exact (IH given n Hn Nf' X)]. change (entry dir x = entry dir n) in X. apply entry_inj in X. subst x.
      apply after_dir_spec in E. apply (Nf m). left. rewrite E. reflexivity.
    - destruct (existsb (String.eqb x) given) eqn:B; [apply IH; assumption|].
      intros [X|X].
      + change (entry dir x = entry dir n) in X. apply entry_inj in X. subst x.
        assert (existsb (String.eqb n) given = true); [|congruence]. apply existsb_exists. exists n. split; [exact Hn|apply String.eqb_refl].
      + exact (IH (x :: given) n (or_intror Hn) Nf' X).
    - apply IH; assumption. }
  cbn [list_dir]. destruct (after_dir dir r) as [[|x [|y rest]]|] eqn:E.
  - apply IH; assumption.
  - apply after_dir_spec in E. constructor; [|apply IH; assumption].
      intros I. apply list_dir_in in I. destruct I as [n [rest [q [c [A [B C]]]]]].
      change (entry dir x = entry dir n) in A. apply entry_inj in A. subst n.
      assert (W : within r q). { exists rest. rewrite C, E. cbn [fst snd]. rewrite <- app_assoc. reflexivity. }
      pose proof (P r q m c (or_introl eq_refl) (or_intror B) W) as X. apply N1. apply in_map_iff.
      exists (q, c). split; [symmetry; exact X|exact B].
  - destruct (existsb (String.eqb x) given); [apply IH; assumption|].
      constructor; [|apply IH; assumption].
      apply G; [left; reflexivity|]. intros c I. apply after_dir_spec in E.
      assert (W : within (entry dir x) r). { exists (y :: rest). rewrite E. unfold entry. cbn [fst snd]. rewrite <- app_assoc. reflexivity. }
      pose proof (P (entry dir x) r c m (or_intror I) (or_introl eq_refl) W) as X.
      apply (f_equal (fun z => length (snd z))) in X. rewrite E in X. unfold entry in X. cbn [snd] in X.
      rewrite !app_length in X. cbn [length] in X. lia.
  - apply IH; assumption.
Qed.
Lemma cloud_glob_nodup o dir : objects_ok o -> NoDup (cloud_glob o dir).
Proof. intros [N [_ P]]. apply (list_dir_nodup dir o []); assumption. Qed.

(** ** Sorted entries of a directory *)

Lemma sorted_entries dir ps ps' :
  (forall p, In p ps -> exists a, p = entry dir a) -> (forall p, In p ps <-> In p ps') ->
  NoDup ps -> NoDup ps' -> StronglySorted str_le ps -> StronglySorted str_le ps' -> ps = ps'.
Proof.
  intros I1 I N1 N2 S1 S2.
  set (R := fun x y : path => exists a b, x = entry dir a /\ y = entry dir b /\ String.ltb a b = true).
  assert (G : forall l, (forall p, In p l -> exists a, p = entry dir a) -> NoDup l -> StronglySorted str_le l -> StronglySorted R l).
  { clear. intros l I N S1. induction S1 as [|x l S1 IH FA]; [constructor|].
    inversion N; subst. constructor; [apply IH; [intros p Hp; apply I; right; exact Hp|assumption]|].
    rewrite Forall_forall in *. intros y Iy. destruct (I x (or_introl eq_refl)) as [a ->].
    destruct (I y (or_intror Iy)) as [b ->]. exists a, b. split; [reflexivity|]. split; [reflexivity|].
    apply leb_ltb; [|intros ->; contradiction]. specialize (FA _ Iy). unfold str_le in FA.
    rewrite path_str_leb in FA. exact FA. }
  apply (sorted_unique R).
  - intros x [a [b [-> [E L]]]]. apply entry_inj in E. subst b. rewrite ltb_irrefl in L. discriminate.
  - intros x y z [a [b [-> [-> L]]]] [b' [c [E [-> L']]]]. apply entry_inj in E. subst b'.
    exists a, c. split; [reflexivity|]. split; [reflexivity|]. eapply ltb_trans; eauto.
  - apply G; assumption.
  - apply G; try assumption. intros p Hp. apply I1. apply I. exact Hp.
  - exact I.
Qed.

Definition is_object_at (o : objects) (p : path) : bool :=
  match cloud_stat o p with Some (File _) => true | _ => false end.
Lemma cloud_read_files_filter F o ps : cloud_read_files F o ps = cloud_read_files F o (filter (is_object_at o) ps).
Proof.
  induction ps as [|p ps IH]; cbn [cloud_read_files filter]; [reflexivity|]. unfold is_object_at at 1.
  destruct (cloud_stat o p) as [[|c]|] eqn:E; [exact IH| |exact IH]. cbn [cloud_read_files]. rewrite E.
  destruct (cloud_read_file F p c); [|reflexivity]. cbn [bind]. rewrite IH. reflexivity.
Qed.

Lemma within_refl p : within p p.
Proof. exists []. rewrite app_nil_r. destruct p; reflexivity. Qed.
Lemma within_trans a b c : within a b -> within b c -> within a c.
Proof. intros [x ->] [y ->]. exists (x ++ y). cbn [fst snd]. rewrite app_assoc. reflexivity. Qed.
Lemma entry_length dir n : length (snd (entry dir n)) = S (length (snd dir)).
Proof. unfold entry. cbn [snd]. rewrite app_length. cbn [length]. lia. Qed.
Lemma within_length p q : within p q -> (length (snd p) <= length (snd q))%nat.
Proof. intros [rest ->]. cbn [snd]. rewrite app_length. lia. Qed.

(** Everything above a file is a directory. *)
Lemma above_is_dir k p q : disk_ok k -> stat k q <> None -> within p q -> p <> q -> stat k p = Some Dir.
Proof.
  intros Hk. revert q. assert (G : forall n q, length (snd q) = n -> stat k q <> None -> within p q -> p <> q -> stat k p = Some Dir).
  { induction n as [|n IH]; intros q Hn Hq W N.
    - exfalso. apply N. destruct W as [rest ->]. cbn [snd] in Hn. rewrite app_length in Hn.
      destruct rest; [rewrite app_nil_r; destruct p; reflexivity|cbn [length] in Hn; lia].
    - pose proof (proj2 (proj2 Hk) q Hq) as D. destruct W as [rest E].
      destruct (rev rest) as [|x r] eqn:Er.
      + exfalso. apply N. assert (rest = []) as -> by (rewrite <- (rev_involutive rest), Er; reflexivity).
        rewrite app_nil_r in E. rewrite E. destruct p; reflexivity.
      + assert (Erest : rest = rev r ++ [x]) by (rewrite <- (rev_involutive rest), Er; reflexivity).
        assert (Ep : parent q = (fst p, snd p ++ rev r)).
        { rewrite E, Erest. unfold parent. cbn [fst snd]. rewrite app_assoc, removelast_last. reflexivity. }
        destruct r as [|y r].
        * cbn [rev] in Ep. rewrite app_nil_r in Ep. rewrite Ep in D. destruct p; exact D.
        * apply (IH (parent q)).
          -- rewrite Ep. cbn [snd]. rewrite app_length, rev_length. rewrite E, Erest in Hn. cbn [snd] in Hn.
             rewrite !app_length, rev_length in Hn. cbn [length] in *. lia.
          -- rewrite D. discriminate.
          -- exists (rev (y :: r)). exact Ep.
          -- intros X. rewrite <- X in Ep. apply (f_equal (fun z => length (snd z))) in Ep. cbn [snd] in Ep.
             rewrite app_length, rev_length in Ep. cbn [length] in Ep. lia. }
  intros q. apply (G (length (snd q)) q eq_refl).
Qed.

Lemma same_files_ok k o : disk_ok k -> NoDup (map fst o) -> same_files k o -> objects_ok o.
Proof.
  intros Hk N S. split; [exact N|]. split.
  - intros p c I. apply S in I. destruct I as [A [B _]]. split; assumption.
  - intros p q c c' I J W. apply S in I. apply S in J. destruct (path_dec p q) as [E|Nq]; [exact E|].
    exfalso. assert (stat k p = Some Dir); [|destruct I as [_ [_ I]]; congruence].
    apply (above_is_dir k p q Hk); [|exact W|exact Nq]. destruct J as [_ [_ ->]]. discriminate.
Qed.

(** ** A disk and a bucket with the same files *)
Section Same.
Variables (k : disk) (o : objects) (dir : path).
Hypotheses (Hk : disk_ok k) (N : NoDup (map fst o)) (S : same_files k o).
Hypotheses (Ha : fst dir = true) (Hd : snd dir <> []).

Lemma deep n : (2 <= length (snd (entry dir n)))%nat.
Proof. rewrite entry_length. destruct (snd dir); [contradiction|cbn [length]; lia]. Qed.
Lemma deep_below p : within dir p -> p <> dir -> fst p = true /\ (2 <= length (snd p))%nat.
Proof.
  intros [rest ->] X. cbn [fst snd]. split; [exact Ha|]. rewrite app_length. destruct (snd dir) as [|a l] eqn:E; [contradiction|].
  destruct rest; [|cbn [length]; lia]. exfalso. apply X. rewrite app_nil_r. destruct dir as [b m]. cbn [fst snd] in *. subst. reflexivity.
Qed.

Lemma same_file n c : cloud_stat o (entry dir n) = Some (File c) <-> stat k (entry dir n) = Some (File c).
Proof.
  rewrite cloud_stat_file by apply deep. rewrite obj_find_in by exact N. rewrite (S _ c). split; [intros X; apply X|].
  intros X. split; [exact Ha|]. split; [apply deep|exact X].
Qed.
Lemma same_dir n : cloud_stat o (entry dir n) = Some Dir <->
  stat k (entry dir n) = Some Dir /\ holds_file k (entry dir n).
Proof.
  rewrite cloud_stat_dir by apply deep. split.
  - intros [A [q [c [I [W X]]]]]. apply S in I. destruct I as [B [C D]]. split; [|exists q, c; split; assumption].
    apply (above_is_dir k _ q Hk); [rewrite D; discriminate|exact W|]. intros Y. apply X. symmetry. exact Y.
  - intros [A [q [c [W D]]]]. assert (X : q <> entry dir n) by (intros ->; congruence).
    assert (Wd : within dir q) by (apply (within_trans _ (entry dir n)); [exists [n]; reflexivity|exact W]).
    assert (Xd : q <> dir).
    { intros ->. apply within_length in W. rewrite entry_length in W. lia. }
    destruct (deep_below q Wd Xd) as [E1 E2]. split.
    + destruct (obj_find o (entry dir n)) as [c'|] eqn:E; [|reflexivity]. apply obj_find_some_in in E. apply S in E.
      destruct E as [_ [_ E]]. congruence.
    + exists q, c. split; [apply S; repeat split; assumption|]. split; assumption.
Qed.
Lemma same_none n : stat k (entry dir n) = None -> cloud_stat o (entry dir n) = None.
Proof.
  intros E. destruct (cloud_stat o (entry dir n)) as [[|c]|] eqn:X; [| |reflexivity].
  - apply same_dir in X. destruct X as [X _]. congruence.
  - apply same_file in X. congruence.
Qed.

Lemma same_sorted_files :
  filter (is_object_at o) (sort_paths (cloud_glob o dir)) = filter (is_file_at k) (sort_paths (glob k dir)).
Proof.
  pose proof (same_files_ok k o Hk N S) as Ok.
  apply (sorted_entries dir).
  - intros p I. apply filter_In in I. destruct I as [I _]. apply (Permutation_in _ (sort_paths_perm _)) in I.
    apply cloud_glob_in in I. destruct I as [n [_ [_ [-> _]]]]. exists n. reflexivity.
  - intros p. rewrite !filter_In. unfold is_object_at, is_file_at. split.
    + intros [I E]. apply (Permutation_in _ (sort_paths_perm _)) in I. apply cloud_glob_in in I.
      destruct I as [n [rest [c' [-> I]]]]. destruct (cloud_stat o (entry dir n)) as [[|c]|] eqn:X; try discriminate.
      apply same_file in X. rewrite X. split; [|reflexivity].
      apply (Permutation_in _ (Permutation_sym (sort_paths_perm _))). apply glob_in; [exact Hk| |].
      * rewrite <- (parent_entry dir n). apply (proj2 (proj2 Hk)). rewrite X. discriminate.
      * exists n. split; [reflexivity|]. rewrite X. discriminate.
    + intros [I E]. destruct (stat k p) as [[|c]|] eqn:X; try discriminate.
      apply (Permutation_in _ (sort_paths_perm _)) in I.
      assert (D : stat k dir = Some Dir) by (unfold glob in I; destruct (stat k dir) as [[|]|]; [reflexivity|destruct I|destruct I]).
      apply glob_in in I; [|exact Hk|exact D]. destruct I as [n [-> _]]. apply same_file in X. rewrite X. split; [|reflexivity].
      apply (Permutation_in _ (Permutation_sym (sort_paths_perm _))). apply cloud_glob_in. exists n, [], c. split; [reflexivity|].
      apply same_file in X. apply S. split; [exact Ha|]. split; [apply deep|exact X].
  - apply NoDup_filter. eapply Permutation_NoDup; [symmetry; apply sort_paths_perm|]. apply cloud_glob_nodup. exact Ok.
  - apply NoDup_filter. eapply Permutation_NoDup; [symmetry; apply sort_paths_perm|]. apply glob_nodup. exact Hk.
  - apply StronglySorted_filter, sort_paths_sorted.
  - apply StronglySorted_filter, sort_paths_sorted.
Qed.

Definition same_list (r r' : result (list publisher_data)) : Prop :=
  match r, r' with
  | Ok l, Ok l' => Forall2 same_publisher l l'
  | Err e, Err e' => e' = e
  | _, _ => False
  end.
Lemma same_read F ps : (forall p, In p ps -> exists n, p = entry dir n) ->
  same_list (read_files F k (filter (is_file_at k) ps)) (cloud_read_files F o (filter (is_file_at k) ps)).
Proof.
  induction ps as [|p ps IH]; intros E; cbn [filter]; [constructor|].
  assert (IH' := IH (fun q Hq => E q (or_intror Hq))).
  destruct (stat k p) as [[|c]|] eqn:X.
  1, 3: (assert (is_file_at k p = false) as -> by (unfold is_file_at; rewrite X; reflexivity)); exact IH'.
  assert (is_file_at k p = true) as -> by (unfold is_file_at; rewrite X; reflexivity).
  destruct (E p (or_introl eq_refl)) as [n ->]. pose proof (proj2 (same_file n c) X) as Y.
  cbn [read_files cloud_read_files]. rewrite X, Y. unfold read_file, cloud_read_file.
  destruct (read_publisher_data F "" c) as [pdf|e]; [|reflexivity]. cbn [bind].
  destruct (read_files F k (filter (is_file_at k) ps)) as [l|e], (cloud_read_files F o (filter (is_file_at k) ps)) as [l'|e'];
    cbn [same_list bind] in *; try contradiction; [|exact IH'].
  constructor; [|exact IH']. repeat split.
Qed.
Lemma same_audience l l' : Forall2 same_publisher l l' -> total_audience l' = total_audience l.
Proof. intros H. apply total_audience_same. induction H as [|p p' l l' X _ IH]; constructor; [apply X|exact IH]. Qed.

Lemma same_reading_of F dirpath caddr : to_path dirpath = dir -> cloud_path caddr = Ok dir ->
  same_reading (read_data_set F k dirpath) (cloud_read_data_set F o caddr).
Proof.
  intros E1 E2. unfold read_data_set, cloud_read_data_set. rewrite E1, E2. cbn [bind].
  rewrite read_files_filter, cloud_read_files_filter, same_sorted_files.
  assert (E : forall p, In p (sort_paths (glob k dir)) -> exists n, p = entry dir n).
  { intros p I. apply (Permutation_in _ (sort_paths_perm _)) in I.
    assert (D : stat k dir = Some Dir) by (unfold glob in I; destruct (stat k dir) as [[|]|]; [reflexivity|destruct I|destruct I]).
    apply glob_in in I; [|exact Hk|exact D]. destruct I as [n [-> _]]. exists n. reflexivity. }
  pose proof (same_read F _ E) as R.
  destruct (read_files F k _) as [l|e], (cloud_read_files F o _) as [l'|e']; cbn [same_list] in R; try contradiction.
  - cbn [bind]. unfold mk_data_set. rewrite (same_audience l l' R). destruct (truthy (path_name dir)); cbn [bind]; [|reflexivity].
    split; [exact R|]. repeat split.
  - cbn [bind same_reading]. exact R.
Qed.
End Same.
