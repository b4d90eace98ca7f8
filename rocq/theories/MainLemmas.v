(** The command line: arguments and what they look like. *)
From Coq Require Import String Ascii.
From Verif Require Import Prelude ModelData ModelFiles SpecFiles FilesLemmas ModelDriver DriverLemmas4 ModelMain SpecMain.
Open Scope Z_scope.

Lemma cut_spec c s : forall a b, cut c s = Some (a, b) <-> s = a ++ c :: b /\ ~ In c a.
Proof.
  induction s as [|x r IH]; intros a b; cbn [cut].
  - split; [discriminate|]. intros [H _]. destruct a; discriminate H.
  - destruct (Ascii.eqb x c) eqn:E.
    + apply Ascii.eqb_eq in E. subst x. split; [intros H; injection H as <- <-; split; [reflexivity|intros []]|].
      intros [H N]. destruct a as [|y a]; [injection H as <-; reflexivity|]. injection H as <- _. contradiction N. left; reflexivity.
    + apply Ascii.eqb_neq in E. destruct (cut c r) as [[a' b']|] eqn:C.
      * split.
        -- intros H. injection H as <- <-. destruct (proj1 (IH a' b') eq_refl) as [-> N]. split; [reflexivity|]. intros [X|X]; [contradiction|exact (N X)].
        -- intros [H N]. destruct a as [|y a]; [injection H as -> _; contradiction|]. injection H as <- H.
           assert (X : Some (a', b') = Some (a, b)) by (apply IH; split; [exact H|intros X; apply N; right; exact X]). injection X as -> ->. reflexivity.
      * split; [discriminate|]. intros [H N]. destruct a as [|y a]; [injection H as -> _; contradiction|]. injection H as <- H.
        assert (X : None = Some (a, b)) by (apply IH; split; [exact H|intros X; apply N; right; exact X]). discriminate X.
Qed.
Lemma cut_none c s : cut c s = None -> ~ In c s.
Proof.
  intros H I. apply in_split in I.
  assert (K : forall s, In c s -> cut c s <> None).
  { clear. intros s. induction s as [|x r IH]; [intros []|]. cbn [cut In]. intros [->|I]; [rewrite Ascii.eqb_refl; discriminate|].
    destruct (Ascii.eqb x c); [discriminate|]. specialize (IH I). destruct (cut c r) as [[? ?]|]; [discriminate|contradiction]. }
  destruct I as [l1 [l2 ->]]. apply (K (l1 ++ c :: l2)); [apply in_or_app; right; left; reflexivity|exact H].
Qed.
Lemma has_char_spec c s : has_char c s = true <-> In c s.
Proof.
  unfold has_char. rewrite existsb_exists. split.
  - intros [x [H E]]. apply Ascii.eqb_eq in E. subst x. exact H.
  - intros H. exists c. split; [exact H|apply Ascii.eqb_refl].
Qed.
Lemma all_digits_spec s : all_digits s = true <-> digits_only s.
Proof.
  unfold all_digits, digits_only. rewrite forallb_forall, Forall_forall. split; intros H c Hc; specialize (H c Hc); unfold is_digit in *.
  - destruct (digit_value c) as [v|] eqn:E; [|discriminate H]. exists v. apply digit_value_spec. exact E.
  - destruct H as [v V]. apply digit_value_spec in V. rewrite V. reflexivity.
Qed.
Lemma some_digits_spec s : some_digits s = true <-> s <> [] /\ digits_only s.
Proof.
  rewrite <- all_digits_spec. destruct s as [|x r]; cbn [some_digits]; split; [discriminate|intros [X _]; contradiction X; reflexivity| |intros [_ X]; exact X].
  intros H. split; [discriminate|exact H].
Qed.
Lemma unline_spec s : exists tail, s = unline s ++ tail /\ (tail = [] \/ tail = [newline]).
Proof.
  unfold unline. destruct (rev s) as [|x r] eqn:E; [exists []; rewrite app_nil_r; auto|].
  destruct (Ascii.eqb x newline) eqn:X; [|exists []; rewrite app_nil_r; auto].
  apply Ascii.eqb_eq in X. subst x. exists [newline]. split; [|auto]. rewrite <- (rev_involutive s), E. reflexivity.
Qed.
Lemma unline_line s : unline (s ++ [newline]) = s.
Proof. unfold unline. rewrite rev_app_distr. cbn [rev app]. rewrite Ascii.eqb_refl. apply rev_involutive. Qed.
Lemma unline_none s c : c <> newline -> unline (s ++ [c]) = s ++ [c].
Proof. intros N. unfold unline. rewrite rev_app_distr. cbn [rev app]. apply Ascii.eqb_neq in N. rewrite N. reflexivity. Qed.
Lemma digit_not c v : digit_is c v -> c <> newline /\ c <> "."%char.
Proof. intros []; split; discriminate. Qed.
Lemma unline_digits s b : b <> [] -> digits_only b -> unline (s ++ b) = s ++ b.
Proof.
  intros N D. destruct (exists_last N) as [b' [c ->]]. rewrite app_assoc. apply unline_none.
  unfold digits_only in D. rewrite Forall_forall in D. destruct (D c) as [v V]; [apply in_or_app; right; left; reflexivity|]. apply (digit_not _ _ V).
Qed.
Lemma digits_no_point s : digits_only s -> ~ In "."%char s.
Proof. intros D I. unfold digits_only in D. rewrite Forall_forall in D. destruct (D _ I) as [v V]. apply (digit_not _ _ V). reflexivity. Qed.

Lemma negative_number_spec s : negative_number (chars s) = true <-> negative s.
Proof.
  unfold negative. destruct (chars s) as [|x r]; cbn [negative_number].
  { split; [discriminate|]. intros [body [tail [H _]]]. discriminate H. }
  rewrite andb_true_iff, orb_true_iff, Ascii.eqb_eq. cbv zeta. split.
  - intros [-> H]. destruct (unline_spec r) as [tail [E T]]. exists (unline r), tail. split; [cbn [app]; f_equal; exact E|]. split; [exact T|].
    destruct H as [H|H]; [left; apply some_digits_spec; exact H|right].
    destruct (cut "." (unline r)) as [[a b]|] eqn:C; [|discriminate H]. apply andb_true_iff in H. destruct H as [H1 H2].
    apply cut_spec in C. destruct C as [C _]. exists a, b. split; [exact C|]. split; [apply all_digits_spec; exact H1|]. apply some_digits_spec. exact H2.
  - intros [body [tail [E [T H]]]]. cbn [app] in E. injection E as -> ->. split; [reflexivity|].
    assert (U : unline (body ++ tail) = body).
    { destruct T as [-> | ->]; [|apply unline_line]. rewrite app_nil_r. destruct H as [[N D]|[a [b [-> [_ [N D]]]]]].
      - apply (unline_digits [] body N D).
      - rewrite app_assoc. apply unline_digits; assumption. }
    rewrite U. destruct H as [H|[a [b [-> [H1 [H2 H3]]]]]]; [left; apply some_digits_spec; exact H|right].
    assert (C : cut "." (a ++ ["."%char] ++ b) = Some (a, b)) by (apply cut_spec; split; [reflexivity|apply digits_no_point; exact H1]).
    rewrite C. apply andb_true_iff. split; [apply all_digits_spec; exact H1|apply some_digits_spec; auto].
Qed.

Lemma chars_append a b : chars (String.append a b) = chars a ++ chars b.
Proof. induction a as [|c a IH]; [reflexivity|]. cbn. f_equal. exact IH. Qed.

Lemma lookup_in s a : lookup actions s = Some a <-> In (s, a) actions.
Proof.
  assert (G : forall l, NoDup (map fst l) -> (lookup l s = Some a <-> In (s, a) l)).
  { intros l. induction l as [|[n b] l IH]; cbn [lookup map]; intros N; [split; [discriminate|intros []]|]. inversion N as [|? ? N1 N2]; subst.
    destruct (String.eqb n s) eqn:E.
    - apply String.eqb_eq in E. subst n. split; [intros H; injection H as ->; left; reflexivity|]. intros [H|H]; [congruence|].
      contradiction N1. apply in_map_iff. exists (s, a). auto.
    - apply String.eqb_neq in E. rewrite (IH N2). split; [intros H; right; exact H|]. intros [H|H]; [congruence|exact H]. }
  apply G. vm_compute. repeat (constructor; [intros X; repeat (destruct X as [X|X]; [discriminate X|]); exact X|]). constructor.
Qed.
Lemma names_are n : In n option_names <-> exists a, In (n, a) actions.
Proof.
  split.
  - intros H. repeat (destruct H as [<-|H]; [eexists; unfold actions; cbn; intuition|]). destruct H.
  - intros [a H]. apply (in_map fst) in H. cbn in H. cbn. intuition.
Qed.
Lemma names_no_equals n : In n option_names -> ~ In "="%char (chars n).
Proof.
  intros H. repeat (destruct H as [<-|H]; [intros X; repeat (destruct X as [X|X]; [discriminate X|]); exact X|]). destruct H.
Qed.
Lemma names_dash n : In n option_names -> exists c r, chars n = dash :: c :: r.
Proof. intros H. repeat (destruct H as [<-|H]; [do 2 eexists; reflexivity|]). destruct H. Qed.
Lemma lookup_name s a : lookup actions s = Some a -> In s option_names.
Proof. intros H. apply lookup_in in H. apply names_are. eauto. Qed.
Lemma name_lookup s : In s option_names -> lookup actions s <> None.
Proof. intros H. apply names_are in H. destruct H as [a H]. apply lookup_in in H. congruence. Qed.

Definition named (s : string) : bool := match classify s with Named _ _ _ => true | _ => false end.

Lemma chars_cons c s : chars (String c s) = c :: chars s.
Proof. reflexivity. Qed.
Lemma classify_own s : named s = true <-> own s.
Proof.
  unfold named, classify. split.
  - destruct (chars s) as [|x r] eqn:E; [discriminate|]. destruct (negb (Ascii.eqb x dash)) eqn:D; [discriminate|].
    destruct (lookup actions s) as [a|] eqn:Lk.
    + intros _. left. exists s. split; [exact (lookup_name _ _ Lk)|left; reflexivity].
    + destruct r as [|y more]; [discriminate|]. destruct (cut "=" (x :: y :: more)) as [[n v]|] eqn:C.
      * destruct (lookup actions (str n)) as [a|] eqn:Ln.
        -- intros _. left. exists (str n). split; [exact (lookup_name _ _ Ln)|right]. exists (str v). apply cut_spec in C. destruct C as [C _].
           apply chars_inj. rewrite E, C, !chars_append, !chars_str. reflexivity.
        -- destruct (Ascii.eqb y "h") eqn:H; [|destruct (negative_number _); [discriminate|destruct (has_char _ _); discriminate]].
           intros _. right. exists (str more). apply Ascii.eqb_eq in H. subst y. apply negb_false_iff, Ascii.eqb_eq in D. subst x.
           apply chars_inj. rewrite E, chars_append, chars_str. reflexivity.
      * destruct (Ascii.eqb y "h") eqn:H; [|destruct (negative_number _); [discriminate|destruct (has_char _ _); discriminate]].
        intros _. right. exists (str more). apply Ascii.eqb_eq in H. subst y. apply negb_false_iff, Ascii.eqb_eq in D. subst x.
        apply chars_inj. rewrite E, chars_append, chars_str. reflexivity.
  - intros [[n [I [->|[v ->]]]]|[r ->]].
    + destruct (names_dash n I) as [c [r E]]. rewrite E. cbn [negb]. rewrite Ascii.eqb_refl. cbn [negb].
      destruct (lookup actions n) eqn:Lk; [reflexivity|]. contradiction (name_lookup n I Lk).
    + destruct (names_dash n I) as [c [r E]]. 
      assert (C : chars (n ++ "=" ++ v)%string = dash :: c :: (r ++ "="%char :: chars v)).
      { rewrite !chars_append, E. reflexivity. }
      rewrite C, Ascii.eqb_refl. cbn [negb]. destruct (lookup actions (n ++ "=" ++ v)%string); [reflexivity|].
      assert (K : cut "=" (dash :: c :: (r ++ "="%char :: chars v)) = Some (chars n, chars v)).
      { apply cut_spec. split; [rewrite E; reflexivity|apply names_no_equals; exact I]. }
      rewrite K, str_chars. destruct (lookup actions n) eqn:Lk; [reflexivity|]. contradiction (name_lookup n I Lk).
    + rewrite chars_append. change (chars "-h") with [dash; "h"%char]. cbn [app]. rewrite Ascii.eqb_refl. cbn [negb].
      destruct (lookup actions _); [reflexivity|]. destruct (cut _ _) as [[n v]|]; [destruct (lookup actions (str n)); reflexivity|reflexivity].
Qed.

Lemma classify_word s : classify s = Word <-> word s.
Proof.
  pose proof (classify_own s) as O. unfold named in O. unfold word. rewrite <- O, <- negative_number_spec, <- has_char_spec. clear O. unfold classify.
  destruct (chars s) as [|x r] eqn:E.
  { assert (s = ""%string) by (apply chars_inj; exact E). subst s. split; [|reflexivity]. intros _. split; [discriminate|left]. intros r X. discriminate X. }
  destruct (Ascii.eqb x dash) eqn:D; cbn [negb].
  - apply Ascii.eqb_eq in D. subst x. assert (Eb : s = ("-" ++ str r)%string) by (apply chars_inj; rewrite E, chars_append, chars_str; reflexivity).
    destruct (lookup actions s) as [a|]; [split; [discriminate|intros [X _]; contradiction X; reflexivity]|].
    destruct r as [|y more]; [split; [intros _; split; [discriminate|right; left; rewrite Eb; reflexivity]|reflexivity]|].
    set (m := match cut "=" _ with Some (n, v) => _ | None => None end). destruct m as [[a v]|]; [split; [discriminate|intros [X _]; contradiction X; reflexivity]|].
    destruct (Ascii.eqb y "h"); [split; [discriminate|intros [X _]; contradiction X; reflexivity]|].
    destruct (negative_number _); [split; [intros _; split; [discriminate|auto]|reflexivity]|].
    destruct (has_char _ _); [split; [intros _; split; [discriminate|auto]|reflexivity]|].
    split; [discriminate|]. intros [_ [X|[X|[X|X]]]]; try discriminate X.
    + contradiction (X (str (y :: more)) Eb).
    + rewrite X in E. discriminate E.
  - split; [|reflexivity]. intros _. split; [discriminate|left]. intros r' X. rewrite X in E. cbn in E. injection E as <- _. discriminate D.
Qed.

Lemma classify_store o : classify (spelling o) = Named (Store o) None false.
Proof. destruct o; vm_compute; reflexivity. Qed.
Lemma classify_joined o v : classify (spelling o ++ "=" ++ v) = Named (Store o) (Some (chars v)) false.
Proof. destruct o; reflexivity. Qed.
Lemma classify_beam : classify "--use_apache_beam" = Named UseBeam None false.
Proof. vm_compute. reflexivity. Qed.

(** The options, from what they look like. *)
Lemma classify_named s a x b : classify s = Named a x b ->
  match x with
  | None => In (s, a) actions
  | Some v => (exists n, In (n, a) actions /\ s = (n ++ "=" ++ str v)%string) \/ (a = ShowHelp /\ b = true /\ s = ("-h" ++ str v)%string)
  end.
Proof.
  unfold classify. destruct (chars s) as [|c r] eqn:E; [discriminate|]. destruct (negb (Ascii.eqb c dash)) eqn:D; [discriminate|].
  apply negb_false_iff, Ascii.eqb_eq in D. subst c.
  destruct (lookup actions s) as [a'|] eqn:Lk; [intros H; injection H as <- <- _; apply lookup_in; exact Lk|].
  destruct r as [|y more]; [discriminate|]. destruct (cut "=" (dash :: y :: more)) as [[n v]|] eqn:C.
  - destruct (lookup actions (str n)) as [a'|] eqn:Ln.
    + intros H. injection H as <- <- _. left. exists (str n). split; [apply lookup_in; exact Ln|]. apply cut_spec in C. destruct C as [C _].
      apply chars_inj. rewrite E, C, !chars_append, !chars_str. reflexivity.
    + destruct (Ascii.eqb y "h") eqn:H; [|destruct (negative_number _); [discriminate|destruct (has_char _ _); discriminate]].
      intros X. injection X as <- <- <-. right. split; [reflexivity|]. split; [reflexivity|]. apply Ascii.eqb_eq in H. subst y.
      apply chars_inj. rewrite E, chars_append, chars_str. reflexivity.
  - destruct (Ascii.eqb y "h") eqn:H; [|destruct (negative_number _); [discriminate|destruct (has_char _ _); discriminate]].
    intros X. injection X as <- <- <-. right. split; [reflexivity|]. split; [reflexivity|]. apply Ascii.eqb_eq in H. subst y.
    apply chars_inj. rewrite E, chars_append, chars_str. reflexivity.
Qed.
Lemma store_name s o : In (s, Store o) actions -> s = spelling o.
Proof. intros H. vm_compute in H. repeat (destruct H as [H|H]; [try discriminate H; injection H as <- <-; reflexivity|]). destruct H. Qed.
Lemma beam_name s : In (s, UseBeam) actions -> s = "--use_apache_beam"%string.
Proof. intros H. vm_compute in H. repeat (destruct H as [H|H]; [try discriminate H; injection H as <-; reflexivity|]). destruct H. Qed.
Lemma help_name s : In (s, ShowHelp) actions -> s = "-h"%string \/ s = "--help"%string.
Proof. intros H. vm_compute in H. repeat (destruct H as [H|H]; [try discriminate H; injection H as <-; auto|]). destruct H. Qed.
