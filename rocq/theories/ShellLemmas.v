(** Flags of absl: values of flags. *)
From Coq Require Import String Ascii.
From Verif Require Import Prelude ModelData ModelFiles SpecFiles FilesLemmas ModelDriver DriverLemmas4 ModelMain MainLemmas
  ModelDesigns SpecDesigns ModelShell SpecShell.
Open Scope Z_scope.

Lemma base_digit_spec b c v : b = 8 \/ b = 16 -> (digit_in_base b c = Some v <-> base_digit b c v).
Proof.
  intros B. unfold base_digit. split.
  - destruct B as [-> | ->]; destruct c as [[] [] [] [] [] [] [] []]; vm_compute; intros E; try discriminate E; injection E as <-;
      (split; [first [left; constructor|right; constructor]|reflexivity]).
  - intros [[D|D] Lt]; destruct D, B as [-> | ->]; try reflexivity; vm_compute in Lt; discriminate Lt.
Qed.
Lemma base_digits_app b s1 s2 a f z : base_digits b s1 a f = Ok z -> base_digits b (s1 ++ s2) a f = base_digits b s2 z true.
Proof.
  revert a f. induction s1 as [|c r IH]; intros a f; cbn [base_digits app].
  - destruct f; [|discriminate]. intros E; injection E as ->; reflexivity.
  - destruct (digit_in_base b c); [apply IH|]. destruct (Ascii.eqb c "_" && f); [apply IH|discriminate].
Qed.
Lemma underscore_no_digit b : b = 8 \/ b = 16 -> digit_in_base b "_" = None.
Proof. intros [-> | ->]; reflexivity. Qed.
Lemma base_numeral_digits b s n : b = 8 \/ b = 16 -> base_numeral b s n -> base_digits b s 0 false = Ok n.
Proof.
  intros B. induction 1 as [c v H | s n c v H IH Hc | s n c v H IH Hc].
  - cbn [base_digits]. apply (base_digit_spec b c v B) in H. rewrite H, Z.mul_0_r. reflexivity.
  - rewrite (base_digits_app _ _ _ _ _ _ IH). cbn [base_digits]. apply (base_digit_spec b c v B) in Hc. rewrite Hc. reflexivity.
  - rewrite (base_digits_app _ _ _ _ _ _ IH). apply (base_digit_spec b c v B) in Hc.
    cbn [base_digits]. rewrite (underscore_no_digit b B). cbn. rewrite Hc. reflexivity.
Qed.
Lemma base_digits_numeral b s a f z p : b = 8 \/ b = 16 -> base_digits b s a f = Ok z ->
  (f = true -> base_numeral b p a) ->
  (f = false -> p = [] /\ a = 0 \/ exists q, p = q ++ ["_"%char] /\ base_numeral b q a) ->
  base_numeral b (p ++ s) z.
Proof.
  intros B. revert a f p. induction s as [|c r IH]; intros a f p; cbn [base_digits].
  - destruct f; [|discriminate]. intros E H _. injection E as ->. rewrite app_nil_r. auto.
  - destruct (digit_in_base b c) as [v|] eqn:D.
    + intros E H1 H2. apply (base_digit_spec b c v B) in D.
      replace (p ++ c :: r) with ((p ++ [c]) ++ r) by (rewrite <- app_assoc; auto).
      apply (IH _ _ _ E); [|discriminate]. intros _. destruct f.
      * constructor; auto.
      * destruct (H2 eq_refl) as [[-> ->]|[q [-> Hq]]].
        -- rewrite Z.mul_0_r. cbn [app]. replace (0 + v) with v by lia. constructor; auto.
        -- rewrite <- app_assoc. cbn [app]. constructor; auto.
    + destruct (Ascii.eqb c "_" && f) eqn:C; [|discriminate].
      apply andb_true_iff in C. destruct C as [B1 ->]. apply Ascii.eqb_eq in B1. subst c.
      intros E H1 _.
      replace (p ++ "_"%char :: r) with ((p ++ ["_"%char]) ++ r) by (rewrite <- app_assoc; auto).
      apply (IH _ _ _ E); [discriminate|]. intros _. right. eauto.
Qed.
Lemma base_digits_spec b s z : b = 8 \/ b = 16 -> (base_digits b s 0 false = Ok z <-> base_numeral b s z).
Proof.
  intros B. split; [|apply base_numeral_digits; exact B].
  intros E. apply (base_digits_numeral b s 0 false z [] B E); [discriminate|]. auto.
Qed.
Lemma base_digit_shape b c v : base_digit b c v -> is_space c = false /\ c <> "_"%char.
Proof. intros [[D|D] _]; destruct D; split; try reflexivity; discriminate. Qed.
Lemma base_numeral_first b s n : base_numeral b s n -> exists c r, s = c :: r /\ c <> "_"%char.
Proof.
  induction 1 as [c v H | s n c v H [c' [r [-> IH]]] Hc | s n c v H [c' [r [-> IH]]] Hc].
  - exists c, []. split; [reflexivity|apply (base_digit_shape _ _ _ H)].
  - exists c', (r ++ [c]); auto.
  - exists c', (r ++ ["_"%char; c]); auto.
Qed.
Lemma base_numeral_last b s n : base_numeral b s n -> exists c r, s = r ++ [c] /\ is_space c = false.
Proof.
  destruct 1 as [c v H | s n c v H Hc | s n c v H Hc].
  - exists c, []. split; [reflexivity|apply (base_digit_shape _ _ _ H)].
  - exists c, s. split; [reflexivity|apply (base_digit_shape _ _ _ Hc)].
  - exists c, (s ++ ["_"%char]). rewrite <- app_assoc. split; [reflexivity|apply (base_digit_shape _ _ _ Hc)].
Qed.

Lemma rstrip_split s : exists w, Forall white w /\ s = rstrip s ++ w.
Proof.
  destruct (lstrip_split (rev s)) as [w [H E]]. exists (rev w). split; [apply Forall_rev; exact H|].
  unfold rstrip. rewrite <- rev_app_distr, <- E. symmetry. apply rev_involutive.
Qed.
Lemma rstrip_end s c w : is_space c = false -> Forall white w -> rstrip ((s ++ [c]) ++ w) = s ++ [c].
Proof.
  intros C W. unfold rstrip. rewrite rev_app_distr, lstrip_white by (apply Forall_rev; exact W).
  rewrite rev_app_distr. cbn [rev app lstrip]. rewrite C. change (c :: rev s) with (rev [c] ++ rev s).
  rewrite <- rev_app_distr. apply rev_involutive.
Qed.

Lemma base_int_spec b body z : b = 8 \/ b = 16 ->
  (base_int b body = Ok z <-> exists u d after, body = u ++ d ++ after /\ (u = [] \/ u = ["_"%char]) /\ base_numeral b d z /\ Forall white after).
Proof.
  intros B. unfold base_int. split.
  - destruct (rstrip_split body) as [w [W E]]. destruct (rstrip body) as [|c r] eqn:R; [discriminate|].
    destruct (Ascii.eqb c "_") eqn:C; intros H; apply (base_digits_spec _ _ _ B) in H.
    + apply Ascii.eqb_eq in C. subst c. exists ["_"%char], r, w. split; [exact E|auto].
    + exists [], (c :: r), w. split; [exact E|auto].
  - intros [u [d [after [-> [U [N W]]]]]].
    destruct (base_numeral_last _ _ _ N) as [c' [r' [Ed Hc']]]. destruct (base_numeral_first _ _ _ N) as [c [r [Ef Hc]]].
    assert (R : rstrip (u ++ d ++ after) = u ++ d).
    { rewrite Ed, !app_assoc. apply rstrip_end; assumption. }
    rewrite R. destruct U as [-> | ->]; cbn [app].
    + rewrite Ef. apply Ascii.eqb_neq in Hc. rewrite Hc, <- Ef. apply (base_digits_spec _ _ _ B). exact N.
    + cbn. apply (base_digits_spec _ _ _ B). exact N.
Qed.

Lemma numeral_letters s n : numeral s n -> forall c, In c s -> c <> "x"%char /\ c <> "o"%char.
Proof.
  assert (Dg : forall c v, digit_is c v -> c <> "x"%char /\ c <> "o"%char) by (intros c v []; split; discriminate).
  induction 1 as [c v H | s n c v H IH Hc | s n c v H IH Hc]; intros d I.
  - destruct I as [<-|[]]. exact (Dg _ _ H).
  - apply in_app_or in I. destruct I as [I|[<-|[]]]; [exact (IH d I)|exact (Dg _ _ Hc)].
  - apply in_app_or in I. destruct I as [I|[<-|[<-|[]]]]; [exact (IH d I)|split; discriminate|exact (Dg _ _ Hc)].
Qed.
Lemma literal_letters s z : int_literal s z -> forall c, In c s -> c <> "x"%char /\ c <> "o"%char.
Proof.
  intros [w [sg [body [w' [n [-> [Hw [Hw' [N D]]]]]]]]] c I.
  assert (Wh : forall c, white c -> c <> "x"%char /\ c <> "o"%char).
  { intros d Hd. unfold white in Hd. repeat (destruct Hd as [<-|Hd]; [split; discriminate|]). destruct Hd. }
  rewrite Forall_forall in Hw, Hw'.
  repeat (apply in_app_or in I; destruct I as [I|I]); [exact (Wh c (Hw c I))| |exact (numeral_letters _ _ N c I)|exact (Wh c (Hw' c I))].
  destruct D as [[-> _]|[[-> _]|[-> _]]]; [destruct I|destruct I as [<-|[]]; split; discriminate|destruct I as [<-|[]]; split; discriminate].
Qed.

Lemma absl_int_spec s z : absl_int s = Ok z <-> flag_integer s z.
Proof.
  unfold flag_integer.
  assert (Pre : forall p b u body after, s = chars p ++ u ++ body ++ after -> (p = "0o"%string /\ b = 8 \/ p = "0x"%string /\ b = 16) ->
    base_numeral b body z -> exists c d r, s = "0"%char :: c :: d :: r /\ (c = "o"%char /\ b = 8 \/ c = "x"%char /\ b = 16) /\ d :: r = u ++ body ++ after).
  { intros p b u body after E P N. destruct (base_numeral_first _ _ _ N) as [c1 [r1 [E1 _]]].
    assert (X : exists d r, u ++ body ++ after = d :: r) by (rewrite E1; destruct u as [|x u]; cbn [app]; eauto).
    destruct X as [d [r X]]. rewrite X in *. destruct P as [[-> ->]|[-> ->]]; cbn in E; [exists "o"%char, d, r|exists "x"%char, d, r]; rewrite E; auto. }
  assert (Plain : forall t, absl_int s = py_int s -> (forall c r, s = "0"%char :: c :: r -> r <> [] -> c <> "o"%char /\ c <> "x"%char) \/ t = tt ->
    ((forall c r, s = "0"%char :: c :: r -> r <> [] -> c <> "o"%char /\ c <> "x"%char) -> (absl_int s = Ok z <-> int_literal s z \/
     exists p b u body after, s = chars p ++ u ++ body ++ after /\ (p = "0o"%string /\ b = 8 \/ p = "0x"%string /\ b = 16) /\
       (u = [] \/ u = ["_"%char]) /\ base_numeral b body z /\ Forall white after))).
  { intros _ E _ No. rewrite E, py_int_spec. split; [auto|]. intros [H|[p [b [u [body [after [Es [P [_ [N _]]]]]]]]]]; [exact H|].
    destruct (Pre _ _ _ _ _ Es P N) as [c [d [r [E1 [E2 _]]]]]. destruct (No _ _ E1); [discriminate|]. destruct E2 as [[-> _]|[-> _]]; congruence. }
  assert (Based : forall c d r b, s = "0"%char :: c :: d :: r -> (c = "o"%char /\ b = 8 \/ c = "x"%char /\ b = 16) -> absl_int s = base_int b (d :: r) ->
    (absl_int s = Ok z <-> int_literal s z \/
     exists p b u body after, s = chars p ++ u ++ body ++ after /\ (p = "0o"%string /\ b = 8 \/ p = "0x"%string /\ b = 16) /\
       (u = [] \/ u = ["_"%char]) /\ base_numeral b body z /\ Forall white after)).
  { intros c d r b E P A. assert (B : b = 8 \/ b = 16) by (destruct P as [[_ ->]|[_ ->]]; auto). rewrite A, (base_int_spec _ _ _ B). split.
    - intros [u [body [after [Eb [U [N W]]]]]]. right. destruct P as [[-> ->]|[-> ->]].
      + exists "0o"%string, 8, u, body, after. split; [rewrite E, Eb; reflexivity|auto].
      + exists "0x"%string, 16, u, body, after. split; [rewrite E, Eb; reflexivity|auto].
    - intros [H|[p [b' [u [body [after [Es [P' [U [N W]]]]]]]]]].
      + exfalso. destruct (literal_letters _ _ H c) as [X Y]; [rewrite E; right; left; reflexivity|]. destruct P as [[-> _]|[-> _]]; congruence.
      + destruct (Pre _ _ _ _ _ Es P' N) as [c' [d' [r' [E1 [E2 E3]]]]]. rewrite E in E1. injection E1 as <- <- <-.
        assert (b' = b) as -> by (destruct P as [[-> ->]|[-> ->]], E2 as [[X ->]|[X ->]]; try reflexivity; discriminate X).
        exists u, body, after. auto. }
  destruct s as [|a s1]; [apply (Plain tt eq_refl (or_intror eq_refl)); intros c r H; discriminate H|].
  destruct s1 as [|c s2]; [apply (Plain tt eq_refl (or_intror eq_refl)); intros c r H; discriminate H|].
  destruct s2 as [|d r].
  { apply (Plain tt eq_refl (or_intror eq_refl)). intros c' r H. injection H as _ _ <-. congruence. }
  destruct (Ascii.eqb a "0" && Ascii.eqb c "o") eqn:O.
  { apply (Based c d r 8).
    - apply andb_true_iff in O. destruct O as [O _]. apply Ascii.eqb_eq in O. subst a. reflexivity.
    - left. apply andb_true_iff in O. destruct O as [_ O]. apply Ascii.eqb_eq in O. auto.
    - cbn [absl_int]. rewrite O. reflexivity. }
  destruct (Ascii.eqb a "0" && Ascii.eqb c "x") eqn:X.
  { apply (Based c d r 16).
    - apply andb_true_iff in X. destruct X as [X _]. apply Ascii.eqb_eq in X. subst a. reflexivity.
    - right. apply andb_true_iff in X. destruct X as [_ X]. apply Ascii.eqb_eq in X. auto.
    - cbn [absl_int]. rewrite O, X. reflexivity. }
  apply (Plain tt); [cbn [absl_int]; rewrite O, X; reflexivity|right; reflexivity|].
  intros c' r' H _. injection H as -> -> _. rewrite Ascii.eqb_refl in O, X. cbn [andb] in O, X.
  apply Ascii.eqb_neq in O, X. auto.
Qed.

Lemma lower_like x y : (forall n, (65 <= n <= 90)%nat -> nat_of_ascii y <> n) -> (lower_char x = y <-> letter_like x y).
Proof.
  intros N. unfold lower_char, letter_like. destruct ((65 <=? nat_of_ascii x) && (nat_of_ascii x <=? 90))%nat eqn:E.
  - apply andb_true_iff in E. destruct E as [E1 E2]. apply Nat.leb_le in E1, E2.
    assert (V : nat_of_ascii (ascii_of_nat (nat_of_ascii x + 32)) = (nat_of_ascii x + 32)%nat) by (apply nat_ascii_embedding; lia).
    split.
    + intros <-. right. rewrite V. lia.
    + intros [->|[H1 H2]]; [exfalso; apply (N (nat_of_ascii y)); [lia|reflexivity]|]. rewrite H2. apply ascii_nat_embedding.
  - split; [auto|]. intros [H|[H1 H2]]; [exact H|]. exfalso. apply andb_false_iff in E. destruct E as [E|E]; apply Nat.leb_gt in E; lia.
Qed.
Lemma lower_reads s w : (forall y, In y (chars w) -> forall n, (65 <= n <= 90)%nat -> nat_of_ascii y <> n) ->
  (lower s = chars w <-> reads_like s w).
Proof.
  unfold reads_like, lower. generalize (chars w). intros l. revert s. induction l as [|y l IH]; intros s N.
  - split; [destruct s; [constructor|discriminate]|]. intros H. inversion H. reflexivity.
  - destruct s as [|x s]; cbn [map]; [split; [discriminate|intros H; inversion H]|].
    assert (N1 := N y (or_introl eq_refl)). assert (N2 := fun z Hz => N z (or_intror Hz)). specialize (IH s N2). pose proof (lower_like x y N1) as LL. split.
    + intros H. injection H as H1 H2. constructor; [apply LL; exact H1|apply IH; exact H2].
    + intros H. inversion H; subst. f_equal; [apply LL; assumption|apply IH; assumption].
Qed.

Lemma small_word w : In w ["true"; "t"; "1"; "false"; "f"; "0"]%string -> forall y, In y (chars w) -> forall n, (65 <= n <= 90)%nat -> nat_of_ascii y <> n.
Proof.
  intros H y I n Hn E. repeat (destruct H as [<-|H]; [vm_compute in I; repeat (destruct I as [<-|I]; [vm_compute in E; lia|]); destruct I|]). destruct H.
Qed.

Lemma absl_bool_spec s b : absl_bool s = Some b <-> flag_boolean s b.
Proof.
  unfold absl_bool, flag_boolean.
  assert (K : forall w, In w ["true"; "t"; "1"; "false"; "f"; "0"]%string -> (String.eqb (str (lower s)) w = true <-> reads_like s w)).
  { intros w Hw. rewrite String.eqb_eq, <- (lower_reads s w (small_word w Hw)). split; [intros <-; symmetry; apply chars_str|intros ->; apply str_chars]. }
  assert (T1 := K "true"%string). assert (T2 := K "t"%string). assert (T3 := K "1"%string). assert (T4 := K "false"%string). assert (T5 := K "f"%string). assert (T6 := K "0"%string).
  cbn [In] in T1, T2, T3, T4, T5, T6. specialize (T1 ltac:(tauto)). specialize (T2 ltac:(tauto)). specialize (T3 ltac:(tauto)). specialize (T4 ltac:(tauto)). specialize (T5 ltac:(tauto)). specialize (T6 ltac:(tauto)).
  assert (Q : forall v w, String.eqb (str (lower s)) v = true -> String.eqb (str (lower s)) w = true -> v = w) by (intros v w A B; apply String.eqb_eq in A, B; congruence).
  split.
  - destruct (String.eqb (str (lower s)) "true") eqn:E1; [intros H; injection H as <-; exists "true"%string; split; [apply T1; reflexivity|cbn; tauto]|].
    destruct (String.eqb (str (lower s)) "t") eqn:E2; [intros H; injection H as <-; exists "t"%string; split; [apply T2; reflexivity|cbn; tauto]|].
    destruct (String.eqb (str (lower s)) "1") eqn:E3; [intros H; injection H as <-; exists "1"%string; split; [apply T3; reflexivity|cbn; tauto]|].
    destruct (String.eqb (str (lower s)) "false") eqn:E4; [intros H; injection H as <-; exists "false"%string; split; [apply T4; reflexivity|cbn; tauto]|].
    destruct (String.eqb (str (lower s)) "f") eqn:E5; [intros H; injection H as <-; exists "f"%string; split; [apply T5; reflexivity|cbn; tauto]|].
    destruct (String.eqb (str (lower s)) "0") eqn:E6; [intros H; injection H as <-; exists "0"%string; split; [apply T6; reflexivity|cbn; tauto]|].
    discriminate.
  - intros [w [R I]]. cbn [In] in I.
    destruct I as [I|[I|[I|[I|[I|[I|[]]]]]]]; injection I as <- <-.
    + apply T1 in R. rewrite R. reflexivity.
    + apply T2 in R. rewrite R, orb_true_r. reflexivity.
    + apply T3 in R. rewrite R, orb_true_r. reflexivity.
    + apply T4 in R. apply String.eqb_eq in R. rewrite R. reflexivity.
    + apply T5 in R. apply String.eqb_eq in R. rewrite R. reflexivity.
    + apply T6 in R. apply String.eqb_eq in R. rewrite R. reflexivity.
Qed.

Lemma parse_flag_spec k s v : parse_flag k (chars s) = Some v <-> denotes k s v.
Proof.
  destruct k; cbn [parse_flag].
  - split; [intros H; injection H as <-; cbn; apply str_chars|]. destruct v; cbn; try contradiction. intros ->. rewrite str_chars. reflexivity.
  - destruct (absl_int (chars s)) as [z|e] eqn:E.
    + split; [intros H; injection H as <-; apply absl_int_spec; exact E|]. destruct v as [t|z'|b']; cbn; try contradiction.
      intros H. apply absl_int_spec in H. rewrite E in H. injection H as ->. reflexivity.
    + split; [discriminate|]. destruct v as [t|z'|b']; cbn; try contradiction. intros H. apply absl_int_spec in H. rewrite E in H. discriminate H.
  - destruct (absl_bool (chars s)) as [b|] eqn:E.
    + split; [intros H; injection H as <-; apply absl_bool_spec; exact E|]. destruct v as [t|z'|b']; cbn; try contradiction.
      intros H. apply absl_bool_spec in H. rewrite E in H. injection H as ->. reflexivity.
    + split; [discriminate|]. destruct v as [t|z'|b']; cbn; try contradiction. intros H. apply absl_bool_spec in H. rewrite E in H. discriminate H.
Qed.
