(** Proofs about the text format of impression logs. *)
From Coq Require Import String Ascii Permutation Sorted.
From Verif Require Import Prelude ModelReachPoint ModelData ModelFiles SpecData SpecFiles DataLemmas.
Open Scope Z_scope.

Lemma digit_value_spec c v : digit_value c = Some v <-> digit_is c v.
Proof.
  split.
  - unfold digit_value. destruct c as [[] [] [] [] [] [] [] []]; vm_compute; intros E;
      try discriminate E; injection E as <-; constructor.
  - intros H; destruct H; reflexivity.
Qed.

Lemma is_space_spec c : is_space c = true <-> white c.
Proof.
  unfold white. split.
  - destruct c as [[] [] [] [] [] [] [] []]; vm_compute; intros E; try discriminate E; tauto.
  - intros H. repeat (destruct H as [<-|H]; [reflexivity|]). destruct H.
Qed.

Lemma digit_not_space c v : digit_is c v -> is_space c = false.
Proof. intros H; destruct H; reflexivity. Qed.

Lemma digit_is_digit n : 0 <= n < 10 -> digit_is (digit n) n.
Proof.
  intros H.
  assert (n = 0 \/ n = 1 \/ n = 2 \/ n = 3 \/ n = 4 \/ n = 5 \/ n = 6 \/ n = 7 \/ n = 8 \/ n = 9)
    as C by lia.
  repeat (destruct C as [->|C]; [constructor|]). subst n; constructor.
Qed.

(** ** Numerals *)

(** What may follow a numeral that denotes [a] so far. *)
Lemma int_digits_app s1 s2 a b z :
  int_digits s1 a b = Ok z -> int_digits (s1 ++ s2) a b = int_digits s2 z true.
Proof.
  revert a b. induction s1 as [|c r IH]; intros a b; simpl.
  - destruct b; [|discriminate]. intros E; inversion E; auto.
  - destruct (digit_value c); [apply IH|]. destruct (Ascii.eqb c "_" && b); [apply IH|discriminate].
Qed.

Lemma numeral_int_digits s n : numeral s n -> int_digits s 0 false = Ok n.
Proof.
  induction 1 as [c v H | s n c v H IH Hc | s n c v H IH Hc].
  - simpl. apply digit_value_spec in H. rewrite H. f_equal. 
  - rewrite (int_digits_app _ _ _ _ _ IH). simpl. apply digit_value_spec in Hc. rewrite Hc.
    reflexivity.
  - rewrite (int_digits_app _ _ _ _ _ IH). apply digit_value_spec in Hc.
    cbn [int_digits]. change (digit_value "_") with (@None Z). simpl. rewrite Hc. reflexivity.
Qed.

Lemma int_digits_numeral s a b z p :
  int_digits s a b = Ok z ->
  (b = true -> numeral p a) ->
  (b = false -> p = [] /\ a = 0 \/ exists q, p = q ++ ["_"%char] /\ numeral q a) ->
  numeral (p ++ s) z.
Proof.
  revert a b p. induction s as [|c r IH]; intros a b p; simpl.
  - destruct b; [|discriminate]. intros E H _. inversion E; subst. rewrite app_nil_r. auto.
  - destruct (digit_value c) as [v|] eqn:D.
    + intros E H1 H2. apply digit_value_spec in D.
      replace (p ++ c :: r) with ((p ++ [c]) ++ r) by (rewrite <- app_assoc; auto).
      apply (IH _ _ _ E); [|discriminate]. intros _. destruct b.
      * constructor; auto.
      * destruct (H2 eq_refl) as [[-> ->]|[q [-> Hq]]].
        -- simpl. replace (match v with 0 => 0 | Z.pos y' => Z.pos y' | Z.neg y' => Z.neg y' end)
             with v by (destruct v; auto). constructor; auto.
        -- rewrite <- app_assoc. simpl app. constructor; auto.
    + destruct (Ascii.eqb c "_" && b) eqn:B; [|discriminate].
      apply andb_true_iff in B. destruct B as [B1 ->]. apply Ascii.eqb_eq in B1. subst c.
      intros E H1 _.
      replace (p ++ "_"%char :: r) with ((p ++ ["_"%char]) ++ r) by (rewrite <- app_assoc; auto).
      apply (IH _ _ _ E); [discriminate|]. intros _. right. eauto.
Qed.

Lemma int_digits_spec s z : int_digits s 0 false = Ok z <-> numeral s z.
Proof.
  split; [|apply numeral_int_digits].
  intros E. apply (int_digits_numeral s 0 false z [] E); [discriminate|]. auto.
Qed.

Lemma numeral_nonempty s n : numeral s n -> s <> [].
Proof. destruct 1; [discriminate|destruct s; discriminate|destruct s; discriminate]. Qed.

Lemma numeral_first s n : numeral s n -> exists c r, s = c :: r /\ is_space c = false /\ c <> "-"%char /\ c <> "+"%char.
Proof.
  induction 1 as [c v H | s n c v H [c' [r [-> IH]]] Hc | s n c v H [c' [r [-> IH]]] Hc].
  - exists c, []. split; auto. destruct H; repeat split; discriminate.
  - exists c', (r ++ [c]); auto.
  - exists c', (r ++ ["_"%char; c]); auto.
Qed.

Lemma numeral_last s n : numeral s n -> exists c r, s = r ++ [c] /\ is_space c = false.
Proof.
  destruct 1 as [c v H | s n c v H Hc | s n c v H Hc].
  - exists c, []. split; auto. eapply digit_not_space; eauto.
  - exists c, s. split; auto. eapply digit_not_space; eauto.
  - exists c, (s ++ ["_"%char]). rewrite <- app_assoc. split; auto. eapply digit_not_space; eauto.
Qed.

(** ** Stripping white space *)

Lemma lstrip_white w s : Forall white w -> lstrip (w ++ s) = lstrip s.
Proof.
  induction 1 as [|c w H _ IH]; simpl; auto. apply is_space_spec in H. rewrite H. auto.
Qed.
Lemma lstrip_split s : exists w, Forall white w /\ s = w ++ lstrip s.
Proof.
  induction s as [|c r [w [H E]]]; simpl.
  - exists []; auto.
  - destruct (is_space c) eqn:D.
    + exists (c :: w). simpl. rewrite <- E. split; auto. constructor; auto. apply is_space_spec; auto.
    + exists []; auto.
Qed.
Lemma strip_split s : exists w w', Forall white w /\ Forall white w' /\ s = w ++ strip s ++ w'.
Proof.
  destruct (lstrip_split s) as [w [Hw E]].
  destruct (lstrip_split (rev (lstrip s))) as [w' [Hw' E']].
  exists w, (rev w'). split; auto. split.
  - apply Forall_rev; auto.
  - rewrite E at 1. f_equal. unfold strip. rewrite <- rev_app_distr, <- E'.
    symmetry. apply rev_involutive.
Qed.
Lemma strip_middle w s w' :
  Forall white w -> Forall white w' ->
  (exists c r, s = c :: r /\ is_space c = false) -> (exists c r, s = r ++ [c] /\ is_space c = false) ->
  strip (w ++ s ++ w') = s.
Proof.
  intros Hw Hw' [c [r [E Hc]]] [c' [r' [E' Hc']]]. unfold strip.
  rewrite lstrip_white by auto.
  assert (lstrip (s ++ w') = s ++ w') as ->. { rewrite E. simpl. rewrite Hc. auto. }
  rewrite rev_app_distr, lstrip_white by (apply Forall_rev; auto).
  rewrite E', rev_app_distr. simpl. rewrite Hc'. 
  change (c' :: rev r') with (rev [c'] ++ rev r'). rewrite <- rev_app_distr. apply rev_involutive.
Qed.

Lemma py_int_spec s z : py_int s = Ok z <-> int_literal s z.
Proof.
  split.
  - unfold py_int. destruct (strip_split s) as [w [w' [Hw [Hw' E]]]].
    destruct (strip s) as [|c r] eqn:St; [discriminate|].
    destruct (Ascii.eqb c "-") eqn:M; [|destruct (Ascii.eqb c "+") eqn:P].
    + apply Ascii.eqb_eq in M. subst c. unfold bind.
      destruct (int_digits r 0 false) as [n|] eqn:D; [|discriminate]. intros E1; inversion E1; subst z.
      apply int_digits_spec in D.
      exists w, ["-"%char], r, w', n. auto 10.
    + apply Ascii.eqb_eq in P. subst c. intros D. apply int_digits_spec in D.
      exists w, ["+"%char], r, w', z. auto 10.
    + intros D. apply int_digits_spec in D. exists w, [], (c :: r), w', z. auto 10.
  - intros [w [sg [body [w' [n [-> [Hw [Hw' [N D]]]]]]]]].
    destruct (numeral_first _ _ N) as [c [r [Eb [Hc [Hm Hp]]]]].
    destruct (numeral_last _ _ N) as [c' [r' [Eb' Hc']]].
    apply int_digits_spec in N.
    assert (strip (w ++ (sg ++ body) ++ w') = sg ++ body) as St.
    { apply strip_middle; auto.
      - destruct D as [[-> _]|[[-> _]|[-> _]]].
        + exists c, r; auto.
        + exists "+"%char, body. auto.
        + exists "-"%char, body. auto.
      - exists c', (sg ++ r'). rewrite Eb', app_assoc. auto. }
    unfold py_int. rewrite <- (app_assoc sg) in St. rewrite St.
    destruct D as [[-> ->]|[[-> ->]|[-> ->]]]; simpl app.
    + rewrite Eb in *. apply Ascii.eqb_neq in Hm, Hp. rewrite Hm, Hp. auto.
    + simpl. auto.
    + simpl. rewrite N. reflexivity.
Qed.

(** ** Printing integers *)

Lemma digits_acc fuel n acc : digits fuel n acc = digits fuel n [] ++ acc.
Proof.
  revert n acc. induction fuel as [|f IH]; intros n acc; simpl; auto.
  destruct (n <? 10); auto. rewrite IH. symmetry. rewrite IH, <- app_assoc. auto.
Qed.

Lemma digits_numeral fuel n : 0 <= n < 10 ^ Z.of_nat fuel -> (fuel <> 0)%nat ->
  numeral (digits fuel n []) n.
Proof.
  revert n. induction fuel as [|f IH]; intros n H Hf; [lia|]. simpl.
  destruct (Z.ltb_spec n 10).
  - constructor. apply digit_is_digit; lia.
  - rewrite digits_acc.
    replace n with (10 * (n / 10) + n mod 10) at 3 by (symmetry; apply Z.div_mod; lia).
    constructor; [|apply digit_is_digit, Z.mod_pos_bound; lia].
    destruct f as [|f'].
    { change (10 ^ Z.of_nat 1) with 10 in H. lia. }
    apply IH; [|lia]. rewrite Nat2Z.inj_succ, Z.pow_succ_r in H by lia. split.
    + apply Z.div_pos; lia.
    + apply Z.div_lt_upper_bound; lia.
Qed.

Lemma pow_bound n : 0 <= n -> n < 10 ^ Z.of_nat (S (Z.to_nat (Z.log2 n))).
Proof.
  intros H. rewrite Nat2Z.inj_succ, Z2Nat.id by apply Z.log2_nonneg.
  destruct (Z.eq_dec n 0) as [->|].
  - simpl. reflexivity.
  - destruct (Z.log2_spec n) as [_ L]; [lia|].
    eapply Z.lt_le_trans; [exact L|]. apply Z.pow_le_mono_l.
    pose proof (Z.log2_nonneg n). lia.
Qed.

Lemma str_of_int_literal z : int_literal (str_of_int z) z.
Proof.
  unfold str_of_int.
  assert (numeral (digits (S (Z.to_nat (Z.log2 (Z.abs z)))) (Z.abs z) []) (Z.abs z)) as N.
  { apply digits_numeral; [|lia]. split; [lia|]. apply pow_bound; lia. }
  destruct (Z.ltb_spec z 0).
  - exists [], ["-"%char], (digits (S (Z.to_nat (Z.log2 (Z.abs z)))) (Z.abs z) []), [], (Z.abs z).
    rewrite app_nil_r. repeat (split; [auto|]). right; right. split; auto. lia.
  - exists [], [], (digits (S (Z.to_nat (Z.log2 (Z.abs z)))) (Z.abs z) []), [], (Z.abs z).
    rewrite app_nil_r. repeat (split; [auto|]). left. split; auto. lia.
Qed.

Lemma numeral_chars s n c : numeral s n -> In c s -> c = "_"%char \/ exists v, digit_is c v.
Proof.
  induction 1 as [x v H | s n x v H IH Hc | s n x v H IH Hc]; intros I.
  - destruct I as [<-|[]]. eauto.
  - apply in_app_iff in I. destruct I as [I|[<-|[]]]; eauto.
  - apply in_app_iff in I. destruct I as [I|[<-|[<-|[]]]]; eauto.
Qed.

Lemma str_of_int_chars z c : In c (str_of_int z) -> c <> comma /\ c <> newline.
Proof.
  unfold str_of_int.
  assert (numeral (digits (S (Z.to_nat (Z.log2 (Z.abs z)))) (Z.abs z) []) (Z.abs z)) as N.
  { apply digits_numeral; [|lia]. split; [lia|]. apply pow_bound; lia. }
  intros I. apply in_app_iff in I. destruct I as [I|I].
  - destruct (z <? 0); [|destruct I]. destruct I as [<-|[]]. split; discriminate.
  - destruct (numeral_chars _ _ _ N I) as [->|[v D]]; [split; discriminate|].
    destruct D; split; discriminate.
Qed.

(** ** Lines and commas *)

Lemma split_on_none c s : ~ In c s -> split_on c s = [s].
Proof.
  induction s as [|x r IH]; intros H; simpl; auto.
  rewrite IH by (intros I; apply H; right; auto).
  destruct (Ascii.eqb x c) eqn:E; auto. apply Ascii.eqb_eq in E. exfalso. apply H. left; auto.
Qed.
Lemma split_on_nonempty c s : split_on c s <> [].
Proof.
  destruct s as [|x r]; simpl; [discriminate|].
  destruct (split_on c r); [discriminate|]. destruct (Ascii.eqb x c); discriminate.
Qed.
Lemma split_on_app c a b : ~ In c a -> split_on c (a ++ c :: b) = a :: split_on c b.
Proof.
  induction a as [|x r IH]; intros H; simpl.
  - pose proof (split_on_nonempty c b). destruct (split_on c b); [contradiction|].
    rewrite Ascii.eqb_refl. auto.
  - rewrite IH by (intros I; apply H; right; auto).
    destruct (Ascii.eqb x c) eqn:E; auto. apply Ascii.eqb_eq in E. exfalso. apply H. left; auto.
Qed.
Lemma split_on_cases c s :
  (~ In c s /\ split_on c s = [s]) \/
  (exists a b, s = a ++ c :: b /\ ~ In c a /\ split_on c s = a :: split_on c b).
Proof.
  destruct (in_dec ascii_dec c s) as [I|N].
  - right. induction s as [|x r IH]; [destruct I|].
    destruct (ascii_dec x c) as [->|Nx].
    + exists [], r. split; auto. split; [intros []|]. apply (split_on_app c [] r). intros [].
    + destruct I as [I|I]; [contradiction|]. destruct (IH I) as [a [b [-> [Ha _]]]].
      exists (x :: a), b. split; auto.
      assert (~ In c (x :: a)) by (intros [?|?]; auto).
      split; auto. apply (split_on_app c (x :: a) b); auto.
  - left. split; auto. apply split_on_none; auto.
Qed.
Lemma split_on_two c s a b : split_on c s = [a; b] <-> s = a ++ c :: b /\ ~ In c a /\ ~ In c b.
Proof.
  split.
  - destruct (split_on_cases c s) as [[N E]|[a' [b' [E [Ha' Es]]]]]; [rewrite E; discriminate|].
    rewrite Es. destruct (split_on_cases c b') as [[N E']|[a2 [b2 [E' [Ha2 Es2]]]]].
    + rewrite E'. intros X. inversion X; subst. auto.
    + rewrite Es2. intros X. inversion X as [[X1 X2]]. exfalso. eapply split_on_nonempty; eauto.
  - intros [-> [Ha Hb]]. rewrite split_on_app, split_on_none by auto. auto.
Qed.

Lemma lines_of_lines s ls : lines_of s ls -> lines s = ls.
Proof.
  induction 1 as [|l Hne Hn|l rest ls Hn H IH]; auto.
  - induction l as [|x r IHr]; [contradiction|]. simpl.
    destruct (Ascii.eqb x newline) eqn:E.
    { apply Ascii.eqb_eq in E. exfalso. apply Hn. left; auto. }
    destruct r as [|y r']; auto. rewrite IHr; [auto|discriminate|].
    intros I; apply Hn; right; auto.
  - induction l as [|x r IHr]; simpl.
    + rewrite IH. auto.
    + destruct (Ascii.eqb x newline) eqn:E.
      { apply Ascii.eqb_eq in E. exfalso. apply Hn. left; auto. }
      rewrite IHr by (intros I; apply Hn; right; auto). auto.
Qed.
Lemma lines_of_exists s : exists ls, lines_of s ls.
Proof.
  remember (length s) as n eqn:Hn.
  assert (length s <= n)%nat as L by lia. clear Hn. revert s L.
  induction n as [|n IH]; intros s L.
  - destruct s; [|simpl in L; lia]. exists []. constructor.
  - destruct (split_on_cases newline s) as [[N _]|[a [b [-> [Ha _]]]]].
    + destruct s as [|c r]; [exists []; constructor|]. exists [c :: r]. constructor; auto. discriminate.
    + destruct (IH b) as [ls H].
      { rewrite app_length in L. simpl in L. lia. }
      exists ((a ++ [newline]) :: ls). constructor; auto.
Qed.

(** ** Rows *)

Lemma read_row_ok F line r : read_row F line = Ok r <-> line_says F line r.
Proof.
  unfold read_row, line_says. split.
  - destruct (split_on comma line) as [|a [|b [|]]] eqn:E; try discriminate.
    apply split_on_two in E. destruct E as [-> [Ha Hb]]. unfold bind.
    destruct (py_int a) as [i|] eqn:I; [|discriminate].
    destruct (read_float F b) as [s|] eqn:R; [|discriminate].
    intros X; inversion X; subst r. exists a, b. apply py_int_spec in I. auto 10.
  - intros [a [b [-> [Ha [Hb [I R]]]]]].
    assert (split_on comma (a ++ comma :: b) = [a; b]) as -> by (apply split_on_two; auto).
    apply py_int_spec in I. rewrite I. simpl. rewrite R. destruct r; auto.
Qed.

Lemma int_digits_err s a b e : int_digits s a b = Err e -> e = ValueError.
Proof.
  revert a b. induction s as [|c r IH]; intros a b; simpl.
  - destruct b; intros E; inversion E; auto.
  - destruct (digit_value c); eauto. destruct (Ascii.eqb c "_" && b); eauto. intros E; inversion E; auto.
Qed.
Lemma py_int_err s e : py_int s = Err e -> e = ValueError.
Proof.
  unfold py_int. destruct (strip s) as [|c r]; [intros E; inversion E; auto|].
  destruct (Ascii.eqb c "-"); [|destruct (Ascii.eqb c "+"); apply int_digits_err].
  unfold bind. destruct (int_digits r 0 false) eqn:D; [discriminate|].
  intros E; inversion E; subst. eapply int_digits_err; eauto.
Qed.
Lemma read_row_err F line e : float_errors F -> read_row F line = Err e ->
  e = ValueError /\ malformed F line.
Proof.
  intros HF E. split.
  - revert E. unfold read_row. destruct (split_on comma line) as [|a [|b [|]]];
      try (intros X; inversion X; auto; fail).
    unfold bind. destruct (py_int a) eqn:I.
    + destruct (read_float F b) eqn:R; [discriminate|]. intros X; inversion X; subst. eapply HF; eauto.
    + intros X; inversion X; subst. eapply py_int_err; eauto.
  - intros r H. apply read_row_ok in H. congruence.
Qed.

Lemma read_rows_app F n pre rows rest log :
  Forall2 (line_says F) pre rows ->
  read_rows F n (pre ++ rest) log = read_rows F (n + Z.of_nat (length pre)) rest (log ++ rows).
Proof.
  intros H. revert n log. induction H as [|l r pre rows H _ IH]; intros n log.
  - simpl. rewrite app_nil_r. f_equal. lia.
  - simpl app. cbn [read_rows]. apply read_row_ok in H. rewrite H, IH, <- app_assoc. simpl app.
    f_equal. cbn [length]. lia.
Qed.

Lemma read_rows_split F ls : float_errors F ->
  (exists rows, Forall2 (line_says F) ls rows) \/
  (exists pre rows bad post, ls = pre ++ bad :: post /\ Forall2 (line_says F) pre rows /\
     malformed F bad /\ read_row F bad = Err ValueError).
Proof.
  intros HF. induction ls as [|l r IH].
  - left. exists []. constructor.
  - destruct (read_row F l) as [x|e] eqn:E.
    + apply read_row_ok in E. destruct IH as [[rows H]|[pre [rows [bad [post [-> [H [M R]]]]]]]].
      * left. exists (x :: rows). constructor; auto.
      * right. exists (l :: pre), (x :: rows), bad, post. repeat (split; auto).
    + destruct (read_row_err _ _ _ HF E) as [-> M].
      right. exists [], [], l, r. repeat split; auto.
Qed.

Lemma read_log_ok F s ls rows : lines_of s ls -> Forall2 (line_says F) ls rows -> read_log F s = Log rows.
Proof.
  intros Hl H. unfold read_log. rewrite (lines_of_lines _ _ Hl).
  rewrite <- (app_nil_r ls), (read_rows_app F 0 ls rows [] [] H). reflexivity.
Qed.
Lemma read_log_bad F s ls pre rows bad post : lines_of s ls -> ls = pre ++ bad :: post ->
  Forall2 (line_says F) pre rows -> read_row F bad = Err ValueError ->
  read_log F s = BadLine (Z.of_nat (length pre) + 1) bad.
Proof.
  intros Hl -> H R. unfold read_log. rewrite (lines_of_lines _ _ Hl).
  rewrite (read_rows_app F 0 pre rows _ [] H). cbn [read_rows]. rewrite R. reflexivity.
Qed.

(** ** Writing *)

Lemma written_line F i x : prints_back F x -> line_says F (write_row F (i, x)) (i, x).
Proof.
  intros [H1 [H2 H3]]. exists (str_of_int i), (show_float F x ++ [newline]).
  split; [auto|]. split.
  { intros I. apply str_of_int_chars in I. destruct I as [I _]. auto. }
  split.
  { intros I. apply in_app_iff in I. destruct I as [I|[I|[]]]; [auto|discriminate]. }
  split; auto. apply str_of_int_literal.
Qed.
Lemma written_lines F rows : Forall (fun r => prints_back F (snd r)) rows ->
  lines_of (flat_map (write_row F) rows) (map (write_row F) rows).
Proof.
  induction 1 as [|[i x] rows [H1 [H2 H3]] _ IH]; [constructor|].
  simpl in *. unfold write_row at 1 3. simpl fst; simpl snd.
  replace ((str_of_int i ++ [comma] ++ show_float F x ++ [newline]) ++ flat_map (write_row F) rows)
    with ((str_of_int i ++ [comma] ++ show_float F x) ++ newline :: flat_map (write_row F) rows)
    by (rewrite <- !app_assoc; auto).
  replace (str_of_int i ++ [comma] ++ show_float F x ++ [newline])
    with ((str_of_int i ++ [comma] ++ show_float F x) ++ [newline])
    by (rewrite <- !app_assoc; auto).
  constructor; auto.
  intros I. apply in_app_iff in I. destruct I as [I|I].
  - apply str_of_int_chars in I. tauto.
  - destruct I as [I|I]; [discriminate|auto].
Qed.

Lemma written_log F rows : Forall (fun r => prints_back F (snd r)) rows ->
  read_log F (flat_map (write_row F) rows) = Log rows.
Proof.
  intros H. eapply read_log_ok; [apply written_lines; auto|].
  clear -H. induction H as [|[i x] rows H _ IH]; constructor; auto. apply written_line; auto.
Qed.

Lemma increasing_sorted l : StronglySorted row_le l -> increasing_prices l.
Proof.
  induction 1 as [|x l H IH F]; simpl; auto. destruct l as [|y r]; auto.
  split; auto. inversion F; auto.
Qed.
Lemma sort_rows_idem l : sort_rows (sort_rows l) = sort_rows l.
Proof. apply sort_rows_id, increasing_sorted, sort_rows_sorted. Qed.

Lemma count_distinct_perm l l' : Permutation l l' -> count_distinct l = count_distinct l'.
Proof.
  intros P. apply Nat2Z.inj. eapply card_is_unique; [apply count_distinct_card|].
  eapply card_is_ext; [|apply count_distinct_card]. intros u. simpl.
  split; apply Permutation_in; [symmetry|]; auto.
Qed.
