(** Flags of absl: lines. *)
From Coq Require Import String Ascii.
From Verif Require Import Prelude ModelData ModelFiles SpecFiles FilesLemmas ModelDriver DriverLemmas4 ModelMain MainLemmas
  ModelDesigns SpecDesigns ModelShell SpecShell ShellLemmas.
Open Scope Z_scope.

(** What an argument looks like. *)
Inductive flag_look : Type := Ends | DoubleDash | Flagged (n : text) (v : option text).
Definition flag_looks (a : string) : flag_look :=
  match chars a with
  | [] => Ends
  | c :: body =>
      if negb (Ascii.eqb c dash) then Ends
      else if String.eqb a "--" then DoubleDash
      else let '(n, v) := name_and_value (undashed body) in match n with [] => Ends | _ => Flagged n v end
  end.
Definition with_value (v : option text) : string := match v with Some w => String.append "=" (str w) | None => ""%string end.

Lemma chars_inj a b : chars a = chars b -> a = b.
Proof. intros H. rewrite <- (str_chars a), H. apply str_chars. Qed.
Lemma chars_dashes two : chars (dashes two) = if two then [dash; dash] else [dash].
Proof. destruct two; reflexivity. Qed.
Lemma append_nil s : String.append s "" = s.
Proof. apply chars_inj. rewrite chars_append. cbn. apply app_nil_r. Qed.
Lemma no_dash_first n : (forall r, n <> String.append "-" r) -> forall c t, chars n = c :: t -> c <> dash.
Proof. intros H c t E ->. apply (H (str t)). apply chars_inj. rewrite E, chars_append, chars_str. reflexivity. Qed.

Lemma name_value_spec body n v : name_and_value body = (n, v) <->
  ~ In "="%char n /\ body = n ++ match v with Some w => "="%char :: w | None => [] end.
Proof.
  unfold name_and_value. destruct (cut "=" body) as [[a b]|] eqn:C.
  - pose proof (proj1 (cut_spec _ _ _ _) C) as [E N]. split.
    + intros H. injection H as <- <-. auto.
    + intros [N' E']. destruct v as [w|].
      * assert (X : cut "=" body = Some (n, w)) by (apply cut_spec; auto). rewrite C in X. injection X as -> ->. reflexivity.
      * exfalso. rewrite app_nil_r in E'. apply N'. rewrite <- E', E. apply in_or_app. right. left. reflexivity.
  - apply cut_none in C. split.
    + intros H. injection H as <- <-. rewrite app_nil_r. auto.
    + intros [N' E']. destruct v as [w|]; [exfalso; apply C; rewrite E'; apply in_or_app; right; left; reflexivity|].
      rewrite app_nil_r in E'. subst. reflexivity.
Qed.

Lemma looks_flag two n v : flag_name n -> flag_looks (String.append (dashes two) (String.append n (with_value v))) = Flagged (chars n) v.
Proof.
  intros [Ne [Eq Da]]. unfold flag_looks. rewrite !chars_append, chars_dashes.
  assert (Nn : exists c t, chars n = c :: t).
  { destruct (chars n) as [|c t] eqn:E; [|eauto]. contradiction Ne. apply chars_inj. rewrite E. reflexivity. }
  destruct Nn as [c [t En]]. pose proof (no_dash_first n Da c t En) as Cd.
  assert (V : chars (with_value v) = match v with Some w => "="%char :: w | None => [] end).
  { destruct v as [w|]; cbn [with_value]; [rewrite chars_append, chars_str; reflexivity|reflexivity]. }
  assert (Nv : name_and_value (chars n ++ chars (with_value v)) = (chars n, v)) by (apply name_value_spec; rewrite V; auto).
  assert (D2 : forall x, String.eqb (String.append (dashes x) (String.append n (with_value v))) "--" = false).
  { intros x. apply String.eqb_neq. intros H. apply (f_equal chars) in H. rewrite !chars_append, chars_dashes, En in H.
    destruct x; cbn in H; [discriminate H|]. injection H as H _. contradiction. }
  destruct two; cbn [app]; rewrite Ascii.eqb_refl; cbn [negb]; rewrite (D2 _).
  - cbn [undashed]. rewrite Ascii.eqb_refl, Nv, En. reflexivity.
  - assert (U : undashed (chars n ++ chars (with_value v)) = chars n ++ chars (with_value v)).
    { rewrite En. cbn [app undashed]. apply Ascii.eqb_neq in Cd. rewrite Cd. reflexivity. }
    rewrite U, Nv, En. reflexivity.
Qed.

Lemma looks_bare two n : flag_name n -> flag_looks (String.append (dashes two) n) = Flagged (chars n) None.
Proof. intros H. pose proof (looks_flag two n None H) as E. cbn [with_value] in E. rewrite append_nil in E. exact E. Qed.

Lemma undashed_spec body : (exists r, body = dash :: r /\ undashed body = r) \/ (undashed body = body /\ forall r, body <> dash :: r).
Proof.
  destruct body as [|c r]; [right; split; [reflexivity|discriminate]|]. cbn [undashed]. destruct (Ascii.eqb c dash) eqn:E.
  - apply Ascii.eqb_eq in E. subst c. left. eauto.
  - apply Ascii.eqb_neq in E. right. split; [reflexivity|]. intros r' H. injection H as -> _. contradiction.
Qed.

(** An argument and its look. *)
Lemma looks_spec a :
  match flag_looks a with
  | Ends => not_a_flag a
  | DoubleDash => a = "--"%string
  | Flagged n v => exists two, a = String.append (dashes two) (String.append (str n) (with_value v)) /\ n <> [] /\ ~ In "="%char n
  end.
Proof.
  unfold flag_looks. destruct (chars a) as [|c body] eqn:Ea.
  { left. intros r H. rewrite H, chars_append in Ea. discriminate Ea. }
  destruct (Ascii.eqb c dash) eqn:Ec; cbn [negb].
  2:{ left. intros r H. rewrite H, chars_append in Ea. cbn in Ea. injection Ea as <- _. discriminate Ec. }
  apply Ascii.eqb_eq in Ec. subst c. destruct (String.eqb a "--") eqn:E2; [apply String.eqb_eq in E2; exact E2|]. apply String.eqb_neq in E2.
  destruct (name_and_value (undashed body)) as [n v] eqn:Nv. apply name_value_spec in Nv. destruct Nv as [Neq Eu].
  assert (Fa : exists two, a = String.append (dashes two) (String.append (str n) (with_value v))).
  { assert (V : chars (with_value v) = match v with Some w => "="%char :: w | None => [] end).
    { destruct v as [w|]; cbn [with_value]; [rewrite chars_append, chars_str; reflexivity|reflexivity]. }
    destruct (undashed_spec body) as [[r [Eb Er]]|[Eb _]].
    - exists true. apply chars_inj. rewrite Ea, !chars_append, chars_str, V, Eb. rewrite Er in Eu. rewrite Eu. reflexivity.
    - exists false. apply chars_inj. rewrite Ea, !chars_append, chars_str, V. rewrite Eb in Eu. rewrite Eu. reflexivity. }
  destruct n as [|x n]; [|destruct Fa as [two Fa]; exists two; split; [exact Fa|split; [discriminate|exact Neq]]].
  destruct Fa as [two Fa]. destruct v as [w|]; cbn in Fa.
  - right. right. exists (str w). destruct two; auto.
  - destruct two; cbn in Fa; [contradiction|right; left; exact Fa].
Qed.
Lemma flagged_form a n v : flag_looks a = Flagged n v ->
  exists two, a = String.append (dashes two) (String.append (str n) (with_value v)) /\ n <> [] /\ ~ In "="%char n.
Proof. intros H. pose proof (looks_spec a) as S0. rewrite H in S0. exact S0. Qed.
Lemma looks_end w : not_a_flag w -> flag_looks w = Ends.
Proof.
  intros [H|[->|[v [-> | ->]]]]; [|reflexivity| |].
  - unfold flag_looks. destruct (chars w) as [|c b] eqn:E; [reflexivity|]. destruct (Ascii.eqb c dash) eqn:D; [|reflexivity].
    apply Ascii.eqb_eq in D. subst c. exfalso. apply (H (str b)). apply chars_inj. rewrite E, chars_append, chars_str. reflexivity.
  - unfold flag_looks. rewrite chars_append. destruct (String.eqb _ "--") eqn:E; [apply String.eqb_eq in E; discriminate E|]. reflexivity.
  - unfold flag_looks. rewrite chars_append. destruct (String.eqb _ "--") eqn:E; [apply String.eqb_eq in E; discriminate E|]. reflexivity.
Qed.

Section Read.
Variable defined : string -> option flag_kind.
Variable library : string -> bool.
Hypothesis proper : forall n k, defined n = Some k -> flag_name n.
Notation read := (read_flags defined library).
Notation setting := (sets (fun n k => defined n = Some k) library).

Lemma read_step a r got u : read (a :: r) got u =
  match flag_looks a with
  | Ends => finish u got (a :: r)
  | DoubleDash => finish u got r
  | Flagged name value =>
      let n := str name in
      let set m v r := match parse_flag (match defined m with Some k => k | None => TextFlag end) v with
                       | Some f => read r (got ++ [(m, f)]) u
                       | None => FlagsRejected
                       end in
      match defined n with
      | Some k => match value with
                  | Some v => set n v r
                  | None => if is_boolean k then set n (chars "true") r
                            else match r with v :: r' => set n (chars v) r' | [] => FlagsRejected end
                  end
      | None => if library n then LibraryFlag
                else match without_no name with
                | None => read r got true
                | Some m => match defined (str m) with
                            | Some BooleanFlag => match value with Some _ => FlagsRejected | None => set (str m) (chars "false") r end
                            | _ => if library (str m) then LibraryFlag else read r got true
                            end
                end
      end
  end.
Proof.
  cbn [read_flags]. unfold flag_looks. destruct (chars a) as [|c body]; [reflexivity|].
  destruct (negb (Ascii.eqb c dash)); [reflexivity|]. destruct (String.eqb a "--"); [reflexivity|].
  destruct (name_and_value (undashed body)) as [[|x name] value]; reflexivity.
Qed.

Lemma without_no_spec n m : without_no n = Some m <-> n = "n"%char :: "o"%char :: m /\ m <> [].
Proof.
  unfold without_no. destruct n as [|a [|b [|c r]]]; try (split; [discriminate|]; intros [H N]; try discriminate H; injection H as _ _ <-; contradiction).
  destruct (Ascii.eqb a "n" && Ascii.eqb b "o") eqn:E.
  - apply andb_true_iff in E. destruct E as [E1 E2]. apply Ascii.eqb_eq in E1, E2. subst. split.
    + intros H. injection H as <-. split; [reflexivity|discriminate].
    + intros [H _]. injection H as <-. reflexivity.
  - split; [discriminate|]. intros [H _]. injection H as -> -> _. discriminate E.
Qed.
Lemma no_name n : flag_name n -> flag_name (String.append "no" n).
Proof.
  intros [Ne [Eq Da]]. split; [discriminate|]. split; [|discriminate]. rewrite chars_append. intros [H|[H|H]]; [discriminate H|discriminate H|exact (Eq H)].
Qed.

(** Items are read one after the other. *)
Lemma read_item i nv r got u : setting i nv -> read (flag_text i ++ r) got u = read r (got ++ [nv]) u.
Proof.
  destruct nv as [m v]. destruct i as [two n s|two n s|two n [|]]; cbn [sets fst snd flag_text app].
  - intros [<- [k [D V]]]. rewrite read_step.
    change (String.append n (String.append "=" s)) with (String.append n (String.append "=" s)).
    rewrite <- (str_chars s) at 1. change (String.append "=" (str (chars s))) with (with_value (Some (chars s))).
    rewrite (looks_flag two n (Some (chars s)) (proper _ _ D)). cbv beta zeta. rewrite str_chars, D, (proj2 (parse_flag_spec k s v) V). reflexivity.
  - intros [<- [k [D [B V]]]]. rewrite read_step. rewrite (looks_bare two n (proper _ _ D)). cbv beta zeta. rewrite str_chars, D.
    replace (is_boolean k) with false by (destruct k; [reflexivity|reflexivity|contradiction]).
    rewrite (proj2 (parse_flag_spec k s v) V). reflexivity.
  - intros [<- [D ->]]. rewrite read_step. rewrite (looks_bare two n (proper _ _ D)). cbv beta zeta. rewrite str_chars, D. reflexivity.
  - intros [<- [D [-> [D' L']]]]. rewrite read_step.
    assert (D0 : defined (String.append "no" n) = None) by (destruct (defined (String.append "no" n)) as [k|] eqn:E; [contradiction (D' k eq_refl)|reflexivity]).
    rewrite (looks_bare two _ (no_name n (proper _ _ D))). cbv beta zeta. rewrite str_chars, D0, L'.
    assert (W : without_no (chars (String.append "no" n)) = Some (chars n)).
    { apply without_no_spec. rewrite chars_append. split; [reflexivity|]. intros H. destruct (proper _ _ D) as [Ne _]. apply Ne. apply chars_inj. exact H. }
    rewrite W, str_chars, D. reflexivity.
Qed.
Lemma read_items items set0 : Forall2 setting items set0 -> forall r got u,
  read (flag_line items ++ r) got u = read r (got ++ set0) u.
Proof.
  induction 1 as [|i nv items set0 H _ IH]; intros r got u; [rewrite app_nil_r; reflexivity|].
  unfold flag_line in *. cbn [flat_map]. rewrite <- app_assoc, (read_item i nv _ _ _ H), IH, <- app_assoc. reflexivity.
Qed.

Lemma read_unknown n : forall args, (length args <= n)%nat -> forall got x y, read args got true <> Accepted x y.
Proof.
  induction n as [|n IH]; intros [|a r] Hn got x y; try (cbn in *; discriminate); [cbn in Hn; lia|].
  cbn [length] in Hn. rewrite read_step. destruct (flag_looks a) as [| |name value]; [discriminate|discriminate|]. cbv beta zeta.
  assert (K : forall m v r', (length r' <= n)%nat -> match parse_flag (match defined m with Some k => k | None => TextFlag end) v with
    | Some f => read r' (got ++ [(m, f)]) true | None => FlagsRejected end <> Accepted x y).
  { intros m v r' Hr. destruct (parse_flag _ v); [apply IH; exact Hr|discriminate]. }
  destruct (defined (str name)) as [k|] eqn:D.
  - pose proof (K (str name)) as K1. rewrite D in K1. cbv beta iota in K1. rewrite ?D. destruct value as [v|]; [apply K1; lia|]. destruct (is_boolean k); [apply K1; lia|]. destruct r as [|v r']; [discriminate|]. apply K1. cbn in Hn. lia.
  - destruct (library (str name)); [discriminate|]. destruct (without_no name) as [m|]; [|apply IH; lia].
    pose proof (K (str m)) as K1. destruct (defined (str m)) as [[| |]|].
    + destruct (library (str m)); [discriminate|apply IH; lia].
    + destruct (library (str m)); [discriminate|apply IH; lia].
    + destruct value; [discriminate|apply K1; lia].
    + destruct (library (str m)); [discriminate|apply IH; lia].
Qed.

Lemma read_remains tail rest got u : remains tail rest -> read tail got u = finish u got rest.
Proof.
  intros [[-> ->]|[->|[w [r [-> [-> N]]]]]]; [reflexivity| |].
  - rewrite read_step. reflexivity.
  - rewrite read_step, (looks_end w N). reflexivity.
Qed.

(** Every line is a sequence of items, and then ends or is not accepted. *)
Lemma read_decompose n : forall args, (length args <= n)%nat -> exists items set0 tail, args = flag_line items ++ tail /\
  Forall2 setting items set0 /\ ((exists rest, remains tail rest) \/ forall got u x y, read tail got u <> Accepted x y).
Proof.
  induction n as [|n IH]; intros args Hn.
  { destruct args; [|cbn in Hn; lia]. exists [], [], []. split; [reflexivity|]. split; [constructor|]. left. exists []. left. auto. }
  destruct args as [|a r]; [exists [], [], []; split; [reflexivity|]; split; [constructor|]; left; exists []; left; auto|]. cbn [length] in Hn.
  assert (Put : forall i nv r1, (length r1 <= n)%nat -> setting i nv -> a :: r = flag_text i ++ r1 ->
    exists items set0 tail, a :: r = flag_line items ++ tail /\ Forall2 setting items set0 /\
      ((exists rest, remains tail rest) \/ forall got u x y, read tail got u <> Accepted x y)).
  { intros i nv r1 H1 Hs E. destruct (IH r1 H1) as [items [set0 [tail [E2 [F K]]]]]. exists (i :: items), (nv :: set0), tail.
    split; [rewrite E, E2; unfold flag_line; cbn [flat_map]; rewrite app_assoc; reflexivity|]. split; [constructor; assumption|exact K]. }
  assert (Stop : (exists rest, remains (a :: r) rest) \/ (forall got u x y, read (a :: r) got u <> Accepted x y) ->
    exists items set0 tail, a :: r = flag_line items ++ tail /\ Forall2 setting items set0 /\
      ((exists rest, remains tail rest) \/ forall got u x y, read tail got u <> Accepted x y)).
  { intros H. exists [], [], (a :: r). split; [reflexivity|]. split; [constructor|exact H]. }
  pose proof (looks_spec a) as Sp. destruct (flag_looks a) as [| |name value] eqn:Lk.
  - apply Stop. left. exists (a :: r). right. right. exists a, r. auto.
  - apply Stop. left. exists r. right. left. rewrite Sp. reflexivity.
  - destruct Sp as [two [Ea [Nn Neq]]]. destruct (defined (str name)) as [k|] eqn:D.
    + destruct value as [v|].
      * destruct (parse_flag k v) as [f|] eqn:P.
        -- apply (Put (Joined two (str name) (str v)) (str name, f) r); [lia| |rewrite Ea; reflexivity].
           split; [reflexivity|]. exists k. split; [exact D|]. apply parse_flag_spec. rewrite chars_str. exact P.
        -- apply Stop. right. intros got u x y. rewrite read_step, Lk. cbv beta zeta. rewrite D. cbv beta iota. rewrite P. discriminate.
      * cbn [with_value] in Ea. rewrite append_nil in Ea. destruct (is_boolean k) eqn:B.
        -- assert (k = BooleanFlag) as -> by (destruct k; try discriminate B; reflexivity).
           apply (Put (Switch two (str name) true) (str name, FBoolean true) r); [lia| |rewrite Ea; reflexivity]. split; [reflexivity|auto].
        -- destruct r as [|v r']; [apply Stop; right; intros got u x y; rewrite read_step, Lk; cbv beta zeta; rewrite D, B; discriminate|].
           destruct (parse_flag k (chars v)) as [f|] eqn:P.
           ++ apply (Put (Apart two (str name) v) (str name, f) r'); [cbn in Hn; lia| |rewrite Ea; reflexivity].
              split; [reflexivity|]. exists k. split; [exact D|]. split; [intros ->; discriminate B|]. apply parse_flag_spec. exact P.
           ++ apply Stop. right. intros got u x y. rewrite read_step, Lk. cbv beta zeta. rewrite D. cbv beta iota. rewrite B, P. discriminate.
    + destruct (library (str name)) eqn:Lb; [apply Stop; right; intros got u x y; rewrite read_step, Lk; cbv beta zeta; rewrite D, Lb; discriminate|].
      assert (No : (forall got u, read (a :: r) got u = read r got true) \/ (forall got u, read (a :: r) got u = LibraryFlag) \/
        (exists m, name = "n"%char :: "o"%char :: m /\ m <> [] /\ defined (str m) = Some BooleanFlag)).
      { destruct (without_no name) as [m|] eqn:W.
        - pose proof (proj1 (without_no_spec _ _) W) as [W1 W2]. destruct (defined (str m)) as [[| |]|] eqn:Dm.
          + destruct (library (str m)) eqn:Lm; [right; left|left]; intros got u; rewrite read_step, Lk; cbv beta zeta; rewrite D, Lb, W, Dm, Lm; reflexivity.
          + destruct (library (str m)) eqn:Lm; [right; left|left]; intros got u; rewrite read_step, Lk; cbv beta zeta; rewrite D, Lb, W, Dm, Lm; reflexivity.
          + right. right. exists m. auto.
          + destruct (library (str m)) eqn:Lm; [right; left|left]; intros got u; rewrite read_step, Lk; cbv beta zeta; rewrite D, Lb, W, Dm, Lm; reflexivity.
        - left. intros got u. rewrite read_step, Lk. cbv beta zeta. rewrite D, Lb, W. reflexivity. }
      destruct No as [No|[No|[m [Em [Nm Dm]]]]].
      * apply Stop. right. intros got u x y. rewrite No. apply (read_unknown (length r)). lia.
      * apply Stop. right. intros got u x y. rewrite No. discriminate.
      * destruct value as [v|].
        -- apply Stop. right. intros got u x y. rewrite read_step, Lk. cbv beta zeta. rewrite D, Lb.
           rewrite (proj2 (without_no_spec name m) (conj Em Nm)), Dm. discriminate.
        -- cbn [with_value] in Ea. rewrite append_nil in Ea.
           assert (Es : str name = String.append "no" (str m)) by (rewrite Em; reflexivity).
           apply (Put (Switch two (str m) false) (str m, FBoolean false) r); [lia| |rewrite Ea, Es; reflexivity].
           split; [reflexivity|]. split; [exact Dm|]. split; [reflexivity|]. rewrite <- Es. split; [intros k H; congruence|exact Lb].
Qed.

Lemma read_accepted args got rest : read args [] false = Accepted got rest <->
  exists items tail, args = flag_line items ++ tail /\ remains tail rest /\ Forall2 setting items got.
Proof.
  split.
  - intros H. destruct (read_decompose (length args) args (le_n _)) as [items [set0 [tail [-> [F K]]]]].
    rewrite (read_items items set0 F) in H. cbn [app] in H. destruct K as [[rest' K]|K]; [|contradiction (K _ _ _ _ H)].
    rewrite (read_remains _ _ _ _ K) in H. cbn in H. injection H as -> ->. exists items, tail. auto.
  - intros [items [tail [-> [R F]]]]. rewrite (read_items items got F), (read_remains _ _ _ _ R). reflexivity.
Qed.

(** After an unknown flag nothing is accepted. *)
Lemma read_unknown_flag items set0 a r x y : Forall2 setting items set0 -> unknown_flag (fun n k => defined n = Some k) a ->
  read (flag_line items ++ a :: r) [] false <> Accepted x y.
Proof.
  intros F [two [n [Nn [Ea [D Dn]]]]]. rewrite (read_items items set0 F), read_step.
  assert (Lk : exists v, flag_looks a = Flagged (chars n) v).
  { destruct Ea as [->|[v ->]].
    - exists None. exact (looks_bare two n Nn).
    - exists (Some (chars v)). rewrite <- (str_chars v) at 1. exact (looks_flag two n (Some (chars v)) Nn). }
  destruct Lk as [v Lk]. rewrite Lk. cbv beta zeta. rewrite str_chars.
  assert (D0 : defined n = None) by (destruct (defined n) as [k|] eqn:E; [contradiction (D k eq_refl)|reflexivity]). rewrite D0.
  destruct (library n); [discriminate|]. destruct (without_no (chars n)) as [m|] eqn:W; [|apply (read_unknown (length r)); lia].
  apply without_no_spec in W. destruct W as [W _].
  assert (Dm : defined (str m) <> Some BooleanFlag).
  { apply Dn. apply chars_inj. rewrite W, chars_append, chars_str. reflexivity. }
  destruct (defined (str m)) as [[| |]|]; try contradiction; (destruct (library (str m)); [discriminate|apply (read_unknown (length r)); lia]).
Qed.

(** Flags of absl itself are met only if they are there. *)
Lemma read_library n : forall args, (length args <= n)%nat -> forall got u, read args got u = LibraryFlag ->
  exists a m, In a args /\ library m = true /\ uses m a.
Proof.
  induction n as [|n IH]; intros [|a r] Hn got u; try (cbn in *; destruct u; discriminate); [cbn in Hn; lia|].
  cbn [length] in Hn. rewrite read_step. pose proof (looks_spec a) as Sp. destruct (flag_looks a) as [| |name value]; [destruct u; discriminate|destruct u; discriminate|]. cbv beta zeta.
  destruct Sp as [two [Ea [Nn Neq]]].
  assert (More : forall r', (length r' <= n)%nat -> incl r' (a :: r) -> forall got u, read r' got u = LibraryFlag -> exists b m, In b (a :: r) /\ library m = true /\ uses m b).
  { intros r' Hr Hi got' u' H. destruct (IH r' Hr got' u' H) as [b [m [H1 H2]]]. exists b, m. split; [apply Hi; exact H1|exact H2]. }
  assert (Ir : incl r (a :: r)) by (intros z Hz; right; exact Hz).
  assert (K : forall m v r', (length r' <= n)%nat -> incl r' (a :: r) -> match parse_flag (match defined m with Some k => k | None => TextFlag end) v with
    | Some f => read r' (got ++ [(m, f)]) u | None => FlagsRejected end = LibraryFlag -> exists b m, In b (a :: r) /\ library m = true /\ uses m b).
  { intros m v r' Hr Hi. destruct (parse_flag _ v); [apply More; assumption|discriminate]. }
  destruct (defined (str name)) as [k|] eqn:D.
  - pose proof (K (str name)) as K1. rewrite D in K1. cbv beta iota in K1. rewrite ?D. destruct value as [v|]; [apply K1; [lia|exact Ir]|].
    destruct (is_boolean k); [apply K1; [lia|exact Ir]|]. destruct r as [|v r']; [discriminate|]. apply K1; [cbn in Hn; lia|]. intros z Hz. right. right. exact Hz.
  - destruct (library (str name)) eqn:Lb.
    { intros _. exists a, (str name). split; [left; reflexivity|]. split; [exact Lb|]. exists two, ""%string. split; [auto|]. rewrite Ea.
      destruct value as [v|]; [right; exists (str v); reflexivity|left]. cbn [with_value]. rewrite append_nil. reflexivity. }
    destruct (without_no name) as [m|] eqn:W; [|apply More; [lia|exact Ir]].
    apply without_no_spec in W. destruct W as [W _].
    assert (Lib : library (str m) = true -> exists b m, In b (a :: r) /\ library m = true /\ uses m b).
    { intros Lm. exists a, (str m). split; [left; reflexivity|]. split; [exact Lm|]. exists two, "no"%string. split; [auto|].
      assert (Es : str name = String.append "no" (str m)) by (rewrite W; reflexivity). rewrite Ea, Es.
      destruct value as [v|]; [right; exists (str v); apply chars_inj; rewrite !chars_append; rewrite <- !app_assoc; reflexivity|left].
      cbn [with_value]. rewrite append_nil. reflexivity. }
    pose proof (K (str m)) as K1. destruct (defined (str m)) as [[| |]|].
    + destruct (library (str m)) eqn:Lm; [intros _; apply Lib; reflexivity|apply More; [lia|exact Ir]].
    + destruct (library (str m)) eqn:Lm; [intros _; apply Lib; reflexivity|apply More; [lia|exact Ir]].
    + destruct value; [discriminate|apply K1; [lia|exact Ir]].
    + destruct (library (str m)) eqn:Lm; [intros _; apply Lib; reflexivity|apply More; [lia|exact Ir]].
Qed.

Lemma starts_with_spec p s : starts_with p s = true <-> exists r, s = p ++ r.
Proof.
  revert s. induction p as [|a p IH]; intros s; cbn [starts_with].
  - split; [intros _; exists s; reflexivity|reflexivity].
  - destruct s as [|b s]; [split; [discriminate|intros [r H]; discriminate H]|]. rewrite andb_true_iff, Ascii.eqb_eq, IH. split.
    + intros [-> [r ->]]. exists r. reflexivity.
    + intros [r H]. injection H as -> ->. eauto.
Qed.
Lemma flag_file_spec a : names_flag_file a = true <-> flag_file a.
Proof.
  unfold names_flag_file, flag_file. rewrite !orb_true_iff, !String.eqb_eq, !starts_with_spec. split.
  - intros [[[H|H]|[r H]]|[r H]].
    + exists true. auto.
    + exists false. auto.
    + exists true. right. exists (str r). apply chars_inj. rewrite H, !chars_append, chars_str. reflexivity.
    + exists false. right. exists (str r). apply chars_inj. rewrite H, !chars_append, chars_str. reflexivity.
  - intros [[|] [->|[v ->]]]; [auto| |auto|].
    + left. right. exists (chars v). rewrite !chars_append. reflexivity.
    + right. exists (chars v). rewrite !chars_append. reflexivity.
Qed.
Lemma no_flag_files args : existsb names_flag_file args = false <-> forall a, In a args -> ~ flag_file a.
Proof.
  split.
  - intros H a I X. apply flag_file_spec in X. assert (E : existsb names_flag_file args = true) by (apply existsb_exists; eauto). congruence.
  - intros H. destruct (existsb names_flag_file args) eqn:E; [|reflexivity]. apply existsb_exists in E. destruct E as [a [I X]].
    apply flag_file_spec in X. contradiction (H a I X).
Qed.

Lemma flags_accepted args got rest : absl_flags defined library args = Accepted got rest <->
  (forall a, In a args -> ~ flag_file a) /\
  exists items tail, args = flag_line items ++ tail /\ remains tail rest /\ Forall2 setting items got.
Proof.
  unfold absl_flags. rewrite <- no_flag_files, <- read_accepted. destruct (existsb names_flag_file args).
  - split; [discriminate|]. intros [H _]. discriminate H.
  - split; [auto|]. intros [_ H]. exact H.
Qed.
Lemma flags_library args : absl_flags defined library args = LibraryFlag -> exists a, In a args /\ for_absl library a.
Proof.
  unfold absl_flags, for_absl. destruct (existsb names_flag_file args) eqn:E.
  - intros _. apply existsb_exists in E. destruct E as [a [I X]]. exists a. split; [exact I|]. left. apply flag_file_spec. exact X.
  - intros H. destruct (read_library _ args (le_n _) _ _ H) as [a [m [I U]]]. exists a. split; [exact I|]. right. exists m. exact U.
Qed.
End Read.

(** ** The flags of the generator *)

Lemma generator_flags_spec n k : generator_flags n = Some k <-> generator_flag n k.
Proof.
  unfold generator_flags. split.
  - destruct (String.eqb n "output_dir") eqn:E1; [apply String.eqb_eq in E1; subst n; intros H; injection H as <-; constructor|].
    destruct (String.eqb n "data_design_config") eqn:E2; [apply String.eqb_eq in E2; subst n; intros H; injection H as <-; constructor|].
    destruct (String.eqb n "random_seed") eqn:E3; [apply String.eqb_eq in E3; subst n; intros H; injection H as <-; constructor|].
    destruct (String.eqb n "verbose") eqn:E4; [apply String.eqb_eq in E4; subst n; intros H; injection H as <-; constructor|]. discriminate.
  - intros []; reflexivity.
Qed.
Lemma generator_proper n k : generator_flags n = Some k -> flag_name n.
Proof.
  intros H. apply generator_flags_spec in H. destruct H; (split; [discriminate|]; split; [|discriminate]);
    vm_compute; intros X; repeat (destruct X as [X|X]; [discriminate X|]); exact X.
Qed.
Lemma generator_sets library i nv : sets (fun n k => generator_flags n = Some k) library i nv <-> sets generator_flag library i nv.
Proof.
  destruct i as [two n s|two n s|two n [|]]; cbn [sets].
  - split; intros [A [k [B C]]]; (split; [exact A|]; exists k; split; [apply generator_flags_spec; exact B|exact C]).
  - split; intros [A [k [B C]]]; (split; [exact A|]; exists k; split; [apply generator_flags_spec; exact B|exact C]).
  - rewrite <- generator_flags_spec. reflexivity.
  - rewrite <- generator_flags_spec. split; intros [A [B [C [D E]]]]; (repeat (split; [assumption|]); split; [|exact E]); intros k X; apply (D k); apply generator_flags_spec; exact X.
Qed.
Lemma Forall2_iff {A B : Type} (P Q : A -> B -> Prop) l l' : (forall a b, P a b <-> Q a b) -> (Forall2 P l l' <-> Forall2 Q l l').
Proof. intros E. split; (induction 1; constructor; [apply E; assumption|assumption]). Qed.

Lemma flag_last_spec got n v : flag_last got n = Some v <-> last_set got n v.
Proof.
  unfold last_set. induction got as [|[m w] r IH]; cbn [flag_last].
  - split; [discriminate|]. intros [b [a [E _]]]. destruct b; discriminate E.
  - destruct (flag_last r n) as [x|] eqn:E.
    + split.
      * intros H. injection H as ->. destruct (proj1 IH eq_refl) as [b [a [-> N]]]. exists ((m, w) :: b), a. auto.
      * intros [b [a [Eq N]]]. destruct b as [|p b].
        -- injection Eq as -> -> ->. exfalso. apply N.
           assert (X : forall l, flag_last l n <> None -> In n (map fst l)).
           { induction l as [|[m' w'] l IHl]; cbn [flag_last map fst]; [congruence|]. destruct (flag_last l n); [intros _; right; apply IHl; discriminate|].
             destruct (String.eqb m' n) eqn:Em; [intros _; left; apply String.eqb_eq; exact Em|congruence]. }
           apply X. rewrite E. discriminate.
        -- injection Eq as _ Eq. apply IH. exists b, a. auto.
    + destruct (String.eqb m n) eqn:Em.
      * apply String.eqb_eq in Em. subst m. split.
        -- intros H. injection H as ->. exists [], r. split; [reflexivity|]. intros I. clear IH.
           induction r as [|[m' w'] r IHr]; [destruct I|]. cbn [flag_last] in E. destruct (flag_last r n); [discriminate E|].
           destruct (String.eqb m' n) eqn:Em'; [discriminate E|]. destruct I as [I|I]; [cbn in I; subst m'; rewrite String.eqb_refl in Em'; discriminate Em'|exact (IHr eq_refl I)].
        -- intros [b [a [Eq N]]]. destruct b as [|p b]; [injection Eq as -> _; reflexivity|]. injection Eq as _ Eq.
           assert (X : None = Some v) by (apply IH; exists b, a; auto). discriminate X.
      * split; [discriminate|]. intros [b [a [Eq N]]]. destruct b as [|p b].
        -- injection Eq as -> _ _. rewrite String.eqb_refl in Em. discriminate Em.
        -- injection Eq as _ Eq. apply IH. exists b, a. auto.
Qed.
Lemma flag_last_none got n : flag_last got n = None <-> ~ In n (map fst got).
Proof.
  induction got as [|[m w] r IH]; cbn [flag_last map fst]; [split; [intros _ []|reflexivity]|]. destruct (flag_last r n) as [x|].
  - split; [discriminate|]. intros H. exfalso. destruct IH as [_ IH]. discriminate IH. intros I. apply H. right. exact I.
  - destruct (String.eqb m n) eqn:E.
    + apply String.eqb_eq in E. split; [discriminate|]. intros H. contradiction H. left. exact E.
    + apply String.eqb_neq in E. split; [intros _ [I|I]; [exact (E I)|exact (proj1 IH eq_refl I)]|reflexivity].
Qed.

(** Flags hold values of their kind. *)
Lemma sets_kind library items got : Forall2 (sets generator_flag library) items got -> forall n v, In (n, v) got ->
  exists k, generator_flag n k /\ match k, v with TextFlag, FText _ => True | IntegerFlag, FInteger _ => True | BooleanFlag, FBoolean _ => True | _, _ => False end.
Proof.
  induction 1 as [|i [m w] items got H _ IH]; intros n v I; [destruct I|]. destruct I as [I|I]; [|exact (IH n v I)]. injection I as -> ->.
  destruct i as [two n' s|two n' s|two n' [|]]; cbn [sets fst snd] in H.
  - destruct H as [-> [k [G D]]]. exists k. split; [exact G|]. destruct k, v; cbn in D; auto; contradiction.
  - destruct H as [-> [k [G [_ D]]]]. exists k. split; [exact G|]. destruct k, v; cbn in D; auto; contradiction.
  - destruct H as [-> [G ->]]. exists BooleanFlag. auto.
  - destruct H as [-> [G [-> _]]]. exists BooleanFlag. auto.
Qed.

Definition said (got : list (string * flag_value)) : request :=
  {| rq_dir := text_flag got "output_dir"; rq_config := text_flag got "data_design_config"; rq_seed := seed_flag got; rq_verbose := verbose_flag got |}.
Lemma requests_said library items got q : Forall2 (sets generator_flag library) items got -> (requests got q <-> q = said got).
Proof.
  intros F. pose proof (sets_kind _ _ _ F) as K.
  assert (Lk : forall n v, flag_last got n = Some v -> In (n, v) got).
  { intros n v H. apply flag_last_spec in H. destruct H as [b [a [-> _]]]. apply in_or_app. right. left. reflexivity. }
  assert (Tx : forall n o, generator_flag n TextFlag -> (says_text got n o <-> o = text_flag got n)).
  { intros n o G. unfold says_text, text_flag. destruct (flag_last got n) as [v|] eqn:E.
    - destruct (K n v (Lk n v E)) as [k [G' V]]. assert (k = TextFlag) as -> by (apply generator_flags_spec in G, G'; congruence).
      destruct v as [s|z|b]; try contradiction. split.
      + destruct o as [s'|]; [intros H; apply flag_last_spec in H; congruence|]. intros H. apply flag_last_none in H. congruence.
      + intros ->. apply flag_last_spec. exact E.
    - split.
      + destruct o as [s'|]; [intros H; apply flag_last_spec in H; congruence|reflexivity].
      + intros ->. apply flag_last_none. exact E. }
  assert (Sd : forall z, set_to_or got "random_seed" (FInteger z) (FInteger 1) <-> z = seed_flag got).
  { intros z. unfold set_to_or, seed_flag. destruct (flag_last got "random_seed") as [v|] eqn:E.
    - destruct (K _ v (Lk _ v E)) as [k [G' V]]. assert (k = IntegerFlag) as -> by (apply generator_flags_spec in G'; cbn in G'; congruence).
      destruct v as [s|z'|b]; try contradiction. split.
      + intros [H|[H _]]; [apply flag_last_spec in H; congruence|apply flag_last_none in H; congruence].
      + intros ->. left. apply flag_last_spec. exact E.
    - split.
      + intros [H|[_ H]]; [apply flag_last_spec in H; congruence|congruence].
      + intros ->. right. split; [apply flag_last_none; exact E|reflexivity]. }
  assert (Vb : forall b, set_to_or got "verbose" (FBoolean b) (FBoolean true) <-> b = verbose_flag got).
  { intros b. unfold set_to_or, verbose_flag. destruct (flag_last got "verbose") as [v|] eqn:E.
    - destruct (K _ v (Lk _ v E)) as [k [G' V]]. assert (k = BooleanFlag) as -> by (apply generator_flags_spec in G'; cbn in G'; congruence).
      destruct v as [s|z'|b']; try contradiction. split.
      + intros [H|[H _]]; [apply flag_last_spec in H; congruence|apply flag_last_none in H; congruence].
      + intros ->. left. apply flag_last_spec. exact E.
    - split.
      + intros [H|[_ H]]; [apply flag_last_spec in H; congruence|congruence].
      + intros ->. right. split; [apply flag_last_none; exact E|reflexivity]. }
  unfold requests. rewrite (Tx "output_dir"%string _ gf_dir), (Tx "data_design_config"%string _ gf_config), Sd, Vb. unfold said. destruct q as [d c z b]. cbn [rq_dir rq_config rq_seed rq_verbose]. split.
  - intros [-> [-> [-> ->]]]. reflexivity.
  - intros H. injection H as -> -> -> ->. auto.
Qed.

(** The lines that the generator accepts. *)
Lemma generator_accepts library args q : asks_for library args q <->
  exists got rest, absl_flags generator_flags library args = Accepted got rest /\ q = said got.
Proof.
  unfold asks_for. split.
  - intros [items [tail [rest [got [E [R [F [Rq NF]]]]]]]]. exists got, rest. split.
    + apply (flags_accepted generator_flags library generator_proper). split; [exact NF|]. exists items, tail. split; [exact E|]. split; [exact R|].
      apply (Forall2_iff _ _ _ _ (generator_sets library)). exact F.
    + apply (requests_said library items got q F). exact Rq.
  - intros [got [rest [A ->]]]. apply (flags_accepted generator_flags library generator_proper) in A. destruct A as [NF [items [tail [E [R F]]]]].
    apply (Forall2_iff _ _ _ _ (generator_sets library)) in F. exists items, tail, rest, got. split; [exact E|]. split; [exact R|]. split; [exact F|].
    split; [apply (requests_said library items got _ F); reflexivity|exact NF].
Qed.
