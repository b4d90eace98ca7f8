(** The command line: what is parsed. *)
From Coq Require Import String Ascii.
From Verif Require Import Prelude ModelData ModelFiles SpecFiles FilesLemmas ModelDriver DriverLemmas4 ModelMain SpecMain MainLemmas.
Open Scope Z_scope.

Definition step (g : given) (i : item) : given :=
  match i with
  | Value o v _ => match store o v g with Some g' => g' | None => g end
  | BeamFlag => use_beam g
  | Rest _ => g
  end.
Definition after (items : list item) (g : given) : given := fold_left step items g.
Lemma after_app a b g : after (a ++ b) g = after b (after a g).
Proof. apply fold_left_app. Qed.

Lemma literal_int v : (exists z, int_literal (chars v) z) -> exists z, py_int (chars v) = Ok z.
Proof. intros [z H]. exists z. apply py_int_spec. exact H. Qed.
Lemma store_ok o v g : (o = Seed \/ o = Cores -> exists z, int_literal (chars v) z) -> exists g', store o v g = Some g'.
Proof.
  intros H. destruct g. destruct o; cbn [store]; try (eexists; reflexivity);
    (destruct (literal_int v) as [z E]; [apply H; auto|rewrite E; eexists; reflexivity]).
Qed.
Lemma store_bad o v g : (forall g', store o v g <> Some g') -> ~ (o = Seed \/ o = Cores -> exists z, int_literal (chars v) z).
Proof. intros H X. destruct (store_ok o v g X) as [g' E]. exact (H g' E). Qed.
Lemma store_none o v g g0 : store o v g = None -> store o v g0 = None.
Proof. destruct g, g0. destruct o; cbn [store]; try discriminate; destruct (py_int (chars v)); auto; discriminate. Qed.

Lemma named_other s : ~ own s -> classify s = Word \/ classify s = Unknown.
Proof.
  intros N. rewrite <- classify_own in N. unfold named in N. destruct (classify s); auto. contradiction N; reflexivity.
Qed.

Lemma parse_line items : Forall well_formed items -> forall r g ex,
  parse_from (line items ++ r) g ex = parse_from r (after items g) (ex ++ others items).
Proof.
  induction 1 as [|i items W F IH]; intros r g ex; [unfold others; cbn; rewrite app_nil_r; reflexivity|].
  unfold line in *. cbn [flat_map after fold_left]. rewrite <- app_assoc. destruct i as [o v [|]| |s]; cbn [write app].
  - destruct W as [_ W]. destruct (store_ok o v g W) as [g' E]. cbn [parse_from]. rewrite classify_joined, str_chars, E. cbn [step]. rewrite E. apply IH.
  - destruct W as [W1 W]. destruct (store_ok o v g W) as [g' E]. cbn [parse_from]. rewrite classify_store.
    rewrite (proj2 (classify_word v) (W1 eq_refl)), E. cbn [step]. rewrite E. apply IH.
  - cbn [parse_from]. rewrite classify_beam. apply IH.
  - cbn [parse_from]. cbn [others flat_map]. fold (others items).
    replace (ex ++ [s] ++ others items)%list with ((ex ++ [s]) ++ others items)%list by (rewrite <- app_assoc; reflexivity).
    destruct (named_other s W) as [-> | ->]; apply IH.
Qed.

Lemma help_parses h : asks_help h -> forall r g ex, parse_from (h :: r) g ex = Help.
Proof.
  assert (All : forall n, (1 <= n)%nat -> help_letters (repeat "h"%char n) = Help).
  { intros n Hn. unfold help_letters. destruct n as [|n]; [lia|]. cbn [repeat].
    assert (E : forallb (Ascii.eqb "h") ("h"%char :: repeat "h"%char n) = true) by (apply forallb_forall; intros x Hx; change ("h"%char :: repeat "h"%char n) with (repeat "h"%char (S n)) in Hx; apply repeat_spec in Hx; subst x; reflexivity).
    rewrite E. reflexivity. }
  intros [->|[->|[n [Hn [E|E]]]]] r g ex; [reflexivity|reflexivity| |].
  - assert (C : classify h = Named ShowHelp (Some (repeat "h"%char n)) true).
    { unfold classify. rewrite E. change (chars "-h") with [dash; "h"%char]. cbn [app]. rewrite Ascii.eqb_refl. cbn [negb].
      destruct (lookup actions h) as [a|] eqn:Lk.
      { apply lookup_name in Lk. exfalso. destruct n as [|n]; [lia|]. repeat (destruct Lk as [Lk|Lk]; [subst h; vm_compute in E; discriminate E|]). destruct Lk. }
      destruct (cut "=" (dash :: "h"%char :: repeat "h"%char n)) as [[a b]|] eqn:K; [|reflexivity].
      exfalso. apply cut_spec in K. destruct K as [K _]. assert (I : In "="%char (a ++ "="%char :: b)) by (apply in_or_app; right; left; reflexivity).
      rewrite <- K in I. destruct I as [I|[I|I]]; [discriminate I|discriminate I|]. apply repeat_spec in I. discriminate I. }
    cbn [parse_from]. rewrite C. apply All. exact Hn.
  - assert (C : classify h = Named ShowHelp (Some (repeat "h"%char n)) true).
    { unfold classify. rewrite E. change (chars "-h=") with [dash; "h"%char; "="%char]. cbn [app]. rewrite Ascii.eqb_refl. cbn [negb].
      destruct (lookup actions h) as [a|] eqn:Lk.
      { apply lookup_name in Lk. exfalso. repeat (destruct Lk as [Lk|Lk]; [subst h; vm_compute in E; discriminate E|]). destruct Lk. }
      change (cut "=" (dash :: "h"%char :: "="%char :: repeat "h"%char n)) with (Some ([dash; "h"%char], repeat "h"%char n)). reflexivity. }
    cbn [parse_from]. rewrite C. apply All. exact Hn.
Qed.
Lemma help_letters_all v : help_letters v = Help -> exists n, (1 <= n)%nat /\ v = repeat "h"%char n.
Proof.
  unfold help_letters. destruct v as [|c v]; [discriminate|]. destruct (forallb (Ascii.eqb "h") (c :: v)) eqn:E; [|discriminate]. intros _.
  exists (length (c :: v)). split; [cbn; lia|]. rewrite forallb_forall in E. generalize dependent (c :: v). intros l E. induction l as [|x l IH]; [reflexivity|].
  cbn [length repeat]. f_equal; [symmetry; apply Ascii.eqb_eq; apply E; left; reflexivity|apply IH; intros y Hy; apply E; right; exact Hy].
Qed.
Lemma help_letters_cases v : help_letters v = Help \/ help_letters v = Refused.
Proof. unfold help_letters. destruct v; auto. destruct (forallb _ _); auto. Qed.

(** Every command line is a sequence of items, until it asks for help or is refused. *)
Lemma decompose n : forall argv, (length argv <= n)%nat -> exists items r, argv = (line items ++ r)%list /\ Forall well_formed items /\
  (r = [] \/ (exists h r', r = h :: r' /\ asks_help h) \/ (forall g ex, parse_from r g ex = Refused)).
Proof.
  induction n as [|n IH]; intros argv Hn.
  { destruct argv; [|cbn in Hn; lia]. exists [], []. cbn. auto. }
  destruct argv as [|s r]; [exists [], []; cbn; auto|]. cbn [length] in Hn.
  assert (Put : forall i r1, (length r1 <= n)%nat -> well_formed i -> s :: r = (write i ++ r1)%list -> exists items r2, s :: r = (line items ++ r2)%list /\ Forall well_formed items /\
    (r2 = [] \/ (exists h r', r2 = h :: r' /\ asks_help h) \/ (forall g ex, parse_from r2 g ex = Refused))).
  { intros i r1 H1 W E. destruct (IH r1 H1) as [items [r2 [E2 [F K]]]]. exists (i :: items), r2. split; [rewrite E, E2; unfold line; cbn [flat_map]; rewrite app_assoc; reflexivity|].
    split; [constructor; assumption|exact K]. }
  assert (Stop : (forall g ex, parse_from (s :: r) g ex = Refused) -> exists items r2, s :: r = (line items ++ r2)%list /\ Forall well_formed items /\
    (r2 = [] \/ (exists h r', r2 = h :: r' /\ asks_help h) \/ (forall g ex, parse_from r2 g ex = Refused))).
  { intros H. exists [], (s :: r). split; [reflexivity|]. split; [constructor|]. right. right. exact H. }
  assert (HelpS : asks_help s -> exists items r2, s :: r = (line items ++ r2)%list /\ Forall well_formed items /\
    (r2 = [] \/ (exists h r', r2 = h :: r' /\ asks_help h) \/ (forall g ex, parse_from r2 g ex = Refused))).
  { intros H. exists [], (s :: r). split; [reflexivity|]. split; [constructor|]. right. left. eauto. }
  destruct (classify s) as [|a x b|] eqn:C.
  - apply (Put (Rest s) r); [lia| |reflexivity]. cbn. rewrite <- classify_own. unfold named. rewrite C. discriminate.
  - pose proof (classify_named _ _ _ _ C) as P. destruct a as [o| |], x as [v|].
    + destruct P as [[m [P1 P2]]|[P _]]; [|discriminate P]. apply store_name in P1. subst m.
      destruct (store o (str v) nothing_given) as [g'|] eqn:St.
      * apply (Put (Value o (str v) true) r); [lia| |rewrite P2; reflexivity]. split; [discriminate|]. intros Ho.
        clear - St Ho. destruct Ho as [-> | ->]; cbn [store nothing_given] in St; destruct (py_int (chars (str v))) as [z|] eqn:Ez; try discriminate St; exists z; apply py_int_spec; exact Ez.
      * apply Stop. intros g ex. cbn [parse_from]. rewrite C, (store_none _ _ _ g St). reflexivity.
    + apply store_name in P. destruct r as [|v r'].
      { apply Stop. intros g ex. cbn [parse_from]. rewrite C. reflexivity. }
      destruct (classify v) as [|? ? ?|] eqn:Cv; [|apply Stop; intros g ex; cbn [parse_from]; rewrite C, Cv; reflexivity|apply Stop; intros g ex; cbn [parse_from]; rewrite C, Cv; reflexivity].
      destruct (store o v nothing_given) as [g'|] eqn:St.
      * apply (Put (Value o v false) r'); [cbn in Hn; lia| |rewrite P; reflexivity]. split; [intros _; apply classify_word; exact Cv|]. intros Ho.
        clear - St Ho. destruct Ho as [-> | ->]; cbn [store nothing_given] in St; destruct (py_int (chars v)) as [z|] eqn:Ez; try discriminate St; exists z; apply py_int_spec; exact Ez.
      * apply Stop. intros g ex. cbn [parse_from]. rewrite C, Cv, (store_none _ _ _ g St). reflexivity.
    + apply Stop. intros g ex. cbn [parse_from]. rewrite C. reflexivity.
    + apply beam_name in P. apply (Put BeamFlag r); [lia|exact I|rewrite P; reflexivity].
    + destruct b; [|apply Stop; intros g ex; cbn [parse_from]; rewrite C; reflexivity].
      destruct (help_letters_cases v) as [H|H]; [|apply Stop; intros g ex; cbn [parse_from]; rewrite C; exact H].
      destruct (help_letters_all v H) as [k [Hk ->]]. apply HelpS. destruct P as [[m [P1 P2]]|[_ [_ P2]]].
      * apply help_name in P1. destruct P1 as [-> | ->].
        -- right. right. exists k. split; [exact Hk|right]. rewrite P2, !chars_append, chars_str. reflexivity.
        -- exfalso. revert C. rewrite P2. discriminate.
      * right. right. exists k. split; [exact Hk|left]. rewrite P2, chars_append, chars_str. reflexivity.
    + apply help_name in P. apply HelpS. destruct P as [-> | ->]; [left|right; left]; reflexivity.
  - apply (Put (Rest s) r); [lia| |reflexivity]. cbn. rewrite <- classify_own. unfold named. rewrite C. discriminate.
Qed.

(** ** What the items mean *)

Definition field (o : option_name) (g : given) : option string :=
  match o with
  | DataDesignDir => gi_data g | ExperimentalDesignFile => gi_design g | OutputFile => gi_output g
  | IntermediatesDir => gi_intermediates g | _ => None
  end.
Definition textual (o : option_name) : Prop := o <> Seed /\ o <> Cores /\ o <> AnalysisType.

Lemma is_given_snoc o items i : is_given o (items ++ [i]) <-> is_given o items \/ exists v j, i = Value o v j.
Proof.
  unfold is_given. split.
  - intros [v [j H]]. apply in_app_or in H. destruct H as [H|[H|[]]]; [left; eauto|right; eauto].
  - intros [[v [j H]]|[v [j ->]]]; exists v, j; apply in_or_app; [left; exact H|right; left; reflexivity].
Qed.
Lemma last_value_snoc o items i v : last_value o (items ++ [i]) v <->
  (exists j, i = Value o v j) \/ ((forall v' j, i <> Value o v' j) /\ last_value o items v).
Proof.
  split.
  - intros [b [j [a [E N]]]]. destruct a as [|x a] using rev_ind.
    + apply app_inj_tail in E. destruct E as [_ ->]. left. eauto.
    + clear IHa. right. rewrite app_comm_cons, app_assoc in E. apply app_inj_tail in E. destruct E as [-> ->].
      rewrite is_given_snoc in N. split; [intros v' j' ->; apply N; right; eauto|]. exists b, j, a. split; [reflexivity|]. intros X. apply N. left. exact X.
  - intros [[j ->]|[N [b [j [a [-> M]]]]]].
    + exists items, j, []. split; [reflexivity|]. intros [? [? []]].
    + exists b, j, (a ++ [i])%list. split; [rewrite <- app_assoc; reflexivity|]. rewrite is_given_snoc. intros [X|[v' [j' X]]]; [exact (M X)|exact (N v' j' X)].
Qed.
Lemma last_given o items v : last_value o items v -> is_given o items.
Proof. intros [b [j [a [-> _]]]]. exists v, j. apply in_or_app. right. left. reflexivity. Qed.
Lemma last_unique o items : forall v v', last_value o items v -> last_value o items v' -> v = v'.
Proof.
  induction items as [|i items IH] using rev_ind; intros v v' H H'.
  - destruct H as [b [j [a [E _]]]]. destruct b; discriminate E.
  - apply last_value_snoc in H, H'. destruct H as [[j ->]|[N H]], H' as [[j' H']|[N' H']].
    + congruence.
    + contradiction (N' v j eq_refl).
    + contradiction (N v' j' H').
    + exact (IH _ _ H H').
Qed.

Definition option_eq : forall a b : option_name, {a = b} + {a <> b}.
Proof. decide equality. Defined.
Lemma not_this o i : (forall v j, i <> Value o v j) \/ exists v j, i = Value o v j.
Proof.
  destruct i as [o' v j| |s]; [|left; discriminate|left; discriminate]. destruct (option_eq o' o) as [->|N]; [right; eauto|left; intros v' j' X; congruence].
Qed.
Lemma is_given_dec o items : is_given o items \/ ~ is_given o items.
Proof.
  induction items as [|i items IH] using rev_ind; [right; intros [? [? []]]|]. rewrite is_given_snoc. destruct IH as [H|H]; [left; left; exact H|].
  destruct (not_this o i) as [N|N]; [right|left; right; exact N]. intros [X|[v [j X]]]; [exact (H X)|exact (N v j X)].
Qed.

Lemma step_text o g i : well_formed i -> textual o ->
  (forall v j, i = Value o v j -> field o (step g i) = Some v) /\ ((forall v j, i <> Value o v j) -> field o (step g i) = field o g).
Proof.
  intros W [T1 [T2 T3]]. split.
  - intros v j ->. destruct g, o; try reflexivity; contradiction.
  - intros N. destruct i as [o' v j| |s]; [|destruct g, o; reflexivity|reflexivity]. cbn [step].
    assert (D : o' <> o) by (intros ->; exact (N v j eq_refl)).
    destruct g, o', o; cbn; try reflexivity; try contradiction; try (contradiction D; reflexivity); destruct (py_int (chars v)); reflexivity.
Qed.
Lemma after_text o items : textual o -> Forall well_formed items ->
  (forall v, field o (after items nothing_given) = Some v <-> last_value o items v).
Proof.
  intros T. induction items as [|i items IH] using rev_ind; intros F v.
  - split; [destruct o; discriminate|]. intros [b [j [a [E _]]]]. destruct b; discriminate E.
  - apply Forall_app in F. destruct F as [F W]. inversion W as [|? ? W1 _]; subst. rewrite after_app. change (after [i] (after items nothing_given)) with (step (after items nothing_given) i).
    destruct (step_text o (after items nothing_given) i W1 T) as [S1 S2]. rewrite last_value_snoc. destruct (not_this o i) as [N|[v' [j ->]]].
    + rewrite (S2 N), (IH F). split; [intros H; right; auto|]. intros [[j ->]|[_ H]]; [contradiction (N v j eq_refl)|exact H].
    + rewrite (S1 v' j eq_refl). split; [intros H; injection H as ->; left; eauto|]. intros [[j' H]|[N _]]; [congruence|contradiction (N v' j eq_refl)].
Qed.

Definition count (o : option_name) (g : given) : Z := match o with Seed => gi_seed g | _ => gi_cores g end.
Lemma step_number o g i : well_formed i -> o = Seed \/ o = Cores ->
  (forall v j, i = Value o v j -> py_int (chars v) = Ok (count o (step g i))) /\ ((forall v j, i <> Value o v j) -> count o (step g i) = count o g).
Proof.
  intros W T. split.
  - intros v j ->. destruct W as [_ W]. destruct (literal_int v (W T)) as [z E]. destruct g, T as [-> | ->]; cbn; rewrite E; reflexivity.
  - intros N. destruct i as [o' v j| |s]; [|destruct g, T as [-> | ->]; reflexivity|reflexivity]. cbn [step].
    assert (D : o' <> o) by (intros ->; exact (N v j eq_refl)).
    destruct g, o', T as [-> | ->]; cbn; try reflexivity; try (contradiction D; reflexivity); destruct (py_int (chars v)); reflexivity.
Qed.
Lemma after_number o items : o = Seed \/ o = Cores -> Forall well_formed items -> number o items (count o (after items nothing_given)).
Proof.
  intros T. induction items as [|i items IH] using rev_ind; intros F.
  - left. split; [intros [? [? []]]|destruct T as [-> | ->]; reflexivity].
  - apply Forall_app in F. destruct F as [F W]. inversion W as [|? ? W1 _]; subst. rewrite after_app. change (after [i] (after items nothing_given)) with (step (after items nothing_given) i).
    destruct (step_number o (after items nothing_given) i W1 T) as [S1 S2]. destruct (not_this o i) as [N|[v' [j ->]]].
    + rewrite (S2 N). destruct (IH F) as [[H1 H2]|[v [H1 H2]]].
      * left. split; [|exact H2]. rewrite is_given_snoc. intros [X|[v [j X]]]; [exact (H1 X)|exact (N v j X)].
      * right. exists v. split; [apply last_value_snoc; right; auto|exact H2].
    + right. exists v'. split; [apply last_value_snoc; left; eauto|]. apply py_int_spec. exact (S1 v' j eq_refl).
Qed.
Lemma number_unique o items z z' : number o items z -> number o items z' -> z = z'.
Proof.
  intros [[N ->]|[v [H E]]] [[N' ->]|[v' [H' E']]]; [reflexivity|contradiction (N (last_given _ _ _ H'))|contradiction (N' (last_given _ _ _ H))|].
  rewrite (last_unique _ _ _ _ H H') in E. apply py_int_spec in E, E'. congruence.
Qed.

Lemma after_analysis items : Forall well_formed items ->
  (~ is_given AnalysisType items /\ gi_analysis (after items nothing_given) = ""%string) \/ last_value AnalysisType items (gi_analysis (after items nothing_given)).
Proof.
  induction items as [|i items IH] using rev_ind; intros F.
  - left. split; [intros [? [? []]]|reflexivity].
  - apply Forall_app in F. destruct F as [F W]. inversion W as [|? ? W1 _]; subst. rewrite after_app. change (after [i] (after items nothing_given)) with (step (after items nothing_given) i).
    destruct (not_this AnalysisType i) as [N|[v' [j ->]]].
    + assert (E : gi_analysis (step (after items nothing_given) i) = gi_analysis (after items nothing_given)).
      { destruct i as [o' v j| |s]; [|destruct (after items nothing_given); reflexivity|reflexivity]. cbn [step].
        destruct (after items nothing_given), o'; cbn; try reflexivity; try (contradiction (N v j eq_refl)); destruct (py_int (chars v)); reflexivity. }
      rewrite E. destruct (IH F) as [[H1 H2]|H].
      * left. split; [|exact H2]. rewrite is_given_snoc. intros [X|[v [j X]]]; [exact (H1 X)|exact (N v j X)].
      * right. apply last_value_snoc. auto.
    + right. apply last_value_snoc. left. exists j. cbn [step]. destruct (after items nothing_given). reflexivity.
Qed.
Lemma after_beam items : gi_beam (after items nothing_given) = true <-> In BeamFlag items.
Proof.
  induction items as [|i items IH] using rev_ind; [split; [discriminate|intros []]|].
  rewrite after_app. change (after [i] (after items nothing_given)) with (step (after items nothing_given) i). rewrite in_app_iff, <- IH.
  destruct (after items nothing_given) as [d e f x s c a b]. destruct i as [o v j| |t]; cbn [step].
  - assert (E : gi_beam (match store o v (Build_given d e f x s c a b) with Some g' => g' | None => Build_given d e f x s c a b end) = b).
    { destruct o; cbn; try reflexivity; destruct (py_int (chars v)); reflexivity. }
    rewrite E. cbn. split; [auto|]. intros [H|[H|[]]]; [exact H|discriminate H].
  - cbn. split; [auto|reflexivity].
  - cbn. split; [auto|]. intros [H|[H|[]]]; [exact H|discriminate H].
Qed.

Lemma textual_all : textual DataDesignDir /\ textual ExperimentalDesignFile /\ textual OutputFile /\ textual IntermediatesDir.
Proof. repeat split; discriminate. Qed.

Lemma completed_meaning items ex a rest : Forall well_formed items ->
  (completed (after items nothing_given) ex = Parsed a rest <-> meaning items a /\ rest = ex).
Proof.
  intros F. destruct textual_all as [T1 [T2 [T3 T4]]].
  pose proof (after_text DataDesignDir items T1 F) as A1. pose proof (after_text ExperimentalDesignFile items T2 F) as A2.
  pose proof (after_text OutputFile items T3 F) as A3. pose proof (after_text IntermediatesDir items T4 F) as A4.
  pose proof (after_number Seed items (or_introl eq_refl) F) as A5. pose proof (after_number Cores items (or_intror eq_refl) F) as A6.
  pose proof (after_analysis items F) as A7. pose proof (after_beam items) as A8.
  cbn [field count] in *. unfold completed. split.
  - destruct (gi_data _) as [d|]; [|discriminate]. destruct (gi_design _) as [e|]; [|discriminate].
    destruct (gi_output _) as [f|]; [|discriminate]. destruct (gi_intermediates _) as [i|]; [|discriminate].
    intros H. injection H as <- <-. unfold meaning. cbn [ar_data ar_design ar_output ar_intermediates ar_seed ar_cores ar_analysis ar_beam].
    split; [|reflexivity]. repeat split; try assumption.
    + apply A1. reflexivity.
    + apply A2. reflexivity.
    + apply A3. reflexivity.
    + apply A4. reflexivity.
    + apply A8.
    + apply A8.
  - intros [[M1 [M2 [M3 [M4 [M5 [M6 [M7 M8]]]]]]] ->]. apply A1 in M1. apply A2 in M2. apply A3 in M3. apply A4 in M4.
    rewrite M1, M2, M3, M4. f_equal. destruct a as [d e f i s c an b]. cbn [ar_data ar_design ar_output ar_intermediates ar_seed ar_cores ar_analysis ar_beam] in *.
    f_equal.
    + exact (number_unique _ _ _ _ A5 M5).
    + exact (number_unique _ _ _ _ A6 M6).
    + destruct A7 as [[N E]|E], M7 as [[N' E']|E']; [congruence|contradiction (N (last_given _ _ _ E'))|contradiction (N' (last_given _ _ _ E))|exact (last_unique _ _ _ _ E E')].
    + destruct (gi_beam (after items nothing_given)), b; try reflexivity; [symmetry; apply M8, A8; reflexivity|apply A8, M8; reflexivity].
Qed.

Lemma parsed_iff argv a rest : parse_known_args argv = Parsed a rest <->
  exists items, argv = line items /\ Forall well_formed items /\ meaning items a /\ rest = others items.
Proof.
  unfold parse_known_args. split.
  - intros H. destruct (decompose (length argv) argv (Nat.le_refl _)) as [items [r [-> [F K]]]]. rewrite (parse_line items F) in H. cbn [app] in H.
    destruct K as [->|[[h [r' [-> K]]]|K]]; [|rewrite (help_parses h K) in H; discriminate H|rewrite K in H; discriminate H].
    cbn [parse_from] in H. apply (completed_meaning items _ a rest F) in H. destruct H as [M ->]. exists items. rewrite app_nil_r. auto.
  - intros [items [-> [F [M ->]]]]. rewrite <- (app_nil_r (line items)), (parse_line items F). cbn [app parse_from]. apply completed_meaning; auto.
Qed.
Lemma help_iff argv : parse_known_args argv = Help <->
  exists items h r, argv = (line items ++ h :: r)%list /\ Forall well_formed items /\ asks_help h.
Proof.
  unfold parse_known_args. split.
  - intros H. destruct (decompose (length argv) argv (Nat.le_refl _)) as [items [r [-> [F K]]]]. rewrite (parse_line items F) in H. cbn [app] in H.
    destruct K as [->|[[h [r' [-> K]]]|K]]; [|exists items, h, r'; auto|rewrite K in H; discriminate H].
    exfalso. cbn [parse_from] in H. unfold completed in H. destruct (gi_data _); [|discriminate H]. destruct (gi_design _); [|discriminate H].
    destruct (gi_output _); [|discriminate H]. destruct (gi_intermediates _); discriminate H.
  - intros [items [h [r [-> [F A]]]]]. rewrite (parse_line items F). apply help_parses. exact A.
Qed.
